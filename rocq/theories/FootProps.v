(** Footers of Datasets (C128, C129). *)
From Coq Require Import List Arith Bool Lia.
From Verif Require Import FlattenModel DsModel FootModel FootSpec FootProofs FootProofs2.
Import ListNotations.

Section Gen.
Context {V : Type}.
Variable isnone : V -> bool.

(** C128: whatever is done to Datasets (made, footers set and removed, columns assigned, renamed and
    removed, other attributes set, deep copies made), every Dataset answers footer_get_values and
    footer_get_dict, for any labels and columns, as the plain account of FootSpec.v says. *)
Theorem C128_answers_partial : forall (ops : list (fop (V := V))), ok_ops [] ops ->
  length (w_ds (wrun ops)) = length (s_run ops) /\
  forall i d s, nth_error (w_ds (wrun ops)) i = Some d -> nth_error (s_run ops) i = Some s ->
    map fst (d_items d) = s_cols s /\
    (forall labels columns fill, footer_get_values (w_heap (wrun ops)) d labels columns fill = s_get_values s labels columns fill) /\
    (forall labels columns, footer_get_dict isnone (w_heap (wrun ops)) d labels columns = s_get_dict isnone s labels columns).
Proof.
  intros ops OK. pose proof (run_ok ops (mkW [] []) [] winv_init OK) as W. split; [exact (w_len _ _ W)|]. intros i d s Ed Es. pose proof (w_rel _ _ W i d s Ed Es) as R.
  split; [symmetry; exact (r_cols _ _ _ R)|]. split; intros; [now apply get_values_ok|now apply get_dict_ok].
Qed.
(** Each of them raises what the plain account says: IndexError for a column that is not there
    (nothing is changed), and nothing else. *)
Theorem C128_exceptions_partial : forall (ops : list (fop (V := V))) o, ok_ops [] ops -> ok_op (s_run ops) o ->
  snd (wstep (wrun ops) o) = snd (s_step (s_run ops) o).
Proof.
  intros ops o OK O. apply step_ok; [|exact O]. exact (run_ok ops (mkW [] []) [] winv_init OK).
Qed.
(** The values that were set are read back: after footer_set_values(label, vals), the dictionary for
    the label has exactly what vals says for its columns, what was there before for the others, and
    the other labels are as before. *)
Theorem C128_read_back : forall (ops : list (fop (V := V))) i s label vals fill, ok_ops [] ops -> nth_error (s_run ops) i = Some s ->
  NoDup (map fst vals) -> (forall c, In c (map fst vals) -> In c (s_cols s)) ->
  let w := fst (wstep (wrun ops) (FSet i label vals)) in
  exists d d0, nth_error (w_ds w) i = Some d /\ nth_error (w_ds (wrun ops)) i = Some d0 /\
    (forall c v, In (c, v) vals -> footer_get_values (w_heap w) d (Some [label]) (Some [c]) fill = [(label, [v])]) /\
    (forall l c, ~ (l = label) -> footer_get_values (w_heap w) d (Some [l]) (Some [c]) fill = footer_get_values (w_heap (wrun ops)) d0 (Some [l]) (Some [c]) fill).
Proof.
  intros ops i s label vals fill OK Es ND IN w. pose proof (run_ok ops (mkW [] []) [] winv_init OK) as W. change (winv (wrun ops) (s_run ops)) in W.
  assert (Hi : i < length (w_ds (wrun ops))) by (rewrite (w_len _ _ W); apply nth_error_Some; congruence).
  destruct (nth_error (w_ds (wrun ops)) i) as [d0|] eqn:E0; [|apply nth_error_None in E0; lia].
  assert (H : have (map fst vals) s = true) by (unfold have; apply forallb_forall; intros c I; apply DsProofs3.mem_in; auto).
  destruct (step_ok (wrun ops) (s_run ops) (FSet i label vals) W ND) as [W' _]. fold w in W'. cbn [s_step target] in W'. rewrite Es in W'. cbn [s_at] in W'. rewrite H in W'. cbn [fst] in W'. rewrite app_nil_r in W'.
  assert (Hs : i < length (s_run ops)) by (apply nth_error_Some; congruence).
  assert (Es' : nth_error (s_upd (s_run ops) i (s_set label vals s)) i = Some (s_set label vals s)) by (unfold s_upd; rewrite nth_upd by exact Hs; now rewrite Nat.eqb_refl).
  destruct (nth_error (w_ds w) i) as [d|] eqn:Ed; [|apply nth_error_None in Ed; rewrite (w_len _ _ W') in Ed; unfold s_upd in Ed; rewrite length_upd in Ed by exact Hs; lia].
  exists d, d0. split; [reflexivity|]. split; [reflexivity|]. pose proof (w_rel _ _ W' i d _ Ed Es') as R'. pose proof (w_rel _ _ W i d0 s E0 Es) as R. split.
  - intros c v I. rewrite (get_values_ok _ _ _ _ _ _ R'). unfold s_get_values, chosen. cbn [s_set s_labels s_val s_cols filter].
    assert (M : mem label (if mem label (s_labels s) then s_labels s else s_labels s ++ [label]) = true).
    { destruct (mem label (s_labels s)) eqn:Q; [exact Q|]. apply DsProofs3.mem_in, in_or_app. right. now left. }
    rewrite M. cbn [once filter map]. rewrite eqn_refl. rewrite (AggProofs2.dget_nodup vals c v ND I). reflexivity.
  - intros l c NE. rewrite (get_values_ok _ _ _ _ _ _ R'), (get_values_ok _ _ _ _ _ _ R). unfold s_get_values, chosen. cbn [s_set s_labels s_val s_cols filter].
    assert (M : mem l (if mem label (s_labels s) then s_labels s else s_labels s ++ [label]) = mem l (s_labels s)).
    { destruct (mem label (s_labels s)) eqn:Q; [reflexivity|]. destruct (mem l (s_labels s)) eqn:Q'; [apply DsProofs3.mem_in, in_or_app; left; now apply DsProofs3.mem_in|]. apply DsProofs3.mem_not. intros J. apply in_app_or in J. destruct J as [J|[J|[]]]; [apply DsProofs3.mem_not in Q'; contradiction|congruence]. }
    rewrite M. destruct (mem l (s_labels s)); [|reflexivity]. cbn [once filter map]. now rewrite (eqn_neq l label NE).
Qed.

(** C129: whatever is done to another Dataset - also to a deep copy of this one, or to the one it was
    copied from - this one answers as before. *)
Theorem C129_independent_partial : forall (ops : list (fop (V := V))) o i d, ok_ops [] ops -> ok_op (s_run ops) o ->
  nth_error (w_ds (wrun ops)) i = Some d -> target o <> Some i ->
  let w := fst (wstep (wrun ops) o) in
  exists d', nth_error (w_ds w) i = Some d' /\ map fst (d_items d') = map fst (d_items d) /\
    (forall labels columns fill, footer_get_values (w_heap w) d' labels columns fill = footer_get_values (w_heap (wrun ops)) d labels columns fill) /\
    (forall labels columns, footer_get_dict isnone (w_heap w) d' labels columns = footer_get_dict isnone (w_heap (wrun ops)) d labels columns).
Proof.
  intros ops o i d OK O Ed NT w. pose proof (run_ok ops (mkW [] []) [] winv_init OK) as W. change (winv (wrun ops) (s_run ops)) in W.
  destruct (step_ok (wrun ops) (s_run ops) o W O) as [W' _]. fold w in W'.
  assert (Hi : i < length (s_run ops)) by (rewrite <- (w_len _ _ W); apply nth_error_Some; congruence).
  destruct (nth_error (s_run ops) i) as [s|] eqn:Es; [|apply nth_error_None in Es; lia].
  assert (Es' : nth_error (fst (s_step (s_run ops) o)) i = Some s).
  { assert (X : forall j (x : option fstate) new, target o = Some j -> nth_error (s_run ops) j <> None -> nth_error ((match x with Some y => s_upd (s_run ops) j y | None => s_run ops end) ++ new) i = Some s).
    { intros j x new T NJ. destruct x as [y|]; rewrite nth_error_app1; auto.
      - unfold s_upd. rewrite nth_upd by (now apply nth_error_Some). destruct (Nat.eqb_spec i j); [congruence|exact Es].
      - unfold s_upd. rewrite length_upd by (now apply nth_error_Some). exact Hi. }
    destruct o; cbn [s_step target]; cbn [target] in X, NT;
      [cbn [fst]; rewrite nth_error_app1 by exact Hi; exact Es|..];
      (destruct (nth_error (s_run ops) i0) as [sj|] eqn:Ej; [|exact Es]; match goal with |- context [s_at ?o sj] => destruct (s_at o sj) as [[s' nw] e] end; cbn [fst]; apply X; [reflexivity|congruence]). }
  destruct (nth_error (w_ds w) i) as [d'|] eqn:Ed'; [|apply nth_error_None in Ed'; rewrite (w_len _ _ W') in Ed'; apply nth_error_None in Ed'; congruence].
  pose proof (w_rel _ _ W i d s Ed Es) as R. pose proof (w_rel _ _ W' i d' s Ed' Es') as R'.
  exists d'. split; [reflexivity|]. split; [rewrite <- (r_cols _ _ _ R), <- (r_cols _ _ _ R'); reflexivity|]. split; intros.
  - now rewrite (get_values_ok _ _ _ _ _ _ R), (get_values_ok _ _ _ _ _ _ R').
  - now rewrite (get_dict_ok isnone _ _ _ _ _ R), (get_dict_ok isnone _ _ _ _ _ R').
Qed.
(** A deep copy has, when it is made, the answers of the Dataset it was copied from, for the columns taken. *)
Theorem C129_copy_same : forall (ops : list (fop (V := V))) i d cols, ok_ops [] ops ->
  nth_error (w_ds (wrun ops)) i = Some d -> match cols with Some cs => forall c, In c cs -> In c (map fst (d_items d)) | None => True end ->
  let w := fst (wstep (wrun ops) (FCopy i cols true)) in
  exists d', nth_error (w_ds w) (length (w_ds (wrun ops))) = Some d' /\
    map fst (d_items d') = match cols with Some cs => once cs | None => map fst (d_items d) end /\
    forall labels columns fill, (forall c, In c columns -> In c (map fst (d_items d'))) ->
      footer_get_values (w_heap w) d' labels (Some columns) fill = footer_get_values (w_heap (wrun ops)) d labels (Some columns) fill.
Proof.
  intros ops i d cols OK Ed IN w. pose proof (run_ok ops (mkW [] []) [] winv_init OK) as W. change (winv (wrun ops) (s_run ops)) in W.
  destruct (step_ok (wrun ops) (s_run ops) (FCopy i cols true) W eq_refl) as [W' _]. fold w in W'.
  assert (Hi : i < length (s_run ops)) by (rewrite <- (w_len _ _ W); apply nth_error_Some; congruence).
  destruct (nth_error (s_run ops) i) as [s|] eqn:Es; [|apply nth_error_None in Es; lia]. pose proof (w_rel _ _ W i d s Ed Es) as R.
  assert (H : match cols with Some cs => have cs s | None => true end = true).
  { destruct cols as [cs|]; [|reflexivity]. unfold have. apply forallb_forall. intros c I. apply DsProofs3.mem_in. rewrite (r_cols _ _ _ R). auto. }
  cbn [s_step target] in W'. rewrite Es in W'. cbn [s_at] in W'. rewrite H in W'. cbn [fst] in W'.
  assert (L : nth_error (s_run ops ++ [s_copy cols s]) (length (w_ds (wrun ops))) = Some (s_copy cols s)) by (rewrite (w_len _ _ W), nth_error_app2, Nat.sub_diag by lia; reflexivity).
  destruct (nth_error (w_ds w) (length (w_ds (wrun ops)))) as [d'|] eqn:Ed'; [|apply nth_error_None in Ed'; rewrite (w_len _ _ W') in Ed'; apply nth_error_None in Ed'; congruence].
  pose proof (w_rel _ _ W' _ d' _ Ed' L) as R'. exists d'. split; [reflexivity|]. rewrite <- (r_cols _ _ _ R'), <- (r_cols _ _ _ R). split; [destruct cols; reflexivity|].
  intros labels columns fill IC. rewrite (get_values_ok _ _ _ _ _ _ R), (get_values_ok _ _ _ _ _ _ R'). unfold s_get_values. destruct cols as [cs|]; [|reflexivity]. cbn [s_copy s_cols] in IC.
  assert (CH : chosen labels (s_copy (Some cs) s) = chosen labels s) by reflexivity. rewrite CH. apply map_ext. intros l. f_equal. apply map_ext_in. intros c I. cbn [s_copy s_val].
  assert (M : mem c cs = true) by (apply DsProofs3.mem_in, once_in, IC, I). now rewrite M.
Qed.
End Gen.
Print Assumptions C128_answers_partial.
Print Assumptions C128_exceptions_partial.
Print Assumptions C128_read_back.
Print Assumptions C129_independent_partial.
Print Assumptions C129_copy_same.

Definition n (k : nat) : name := [k].
(** Finding: selecting columns or rows, or copy(deep=False), makes a Dataset whose columns share their
    attribute object with the first one: setting a footer on the copy, or removing one, changes the
    first Dataset's footers. *)
Theorem C129_shallow_refuted : exists (ops : list (fop (V := nat))) o d d' fill,
  target o = Some 1 /\ nth_error (w_ds (wrun ops)) 0 = Some d /\ nth_error (w_ds (fst (wstep (wrun ops) o))) 0 = Some d' /\
  footer_get_values (w_heap (wrun ops)) d None None fill = [(n 9, [5; 0])] /\
  footer_get_values (w_heap (fst (wstep (wrun ops) o))) d' None None fill = [(n 9, [7; 0])].
Proof.
  exists [FNew [n 1; n 2]; FSet 0 (n 9) [(n 1, 5)]; FCopy 0 (Some [n 1]) false], (FSet 1 (n 9) [(n 1, 7)]).
  exists (mkF [(n 1, Some 0); (n 2, None)] (Some [n 9])), (mkF [(n 1, Some 0); (n 2, None)] (Some [n 9])), 0.
  vm_compute. repeat split.
Qed.
(** Finding: sort_copy of a Dataset with any footer raises AttributeError: it copies every value of the
    dictionary of footers, and these are always None. *)
Theorem C129_sort_copy_refuted : forall (heap : list (attr (V := nat))) d l fs, d_footers d = Some (l :: fs) ->
  ds_sort_copy heap d = inr EAttribute.
Proof. intros heap d l fs E. unfold ds_sort_copy. now rewrite E. Qed.
(** Finding: footer_remove with a label given twice raises KeyError, after the values have been removed. *)
Theorem C128_remove_twice_refuted : exists (ops : list (fop (V := nat))) d,
  snd (wstep (wrun ops) (FRemove 0 (Some [n 9; n 9]) None)) = Some EKey /\
  nth_error (w_ds (fst (wstep (wrun ops) (FRemove 0 (Some [n 9; n 9]) None)))) 0 = Some d /\
  footer_get_values (w_heap (fst (wstep (wrun ops) (FRemove 0 (Some [n 9; n 9]) None)))) d None None 0 = [].
Proof.
  exists [FNew [n 1]; FSet 0 (n 9) [(n 1, 5)]], (mkF [(n 1, Some 0)] (Some [])). vm_compute. repeat split.
Qed.
(** Finding: a column removed takes its footer values with it, but the labels stay: the footer row of a
    label whose only column was removed is still there, empty. *)
Theorem C128_label_stays_refuted : exists (ops : list (fop (V := nat))) d,
  ok_ops [] ops /\ nth_error (w_ds (wrun ops)) 0 = Some d /\
  footer_get_values (w_heap (wrun ops)) d None None 0 = [(n 9, [0])].
Proof.
  exists [FNew [n 1; n 2]; FSet 0 (n 9) [(n 1, 5)]; FDelete 0 (n 1)], (mkF [(n 2, None)] (Some [n 9])). split; [|vm_compute; repeat split].
  cbn [ok_ops ok_op]. repeat split. cbn. repeat constructor. intros [].
Qed.
Print Assumptions C129_shallow_refuted.
Print Assumptions C129_sort_copy_refuted.
Print Assumptions C128_remove_twice_refuted.
Print Assumptions C128_label_stays_refuted.

Definition demo : list (fop (V := nat)) :=
  [FNew [n 1; n 2]; FSet 0 (n 9) [(n 1, 5); (n 2, 6)]; FSet 0 (n 8) [(n 2, 3)]; FCopy 0 None true; FSet 1 (n 9) [(n 1, 7)]; FRename 0 (n 1) (n 3); FRemove 1 (Some [n 8]) None].
Example C128_case : ok_ops [] demo /\ length (w_ds (wrun demo)) = 2.
Proof.
  split; [|vm_compute; reflexivity]. cbn [ok_ops ok_op demo]. repeat split; cbn; repeat constructor; cbn; intuition discriminate.
Qed.
Example C128_case_values : map (fun d => footer_get_values (w_heap (wrun demo)) d None None 0) (w_ds (wrun demo)) = [[(n 9, [5; 6]); (n 8, [0; 3])]; [(n 9, [7; 6])]].
Proof. vm_compute. reflexivity. Qed.
Example C129_case : target (V := nat) (FRemove 1 None None) <> Some 0 /\ map (fun d => footer_get_values (w_heap (fst (wstep (wrun demo) (FRemove 1 None None)))) d None None 0) (w_ds (fst (wstep (wrun demo) (FRemove 1 None None)))) = [[(n 9, [5; 6]); (n 8, [0; 3])]; []].
Proof. split; [discriminate|vm_compute; reflexivity]. Qed.
