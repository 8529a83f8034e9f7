(** Proofs about shrink, take_groups, extract_groups and the packing state. *)
From Coq Require Import List Arith ZArith Bool Lia Permutation.
From Verif Require Import GroupModel GroupFacts FlattenModel FillProofs GroupingModel GroupingSpec GroupingProofs GroupingProofs3.
Import ListNotations.

(** *** shrink *)
Section Shrink.
Context {B : Type}.
Variable eqb : B -> B -> bool.
Hypothesis eqb_eq : forall a b, eqb a b = true <-> a = b.
Variable miss : Z.

(** what a row shows after shrinking *)
Definition shrunk (new : list B) (misc : option B) (o : option B) : option B :=
  match o with
  | None => None
  | Some b => if existsb (eqb b) new then Some b else misc
  end.
Lemma existsb_index b new : existsb (eqb b) new = match index_of eqb b new with Some _ => true | None => false end.
Proof using.
  induction new as [|x new IH]; cbn; [reflexivity|]. destruct (eqb b x); [reflexivity|]. rewrite IH. destruct (index_of eqb b new); reflexivity.
Qed.

Lemma shrink_idx_at old new k b (els : Z) : nth_error old k = Some b ->
  nth_error (map (fun p => if snd p : bool then fst p else els)
    (combine (map (fun i => (i + 1)%Z) (ismember_idx eqb miss old new))
             (map (fun o : option nat => match o with Some _ => true | None => false end) (lookup eqb old new)))) k =
  Some (match index_of eqb b new with Some j => (Z.of_nat j + 1)%Z | None => els end).
Proof using.
  intros H. unfold ismember_idx, lookup. rewrite !map_map.
  rewrite (map_nth_error (fun p => if snd p : bool then fst p else els) k _
    (nth_error_combine _ _ _ _ _ (map_nth_error _ _ _ H) (map_nth_error _ _ _ H))). cbn [fst snd].
  destruct (index_of eqb b new); reflexivity.
Qed.
Lemma shrink_idx_len old new (els : Z) : length (map (fun p => if snd p : bool then fst p else els)
    (combine (map (fun i => (i + 1)%Z) (ismember_idx eqb miss old new))
             (map (fun o : option nat => match o with Some _ => true | None => false end) (lookup eqb old new)))) = length old.
Proof using. unfold ismember_idx, lookup. rewrite !map_map, map_length, combine_length, !map_length. lia. Qed.

Lemma shown_z_pos {X} (us : list X) j : shown_z us (Z.of_nat j + 1) = nth_error us j.
Proof using. unfold shown_z. destruct (Z.leb_spec (Z.of_nat j + 1) 0); [lia|]. f_equal. lia. Qed.

Theorem shrink_none_ok ikey old new : codes_in (length old) ikey ->
  let out := shrink eqb miss ikey old new None in
  map (shown_z (snd out)) (fst out) = map (shrunk new None) (shows ikey old) /\ snd out = new.
Proof using eqb_eq.
  intros C out. split; [|reflexivity]. subst out. unfold shrink, shows. cbn [fst snd]. rewrite !map_map. apply map_ext_in.
  intros k I. eapply Forall_forall in C; [|exact I]. destruct k as [|k]; [reflexivity|].
  destruct (some_lt old k) as [b Eb]; [lia|]. rewrite Eb. cbn [shrunk]. rewrite existsb_index.
  rewrite (mbget_error 0%Z _ (S k) (match index_of eqb b new with Some j => (Z.of_nat j + 1)%Z | None => 0%Z end)).
  - destruct (index_of eqb b new) as [j|] eqn:E; [|reflexivity]. rewrite shown_z_pos. apply (index_of_some eqb eqb_eq). exact E.
  - cbn [nth_error]. apply shrink_idx_at. exact Eb.
Qed.

Lemma fold_max_ge (l : list Z) d : (forall x, In x l -> (x <= fold_right Z.max d l)%Z).
Proof using. induction l as [|y l IH]; intros x H; [destruct H|destruct H as [->|I]]; cbn; [lia|]. specialize (IH x I). lia. Qed.
Lemma fold_max_le (l : list Z) d m : (d <= m)%Z -> (forall x, In x l -> (x <= m)%Z) -> (fold_right Z.max d l <= m)%Z.
Proof using. induction l as [|y l IH]; intros Hd H; cbn; [exact Hd|]. specialize (H y (or_introl eq_refl)) as Hy. assert (fold_right Z.max d l <= m)%Z by (apply IH; [exact Hd|intros; apply H; now right]). lia. Qed.

(** correct when the last new category is one of the old ones *)
Theorem shrink_misc_ok ikey old new z mv : (miss < 0)%Z -> codes_in (length old) ikey ->
  NoDup (new ++ [z]) -> In z old ->
  let out := shrink eqb miss ikey old (new ++ [z]) (Some mv) in
  map (shown_z (snd out)) (fst out) = map (shrunk (new ++ [z]) (Some mv)) (shows ikey old) /\ snd out = (new ++ [z]) ++ [mv].
Proof using eqb_eq.
  intros Hm C N Iz out. split; [|reflexivity]. subst out. unfold shrink, shows. cbn [fst snd].
  set (nz := new ++ [z]) in *.
  set (idx := map (fun i => (i + 1)%Z) (ismember_idx eqb miss old nz)).
  assert (MX : fold_right Z.max (hd 0%Z idx) idx = Z.of_nat (length nz)).
  { assert (Ub : forall x, In x idx -> (x <= Z.of_nat (length nz))%Z).
    { intros x I. subst idx. unfold ismember_idx, lookup in I. rewrite !map_map in I. apply in_map_iff in I. destruct I as [b [<- I]].
      destruct (index_of eqb b nz) as [j|] eqn:E; [|lia].
      apply (index_of_some eqb eqb_eq) in E. assert (j < length nz) by (apply nth_error_Some; congruence). lia. }
    assert (Hz : In (Z.of_nat (length nz)) idx).
    { subst idx. unfold ismember_idx, lookup. rewrite !map_map. apply in_map_iff. exists z. split; [|exact Iz].
      rewrite (index_of_nth eqb eqb_eq z nz (length new)); [|exact N|].
      - subst nz. rewrite app_length. cbn. lia.
      - subst nz. rewrite nth_error_app2 by lia. rewrite Nat.sub_diag. reflexivity. }
    apply Z.le_antisymm.
    - apply fold_max_le; [|exact Ub]. destruct idx as [|i0 r]; [destruct Hz|]. cbn. apply Ub. now left.
    - apply fold_max_ge. exact Hz. }
  rewrite MX. rewrite !map_map. apply map_ext_in.
  intros k I. eapply Forall_forall in C; [|exact I]. destruct k as [|k]; [reflexivity|]. cbn [Nat.eqb].
  destruct (some_lt old k) as [b Eb]; [lia|]. rewrite Eb. cbn [shrunk]. rewrite existsb_index.
  rewrite (mbget_error 0%Z _ (S k) (match index_of eqb b nz with Some j => (Z.of_nat j + 1)%Z | None => (Z.of_nat (length nz) + 1)%Z end)).
  - destruct (index_of eqb b nz) as [j|] eqn:E; rewrite shown_z_pos.
    + apply (index_of_some eqb eqb_eq) in E. rewrite nth_error_app1 by (apply nth_error_Some; congruence). exact E.
    + rewrite nth_error_app2 by lia. rewrite Nat.sub_diag. reflexivity.
  - cbn [nth_error]. rewrite nth_error_app1 by (subst idx; rewrite shrink_idx_len; lia). apply shrink_idx_at. exact Eb.
Qed.
End Shrink.

Lemma skipn_skipn' {X} (l : list X) a b : skipn a (skipn b l) = skipn (b + a) l.
Proof. revert l. induction b as [|b IH]; intros l; [reflexivity|]. destruct l; [destruct a; reflexivity|]. cbn. apply IH. Qed.

(** *** take_groups *)
Section Take.
Context {X : Type}.
Lemma slice_length (l : list X) lo len : lo + len <= length l -> length (slice l lo len) = len.
Proof. intros H. unfold slice. rewrite firstn_length, skipn_length. lia. Qed.
Lemma put_slice_at (done rest v : list X) : length v <= length rest ->
  put_slice (done ++ rest) (length done) v = (done ++ v) ++ skipn (length v) rest.
Proof.
  intros H. unfold put_slice. rewrite firstn_app, firstn_all, Nat.sub_diag. cbn [firstn]. rewrite app_nil_r.
  rewrite skipn_app. rewrite skipn_all2 by lia. replace (length done + length v - length done) with (length v) by lia.
  rewrite <- app_assoc. reflexivity.
Qed.
Definition blocks (data : list X) (cnt fst' indices : list nat) : list X :=
  concat (map (fun g => slice data (nth g fst' 0) (nth g cnt 0)) indices).

Lemma take_fold data cnt fst' : forall indices done rest,
  (forall g, In g indices -> nth g fst' 0 + nth g cnt 0 <= length data) -> take_len indices cnt <= length rest ->
  fold_left (copy_group data cnt fst') indices (done ++ rest, length done) =
  ((done ++ blocks data cnt fst' indices) ++ skipn (take_len indices cnt) rest, length done + take_len indices cnt).
Proof.
  induction indices as [|g indices IH]; intros done rest R L.
  - cbn. rewrite app_nil_r, Nat.add_0_r. reflexivity.
  - unfold take_len in L. cbn [map] in L. change (list_sum (?a :: ?b)) with (a + list_sum b) in L.
    cbn [fold_left]. unfold copy_group at 2. cbn [fst snd].
    assert (Ls : length (slice data (nth g fst' 0) (nth g cnt 0)) = nth g cnt 0) by (apply slice_length, R; now left).
    rewrite put_slice_at by lia. rewrite Ls.
    replace (length done + nth g cnt 0) with (length (done ++ slice data (nth g fst' 0) (nth g cnt 0))) by (rewrite app_length, Ls; reflexivity).
    rewrite IH.
    + unfold blocks, take_len. cbn [map concat]. change (list_sum (?a :: ?b)) with (a + list_sum b).
      rewrite app_length, Ls, <- !app_assoc, skipn_skipn'. f_equal. lia.
    + intros g' I. apply R. now right.
    + rewrite skipn_length. unfold take_len. lia.
Qed.

Lemma take_blocks data indices cnt fst' uninit :
  (forall g, In g indices -> nth g fst' 0 + nth g cnt 0 <= length data) -> length uninit = take_len indices cnt ->
  take_groups data indices cnt fst' uninit = blocks data cnt fst' indices.
Proof.
  intros R L. unfold take_groups. change (uninit, 0) with ([] ++ uninit, length (@nil X)). rewrite (take_fold data cnt fst' indices [] uninit R) by lia. cbn [fst app].
  rewrite skipn_all2 by lia. apply app_nil_r.
Qed.

(** extract_groups is take_groups of the selected group numbers *)
Definition selected (cond : list bool) : list nat := filter (fun g => nth g cond false) (seq 0 (length cond)).
Lemma extract_take cond (data : list X) cnt fst' uninit : extract_groups cond data cnt fst' uninit = take_groups data (selected cond) cnt fst' uninit.
Proof.
  unfold extract_groups, take_groups, selected. f_equal. generalize (seq 0 (length cond)) as l. generalize (uninit, 0) as st.
  intros st l. revert st. induction l as [|g l IH]; intros st; cbn [fold_left filter]; [reflexivity|].
  destruct (nth g cond false); cbn [fold_left]; apply IH.
Qed.
Lemma extract_len_ok cond cnt : length cond = length cnt -> extract_len cond cnt = take_len (selected cond) cnt.
Proof.
  intros L. unfold extract_len, take_len, selected.
  assert (Q : forall (cond : list bool) cnt pre pc, length cond = length cnt -> length pre = length pc ->
    list_sum (map (fun p => if snd p : bool then fst p else 0) (combine cnt cond)) =
    list_sum (map (fun g => nth g (pc ++ cnt) 0) (filter (fun g => nth g (pre ++ cond) false) (seq (length pre) (length cond))))).
  { clear. induction cond as [|c cond IH]; intros [|k cnt] pre pc L L'; try discriminate; [reflexivity|].
    cbn [combine map length seq filter].
    assert (E : nth (length pre) (pre ++ c :: cond) false = c) by (rewrite app_nth2, Nat.sub_diag by lia; reflexivity).
    rewrite E. assert (Ec : nth (length pre) (pc ++ k :: cnt) 0 = k) by (rewrite L', app_nth2, Nat.sub_diag by lia; reflexivity).
    specialize (IH cnt (pre ++ [c]) (pc ++ [k])). cbn in L. rewrite !app_length, <- !app_assoc in IH. cbn [length app] in IH.
    replace (length pre + 1) with (S (length pre)) in IH by lia.
    cbn [fst snd]. change (list_sum (?a :: ?b)) with (a + list_sum b).
    rewrite IH by lia. destruct c; cbn [map].
    - change (list_sum (?a :: ?b)) with (a + list_sum b). rewrite Ec. reflexivity.
    - reflexivity. }
  apply (Q cond cnt [] []); auto.
Qed.
End Take.

Lemma nth_map_lt {X Y} (f : X -> Y) l i dx dy : i < length l -> nth i (map f l) dy = f (nth i l dx).
Proof. intros H. rewrite (nth_indep _ dy (f dx)) by (rewrite map_length; exact H). apply map_nth. Qed.

Lemma slice_of_map {X Y} (f : X -> Y) l lo len : slice (map f l) lo len = map f (slice l lo len).
Proof. unfold slice. rewrite skipn_map, firstn_map. reflexivity. Qed.

(** the packed column's block of a group is the members of the group *)
Lemma rows_members {X} (x0 : X) ikey (data : list X) g : length ikey = length data ->
  map (fun r => nth r data x0) (group_rows ikey g) = members ikey data g.
Proof.
  intros L. unfold group_rows, members.
  assert (Q : forall ikey data (pk : list nat) pd, length ikey = length data -> length pk = length pd ->
    map (fun r => nth r (pd ++ data) x0) (filter (fun i => nth i (pk ++ ikey) 0 =? g) (seq (length pk) (length ikey))) =
    map snd (filter (fun p : nat * X => fst p =? g) (combine ikey data))).
  { clear. induction ikey as [|k ikey IH]; intros [|x data] pk pd L L'; try discriminate; [reflexivity|].
    cbn [length seq filter combine fst].
    assert (E : nth (length pk) (pk ++ k :: ikey) 0 = k) by (rewrite app_nth2, Nat.sub_diag by lia; reflexivity). rewrite E.
    assert (Ex : nth (length pk) (pd ++ x :: data) x0 = x) by (rewrite L', app_nth2, Nat.sub_diag by lia; reflexivity).
    specialize (IH data (pk ++ [k]) (pd ++ [x])). rewrite !app_length, <- !app_assoc in IH. cbn [length app] in IH.
    replace (length pk + 1) with (S (length pk)) in IH by lia. cbn in L. specialize (IH ltac:(lia) ltac:(lia)).
    destruct (k =? g); cbn [map snd]; rewrite ?Ex, IH; reflexivity. }
  apply (Q ikey data [] []); auto.
Qed.
Lemma packed_block {X} (x0 : X) ikey n (data : list X) g : g <= n -> length ikey = length data ->
  slice (map (fun r => nth r data x0) (igroup ikey n)) (nth g (ifirstgroup ikey n) 0) (nth g (ncountgroup ikey n) 0) = members ikey data g.
Proof. intros H L. rewrite slice_of_map, pack_slice by exact H. apply rows_members. exact L. Qed.

Theorem take_groups_ok {X} (x0 : X) ikey n (data : list X) indices uninit :
  length ikey = length data -> (forall g, In g indices -> g <= n) ->
  length uninit = take_len indices (ncountgroup ikey n) ->
  take_groups (map (fun r => nth r data x0) (igroup ikey n)) indices (ncountgroup ikey n) (ifirstgroup ikey n) uninit =
  concat (map (members ikey data) indices).
Proof.
  intros L I U. rewrite take_blocks.
  - unfold blocks. f_equal. apply map_ext_in. intros g Ig. apply packed_block; auto.
  - intros g Ig. rewrite map_length. apply group_end. auto.
  - exact U.
Qed.

(** *** packing state *)
Definition run_g (ikey : list nat) (n : nat) (h : list gop) : gstate := fold_left (gstep ikey n) h g_init.
Definition g_inv (ikey : list nat) (n : nat) (s : gstate) : Prop :=
  g_packed s = true -> g_withfilter s = false -> g_pack s = Some (pack_of ikey n).
Lemma gstep_inv ikey n s o : g_inv ikey n s -> g_inv ikey n (gstep ikey n s o).
Proof.
  intros H. unfold g_inv in *. destruct o as [[f|] must| |[f|]]; cbn; try discriminate; try reflexivity.
  - destruct (g_packed s && (negb (g_withfilter s) || negb must)); [exact H|reflexivity].
  - destruct (g_packed s && (negb (g_withfilter s) || true)); [exact H|reflexivity].
Qed.
Lemma run_g_inv ikey n h : g_inv ikey n (run_g ikey n h).
Proof.
  unfold run_g. assert (H : g_inv ikey n g_init) by (intros E; discriminate). revert H. generalize g_init as s.
  induction h as [|o h IH]; intros s H; cbn; [exact H|]. apply IH, gstep_inv, H.
Qed.
Theorem pack_filtered ikey n h f must : g_pack (gstep ikey n (run_g ikey n h) (Pack (Some f) must)) = Some (pack_of (passing (Some f) ikey) n).
Proof. reflexivity. Qed.
Theorem pack_apply ikey n h flt : g_pack (gstep ikey n (run_g ikey n h) (Apply flt)) = Some (pack_of (passing flt ikey) n).
Proof. destruct flt; reflexivity. Qed.
Theorem pack_must ikey n h : g_pack (gstep ikey n (run_g ikey n h) (Pack None true)) = Some (pack_of ikey n).
Proof.
  cbn. pose proof (run_g_inv ikey n h) as H. unfold g_inv in H.
  destruct (g_packed (run_g ikey n h)) eqn:E1; cbn; [|reflexivity].
  destruct (g_withfilter (run_g ikey n h)) eqn:E2; cbn; [reflexivity|]. auto.
Qed.
Definition unfiltered (o : gop) : Prop :=
  match o with Pack flt _ => flt = None | Igroup => True | Apply flt => flt = None end.
Lemma unfiltered_state ikey n h : Forall unfiltered h -> g_withfilter (run_g ikey n h) = false.
Proof.
  unfold run_g. assert (H : g_withfilter g_init = false) by reflexivity. revert H. generalize g_init as s.
  induction h as [|o h IH]; intros s H F; cbn; [exact H|]. inversion F; subst. apply IH; [|assumption].
  destruct o as [flt must| |flt]; cbn in *; subst; cbn.
  - destruct (g_packed s && _); [exact H|reflexivity].
  - destruct (g_packed s && _); [exact H|reflexivity].
  - reflexivity.
Qed.
Theorem igroup_unfiltered ikey n h : Forall unfiltered h -> g_pack (gstep ikey n (run_g ikey n h) Igroup) = Some (pack_of ikey n).
Proof.
  intros F. pose proof (unfiltered_state ikey n h F) as W. pose proof (run_g_inv ikey n h) as H. unfold g_inv in H.
  cbn. rewrite W. destruct (g_packed (run_g ikey n h)) eqn:E1; cbn; [auto|reflexivity].
Qed.
