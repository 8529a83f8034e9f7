(** Proofs about the Dataset container (9): reachable datasets, row selection, deep copies. *)
From Coq Require Import List Arith Bool ZArith Lia.
From Verif Require Import FlattenModel FlattenProofs MergeModel MergeFacts DsModel DsProofs3 DsProofs4 TabModel TabSpec TabProofs TabProofs2 TabProofs3 TabProofs7 TabProofs8.
Import ListNotations.

Lemma compress_combine {X} : forall m (l : list X), map snd (filter fst (combine m l)) = compress m l.
Proof. induction m as [|b m IH]; intros [|x l]; cbn; try reflexivity. destruct b; cbn; now rewrite IH. Qed.

Section Tab.
Context {V : Type}.
Variable junk inv : V.
Variable c : pyclass.
Hypothesis PY : python_class c.
Notation read := (read junk).
Implicit Types w : world V.

Lemma reachable_good w d : reachable junk inv c w d -> good c w d /\ labels_ok w d.
Proof.
  intros (w0 & l & w1 & d1 & s & Iv & E & Lg & R).
  destruct (construct_good junk c PY w0 l) as (w1' & r & E' & _ & Gd).
  { intros n v H. destruct v; cbn; auto. now apply (Iv n). }
  rewrite E in E'. injection E' as <- <-. destruct Gd as [Gd _].
  pose proof (run_good junk inv c PY s w1 d1 Gd Lg) as G2. pose proof (labels_run junk inv c s w1 d1 (construct_labels c w0 l d1 w1 E)) as L2. rewrite R in *. auto.
Qed.

(** memory that only grew *)
Lemma grow_columns w w' d : grows junk w w' -> all_inside w d -> columns junk w' d = columns junk w d.
Proof. intros G A. apply map_ext_in. intros [n it] H. cbn. f_equal. apply G. now apply (A n). Qed.
Lemma lab_attrs w w' (d : dataset) : (forall r, In r (refs d) -> nth r (attrs w') None = nth r (attrs w) None) -> forall n, lab w' d n = lab w d n.
Proof.
  intros E n. unfold lab. destruct (dget n (items d)) as [it|] eqn:D; [|reflexivity]. unfold label_of. destruct (attr it) as [r|] eqn:Ea; [|reflexivity]. apply E. eapply in_refs; [apply dget_some_in, D|assumption].
Qed.

(** the new dataset is labelled like the old one; columns are those of [its] *)
Lemma copy_attributes_shared w d its : good c w d -> labels_ok w d -> map (fun p => (fst p, attr (snd p))) its = map (fun p => (fst p, attr (snd p))) (items d) ->
  let w' := fst (copy_attributes w d (of_items its)) in let d' := snd (copy_attributes w d (of_items its)) in
  mem w' = mem w /\ same_columns (of_items its) d' /\ label_get_names w' d' = label_get_names w d /\ label_get_names w' d = label_get_names w d.
Proof.
  intros Gd LO E. assert (K : keys (of_items its) = keys d). { unfold keys. cbn. assert (map fst (map (fun p => (fst p, attr (snd p))) its) = map fst (map (fun p => (fst p, attr (snd p))) (items d))) by congruence. rewrite !map_map in H. exact H. }
  assert (ND : NoDup (keys d)) by apply Gd.
  assert (RF : refs (of_items its) = refs d) by (apply refs_attr; exact E).
  assert (LO' : labels_ok w (of_items its)) by (unfold labels_ok in *; now rewrite RF).
  unfold copy_attributes. set (l := label_get_names w d).
  assert (Sub : forall n, In n l -> In n (keys (of_items its))) by (intros n Hn; rewrite K; eapply label_names_in, Hn).
  destruct (label_set_spec w (of_items its) l) as [M SC].
  destruct (label_set_lab w (of_items its) l) as (LO2 & K2 & L2 & G2 & F2); [now rewrite K|assumption|assumption|].
  set (w' := fst (label_set_names w (of_items its) l)) in *. set (d' := snd (label_set_names w (of_items its) l)) in *.
  split; [assumption|]. split; [assumption|].
  assert (Eq : label_get_names w' d' = l) by (apply label_set_get; [now rewrite K|assumption|now apply label_names_nodup|assumption]).
  split; [assumption|]. rewrite <- Eq. symmetry. apply label_get_ext; [assumption|congruence|].
  (* every column has the same label in both *)
  intros n Hn. rewrite L2. symmetry.
  (* the items of d' have the attribute objects of d where those exist *)
  unfold lab. destruct (dget_has n (items d) Hn) as [it Ei]. rewrite Ei. unfold label_of. destruct (attr it) as [r|] eqn:Ea.
  - (* shared object *)
    assert (Sh : forall (l : list name) w (d0 : dataset) k it0, NoDup (keys d0) -> dget n (items d0) = Some it0 -> attr it0 = Some r ->
       exists it1, dget n (items (snd (set_labels w d0 l k))) = Some it1 /\ attr it1 = Some r).
    { clear. induction l as [|m l IH]; intros w d0 k it0 ND0 D0 A0; cbn [set_labels]; [eauto|].
      unfold set_label. destruct (dget m (items d0)) as [itm|] eqn:Em; [|now apply (IH w d0 (S k) it0)]. destruct (attr itm) as [q|] eqn:Eq.
      - now apply (IH _ d0 (S k) it0).
      - apply (IH _ _ (S k) it0); cbn [items]; [|rewrite dget_dset; destruct (name_dec m n) as [->|]; [congruence|assumption]|assumption].
        unfold keys. cbn [items]. now apply dset_nodup. }
    assert (D0 : exists it0, dget n its = Some it0 /\ attr it0 = Some r).
    { clear - E Ei Ea. revert E Ei. generalize (items d). induction its as [|[m x] its IH]; intros [|[m' y] l0] E Ei; try discriminate. cbn in E. injection E as -> Ex E. cbn [dget] in *.
      destruct (name_dec m' n); [exists x; split; [reflexivity|congruence]|eauto]. }
    destruct D0 as (it0 & D0 & A0). destruct (Sh l (label_remove w (of_items its)) (of_items its) 0 it0) as (it1 & D1 & A1); [now rewrite K|assumption|assumption|].
    pose proof (L2 n) as Q. unfold lab in Q. fold (label_set_names w (of_items its) l) in D1. fold d' in D1. rewrite D1 in Q. unfold label_of in Q. rewrite A1 in Q. exact Q.
  - (* not labelled *)
    symmetry. destruct (position n l 0) as [j|] eqn:P; [|reflexivity]. exfalso.
    apply position_spec in P; [|now apply label_names_nodup]. destruct P as [_ P]. apply nth_error_In in P. unfold l, label_get_names in P. apply in_flat_map in P. destruct P as (k & _ & P).
    destruct (find _ _) as [p|] eqn:Ef; [|easy]. destruct P as [<-|[]]. apply find_label in Ef. destruct Ef as [E1 E2]. apply in_rev in E1. fold (tagged w d) in E1. rewrite tagged_lab in E1 by assumption.
    apply in_map_iff in E1. destruct E1 as (m & <- & Hm). cbn in *. unfold lab in E2. rewrite Ei in E2. unfold label_of in E2. rewrite Ea in E2. discriminate.
Qed.

Lemma getrows_spec w d r w' d' : good c w d -> labels_ok w d -> getrows junk inv w d r = (w', inl d') ->
  columns junk w' d' = map (fun p => (fst p, selected inv r (snd p))) (columns junk w d) /\ columns junk w' d = columns junk w d /\
  label_get_names w' d' = label_get_names w d /\ label_get_names w' d = label_get_names w d.
Proof.
  intros Gd LO. unfold getrows. destruct (nrows d) as [n|] eqn:En; [|discriminate].
  assert (AI : all_inside w d) by apply Gd.
  assert (Fin : forall w1 its, grows junk w w1 -> attrs w1 = attrs w -> map (fun p => (fst p, attr (snd p))) its = map (fun p => (fst p, attr (snd p))) (items d) ->
     forall w' d', copy_attributes w1 d (of_items its) = (w', d') ->
     columns junk w' d' = map (fun p => (fst p, read w1 (arr (snd p)))) its /\ columns junk w' d = columns junk w d /\
     label_get_names w' d' = label_get_names w d /\ label_get_names w' d = label_get_names w d).
  { intros w1 its G1 A1 E w2 d2 H. assert (LO1 : labels_ok w1 d) by (unfold labels_ok in *; now rewrite A1).
    destruct (copy_attributes_shared w1 d its (good_grows junk c w w1 d Gd G1) LO1 E) as (M & SC & N1 & N2). rewrite H in *. cbn [fst snd] in *.
    assert (LE : label_get_names w1 d = label_get_names w d) by (apply label_get_ext; [apply Gd|reflexivity|intros m _; apply lab_attrs; intros q _; now rewrite A1]).
    split; [rewrite (same_read junk w1 w2 (of_items its) d2 M SC); reflexivity|]. split; [|split; congruence].
    transitivity (columns junk w1 d); [|now apply grow_columns]. apply map_ext. intros [m x]. cbn. f_equal. now apply mem_read. }
  assert (Len : forall m l, In (m, l) (columns junk w d) -> length l = n).
  { intros m l H. apply in_map_iff in H. destruct H as ([m' it] & E & H). cbn in E. injection E as -> <-. rewrite read_length. destruct (g_con _ _ _ Gd) as (_ & _ & R). apply R in H. congruence. }
  assert (Col : forall f : list V -> list V, map (fun p => (fst p, f (snd p))) (columns junk w d) = map (fun p => (fst p, f (read w (arr (snd p))))) (items d)).
  { intros f. unfold columns. rewrite map_map. reflexivity. }
  destruct r as [|lo hi|m|idx].
  - unfold copy_shallow. destruct (copy_attributes w d (of_items (items d))) as [w2 d2] eqn:E. intros [= <- <-]. destruct (Fin w (items d) (grows_refl junk w) eq_refl eq_refl w2 d2 E) as (A & B & C). split; [|auto]. rewrite A. cbn [selected]. now rewrite (Col (fun l => l)).
  - destruct (copy_attributes w d _) as [w2 d2] eqn:E. intros [= <- <-]. destruct (Fin w (view_items (items d) lo hi) (grows_refl junk w) eq_refl) with (w' := w2) (d' := d2) as (A & B & C); [unfold view_items; rewrite map_map; reflexivity|exact E|].
    split; [|auto]. rewrite A. cbn [selected]. rewrite (Col (fun l => firstn (hi - lo) (skipn lo l))). unfold view_items. rewrite map_map. apply map_ext. intros [m x]. cbn. f_equal. unfold TabModel.read, view. cbn.
    generalize (fun p => nth p (block w (base (arr x))) junk). intros f. clear. rewrite <- (firstn_map f). f_equal. generalize (pos (arr x)). induction lo as [|lo IH]; intros l; [reflexivity|]. destruct l; [reflexivity|]. apply IH.
  - destruct ((length m =? n) || _) eqn:Lm; [|discriminate].
    destruct (take_all_spec junk inv (mask_idx m) (items d) w AI) as (w1 & its1 & E1 & G1 & A1 & B1 & C1 & D1). rewrite E1.
    destruct (copy_attributes w1 d (of_items its1)) as [w2 d2] eqn:E. intros [= <- <-]. destruct (Fin w1 its1 G1 A1 B1 w2 d2 E) as (A & B & C). split; [|auto].
    rewrite A, D1. cbn [selected]. rewrite (Col (fun l => map snd (filter fst (combine m l)))). apply map_ext_in. intros [q x] Hq. cbn. f_equal. rewrite compress_combine. apply mask_taken.
    assert (Hx : length (read w (arr x)) = n). { apply (Len q). apply in_map_iff. exists (q, x). auto. }
    apply orb_true_iff in Lm. destruct Lm as [Lm|Lm]; [apply Nat.eqb_eq in Lm; congruence|]. destruct (items d); [easy|discriminate].
  - destruct (take_all_spec junk inv idx (items d) w AI) as (w1 & its1 & E1 & G1 & A1 & B1 & C1 & D1). rewrite E1.
    destruct (copy_attributes w1 d (of_items its1)) as [w2 d2] eqn:E. intros [= <- <-]. destruct (Fin w1 its1 G1 A1 B1 w2 d2 E) as (A & B & C). split; [|auto].
    rewrite A, D1. cbn [selected]. now rewrite (Col (fun l => map (at_index inv l) idx)).
Qed.
Lemma selector_ok d r n : nrows d = Some n -> (match r with inl m => length m = n | inr _ => True end) -> exists idx, selector d r = inl idx /\
  (forall l : list V, length l = n -> map (at_index inv l) idx = selected inv (by_rows r) l).
Proof.
  intros En H. destruct r as [m|idx]; cbn [selector by_rows selected].
  - rewrite En, (proj2 (Nat.eqb_eq _ _) H). exists (mask_idx m). split; [reflexivity|]. intros l Hl. rewrite compress_combine. apply (mask_taken inv). congruence.
  - exists idx. split; reflexivity.
Qed.
Lemma columns_length w d n m l : good c w d -> nrows d = Some n -> In (m, l) (columns junk w d) -> length l = n.
Proof.
  intros Gd En H. apply in_map_iff in H. destruct H as ([m' it] & E & H). cbn in E. injection E as -> <-. rewrite read_length. destruct (g_con _ _ _ Gd) as (_ & _ & R). apply R in H. congruence.
Qed.
Lemma filter_inplace_spec w d r n : good c w d -> nrows d = Some n -> (match r with inl m => length m = n | inr _ => True end) ->
  exists w' d', filter_inplace junk inv w d r = (w', d', None) /\
    columns junk w' d' = map (fun p => (fst p, selected inv (by_rows r) (snd p))) (columns junk w d) /\
    (forall a, inside w a -> read w' a = read w a) /\ (keys d <> [] -> exists k l, In (k, l) (columns junk w' d') /\ nrows d' = Some (length l)).
Proof.
  intros Gd En H. destruct (selector_ok d r n En H) as (idx & Es & Sl). unfold filter_inplace. rewrite Es.
  destruct (take_all_spec junk inv idx (items d) w ltac:(apply Gd)) as (w1 & its1 & E1 & G1 & A1 & B1 & C1 & D1). rewrite E1.
  eexists _, _. split; [reflexivity|].
  assert (CC : columns junk w1 (Ds (Some (length idx)) (ncols d) its1 (locked d)) = map (fun p => (fst p, selected inv (by_rows r) (snd p))) (columns junk w d)).
  { unfold columns at 1. cbn [items]. rewrite D1. unfold columns. rewrite map_map. apply map_ext_in. intros [m x] Hm. cbn. f_equal. unfold taken1. apply Sl.
    apply (columns_length w d n m); auto. apply in_map_iff. exists (m, x). auto. }
  split; [exact CC|]. split; [intros a Ha; now apply G1|]. intros Kn. destruct (items d) as [|[m x] its] eqn:Ei; [unfold keys in Kn; rewrite Ei in Kn; easy|].
  destruct its1 as [|[m1 x1] its1]; [discriminate B1|]. exists m1, (read w1 (arr x1)). split; [now left|]. cbn [nrows]. rewrite read_length. f_equal. symmetry. apply (C1 m1). now left.
Qed.

(** *** deep copies *)
Lemma deep_spec w d : good c w d -> labels_ok w d -> let w' := fst (copy_deep junk w d) in let d' := snd (copy_deep junk w d) in
  columns junk w' d' = columns junk w d /\ columns junk w' d = columns junk w d /\
  label_get_names w' d' = label_get_names w d /\ label_get_names w' d = label_get_names w d /\
  (keys d <> [] -> nrows d' = nrows d) /\
  keys d' = keys d /\ labels_ok w' d' /\
  length (mem w) <= length (mem w') /\ length (attrs w) <= length (attrs w') /\
  (forall n it, In (n, it) (items d') -> length (mem w) <= base (arr it) < length (mem w')) /\
  (forall r, In r (refs d') -> length (attrs w) <= r < length (attrs w')).
Proof.
  intros Gd LO. unfold copy_deep. destruct (deep_items_spec junk (items d) w ltac:(apply Gd)) as (A & B & C & D & E & F & G & H & J).
  destruct (deep_items junk w (items d)) as [w1 its1]. cbn [fst snd] in *. unfold copy_attributes.
  assert (ND : NoDup (keys d)) by apply Gd. assert (K : keys (of_items its1) = keys d) by exact A.
  assert (LE : label_get_names w1 d = label_get_names w d) by (apply label_get_ext; [assumption|reflexivity|intros m _; apply lab_attrs; intros r Hr; apply E; now apply LO]).
  set (l := label_get_names w1 d) in *.
  assert (LO1 : labels_ok w1 (of_items its1)) by (split; [exact H|intros r Hr; apply J in Hr; lia]).
  assert (Sub : forall n, In n l -> In n (keys (of_items its1))) by (intros n Hn; rewrite K; eapply label_names_in, Hn).
  destruct (label_set_spec w1 (of_items its1) l) as [M SC].
  destruct (label_set_lab w1 (of_items its1) l) as (LO2 & K2 & L2 & G2 & F2); [now rewrite K|assumption|assumption|].
  pose proof (label_set_get w1 (of_items its1) l ltac:(now rewrite K) LO1 ltac:(now apply label_names_nodup) Sub) as LG.
  destruct (label_set_names w1 (of_items its1) l) as [w2 d2]. cbn [fst snd] in *.
  assert (Rd : forall x, inside w x -> read w2 x = read w x). { intros x Hx. rewrite (mem_read junk w1 w2 M). unfold TabModel.read. rewrite D by apply Hx. reflexivity. }
  assert (Fresh : forall n it, In (n, it) (items d2) -> length (mem w) <= base (arr it) < length (mem w2)).
  { intros n it Hi. destruct (same_in (of_items its1) d2 n it SC Hi) as (it1 & Hi1 & Ea). destruct (F n it1 Hi1) as [I1 L1]. rewrite <- Ea, M. split; [assumption|apply I1]. }
  split; [rewrite (same_read junk w1 w2 (of_items its1) d2 M SC); exact G|].
  split; [apply map_ext_in; intros [n it] Hi; cbn; f_equal; apply Rd; eapply Gd, Hi|].
  split; [congruence|]. split.
  - rewrite <- LE. apply label_get_ext; [assumption|reflexivity|]. intros m _. apply lab_attrs. intros r Hr. assert (Lr : r < length (attrs w)) by now apply LO.
    apply F2; [|lia]. intros Hin. apply J in Hin. lia.
  - split; [|split; [congruence|split; [assumption|split; [rewrite M; lia|split; [lia|split; [assumption|]]]]]].
    + intros Kn. destruct SC as (N & _). rewrite N. cbn. destruct its1 as [|[m x] its1]; [cbn in A; unfold keys in Kn; rewrite <- A in Kn; easy|].
      assert (EL : alen (arr x) = length (read w1 (arr x))) by now rewrite read_length. destruct (items d) as [|[m0 x0] its0] eqn:Ei; [discriminate A|]. cbn in G. injection G as _ G _. rewrite EL, G, read_length.
      destruct (g_con _ _ _ Gd) as (_ & _ & R). symmetry. apply (R m0). rewrite Ei. now left.
    + intros r Hr. split; [|now apply LO2].
      destruct (Nat.le_gt_cases (length (attrs w)) r) as [|Lt]; [assumption|]. exfalso. destruct (F2 r) as [_ Nr]; [intros Hin; apply J in Hin; lia|lia|contradiction].
Qed.

(** a dataset that a session on another one cannot change *)
Lemma session_elsewhere w d d' s : all_inside w d -> NoDup (keys d) -> labels_ok w d ->
  (forall n it b, In (n, it) (items d') -> In b (storage d) -> base (arr it) <> b) -> (forall r, In r (refs d') -> ~ In r (refs d)) ->
  (forall o a, In o s -> In a (op_arrays o) -> ~ In (base a) (storage d)) ->
  columns junk (fst (run junk inv c w d' s)) d = columns junk w d /\ label_get_names (fst (run junk inv c w d' s)) d = label_get_names w d.
Proof.
  intros AI ND LO SB SR SO.
  destruct (run_safe junk inv c (fun b => In b (storage d)) (fun r => In r (refs d)) s w d') as [(_ & _ & U1 & U2) _].
  - split; [|apply LO]. intros b Hb. apply in_map_iff in Hb. destruct Hb as (a & <- & Ha). apply in_map_iff in Ha. destruct Ha as ([n it] & <- & Hi). now apply (AI n it).
  - intros n it Hi. split; [intros Hb; now apply (SB n it _ Hi Hb)|]. intros r Ea Hr. apply (SR r); [eapply in_refs; eassumption|assumption].
  - exact SO.
  - split.
    + apply map_ext_in. intros [n it] Hi. cbn. f_equal. unfold TabModel.read. rewrite U1; [reflexivity|]. unfold storage, arrays. rewrite map_map. apply in_map_iff. exists (n, it). auto.
    + apply label_get_ext; [assumption|reflexivity|]. intros m _. apply lab_attrs. exact U2.
Qed.
End Tab.
