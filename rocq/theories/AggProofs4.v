From Coq Require Import List Arith Bool ZArith Permutation Sorted Lia.
From Verif Require Import FlattenModel DsModel GroupingModel GroupingSpec DsProofs3 AggModel AggSpec AggProofs AggProofs2 AggProofs3.
Import ListNotations.

Lemma sorted_unique (l : list nat) : forall l', StronglySorted lt l -> StronglySorted lt l' -> Permutation l l' -> l = l'.
Proof.
  induction l as [|a l IH]; intros l' S S' P; [now apply Permutation_nil in P|].
  destruct l' as [|b l']; [apply Permutation_sym, Permutation_nil in P; discriminate|].
  inversion S as [|? ? S1 F1]; subst. inversion S' as [|? ? S2 F2]; subst. rewrite Forall_forall in F1, F2.
  assert (a = b).
  { assert (Ia : In a (b :: l')) by (apply (Permutation_in _ P); now left).
    assert (Ib : In b (a :: l)) by (apply (Permutation_in _ (Permutation_sym P)); now left).
    destruct Ia as [|Ia]; [congruence|]. destruct Ib as [|Ib]; [congruence|]. specialize (F1 _ Ib). specialize (F2 _ Ia). lia. }
  subst b. f_equal. apply IH; auto. apply Permutation_cons_inv in P. exact P.
Qed.
Lemma seq_ssorted n : forall a, StronglySorted lt (seq a n).
Proof. induction n as [|n IH]; intros a; [constructor|]. cbn [seq]. constructor; [apply IH|]. apply Forall_forall. intros x Hx. apply in_seq in Hx. lia. Qed.
Lemma pairs_ssorted (l : list nat) : (forall a b i j, a < b -> nth_error l a = Some i -> nth_error l b = Some j -> i < j) -> StronglySorted lt l.
Proof.
  induction l as [|x l IH]; intros H; [constructor|]. constructor.
  - apply IH. intros a b i j L A B. apply (H (S a) (S b) i j); [lia|exact A|exact B].
  - apply Forall_forall. intros y Hy. apply In_nth_error in Hy. destruct Hy as [b Hb]. apply (H 0 (S b) x y); [lia|reflexivity|exact Hb].
Qed.
Lemma position_nth p : NoDup p -> forall k, In k p -> position k p < length p /\ nth_error p (position k p) = Some k.
Proof.
  induction p as [|x p IH]; intros ND k I; [destruct I|]. cbn [position length]. destruct (x =? k) eqn:E.
  - apply Nat.eqb_eq in E. subst. split; [lia|reflexivity].
  - apply Nat.eqb_neq in E. inversion ND; subst. destruct I as [|I]; [congruence|]. destruct (IH H2 k I) as [L N]. split; [lia|exact N].
Qed.
Lemma position_seq n k : k < n -> position k (seq 0 n) = k.
Proof.
  intros H. destruct (position_nth (seq 0 n) (seq_NoDup n 0) k) as [L N]; [apply in_seq; lia|]. rewrite seq_length in L.
  rewrite (nth_error_nth' _ 0) in N by (rewrite seq_length; exact L). rewrite seq_nth in N by exact L. cbn in N. congruence.
Qed.

Section P.
Context {V : Type}.
Variable inv : V.
Variable vlt : V -> V -> Prop.
Variable ASYM : forall x y, vlt x y -> vlt y x -> False.
Variable lexsort : list (list V) -> list nat.
Variable LS : lexsort_ok inv vlt lexsort.
Variable binname : list V -> V.

Lemma lex_antisym a : forall b, length a = length b -> lex_le vlt a b -> lex_le vlt b a -> a = b.
Proof.
  induction a as [|x a IH]; intros [|y b] L H1 H2; cbn [length] in L; try discriminate; [reflexivity|]. cbn [lex_le] in *.
  destruct H1 as [H1|[-> H1]], H2 as [H2|[E H2]].
  - exfalso. eauto.
  - subst. exfalso. eauto.
  - exfalso. eauto.
  - f_equal. apply IH; auto.
Qed.
Lemma in_order_id t n p : key_table inv t n -> in_key_order inv vlt t n -> sorts_keys inv vlt t n p -> p = seq 0 n.
Proof.
  intros KT [_ I] [P O]. apply sorted_unique; [|apply seq_ssorted|exact P]. apply pairs_ssorted. intros a b i j L A B.
  assert (Hi : i < n) by (apply nth_error_In in A; apply (Permutation_in _ P) in A; apply in_seq in A; lia).
  assert (Hj : j < n) by (apply nth_error_In in B; apply (Permutation_in _ P) in B; apply in_seq in B; lia).
  destruct (Nat.lt_trichotomy i j) as [|[E|G]]; [assumption| |]; exfalso.
  - subst j. assert (ND : NoDup p) by (apply (Permutation_NoDup (Permutation_sym P)), seq_NoDup).
    rewrite NoDup_nth_error in ND. assert (a = b); [|lia]. apply ND; [apply nth_error_Some; congruence|congruence].
  - assert (E : row inv t i = row inv t j).
    { apply lex_antisym; [unfold row; now rewrite !map_length|exact (O a b i j L A B)|]. apply (I j i j i G).
      - rewrite (nth_error_nth' _ 0) by (rewrite seq_length; lia). rewrite seq_nth by lia. reflexivity.
      - rewrite (nth_error_nth' _ 0) by (rewrite seq_length; lia). rewrite seq_nth by lia. reflexivity. }
    destruct KT as (_ & _ & _ & U). specialize (U i j Hi Hj E). lia.
Qed.

Variables (t : table (V := V)) (n : nat) (sd pre : bool).
Variable KT : key_table inv t n.
Notation s := (sd && negb pre).
Notation p := (order lexsort s t n).
Notation kinv := (kinv inv lexsort binname t n sd pre).
Notation oinv := (oinv inv lexsort binname t n sd pre).

Variable o0 : gobj (V := V).
Hypothesis FO : o_n o0 = n.
Hypothesis CI : codes_in n (o_ikey o0).
Hypothesis SDO : forall b, o_sd o0 = Some b -> sd = b /\ pre = false.
(** the codes are translated to positions among the sorted keys *)
Definition remap : bool := match o_sd o0 with Some true => o_ordered o0 | _ => false end.

Lemma col_at (sf : bool) (g : nat -> V) q r k : nth_error q r = Some k -> 
  mbget inv (lead sf (g 0) ++ map (fun k => g (S k)) q) (Z.of_nat (if sf then S r else r)) = g (S k).
Proof.
  intros H. assert (L : r < length q) by (apply nth_error_Some; congruence).
  rewrite mbget_in by (rewrite app_length, map_length; destruct sf; cbn [lead length]; lia).
  apply nth_error_nth. destruct sf; cbn [lead app nth_error]; now rewrite (map_nth_error _ _ _ H).
Qed.
Lemma expand_ok o c2 r' q (sf : bool) (value : list V -> nat -> V) usable data tr : oinv o0 o -> kinv c2 ->
  o_flag o || tr = true ->
  (sf = true \/ o_base o0 = Some 1) -> (remap = true -> sf = false) ->
  (remap = true /\ q = p \/ remap = false /\ q = seq 0 n \/ q = seq 0 n /\ p = seq 0 n) ->
  NoDup (map fst r') ->
  (forall c x, In (c, x) data -> ~ In c (map fst t) -> usable c = true -> In (c, lead sf (value x 0) ++ map (fun k => value x (S k)) q) r') ->
  (forall c, In c (map fst r') -> In c (map fst t) \/ (In c (map fst data) /\ usable c = true)) ->
  exists d, snd (possibly_transform inv lexsort (with_kc c2 o) (Some r') (map fst t) tr sf) = Some d /\
    expanded t (o_ikey o0) sf value usable data d.
Proof.
  intros O K2 FT B RM Q ND Cols Nms. pose proof O as (_ & Ik & _ & Eb & Eo & Es).
  unfold possibly_transform. change (o_flag (with_kc c2 o)) with (o_flag o). rewrite FT.
  change (o_base (with_kc c2 o)) with (o_base o). change (o_ikey (with_kc c2 o)) with (o_ikey o).
  change (o_sd (with_kc c2 o)) with (o_sd o). change (o_ordered (with_kc c2 o)) with (o_ordered o). change (o_kc (with_kc c2 o)) with c2.
  rewrite Ik, Eb, Eo, Es.
  set (ikey := map _ (o_ikey o0)).
  assert (PP : Permutation p (seq 0 n)) by (eapply order_perm; eauto).
  assert (NDp : NoDup p) by (apply (Permutation_NoDup (Permutation_sym PP)), seq_NoDup).
  assert (Lp : length p = n) by (eapply order_length; eauto).
  (* the index list *)
  assert (IK : forall r g, nth_error (o_ikey o0) r = Some g -> g <> 0 \/ sf = true ->
     nth_error ikey r = Some (Z.of_nat (if sf then g else g - 1)) /\ g <= n).
  { intros r g H G. split.
    - unfold ikey. rewrite (map_nth_error _ _ _ H). f_equal. destruct sf; cbn [negb andb]; [reflexivity|]. destruct B as [B|B]; [discriminate|].
      rewrite B. cbn [is_base_1]. destruct G; [lia|discriminate].
    - unfold codes_in in CI. rewrite Forall_forall in CI. apply CI. eapply nth_error_In; eauto. }
  assert (Fin : forall ik1 o1, length ik1 = length (o_ikey o0) ->
    (forall r g, nth_error (o_ikey o0) r = Some g -> g <> 0 \/ sf = true ->
      exists i, nth_error ik1 r = Some i /\ forall x, mbget inv (lead sf (value x 0) ++ map (fun k => value x (S k)) q) i = value x g) ->
    exists d, snd (with_flag (V := V) false o1, Some (map (fun q => (fst q, map (mbget inv (snd q)) ik1)) (filter (fun q => negb (mem (fst q) (map fst t))) r'))) = Some d /\
    expanded t (o_ikey o0) sf value usable data d).
  { intros ik1 o1 L1 V1. cbn [snd]. eexists. split; [reflexivity|].
    assert (NDr : NoDup (map fst (map (fun q => (fst q, map (mbget inv (snd q)) ik1)) (filter (fun q => negb (mem (fst q) (map fst t))) r')))).
    { rewrite map_map. cbn [fst]. clear - ND. induction r' as [|[a x] r IH]; [constructor|]. cbn [map fst] in ND. inversion ND; subst. cbn [filter].
      destruct (negb (mem (fst (a, x)) (map fst t))); [|now apply IH]. cbn [map fst]. constructor; [|now apply IH].
      intros I. apply in_map_iff in I. destruct I as [[b y] [E I]]. cbn [fst] in E. subst b. apply filter_In in I. destruct I as [I _]. apply H1. now apply (in_map fst) in I. }
    split.
    - intros c x I NK U. eexists. split; [|split].
      + apply dget_nodup; [exact NDr|]. apply in_map_iff. exists (c, lead sf (value x 0) ++ map (fun k => value x (S k)) q). split; [reflexivity|].
        apply filter_In. split; [now apply Cols|]. cbn [fst]. apply mem_not in NK. now rewrite NK.
      + cbn [snd]. rewrite map_length. exact L1.
      + intros r g H G. destruct (V1 r g H G) as [i [Hi Hv]]. cbn [snd]. rewrite (map_nth_error _ _ _ Hi). f_equal. apply Hv.
    - intros c I. rewrite map_map in I. cbn [fst] in I. apply in_map_iff in I. destruct I as [q0 [<- I]]. apply filter_In in I. destruct I as [I F].
      apply negb_true_iff, mem_not in F. split; [exact F|]. apply (in_map fst) in I. destruct (Nms _ I); [contradiction|assumption]. }
  assert (Plain : q = seq 0 n -> forall o1, exists d, snd (with_flag (V := V) false o1, Some (map (fun q => (fst q, map (mbget inv (snd q)) ikey)) (filter (fun q => negb (mem (fst q) (map fst t))) r'))) = Some d /\
    expanded t (o_ikey o0) sf value usable data d).
  { intros Eq o1. apply Fin; [unfold ikey; apply map_length|]. intros r g H G. destruct (IK r g H G) as [H1 H2]. exists (Z.of_nat (if sf then g else g - 1)). split; [exact H1|].
    intros x. destruct g as [|k].
    - destruct sf; [|destruct G; [lia|discriminate]]. rewrite mbget_in by (rewrite app_length; cbn [lead length]; lia). reflexivity.
    - rewrite Eq. replace (if sf then S k else S k - 1) with (if sf then S k else k) by (destruct sf; lia). apply col_at.
      rewrite (nth_error_nth' _ 0) by (rewrite seq_length; lia). now rewrite seq_nth by lia. }
  assert (RS : s = true -> forall j, j < n -> nth_error (reverse_shuffle p) j = Some (position j p)).
  { intros _ j Hj. unfold reverse_shuffle. rewrite Lp. erewrite map_nth_error; [reflexivity|]. rewrite (nth_error_nth' _ 0) by (rewrite seq_length; lia). now rewrite seq_nth by lia. }
  unfold remap in *. destruct (o_sd o0) as [[|]|] eqn:Esd.
  2, 3: destruct Q as [[Q _]|[[_ Q]|[Q _]]]; [discriminate|exact (Plain Q _)|exact (Plain Q _)].
  destruct (o_ordered o0).
  2: destruct Q as [[Q _]|[[_ Q]|[Q _]]]; [discriminate|exact (Plain Q _)|exact (Plain Q _)].
  destruct (SDO true eq_refl) as [S1 S2]. assert (St : s = true) by (rewrite S1, S2; reflexivity).
  destruct (isort_ok inv lexsort binname t n sd pre c2 K2 St) as (_ & Is & _). destruct (isortrows lexsort c2) as [c3 i]. cbn [snd] in Is. subst i.
  specialize (RM eq_refl). subst sf.
  apply Fin; [unfold ikey; now rewrite !map_length|]. intros r g H G. destruct (IK r g H G) as [H1 H2]. destruct g as [|k]; [destruct G; [lia|discriminate]|].
  exists (Z.of_nat (position k p)). assert (Hk : k < n) by lia.
  assert (Ip : In k p) by (apply (Permutation_in _ (Permutation_sym PP)); apply in_seq; lia).
  destruct (position_nth p NDp k Ip) as [Lk Nk].
  split.
  - rewrite (map_nth_error _ _ _ H1). f_equal. replace (S k - 1) with k by lia.
    unfold mbget. rewrite map_length. unfold reverse_shuffle at 1. rewrite map_length, seq_length, Lp.
    destruct (Z.leb_spec 0 (Z.of_nat k)); [|lia]. destruct (Z.ltb_spec (Z.of_nat k) (Z.of_nat n)); [|lia]. cbn [andb]. rewrite Nat2Z.id.
    apply nth_error_nth. now rewrite (map_nth_error _ _ _ (RS St k Hk)).
  - intros x. destruct Q as [[_ Q]|[[Q _]|[Q1 Q2]]]; [|discriminate|]; apply (col_at false).
    + now rewrite Q.
    + rewrite Q1, <- Q2. exact Nk.
Qed.

Lemma transform_ok usable f data flt (tr sf : bool) o : oinv o0 o -> o_flag o || tr = true -> data_ok (o_ikey o0) flt data ->
  (sf = true \/ o_base o0 = Some 1) -> (remap = true -> sf = false) -> (s && negb tr = remap \/ in_key_order inv vlt t n) ->
  exists d, snd (calculate inv lexsort binname usable f data flt tr sf o) = Some d /\
    expanded t (o_ikey o0) sf (fun x b => f (bin_values inv (o_ikey o0) flt x b)) usable data d.
Proof.
  intros O FT D B RM Q. pose proof O as (_ & Ik & _). rewrite <- Ik in D.
  destruct (calculate_parts inv vlt lexsort LS binname t n sd pre KT o0 FO usable f data flt tr sf o O D) as (c2 & d1 & r' & K2 & E1 & E2 & ->).
  pose proof D as (ND & L & F).
  destruct (newdict_facts inv vlt lexsort LS binname t n sd pre KT usable (fun x b => f (bin_values inv (o_ikey o) flt x b)) (fun x => raw sf (fun b => f (bin_values inv (o_ikey o) flt x b)) n) data sf ND (fun _ _ _ => eq_refl)) as (ND1 & L1 & C1 & N1 & _).
  cbv zeta in E1. rewrite Ik in *. set (d := pick _ data) in *.
  assert (NM : map fst d1 = map fst d).
  { rewrite E1. destruct (s && negb tr); [|reflexivity]. rewrite map_map. apply map_ext. intros q. destruct (mem (fst q) (map fst t)); reflexivity. }
  apply (expand_ok o c2 r' (if s && negb tr then p else seq 0 n)); auto.
  - destruct Q as [Q|Q].
    + destruct (s && negb tr); [left|right; left]; auto.
    + assert (Ep : p = seq 0 n).
      { unfold order at 1. destruct s eqn:Es; [|reflexivity]. eapply in_order_id; eauto. apply LS; apply KT. }
      right. right. split; [|exact Ep]. destruct (s && negb tr); [exact Ep|reflexivity].
  - rewrite E2. destruct tr; [now rewrite NM|]. apply dset_all_nodup. now rewrite NM.
  - intros c x I NK U. specialize (C1 c x I NK U).
    assert (I1 : In (c, lead sf (f (bin_values inv (o_ikey o0) flt x 0)) ++ map (fun k => f (bin_values inv (o_ikey o0) flt x (S k))) (if s && negb tr then p else seq 0 n)) d1).
    { rewrite E1. destruct (s && negb tr) eqn:Es; [|exact C1]. apply in_map_iff. exists (c, raw sf (fun b => f (bin_values inv (o_ikey o0) flt x b)) n). split; [|exact C1].
      cbn [fst snd]. assert (M0 : mem c (map fst t) = false) by (apply mem_not; exact NK). rewrite M0. f_equal. apply fancy_raw. intros j Hj. eapply order_lt; eauto. }
    rewrite E2. destruct tr; [exact I1|]. apply dget_some_in. rewrite dget_dset_all.
    + assert (G0 : dget c (gb_of inv lexsort binname t n sd pre sf) = None) by (apply dget_none; rewrite gb_names; exact NK). rewrite G0.
      apply dget_nodup; [now rewrite NM|exact I1].
    + rewrite gb_names. apply KT.
  - intros c I. rewrite E2 in I. destruct tr; [rewrite NM in I; auto|]. apply dset_all_in in I. rewrite gb_names, NM in I. destruct I; [now left|auto].
Qed.

(** apply_reduce *)
Lemma apply_parts usable f data flt o (tr : bool) : oinv o0 o -> data_ok (o_ikey o0) flt data ->
  (exists c x, In (c, x) data /\ ~ In c (map fst t) /\ usable c = true) ->
  exists c1 c2 r', kinv c1 /\ kinv c2 /\
    keyed_result inv binname t p false (fun x b => on_rows inv f (bin_values inv (o_ikey o0) flt x b)) usable data r' /\
    apply_reduce inv lexsort usable f data flt tr false o =
    if tr then possibly_transform inv lexsort (with_kc c2 o) (Some r') (map fst t) true false else (with_kc c1 o, Some r').
Proof.
  intros O D (c0 & x0 & I0 & NK0 & U0). pose proof O as (K & Ik & N & _). pose proof D as (ND & L & F).
  unfold apply_reduce. cbn zeta. change (names (k_gb (o_kc o))) with (map fst (k_gb (o_kc o))). rewrite (kname_inv _ _ _ _ _ _ _ _ K).
  set (A := map (fun q => (fst q, reduce_col inv f (passing flt (o_ikey o)) (o_n o) 1 (snd q))) (calculate_dict usable (map fst t) data)).
  assert (E : A = accum t usable (fun x => raw false (fun b => on_rows inv f (bin_values inv (o_ikey o0) flt x b)) n) data).
  { unfold A, accum. apply map_ext_in. intros q Hq. f_equal. apply filter_In in Hq. destruct Hq as [Hq _]. rewrite Ik, N, FO. apply (reduce_col_raw inv f _ flt n false); [exact F|apply L; exact Hq]. }
  assert (NDA : NoDup (map fst A)) by (rewrite E; now apply accum_nodup).
  assert (LA : all_len n A).
  { intros [k v] I. rewrite E in I. apply accum_in in I. destruct I as (x & _ & _ & _ & ->). cbn [snd]. apply raw_length. }
  destruct (calculate_dict usable (map fst t) data) as [|q0 rest] eqn:Ec.
  { exfalso. assert (X : In (c0, x0) (calculate_dict usable (map fst t) data)); [|now rewrite Ec in X].
    apply filter_In. split; [exact I0|]. cbn [fst]. apply mem_not in NK0. now rewrite NK0, U0. }
  rewrite (set_cols_ok n A [] (fun q H => match H with end) LA). rewrite dset_all_id by exact NDA. cbn [app].
  pose proof (gbkeys_ok inv vlt lexsort LS binname t n sd pre KT (o_kc o) K) as G. destruct (gbkeys inv lexsort (o_kc o)) as [c1 gb]. destruct G as (K1 & _ & _ & ->).
  pose proof (keyed_ok inv vlt lexsort LS binname t n sd pre KT c1 false A (fun x b => on_rows inv f (bin_values inv (o_ikey o0) flt x b)) usable data NDA LA K1) as KO.
  change (gb_of inv lexsort binname t n sd pre false) with (shown_keys inv t p) in KO.
  destruct (finalize_dataset inv lexsort A c1 (shown_keys inv t p) false false true) as [c2 r].
  destruct KO as (K2 & r' & -> & KR).
  { intros k x I NK U. rewrite E. apply accum_in. exists x. auto. }
  { intros k I. rewrite E in I. apply in_map_iff in I. destruct I as [[a v] [Ea I]]. cbn [fst] in Ea. subst a. apply accum_in in I. destruct I as (x & I & _ & U & _). right. split; [now apply (in_map fst) in I|exact U]. }
  pose proof (gbkeys_ok inv vlt lexsort LS binname t n sd pre KT c2 K2) as G. destruct (gbkeys inv lexsort c2) as [c3 lk]. destruct G as (K3 & _ & _ & ->).
  exists c2, c3, r'. split; [exact K2|]. split; [exact K3|]. split; [exact KR|]. destruct tr; [|reflexivity].
  change (names (shown_keys inv t p)) with (map fst (shown_keys inv t p)). now rewrite shown_names.
Qed.
Lemma apply_keyed usable f data flt o : oinv o0 o -> data_ok (o_ikey o0) flt data ->
  (exists c x, In (c, x) data /\ ~ In c (map fst t) /\ usable c = true) ->
  exists d, snd (apply_reduce inv lexsort usable f data flt false false o) = Some d /\
    keyed_result inv binname t p false (fun x b => on_rows inv f (bin_values inv (o_ikey o0) flt x b)) usable data d.
Proof. intros O D X. destruct (apply_parts usable f data flt o false O D X) as (c1 & c2 & r' & _ & _ & KR & ->). exists r'. split; [reflexivity|exact KR]. Qed.
Lemma apply_expanded usable f data flt o : oinv o0 o -> data_ok (o_ikey o0) flt data ->
  (exists c x, In (c, x) data /\ ~ In c (map fst t) /\ usable c = true) -> o_base o0 = Some 1 ->
  (s = remap \/ in_key_order inv vlt t n) ->
  exists d, snd (apply_reduce inv lexsort usable f data flt true false o) = Some d /\
    expanded t (o_ikey o0) false (fun x b => on_rows inv f (bin_values inv (o_ikey o0) flt x b)) usable data d.
Proof.
  intros O D X B Q. destruct (apply_parts usable f data flt o true O D X) as (c1 & c2 & r' & _ & K2 & (KR1 & KR2 & KR3 & KR4) & ->).
  apply (expand_ok o c2 r' p); auto.
  - now rewrite orb_true_r.
  - destruct Q as [Q|Q].
    + rewrite <- Q. destruct s eqn:Es; [left; auto|right; left; auto].
    + right. right. assert (Ep : p = seq 0 n); [|auto]. unfold order at 1. destruct s eqn:Es; [|reflexivity]. eapply in_order_id; eauto. apply LS; apply KT.
  - intros c x I NK U. apply dget_some_in. apply KR2; auto.
Qed.

(** every use keeps the invariant *)
Lemma finalize_inv d c gb tr sf ak : kinv c -> kinv (fst (finalize_dataset inv lexsort d c gb tr sf ak)).
Proof.
  intros K. unfold finalize_dataset. rewrite (sgd inv lexsort binname t n sd pre c K). destruct (s && negb tr) eqn:E; [|exact K].
  apply andb_prop in E. destruct (isort_ok inv lexsort binname t n sd pre c K (proj1 E)) as (K1 & _). destruct (isortrows lexsort c) as [c1 i]. exact K1.
Qed.
Lemma gb_inv (sf : bool) c : kinv c -> kinv (fst (if sf then gbkeys_filtered inv lexsort binname c else gbkeys inv lexsort c)).
Proof.
  intros K. pose proof (gb_step inv vlt lexsort LS binname t n sd pre KT sf c K) as H. destruct (if sf then gbkeys_filtered inv lexsort binname c else gbkeys inv lexsort c). exact (proj1 H).
Qed.
Lemma cstep_inv o x : oinv o0 o -> oinv o0 (fst (cstep inv lexsort binname o x)).
Proof.
  intros O. pose proof O as (K & H). destruct x as [us f d flt tr sf|num flt sf|us f d flt tr sf|f c x flt| |]; cbn [cstep].
  - unfold calculate, return_dataset. pose proof (gb_inv sf (o_kc o) K) as K1. destruct (if sf then gbkeys_filtered inv lexsort binname (o_kc o) else gbkeys inv lexsort (o_kc o)) as [c1 gb].
    cbn [fst] in K1. pose proof (fun d => finalize_inv d c1 gb tr sf true K1) as K2.
    match goal with |- context[finalize_dataset inv lexsort ?d c1 gb tr sf true] => specialize (K2 d); destruct (finalize_dataset inv lexsort d c1 gb tr sf true) as [c2 ds] end.
    cbn [fst] in K2. pose proof (gb_inv false c2 K2) as K3. cbn beta iota in K3. destruct (gbkeys inv lexsort c2) as [c3 lk]. cbn [fst] in K3.
    apply (pt_inv inv lexsort binname t n sd pre o0 SDO). split; [exact K3|exact H].
  - unfold count_ds. pose proof (gb_inv sf (o_kc o) K) as K1. destruct (if sf then gbkeys_filtered inv lexsort binname (o_kc o) else gbkeys inv lexsort (o_kc o)) as [c1 gb].
    cbn [fst] in K1. pose proof (fun d => finalize_inv d c1 gb false sf true K1) as K2.
    match goal with |- context[finalize_dataset inv lexsort ?d c1 gb false sf true] => specialize (K2 d); destruct (finalize_dataset inv lexsort d c1 gb false sf true) as [c2 ds] end.
    split; [exact K2|exact H].
  - unfold apply_reduce. cbv zeta. destruct (calculate_dict us (names (k_gb (o_kc o))) d) as [|q r]; [exact O|].
    pose proof (gb_inv false (o_kc o) K) as K1. cbn beta iota in K1. destruct (gbkeys inv lexsort (o_kc o)) as [c1 gb]. cbn [fst] in K1.
    match goal with |- context[match ?e with Some d0 => _ | None => _ end] => destruct e as [d1|] end; [|split; [exact K1|exact H]].
    pose proof (finalize_inv d1 c1 gb false sf true K1) as K2. destruct (finalize_dataset inv lexsort d1 c1 gb false sf true) as [c2 ds]. cbn [fst] in K2.
    destruct tr; [|split; [exact K2|exact H]].
    pose proof (gb_inv false c2 K2) as K3. cbn beta iota in K3. destruct (gbkeys inv lexsort c2) as [c3 lk]. cbn [fst] in K3.
    apply (pt_inv inv lexsort binname t n sd pre o0 SDO). split; [exact K3|exact H].
  - unfold apply_user. cbv zeta. destruct (filter _ (seq 1 (o_n o))) as [|b0 bs]; [exact O|].
    set (inner := if _ =? _ then _ else _).
    assert (K1 : kinv (fst inner)).
    { unfold inner. destruct (_ =? _); [|exact K].
      pose proof (gb_inv false (o_kc o) K) as K1. cbn beta iota in K1. destruct (gbkeys inv lexsort (o_kc o)) as [c1 gb]. cbn [fst] in K1.
      destruct (_ <? _); [|now apply finalize_inv]. destruct (set_cols _ _); [now apply finalize_inv|exact K1]. }
    destruct inner as [c1 ds]. cbn [fst] in K1. pose proof (gb_inv false c1 K1) as K3. cbn beta iota in K3. destruct (gbkeys inv lexsort c1) as [c3 lk]. cbn [fst] in K3.
    apply (pt_inv inv lexsort binname t n sd pre o0 SDO). split; [exact K3|exact H].
  - exact O.
  - pose proof (gb_inv false (o_kc o) K) as K1. cbn beta iota in K1. destruct (gbkeys inv lexsort (o_kc o)) as [c1 gb]. split; [exact K1|exact H].
Qed.
Lemma cfinal_inv ops : forall o, oinv o0 o -> oinv o0 (cfinal inv lexsort binname o ops).
Proof. induction ops as [|x ops IH]; intros o O; [exact O|]. cbn [cfinal fold_left]. apply IH. now apply cstep_inv. Qed.
End P.
