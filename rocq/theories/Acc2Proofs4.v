From Coq Require Import List Arith Bool ZArith Permutation Lia.
From Verif Require Import FlattenModel DsModel DsProofs3 GroupingModel GroupingSpec AggModel AggSpec AggProofs AggProofs2 AggProofs3 Acc2Model Acc2Spec Acc2Proofs Acc2Proofs2 Acc2Proofs3.
Import ListNotations.

Section A.
Context {V : Type}.
Variable inv : V.
Variable vlt : V -> V -> Prop.
Variable lexsort : list (list V) -> list nat.
Variable LS : lexsort_ok inv vlt lexsort.
Variable binname : list V -> V.
Variable label : list V -> name.
Variable inv_label : nat -> name.
Variable zero : V.
Variables (tr tc : table (V := V)) (R C : nat) (sdr prer sdc prec : bool).
Variable KR : key_table inv tr R.
Variable KC : key_table inv tc C.
Notation sr := (sdr && negb prer).
Notation sc := (sdc && negb prec).
Notation pr := (order lexsort sr tr R).
Notation pc := (order lexsort sc tc C).
Notation kinvr := (kinv inv lexsort binname tr R sdr prer).
Notation kinvc := (kinv inv lexsort binname tc C sdc prec).
Variable a0 : acc2 (V := V).
Notation ainv := (ainv inv lexsort binname tr tc R C sdr prer sdc prec a0).
Notation base_ds := (base_ds inv lexsort binname label inv_label tr tc R C sdr prer sdc prec a0).
Notation ylab := (a_ylab a0).

(** ** the state *)
Lemma rowk_inv a (sf : bool) : ainv a -> ainv (set_row a (fst (if sf then gbkeys_filtered inv lexsort binname (x_kc (a_row a)) else gbkeys inv lexsort (x_kc (a_row a))))).
Proof.
  intros I. apply ainv_row; [exact I|]. destruct I as (K1 & _). pose proof (gb_step inv vlt lexsort LS binname tr R sdr prer KR sf _ K1) as H. destruct (if sf then _ else _). tauto.
Qed.
Lemma colk_inv a (sf : bool) : ainv a -> ainv (set_colx a (fst (if sf then gbkeys_filtered inv lexsort binname (x_kc (a_col a)) else gbkeys inv lexsort (x_kc (a_col a))))).
Proof.
  intros I. apply ainv_col; [exact I|]. destruct I as (_ & K1 & _). pose proof (gb_step inv vlt lexsort LS binname tc C sdc prec KC sf _ K1) as H. destruct (if sf then _ else _). tauto.
Qed.
Lemma make_inv arr sf a : ainv a -> ainv (fst (make_dataset inv lexsort binname label inv_label arr sf a)).
Proof.
  intros I. unfold make_dataset.
  assert (I1 : ainv (fst (get_gbkeys inv lexsort binname sf a))).
  { unfold get_gbkeys. pose proof (rowk_inv a sf I) as H. destruct (if sf then _ else _). exact H. }
  destruct (get_gbkeys inv lexsort binname sf a) as [a1 gb]. cbn [fst] in I1. pose proof I1 as (K1 & _ & _).
  pose proof (isort_any inv lexsort binname tr R sdr prer _ K1) as Ka. destruct (isortrows lexsort (x_kc (a_row a1))) as [rc srt]. cbn [fst] in Ka.
  assert (I2 : ainv (set_row a1 rc)) by now apply ainv_row. pose proof I2 as (_ & K2 & _).
  pose proof (gbkeys_ok inv vlt lexsort LS binname tc C sdc prec KC _ K2) as H. destruct (gbkeys inv lexsort (x_kc (a_col (set_row a1 rc)))) as [cc xc]. destruct H as (Kc & _).
  pose proof (isort_any inv lexsort binname tc C sdc prec cc Kc) as Kc2. destruct (isortrows lexsort cc) as [cc2 scol]. cbn [fst] in *. now apply ainv_col.
Qed.
Lemma resort_row c (sf : bool) v : kinvr c -> kinvr (fst (resort inv lexsort c sf v)).
Proof. intros K. unfold resort. pose proof (isort_any inv lexsort binname tr R sdr prer c K) as H. destruct (sort_gb_data c); [|exact K]. destruct (isortrows lexsort c). exact H. Qed.
Lemma resort_col c (sf : bool) v : kinvc c -> kinvc (fst (resort inv lexsort c sf v)).
Proof. intros K. unfold resort. pose proof (isort_any inv lexsort binname tc C sdc prec c K) as H. destruct (sort_gb_data c); [|exact K]. destruct (isortrows lexsort c). exact H. Qed.
Lemma onepass_inv func nm arr sf ds a : ainv a -> ainv (fst (calc_onepass inv lexsort func nm arr sf ds a)).
Proof.
  intros I. unfold calc_onepass. pose proof I as (K1 & K2 & _).
  match goal with |- context [resort inv lexsort (x_kc (a_row a)) sf ?v] => pose proof (resort_row _ sf v K1) as H; destruct (resort inv lexsort (x_kc (a_row a)) sf v) as [rc ty] end. cbn [fst] in H.
  assert (I1 : ainv (set_row a rc)) by now apply ainv_row. pose proof I1 as (_ & K3 & _).
  match goal with |- context [resort inv lexsort (x_kc (a_col (set_row a rc))) sf ?v] => pose proof (resort_col _ sf v K3) as H2; destruct (resort inv lexsort (x_kc (a_col (set_row a rc))) sf v) as [cc tx] end. cbn [fst] in H2.
  assert (I2 : ainv (set_colx (set_row a rc) cc)) by now apply ainv_col.
  pose proof (rowk_inv _ false I2) as H3. cbv iota in H3. destruct (gbkeys inv lexsort _) as [rc2 gb]. exact H3.
Qed.
Lemma multipass_inv pass sh func nm data sf flt ds a : ainv a -> ainv (fst (calc_multipass inv lexsort zero pass sh func nm data sf flt ds a)).
Proof.
  intros I. unfold calc_multipass. pose proof (rowk_inv a false I) as H3. cbv iota in H3. destruct (gbkeys inv lexsort _) as [rc2 gb]. exact H3.
Qed.
Lemma stack_inv arr data f h sf flt a : ainv a -> ainv (fst (stack_dataset inv lexsort binname label inv_label zero arr data f h sf flt a)).
Proof.
  intros I. unfold stack_dataset. pose proof (make_inv arr sf a I) as H. destruct (make_dataset inv lexsort binname label inv_label arr sf a) as [a1 [ds gb]]. cbn [fst] in H.
  destruct (a_tot a); [|exact H]. destruct h; [now apply onepass_inv|now apply multipass_inv|exact H].
Qed.
Lemma get2_inv r a : ainv a -> ainv (fst (get2 inv lexsort r a)).
Proof.
  intros I. unfold get2. destruct (nth_error (ikey2 a) r) as [m|]; [|exact I]. cbn zeta.
  set (xi := m / _). set (yi := m mod _). pose proof I as (K1 & K2 & _).
  assert (C1 : forall i, kinvc (fst (get_bin_from_index inv lexsort i (x_kc (a_col a))))).
  { intros i. unfold get_bin_from_index. destruct (_ && _)%Z; [|exact K2]. pose proof (gbkeys_ok inv vlt lexsort LS binname tc C sdc prec KC _ K2) as H. destruct (gbkeys inv lexsort _). tauto. }
  assert (R1 : forall a' i, ainv a' -> kinvr (fst (get_bin_from_index inv lexsort i (x_kc (a_row a'))))).
  { intros a' i (K3 & _). unfold get_bin_from_index. destruct (_ && _)%Z; [|exact K3]. pose proof (gbkeys_ok inv vlt lexsort LS binname tr R sdr prer KR _ K3) as H. destruct (gbkeys inv lexsort _). tauto. }
  assert (I1 : ainv (fst (if xi =? 0 then (a, None) else let '(c, k) := get_bin_from_index inv lexsort (Z.of_nat xi - 1) (x_kc (a_col a)) in (set_colx a c, k)))).
  { destruct (xi =? 0); [exact I|]. specialize (C1 (Z.of_nat xi - 1)%Z). destruct (get_bin_from_index _ _ _ _). now apply ainv_col. }
  destruct (if xi =? 0 then _ else _) as [a1 xcat]. cbn [fst] in I1.
  destruct (yi =? 0); [exact I1|]. specialize (R1 a1 (Z.of_nat yi - 1)%Z I1). destruct (get_bin_from_index _ _ _ _). now apply ainv_row.
Qed.
Lemma astep_inv a o : ainv a -> ainv (astep inv lexsort binname label inv_label zero a o).
Proof.
  intros I. destruct o as [f h data flt sf|f nm data flt sf|num sum flt sf|r|sf|sf]; cbn [astep].
  - unfold calculate2. now apply stack_inv.
  - unfold apply_reduce2. cbn zeta. match goal with |- context [make_dataset inv lexsort binname label inv_label ?arr sf a] => pose proof (make_inv arr sf a I) as H; destruct (make_dataset inv lexsort binname label inv_label arr sf a) as [a1 [ds gb]] end. cbn [fst] in H.
    destruct (a_tot a); [now apply multipass_inv|exact H].
  - unfold count2. cbn zeta. match goal with |- context [make_dataset inv lexsort binname label inv_label ?arr sf a] => pose proof (make_inv arr sf a I) as H; destruct (make_dataset inv lexsort binname label inv_label arr sf a) as [a1 [ds gb]] end. cbn [fst] in H.
    destruct ds; [|exact H]. destruct (a_tot a); exact H.
  - now apply get2_inv.
  - now apply rowk_inv.
  - now apply colk_inv.
Qed.
Lemma afinal_inv ops : forall a, ainv a -> ainv (afinal inv lexsort binname label inv_label zero a ops).
Proof. induction ops as [|o ops IH]; intros a I; [exact I|]. apply (IH (astep inv lexsort binname label inv_label zero a o)). now apply astep_inv. Qed.
Lemma ainv_fresh : fresh_axis inv tr R sdr prer (a_row a0) -> fresh_axis inv tc C sdc prec (a_col a0) -> ainv a0.
Proof.
  intros (_ & _ & _ & E1) (_ & _ & _ & E2). split; [rewrite E1; now apply kinv_new|]. split; [rewrite E2; now apply kinv_new|]. repeat split.
Qed.

(** ** totals in one pass *)
Definition js (sf : bool) (n : nat) : list nat := if sf then seq 0 (S n) else seq 1 n.
Lemma js_raw sf (h : nat -> V) n : map h (js sf n) = raw sf h n.
Proof. unfold js, raw. destruct sf; cbn [lead app seq map]; rewrite <- seq_shift, map_map; reflexivity. Qed.
Lemma resort_ok_r c sf h : kinvr c -> snd (resort inv lexsort c sf (raw sf h R)) = lead sf (h 0) ++ map (fun i => h (S i)) pr.
Proof.
  intros K. unfold resort. rewrite (sgd inv lexsort binname tr R sdr prer c K). rewrite <- (raw_rows inv vlt lexsort LS tr R sdr prer KR sf h).
  destruct sr eqn:E; [|reflexivity]. pose proof (isort_ok inv lexsort binname tr R sdr prer c K E) as (_ & I & _). destruct (isortrows lexsort c) as [c1 i]. cbn [snd] in *. rewrite I. now rewrite E.
Qed.
Lemma resort_ok_c c sf h : kinvc c -> snd (resort inv lexsort c sf (raw sf h C)) = lead sf (h 0) ++ map (fun i => h (S i)) pc.
Proof.
  intros K. unfold resort. rewrite (sgd inv lexsort binname tc C sdc prec c K). rewrite <- (raw_rows inv vlt lexsort LS tc C sdc prec KC sf h).
  destruct sc eqn:E; [|reflexivity]. pose proof (isort_ok inv lexsort binname tc C sdc prec c K E) as (_ & I & _). destruct (isortrows lexsort c) as [c1 i]. cbn [snd] in *. rewrite I. now rewrite E.
Qed.
Lemma nth_map_seq {X} (h : nat -> X) n i d : i < n -> nth i (map h (seq 0 n)) d = h i.
Proof. intros H. rewrite (nth_map _ _ _ _ 0) by now rewrite seq_length. now rewrite seq_nth. Qed.
Lemma onepass_ok func nm (g : nat -> V) sf a : ainv a -> x_n (a_row a0) = R -> x_n (a_col a0) = C ->
  names_ok inv label inv_label ylab tr tc pc sf [nm] ->
  let rt := fun i => func (map (fun j => g (j * S R + i)) (js sf C)) in
  let ct := fun j => func (map (fun i => g (j * S R + i)) (js sf R)) in
  exists d foot rest, snd (calc_onepass inv lexsort func nm (map g (seq 0 (S (nbins a0)))) sf (Some (base_ds g sf)) a) = Some (d, foot) /\
    d = base_ds g sf ++ rest /\ NoDup (map fst d) /\ margins inv label inv_label tc pr pc sf nm rt ct (func (map rt (js sf R))) (d, foot).
Proof.
  intros I RN CN NO rt ct. unfold calc_onepass. pose proof I as (K1 & K2 & _).
  assert (Nr : k_n (x_kc (a_row a)) = R) by (destruct K1 as (_ & _ & N & _); exact N). assert (Nc : k_n (x_kc (a_col a)) = C) by (destruct K2 as (_ & _ & N & _); exact N).
  rewrite Nr, Nc. assert (NB : nbins a0 = S R * S C) by (unfold nbins; now rewrite RN, CN).
  assert (IM : make_imatrix (map g (seq 0 (S (nbins a0)))) sf R C = map (fun j => map (fun i => g (j * S R + i)) (seq 0 (S R))) (js sf C)).
  { unfold make_imatrix. fold (js sf C). apply map_ext_in. intros j Hj. assert (j <= C) by (unfold js in Hj; destruct sf; apply in_seq in Hj; lia). apply slice_full. rewrite NB. nia. }
  rewrite IM.
  assert (TY : (if sf then map (fun i => func (map (fun c => nth i c inv) (map (fun j => map (fun i => g (j * S R + i)) (seq 0 (S R))) (js sf C)))) (seq 0 (S R))
                else skipn 1 (map (fun i => func (map (fun c => nth i c inv) (map (fun j => map (fun i => g (j * S R + i)) (seq 0 (S R))) (js sf C)))) (seq 0 (S R)))) = raw sf rt R).
  { rewrite <- (js_raw sf rt R).
    assert (E : forall i, i <= R -> func (map (fun c => nth i c inv) (map (fun j => map (fun i => g (j * S R + i)) (seq 0 (S R))) (js sf C))) = rt i).
    { intros i Hi. unfold rt. f_equal. rewrite map_map. apply map_ext. intros j. rewrite nth_map_seq by lia. reflexivity. }
    destruct sf; [change (js true R) with (seq 0 (S R))|change (js false R) with (seq 1 R)].
    - apply map_ext_in. intros i Hi. apply in_seq in Hi. apply E. lia.
    - cbn [seq map skipn]. apply map_ext_in. intros i Hi. apply in_seq in Hi. apply E. lia. }
  assert (TX : map (fun c => func (if sf then c else skipn 1 c)) (map (fun j => map (fun i => g (j * S R + i)) (seq 0 (S R))) (js sf C)) = raw sf ct C).
  { rewrite map_map, <- (js_raw sf ct C). apply map_ext. intros j. unfold ct. f_equal. unfold js. destruct sf; reflexivity. }
  rewrite TY, TX.
  pose proof (resort_ok_r (x_kc (a_row a)) sf rt K1) as E1. pose proof (resort_row (x_kc (a_row a)) sf (raw sf rt R) K1) as Q1.
  destruct (resort inv lexsort (x_kc (a_row a)) sf (raw sf rt R)) as [rc ty]. cbn [fst snd] in E1, Q1. subst ty.
  assert (I1 : ainv (set_row a rc)) by now apply ainv_row. pose proof I1 as (_ & K3 & _).
  pose proof (resort_ok_c _ sf ct K3) as E2. pose proof (resort_col _ sf (raw sf ct C) K3) as Q2.
  destruct (resort inv lexsort (x_kc (a_col (set_row a rc))) sf (raw sf ct C)) as [cc tx]. cbn [fst snd] in E2, Q2. subst tx.
  assert (I2 : ainv (set_colx (set_row a rc) cc)) by now apply ainv_col. pose proof I2 as (K4 & _).
  pose proof (gbkeys_ok inv vlt lexsort LS binname tr R sdr prer KR _ K4) as H. destruct (gbkeys inv lexsort _) as [rc2 gb]. destruct H as (_ & _ & _ & ->).
  cbn [snd]. unfold shown_keys. rewrite map_length.
  destruct (totals_ok inv vlt lexsort LS binname label inv_label tr tc R C sdr prer sdc prec KR KC a0 g sf nm rt ct (func (map rt (js sf R))) NO) as (d & foot & E & Ed & ND & M).
  exists d, foot. eexists. split; [|split; [exact Ed|split; [exact ND|exact M]]]. rewrite (js_raw sf rt R) in *. exact E.
Qed.

(** ** totals in several passes *)
Lemma multipass_ok pass sh func nm data flt (g : nat -> V) sf a (rt ct : nat -> V) : ainv a ->
  names_ok inv label inv_label ylab tr tc pc sf [nm] ->
  accum1_pass pass sh (a_row a0) data sf flt = raw sf rt R -> accum1_pass pass sh (a_col a0) data sf flt = raw sf ct C ->
  exists d foot rest, snd (calc_multipass inv lexsort zero pass sh func nm data sf flt (Some (base_ds g sf)) a) = Some (d, foot) /\
    d = base_ds g sf ++ rest /\ NoDup (map fst d) /\
    (pr = seq 0 R -> pc = seq 0 C -> margins inv label inv_label tc pr pc sf nm rt ct (match func with Some h => h (picked flt data) | None => zero end) (d, foot)).
Proof.
  intros I NO TY TX. unfold calc_multipass. pose proof I as (K1 & K2 & SM).
  assert (TY' : accum1_pass pass sh (a_row a) data sf flt = raw sf rt R) by (unfold accum1_pass in *; destruct SM as (-> & -> & -> & _); exact TY).
  assert (TX' : accum1_pass pass sh (a_col a) data sf flt = raw sf ct C) by (unfold accum1_pass in *; destruct SM as (_ & _ & _ & -> & -> & -> & _); exact TX).
  rewrite TY', TX'. pose proof (gbkeys_ok inv vlt lexsort LS binname tr R sdr prer KR _ K1) as H. destruct (gbkeys inv lexsort _) as [rc2 gb]. destruct H as (_ & _ & _ & ->).
  cbn [snd]. unfold shown_keys. rewrite map_length.
  set (total := match func with Some h => _ | None => zero end).
  (* the totals are in the order found; describe them along the shown order *)
  set (rt' := fun i => match i with 0 => rt 0 | S k => nth (position k pr) (map (fun k => rt (S k)) (seq 0 R)) inv end).
  set (ct' := fun i => match i with 0 => ct 0 | S k => nth (position k pc) (map (fun k => ct (S k)) (seq 0 C)) inv end).
  assert (PM : forall s t n, key_table inv t n -> forall (h : nat -> V), map (fun k => nth (position k (order lexsort s t n)) (map h (seq 0 n)) inv) (order lexsort s t n) = map h (seq 0 n)).
  { intros s t n KT h. pose proof (order_length inv vlt lexsort LS s t n KT) as L. pose proof (order_perm inv vlt lexsort LS s t n KT) as P.
    assert (ND : NoDup (order lexsort s t n)) by (apply (Permutation_NoDup (Permutation_sym P)), seq_NoDup).
    revert L ND. generalize (order lexsort s t n). intros o L ND.
    assert (Q : forall o, NoDup o -> map (fun k => position k o) o = seq 0 (length o)).
    { clear. induction o as [|x o IH]; intros ND; [reflexivity|]. inversion ND; subst. cbn [map length seq]. f_equal; [cbn [position]; now rewrite Nat.eqb_refl|].
      rewrite <- seq_shift, <- IH by assumption. rewrite map_map. apply map_ext_in. intros k Hk. cbn [position]. destruct (Nat.eqb_spec x k); [subst; contradiction|reflexivity]. }
    rewrite <- (map_map (fun k => position k o) (fun q => nth q (map h (seq 0 n)) inv)). rewrite (Q o ND), L. apply map_ext_in. intros i Hi. apply in_seq in Hi. apply nth_map_seq. lia. }
  assert (ER : raw sf rt R = lead sf (rt' 0) ++ map (fun k => rt' (Datatypes.S k)) pr) by (unfold raw, rt'; f_equal; symmetry; apply (PM _ _ _ KR)).
  assert (EC : raw sf ct C = lead sf (ct' 0) ++ map (fun k => ct' (Datatypes.S k)) pc) by (unfold raw, ct'; f_equal; symmetry; apply (PM _ _ _ KC)).
  rewrite ER, EC.
  destruct (totals_ok inv vlt lexsort LS binname label inv_label tr tc R C sdr prer sdc prec KR KC a0 g sf nm rt' ct' total NO) as (d & foot & E & Ed & ND & M).
  exists d, foot. eexists. split; [exact E|]. split; [exact Ed|]. split; [exact ND|]. intros PR PC. clear - M PR PC KR KC.
  assert (PS : forall n k, k < n -> position k (seq 0 n) = k).
  { clear. intros n k H. assert (Q : forall n a k, k < n -> position (a + k) (seq a n) = k).
    { clear. induction n as [|n IH]; intros a k H; [lia|]. cbn [seq position]. destruct (Nat.eqb_spec a (a + k)); [lia|]. destruct k as [|k]; [lia|]. f_equal. rewrite <- (IH (S a) k) at 2 by lia. f_equal. lia. }
    exact (Q n 0 k H). }
  destruct M as (M1 & M2 & M3 & M4). split; [|split; [|split; [exact M3|exact M4]]].
  - rewrite M1. f_equal. f_equal. rewrite PR. apply map_ext_in. intros k Hk. apply in_seq in Hk. unfold rt'. rewrite PR, PS by lia. apply (nth_map_seq (fun k => rt (S k))). lia.
  - intros j k H. rewrite (M2 j k H). f_equal. unfold ct'. rewrite PC in *. assert (k < C) by (apply nth_error_In, in_seq in H; lia). rewrite PS by lia. apply (nth_map_seq (fun k => ct (S k))). lia.
Qed.
End A.
