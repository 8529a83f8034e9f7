(** qcut. *)
From Coq Require Import List Arith Bool ZArith QArith Qround Lia Lqa Sorted Permutation.
From Verif Require Import FlattenModel ArrModel ArrSpec ArrProofs3 CutModel CutSpec CutProofs CutProofs2.
Import ListNotations.
Open Scope nat_scope.

Lemma qcut_edges lexsort x qs : sorts lexsort -> finite x <> [] -> (forall q, In q qs -> (0 <= q <= 1)%Q) ->
  exists vs, all_somes (map (bin_quantile lexsort Fraction x) qs) = Some (map Fin vs) /\ Forall2 (quantile_at (finite x)) qs vs.
Proof.
  intros LS NE. induction qs as [|q qs IH]; intros H; [exists []; split; [reflexivity|constructor]|].
  destruct IH as (vs & E & F); [intros p I; apply H; now right|]. pose proof (bin_quantile_ok lexsort LS x q (H q (or_introl eq_refl))) as B. destruct (finite x) as [|f0 fr]; [congruence|]. destruct B as (v & B & QA).
  exists (v :: vs). cbn [map all_somes]. rewrite B, E. split; [reflexivity|]. constructor; assumption.
Qed.
Lemma edges_strict l qs vs : distinct l -> 2 <= length l -> (forall q, In q qs -> (0 <= q <= 1)%Q) -> StronglySorted Qlt qs -> Forall2 (quantile_at l) qs vs -> StronglySorted flt (map Fin vs).
Proof.
  intros D L H SS F. induction F as [|q v qs vs QA F IH]; cbn [map]; [constructor|]. inversion SS as [|? ? S1 S2]; subst. constructor; [apply IH; [intros p I; apply H; now right|exact S1]|].
  rewrite Forall_forall. intros y I. apply in_map_iff in I. destruct I as (w & <- & I). cbn [flt].
  apply In_nth_error in I. destruct I as (i & I). assert (X : exists p, nth_error qs i = Some p /\ quantile_at l p w).
  { clear -F I. revert i I. induction F as [|p u qs vs A F IH]; intros [|i] I; cbn in I; try discriminate; [injection I as ->; now exists p|]. destruct (IH i I) as (r & R). now exists r. }
  destruct X as (p & P & QW). apply nth_error_In in P. rewrite Forall_forall in S2. apply (quantile_strict l q p v w); auto. apply (H q). now left.
Qed.
Lemma nan_map_fin vs : ~ In NaN (map Fin vs).
Proof. intros I. apply in_map_iff in I. destruct I as (x & I & _). discriminate. Qed.
Lemma forall2_length {A B} (R : A -> B -> Prop) l m : Forall2 R l m -> length l = length m.
Proof. induction 1; cbn; lia. Qed.
Lemma forall2_nth {A B} (R : A -> B -> Prop) l m : Forall2 R l m -> forall i a, nth_error l i = Some a -> exists b, nth_error m i = Some b /\ R a b.
Proof. induction 1 as [|x y l m H F IH]; intros [|i] a E; cbn in E; try discriminate; [injection E as <-; now exists y|]. destruct (IH i a E) as (b0 & B0). now exists b0. Qed.

(** *** the quantiles for a number *)
Lemma nquant_nth n k : k <= n -> nth_error (quants (NQuant n)) k = Some (0 + Qn k * ((1 - 0) / Qn n))%Q.
Proof. intros H. unfold quants. erewrite map_nth_error; [|apply nth_error_seq; lia]. reflexivity. Qed.
Lemma nquant_length n : length (quants (NQuant n)) = n + 1.
Proof. unfold quants. now rewrite map_length, seq_length. Qed.
Lemma nquant_eq n k : 1 <= n -> (0 + Qn k * ((1 - 0) / Qn n) == Qn k / Qn n)%Q.
Proof. intros N. pose proof (Qn_lt 0 n ltac:(lia)) as P. change (Qn 0) with 0%Q in P. field. lra. Qed.
Lemma nquant_range n : 1 <= n -> forall q, In q (quants (NQuant n)) -> (0 <= q <= 1)%Q.
Proof.
  intros N q I. unfold quants in I. apply in_map_iff in I. destruct I as (k & <- & I). apply in_seq in I. rewrite (nquant_eq n k N). pose proof (Qn_lt 0 n ltac:(lia)) as P. change (Qn 0) with 0%Q in P. pose proof (Qn_le 0 k ltac:(lia)) as P0. change (Qn 0) with 0%Q in P0. pose proof (Qn_le k n ltac:(lia)).
  split; [apply Qle_shift_div_l|apply Qle_shift_div_r]; lra.
Qed.
Lemma nquant_sorted n : 1 <= n -> StronglySorted Qlt (quants (NQuant n)).
Proof.
  intros N. assert (G : forall c s, StronglySorted Qlt (map (fun i => (0 + Qn i * ((1 - 0) / Qn n))%Q) (seq s c))); [|exact (G (n + 1) 0)].
  induction c as [|c IH]; intros s; cbn [seq map]; [constructor|]. constructor; [apply IH|]. rewrite Forall_forall. intros q I. apply in_map_iff in I. destruct I as (k & <- & I). apply in_seq in I.
  rewrite (nquant_eq n k N), (nquant_eq n s N). pose proof (Qn_lt 0 n ltac:(lia)) as P. change (Qn 0) with 0%Q in P. pose proof (Qn_lt s k ltac:(lia)). unfold Qdiv. apply Qmult_lt_compat_r; [now apply Qinv_lt_0_compat|assumption].
Qed.
Lemma nquant_floor n k N : 1 <= n -> 1 <= N -> Z.to_nat (Qfloor ((0 + Qn k * ((1 - 0) / Qn n)) * inject_Z (Z.of_nat N - 1))%Q) = k * (N - 1) / n.
Proof.
  intros HN HL. rewrite (nquant_eq n k HN).
  assert (E : (Qn k / Qn n * inject_Z (Z.of_nat N - 1) == (Z.of_nat (k * (N - 1))) # (Pos.of_nat n))%Q).
  { rewrite (Qmake_Qdiv (Z.of_nat (k * (N - 1)))). replace (Z.pos (Pos.of_nat n)) with (Z.of_nat n) by (rewrite <- positive_nat_Z, Nat2Pos.id by lia; reflexivity).
    replace (Z.of_nat N - 1)%Z with (Z.of_nat (N - 1)) by lia. rewrite Nat2Z.inj_mul, inject_Z_mult. pose proof (Qn_lt 0 n ltac:(lia)) as P. change (Qn 0) with 0%Q in P. field. lra. }
  rewrite E. cbn [Qfloor]. replace (Z.pos (Pos.of_nat n)) with (Z.of_nat n) by (rewrite <- positive_nat_Z, Nat2Pos.id by lia; reflexivity). rewrite <- Nat2Z.inj_div. apply Nat2Z.id.
Qed.

(** *** codes of the values *)
Lemma sorted_nan e v : bsearch_sorted e v = 0 <-> v = NaN.
Proof. unfold bsearch_sorted. destruct (is_nan v) eqn:E; [apply is_nan_spec in E; tauto|]. split; [discriminate|]. intros ->. discriminate. Qed.
Lemma sorted_clip e v : edges_ok e -> (bsearch_sorted e v = 1 <-> v <> NaN /\ outside e v).
Proof.
  intros EO. unfold bsearch_sorted. destruct (is_nan v) eqn:E; [apply is_nan_spec in E; subst v; split; [discriminate|intros [N _]; congruence]|].
  assert (V : v <> NaN) by (intros ->; discriminate). rewrite <- (bsearch_out e v EO). split; [intros [=]; auto|intros [_ ->]; reflexivity].
Qed.
Lemma sorted_bin e v i : edges_ok e -> 1 <= i -> (bsearch_sorted e v = S i <-> in_bin e i v).
Proof.
  intros EO Hi. rewrite <- (bsearch_bin e v EO i Hi). unfold bsearch_sorted. destruct (is_nan v) eqn:E; [|split; congruence]. apply is_nan_spec in E. subst v. split; [discriminate|]. unfold bsearch. cbn [is_nan]. lia.
Qed.
(** not above the k-th edge *)
Lemma code_le e q k b : edges_ok e -> ~ outside e (Fin q) -> 1 <= k -> nth_error e k = Some (Fin b) -> (bsearch true e (Fin q) <= k <-> (q <= b)%Q).
Proof.
  intros EO NO Hk Ek. assert (NZ : bsearch true e (Fin q) <> 0) by (intros Z; apply NO; now apply bsearch_out). set (i := bsearch true e (Fin q)) in *.
  assert (IB : in_bin e i (Fin q)) by (apply bsearch_bin; [exact EO|lia|reflexivity]). destruct IB as (a & c & Ea & Ec & _ & Hc & Ha). destruct EO as (LE & SS & NN). split; intros H.
  - assert (X : fle (Fin q) (Fin b)).
    { destruct (Nat.eq_dec i k) as [D|NE]; [rewrite D, Ek in Ec; injection Ec as <-; exact Hc|]. assert (L : flt c (Fin b)) by (apply (sorted_pair e i k); auto; lia). left. destruct Hc as [Hc|Hc]; [exact (flt_trans _ _ _ Hc L)|exact (feq_flt _ _ _ Hc L)]. }
    destruct X as [X|X]; cbn [flt feq] in X; lra.
  - destruct (Nat.le_gt_cases i k) as [|G]; [assumption|]. exfalso. assert (X : flt (Fin b) (Fin q)).
    { destruct Ha as [Ha|[Hi _]]; [|lia]. destruct (Nat.eq_dec k (i - 1)) as [D|NE]; [rewrite <- D, Ek in Ea; injection Ea as <-; exact Ha|]. assert (L : flt (Fin b) a) by (apply (sorted_pair e k (i - 1)); auto; lia). exact (flt_trans _ _ _ L Ha). }
    cbn [flt] in X. lra.
Qed.
Lemma rows_finite e x k : edges_ok e -> 1 <= k -> (forall i a, nth_error e i = Some a -> exists b, a = Fin b) ->
  rows_with (map (bsearch_sorted e) x) (S k) = length (filter (fun q => bsearch true e (Fin q) =? k) (finite x)).
Proof.
  intros EO Hk FE. unfold rows_with, finite. assert (EO' := EO). destruct EO' as (LE & SS & NN).
  assert (H0 : exists b, hd NaN e = Fin b) by (destruct e as [|a e]; [cbn in LE; lia|]; exact (FE 0 a eq_refl)).
  assert (HL : exists b, last e NaN = Fin b) by (apply (FE (length e - 1)); apply last_nth; intros ->; cbn in LE; lia). destruct H0 as (b0 & H0). destruct HL as (bl & HL).
  induction x as [|v x IH]; [reflexivity|]. cbn [map filter flat_map]. rewrite filter_app, app_length. destruct v as [|q| |]; cbn [filter length Nat.add].
  - assert (X : bsearch_sorted e NegInf = 1) by (apply sorted_clip; [exact EO|split; [discriminate|right; left; rewrite H0; exact I]]). rewrite X. cbn [Nat.eqb]. destruct k; [lia|]. exact IH.
  - unfold bsearch_sorted at 1. cbn [is_nan]. change (S (bsearch true e (Fin q)) =? S k) with (bsearch true e (Fin q) =? k). destruct (bsearch true e (Fin q) =? k); cbn [length]; rewrite IH; reflexivity.
  - assert (X : bsearch_sorted e PosInf = 1) by (apply sorted_clip; [exact EO|split; [discriminate|right; right; rewrite HL; exact I]]). rewrite X. cbn [Nat.eqb]. destruct k; [lia|]. exact IH.
  - exact IH.
Qed.
Lemma count_split {A} (f : A -> nat) l k : length (filter (fun a => f a <=? S k) l) = length (filter (fun a => f a <=? k) l) + length (filter (fun a => f a =? S k) l).
Proof.
  induction l as [|a l IH]; [reflexivity|]. cbn [filter]. destruct (Nat.leb_spec (f a) (S k)); destruct (Nat.leb_spec (f a) k); destruct (Nat.eqb_spec (f a) (S k)); cbn [length]; lia.
Qed.
Lemma bin_size e x k b : edges_ok e -> (forall i a, nth_error e i = Some a -> exists b, a = Fin b) -> (forall q, In q (finite x) -> ~ outside e (Fin q)) -> 1 <= k -> nth_error e k = Some (Fin b) ->
  match k with
  | 0 => True
  | 1 => rows_with (map (bsearch_sorted e) x) 2 = length (filter (fun q => Qle_bool q b) (finite x))
  | S j => forall a, nth_error e j = Some (Fin a) ->
      rows_with (map (bsearch_sorted e) x) (S k) + length (filter (fun q => Qle_bool q a) (finite x)) = length (filter (fun q => Qle_bool q b) (finite x))
  end.
Proof.
  intros EO FE IN Hk Ek.
  assert (C : forall j c, 1 <= j -> nth_error e j = Some (Fin c) -> length (filter (fun q => bsearch true e (Fin q) <=? j) (finite x)) = length (filter (fun q => Qle_bool q c) (finite x))).
  { intros j c Hj Ej. f_equal. apply filter_ext_in. intros q I. pose proof (code_le e q j c EO (IN q I) Hj Ej) as CL. destruct (Qle_bool q c) eqn:Q; [apply Qle_bool_iff in Q; apply Nat.leb_le; tauto|]. apply Nat.leb_gt. apply Qle_bool_false in Q. destruct (Nat.le_gt_cases (bsearch true e (Fin q)) j) as [G|G]; [|exact G]. apply CL in G. lra. }
  destruct k as [|[|j]]; [exact I| |].
  - rewrite <- (C 1 b Hk Ek), count_split. rewrite (rows_finite e x 1 EO Hk FE).
    assert (Z : filter (fun q => bsearch true e (Fin q) <=? 0) (finite x) = []).
    { apply filter_none. intros q I. apply Nat.leb_gt. destruct (bsearch true e (Fin q)) eqn:B; [|lia]. exfalso. apply (IN q I). now apply bsearch_out. }
    rewrite Z. reflexivity.
  - intros a Ea. rewrite <- (C (S (S j)) b Hk Ek), <- (C (S j) a ltac:(lia) Ea), (count_split (fun q => bsearch true e (Fin q)) (finite x) (S j)), (rows_finite e x (S (S j)) EO Hk FE). lia.
Qed.
(** all values are between the first and the last quantile *)
Lemma quantiles_cover l n vs : l <> [] -> 1 <= n -> Forall2 (quantile_at l) (quants (NQuant n)) vs -> forall q, In q l -> ~ flt (Fin q) (hd NaN (map Fin vs)) /\ ~ flt (last (map Fin vs) NaN) (Fin q).
Proof.
  intros NE N F q I. pose proof (forall2_length _ _ _ F) as LEN. rewrite nquant_length in LEN.
  destruct (forall2_nth _ _ _ F 0 _ (nquant_nth n 0 ltac:(lia))) as (v0 & E0 & Q0). destruct (forall2_nth _ _ _ F n _ (nquant_nth n n ltac:(lia))) as (vn & En & Qn').
  assert (LN : nth_error (map Fin vs) (length (map Fin vs) - 1) = Some (last (map Fin vs) NaN)) by (apply last_nth; intros X; apply (f_equal (@length _)) in X; rewrite map_length in X; cbn in X; lia).
  rewrite map_length, <- LEN in LN. replace (n + 1 - 1) with n in LN by lia. rewrite (map_nth_error Fin n vs En) in LN. injection LN as LN. rewrite <- LN.
  assert (HD : hd NaN (map Fin vs) = Fin v0) by (destruct vs; [discriminate|]; injection E0 as ->; reflexivity). rewrite HD. cbn [flt].
  pose proof (Qn_lt 0 n ltac:(lia)) as P. change (Qn 0) with 0%Q in P. split.
  - assert (Z : (0 + Qn 0 * ((1 - 0) / Qn n) == 0)%Q) by (rewrite (nquant_eq n 0 N); change (Qn 0) with 0%Q; field; lra). pose proof (quantile_0 l _ v0 q Z Q0 I). lra.
  - assert (Z : (0 + Qn n * ((1 - 0) / Qn n) == 1)%Q) by (rewrite (nquant_eq n n N); field; lra). pose proof (quantile_1 l _ vn q NE Z Qn' I). lra.
Qed.
Lemma quantiles_mono l qs vs : l <> [] -> (forall q, In q qs -> (0 <= q <= 1)%Q) -> StronglySorted Qlt qs -> Forall2 (quantile_at l) qs vs -> decreases (map Fin vs) = false.
Proof.
  intros NE H SS F. induction F as [|q v qs vs QA F IH]; [reflexivity|]. inversion SS as [|? ? S1 S2]; subst. cbn [map]. destruct F as [|p w qs vs QB F]; [reflexivity|].
  change (fl_ltb (Fin w) (Fin v) || decreases (map Fin (w :: vs)) = false). rewrite IH; [|intros r I; apply H; now right|exact S1]. rewrite orb_false_r. apply ltb_false. cbn [flt]. inversion S2 as [|? ? L _]; subst.
  assert (v <= w)%Q by (apply (quantile_mono l q p v w NE); auto; split; [apply (H q); now left|lra]). lra.
Qed.
(** edges in order, without equal ones, are increasing *)
Lemma nondec_strict e : ~ In NaN e -> decreases e = false -> (forall i j a b, i < j -> nth_error e i = Some a -> nth_error e j = Some b -> ~ feq a b) -> StronglySorted flt e.
Proof.
  intros N D NE. assert (STEP : forall e, ~ In NaN e -> decreases e = false -> (forall i a b, nth_error e i = Some a -> nth_error e (S i) = Some b -> ~ feq a b) -> Sorted flt e).
  { clear. induction e as [|a e IH]; intros N D NE; [constructor|]. destruct e as [|b e]; [repeat constructor|]. change (fl_ltb b a || decreases (b :: e) = false) in D. apply orb_false_iff in D. destruct D as [D1 D2]. constructor.
    - apply IH; [intros I; apply N; now right|exact D2|]. intros i x y X Y. exact (NE (S i) x y X Y).
    - constructor. apply ltb_false in D1. destruct (tri a b) as [T|[T|T]]; [intros ->; apply N; now left|intros ->; apply N; right; now left|exact T| |contradiction]. exfalso. exact (NE 0 a b eq_refl eq_refl T). }
  apply Sorted_StronglySorted; [intros a b c; apply flt_trans|]. apply STEP; auto. intros i a b A B. apply (NE i (S i)); auto.
Qed.
