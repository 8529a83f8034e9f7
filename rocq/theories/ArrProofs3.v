(** Proofs about quantiles and sampling. *)
From Coq Require Import List Arith Bool ZArith QArith Qround Lia Lqa Permutation Sorting.Sorted.
From Verif Require Import GroupModel MergeModel DsModel ArrModel ArrSpec ArrProofs.
Import ListNotations.
Local Close Scope Q_scope.

(** ** order statistics *)
Lemma Qle_bool_false x y : Qle_bool x y = false <-> (y < x)%Q.
Proof.
  split; intros H.
  - destruct (Qlt_le_dec y x) as [L|L]; [exact L|]. apply Qle_bool_iff in L. congruence.
  - destruct (Qle_bool x y) eqn:E; [|reflexivity]. apply Qle_bool_iff in E. exfalso. lra.
Qed.
Lemma filter_perm_len {A} (f : A -> bool) a b : Permutation a b -> length (filter f a) = length (filter f b).
Proof.
  induction 1 as [|x a b P IH|x y a|a b c P1 IH1 P2 IH2]; cbn; try lia.
  - destruct (f x); cbn; lia.
  - destruct (f x), (f y); cbn; lia.
Qed.
Lemma kth_perm a b k v : Permutation a b -> kth a k v -> kth b k v.
Proof.
  intros P ((w & I & E) & L). split.
  - exists w. split; [exact (Permutation_in _ P I)|exact E].
  - now rewrite <- !(filter_perm_len _ a b P).
Qed.
Lemma sorted_nth (w : list Q) : StronglySorted Qle w -> forall i j a b, i <= j -> nth_error w i = Some a -> nth_error w j = Some b -> (a <= b)%Q.
Proof.
  induction 1 as [|x w S IH F]; intros i j a b L Ha Hb; [destruct i; discriminate|]. rewrite Forall_forall in F.
  destruct i as [|i], j as [|j]; cbn in *; try lia.
  - assert (a = b) by congruence. subst. apply Qle_refl.
  - injection Ha as <-. apply F. exact (nth_error_In _ _ Hb).
  - apply (IH i j); [lia|assumption|assumption].
Qed.
Lemma filter_none {A} (f : A -> bool) l : (forall x, In x l -> f x = false) -> filter f l = [].
Proof. induction l as [|x l IH]; intros H; [reflexivity|]. cbn. rewrite (H x) by now left. apply IH. intros y Y. apply H. now right. Qed.
Lemma filter_all {A} (f : A -> bool) l : (forall x, In x l -> f x = true) -> filter f l = l.
Proof. induction l as [|x l IH]; intros H; [reflexivity|]. cbn. rewrite (H x) by now left. f_equal. apply IH. intros y Y. apply H. now right. Qed.
Lemma filter_le {A} (f : A -> bool) l : length (filter f l) <= length l.
Proof. induction l as [|x l IH]; cbn; [lia|]. destruct (f x); cbn; lia. Qed.
Lemma sorted_kth (w : list Q) k v : StronglySorted Qle w -> nth_error w k = Some v -> kth w k v.
Proof.
  intros S H. assert (Lk : k < length w) by (apply nth_error_Some; congruence). split; [exists v; split; [exact (nth_error_In _ _ H)|apply Qeq_refl]|]. split.
  - rewrite <- (firstn_skipn k w) at 1. rewrite filter_app, app_length. rewrite (filter_none _ (skipn k w)).
    + cbn. rewrite Nat.add_0_r. eapply Nat.le_trans; [apply filter_le|]. rewrite firstn_length. lia.
    + intros x X. apply In_nth_error in X. destruct X as (i & X). rewrite nth_error_skip in X.
      apply negb_false_iff. apply Qle_bool_iff. apply (sorted_nth w S k (k + i)); [lia|exact H|exact X].
  - rewrite <- (firstn_skipn (k + 1) w) at 1. rewrite filter_app, app_length. rewrite (filter_all _ (firstn (k + 1) w)).
    + rewrite firstn_length. lia.
    + intros x X. apply In_nth_error in X. destruct X as (i & X). rewrite nth_error_firstn in X. destruct (Nat.ltb_spec i (k + 1)); [|discriminate].
      apply Qle_bool_iff. apply (sorted_nth w S i k); [lia|exact X|exact H].
Qed.
Lemma kth_mono l k k' a a' : k <= k' -> kth l k a -> kth l k' a' -> (a <= a')%Q.
Proof.
  intros L (_ & H1 & H2) (_ & H3 & H4). destruct (Qlt_le_dec a' a) as [X|X]; [|exact X]. exfalso.
  assert (C : length (filter (fun x => Qle_bool x a') l) <= length (filter (fun x => negb (Qle_bool a x)) l)).
  { clear - X. induction l as [|x l IH]; cbn; [lia|]. destruct (Qle_bool x a') eqn:E1; destruct (Qle_bool a x) eqn:E2; cbn; try lia.
    apply Qle_bool_iff in E1, E2. exfalso. lra. }
  lia.
Qed.
Lemma kth_unique l k a a' : kth l k a -> kth l k a' -> (a == a')%Q.
Proof. intros H1 H2. apply Qle_antisym; eapply kth_mono; eauto. Qed.
Lemma kth_lt l k a : kth l k a -> k < length l.
Proof. intros (_ & _ & H). pose proof (filter_le (fun x => Qle_bool x a) l). lia. Qed.

Lemma floor_nonneg q : (0 <= q)%Q -> (0 <= Qfloor q)%Z.
Proof. intros H. change 0%Z with (Qfloor 0). now apply Qfloor_resp_le. Qed.
Lemma frac_bounds q : (0 <= frac q)%Q /\ (frac q < 1)%Q.
Proof.
  unfold frac. pose proof (Qfloor_le q). pose proof (Qlt_floor q) as H1. rewrite inject_Z_plus in H1. change (inject_Z 1) with 1%Q in H1. split; lra.
Qed.
Lemma quantile_bounds l q v : quantile_at l q v -> exists a b,
  kth l (Z.to_nat (Qfloor (q * inject_Z (Z.of_nat (length l) - 1))%Q)) a /\
  (kth l (Z.to_nat (Qfloor (q * inject_Z (Z.of_nat (length l) - 1))%Q) + 1) b \/ (b == a)%Q) /\ (a <= v <= b)%Q /\
  (v == a + frac (q * inject_Z (Z.of_nat (length l) - 1)) * (b - a))%Q.
Proof.
  intros (a & b & Ka & Kb & V). set (h := (q * inject_Z (Z.of_nat (length l) - 1))%Q) in *. fold (frac h) in *. pose proof (frac_bounds h) as (F1 & F2). destruct Kb as [Kb|F0].
  - exists a, b. split; [exact Ka|]. split; [now left|]. split; [|exact V].
    assert (a <= b)%Q by (eapply kth_mono; [|exact Ka|exact Kb]; lia). split; nra.
  - exists a, a. split; [exact Ka|]. split; [right; apply Qeq_refl|]. split; [|rewrite V, F0; lra]. rewrite V, F0. lra.
Qed.
Lemma quantile_mono l q q' v v' : l <> [] -> (0 <= q <= q')%Q -> quantile_at l q v -> quantile_at l q' v' -> (v <= v')%Q.
Proof.
  intros NE (Q0 & QQ) HV HV'. 
  set (m := inject_Z (Z.of_nat (length l) - 1)).
  assert (M0 : (0 <= m)%Q). { unfold m. change 0%Q with (inject_Z 0). rewrite <- Zle_Qle. destruct l; [congruence|]. cbn [length]. lia. }
  assert (HH : (q * m <= q' * m)%Q) by nra. assert (H0 : (0 <= q * m)%Q) by nra.
  destruct (quantile_bounds _ _ _ HV) as (a & b & Ka & Kb & (B1 & B2) & V). destruct (quantile_bounds _ _ _ HV') as (a' & b' & Ka' & Kb' & (B1' & B2') & V').
  fold m in Ka, Kb, V, Ka', Kb', V'. pose proof (Qfloor_resp_le _ _ HH) as FL. pose proof (floor_nonneg _ H0) as F0.
  destruct (Z.eq_dec (Qfloor (q * m)) (Qfloor (q' * m))) as [E|E].
  - unfold frac in *. rewrite <- E in *. pose proof (kth_unique _ _ _ _ Ka Ka') as EA.
    set (k := inject_Z (Qfloor (q * m))) in *. pose proof (frac_bounds (q * m)) as (G1 & G2). unfold frac in G1, G2. fold k in G1, G2.
    assert (D : (0 <= q' * m - q * m)%Q) by lra.
    destruct Kb as [Kb|Kb], Kb' as [Kb'|Kb'].
    + pose proof (kth_unique _ _ _ _ Kb Kb') as EB. rewrite V, V', <- EA, <- EB. assert (a <= b)%Q by (eapply kth_mono; [|exact Ka|exact Kb]; lia). nra.
    + (* v' == a' , then frac' * (b - a) is unknown: use the next order statistic *)
      pose proof (frac_bounds (q' * m)) as (G3 & G4). unfold frac in G3, G4. 
      assert (a <= b)%Q by (eapply kth_mono; [|exact Ka|exact Kb]; lia). 
      (* b' == a': quantile_at gave frac == 0 or equality; recover from the definition *)
      destruct HV' as (a2 & b2 & K2 & [K3|K3] & V2); fold m in K2, K3, V2.
      * rewrite <- E in *. fold k in V2. pose proof (kth_unique _ _ _ _ Ka K2) as E2. pose proof (kth_unique _ _ _ _ Kb K3) as E3.
        rewrite V, V2, <- E2, <- E3. nra.
      * rewrite <- E in K3. fold k in K3. assert (q * m - k == 0)%Q by lra. rewrite V, H1. lra.
    + rewrite V, Kb. lra.
    + rewrite V, Kb. lra.
  - assert (LT : (Qfloor (q * m) + 1 <= Qfloor (q' * m))%Z) by lia.
    apply Qle_trans with b; [exact B2|]. apply Qle_trans with a'; [|exact B1'].
    destruct Kb as [Kb|Kb].
    + eapply kth_mono; [|exact Kb|exact Ka']. lia.
    + rewrite Kb. eapply kth_mono; [|exact Ka|exact Ka']. lia.
Qed.
Lemma quantile_range l q v : quantile_at l q v -> (exists x, In x l /\ (x <= v)%Q) /\ (exists x, In x l /\ (v <= x)%Q).
Proof.
  intros H. destruct (quantile_bounds _ _ _ H) as (a & b & ((w & I & E) & _) & Kb & (B1 & B2) & _). split.
  - exists w. split; [exact I|]. rewrite E. exact B1.
  - destruct Kb as [((w' & I' & E') & _)|Kb].
    + exists w'. split; [exact I'|]. rewrite E'. exact B2.
    + exists w. split; [exact I|]. rewrite E, <- Kb. exact B2.
Qed.

(** a sorted list read at h *)
Lemma read_sorted (w l : list Q) (q v : Q) : StronglySorted Qle w -> Permutation w l -> l <> [] -> (0 <= q <= 1)%Q ->
  let h := (q * inject_Z (Z.of_nat (length l) - 1))%Q in
  let k := Z.to_nat (Qfloor h) in
  exists a, nth_error w k = Some a /\ kth l k a /\
    ((frac h == 0)%Q /\ quantile_at l q a \/
     (~ frac h == 0)%Q /\ exists b, nth_error w (k + 1) = Some b /\ quantile_at l q (a + frac h * (b - a))).
Proof.
  intros S P NE (Q0 & Q1) h k. assert (LW : length w = length l) by now apply Permutation_length.
  assert (Ln : 1 <= length l) by (destruct l; [congruence|cbn; lia]).
  set (m := inject_Z (Z.of_nat (length l) - 1)) in *.
  assert (M0 : (0 <= m)%Q). { unfold m. change 0%Q with (inject_Z 0). rewrite <- Zle_Qle. lia. }
  assert (H0 : (0 <= h)%Q) by (unfold h; nra). assert (H1 : (h <= m)%Q) by (unfold h; nra).
  pose proof (floor_nonneg _ H0) as F0. pose proof (Qfloor_resp_le _ _ H1) as F1. unfold m in F1. rewrite Qfloor_Z in F1.
  assert (Kl : k < length w) by (unfold k; lia).
  destruct (nth_error w k) as [a|] eqn:Ea; [|apply nth_error_None in Ea; lia]. exists a. split; [reflexivity|].
  assert (Ka : kth l k a) by (apply (kth_perm w); [exact P|now apply sorted_kth]). split; [exact Ka|].
  destruct (Qeq_dec (frac h) 0) as [Z|Z].
  - left. split; [exact Z|]. exists a, a. split; [exact Ka|]. split; [right; exact Z|]. lra.
  - right. split; [exact Z|]. assert (K1 : k + 1 < length w).
    { destruct (Z.eq_dec (Qfloor h) (Z.of_nat (length l) - 1)) as [E|E]; [|unfold k; lia]. exfalso. apply Z. unfold frac. rewrite E. fold m.
      pose proof (Qfloor_le h) as B. rewrite E in B. fold m in B. lra. }
    destruct (nth_error w (k + 1)) as [b|] eqn:Eb; [|apply nth_error_None in Eb; lia]. exists b. split; [reflexivity|].
    exists a, b. split; [exact Ka|]. split; [left; apply (kth_perm w); [exact P|now apply sorted_kth]|]. apply Qeq_refl.
Qed.

(** ** sorted arrays of floats *)
Lemma flat_map_perm {A B} (f : A -> list B) a b : Permutation a b -> Permutation (flat_map f a) (flat_map f b).
Proof.
  induction 1 as [|x a b P IH|x y a|a b c P1 IH1 P2 IH2]; cbn.
  - constructor.
  - now apply Permutation_app_head.
  - rewrite !app_assoc. apply Permutation_app_tail. apply Permutation_app_comm.
  - now transitivity (flat_map f b).
Qed.
Lemma fl_sorted_shape s : StronglySorted fl_le s ->
  s = repeat NegInf (count is_ninf s) ++ map Fin (finite s) ++ repeat PosInf (count is_pinf s) ++ repeat NaN (count is_nan s) /\
  StronglySorted Qle (finite s).
Proof.
  induction 1 as [|x s S (IH1 & IH2) F]; [split; [reflexivity|constructor]|]. rewrite Forall_forall in F.
  assert (Z : forall f : fl -> bool, (forall y, In y s -> f y = false) -> count f s = 0) by (intros f H; unfold count; now rewrite filter_none).
  assert (ZF : (forall y, In y s -> match y with Fin _ => False | _ => True end) -> finite s = []).
  { clear. induction s as [|y s IH]; intros H; [reflexivity|]. cbn. pose proof (H y (or_introl eq_refl)). destruct y; try contradiction; cbn; apply IH; intros; apply H; now right. }
  unfold count in *. destruct x; cbn [filter is_ninf is_pinf is_nan length repeat finite flat_map app map].
  - split; [cbn; now f_equal|exact IH2].
  - rewrite (Z is_ninf) in * by (intros y Y; specialize (F y Y); destruct y; [destruct F| | |]; reflexivity). cbn [repeat app] in *. split.
    + f_equal. exact IH1.
    + constructor; [exact IH2|]. rewrite Forall_forall. intros p P. unfold finite in P. apply in_flat_map in P. destruct P as (y & Y1 & Y2). destruct y; cbn in Y2; try contradiction. destruct Y2 as [<-|[]]. exact (F _ Y1).
  - rewrite (Z is_ninf) in * by (intros y Y; specialize (F y Y); destruct y; [destruct F|destruct F| |]; reflexivity).
    assert (E : finite s = []) by (apply ZF; intros y Y; specialize (F y Y); destruct y; [destruct F|destruct F| |]; exact I).
    unfold finite in *. rewrite E in *. cbn [repeat app map] in *. split; [|constructor]. now f_equal.
  - rewrite (Z is_ninf) in * by (intros y Y; specialize (F y Y); destruct y; [destruct F|destruct F|destruct F|]; reflexivity).
    rewrite (Z is_pinf) in * by (intros y Y; specialize (F y Y); destruct y; [destruct F|destruct F|destruct F|]; reflexivity).
    assert (E : finite s = []) by (apply ZF; intros y Y; specialize (F y Y); destruct y; [destruct F|destruct F|destruct F|]; exact I).
    unfold finite in *. rewrite E in *. cbn [repeat app map] in *. split; [|constructor]. now f_equal.
Qed.
Lemma count_parts x : count is_nan x + count is_pinf x + count is_ninf x + length (finite x) = length x.
Proof. unfold count, finite. induction x as [|v x IH]; [reflexivity|]. destruct v; cbn in *; lia. Qed.
Lemma map_nth_seq (x : list fl) : map (fun i => nth i x NaN) (seq 0 (length x)) = x.
Proof.
  apply nth_error_ext'. intros i. rewrite nth_error_map. destruct (Nat.lt_ge_cases i (length x)) as [H|H].
  - rewrite (nth_error_nth' (seq 0 (length x)) 0) by (rewrite seq_length; exact H). rewrite seq_nth by exact H. cbn. symmetry. now apply nth_error_nth'.
  - rewrite (nth_error_none (seq 0 (length x))) by (rewrite seq_length; exact H). now rewrite nth_error_none.
Qed.

Section BinQ.
Variable lexsort : list fl -> list nat.
Hypothesis LS : sorts lexsort.
(** the window read through the sort *)
Lemma window_ok x : let w := finite (map (fun i => nth i x NaN) (lexsort x)) in
  StronglySorted Qle w /\ Permutation w (finite x) /\
  forall k, bind (nth_error (firstn (length x - (count is_nan x + count is_pinf x) - count is_ninf x) (skipn (count is_ninf x) (lexsort x))) k) (nth_error x)
            = option_map Fin (nth_error w k).
Proof.
  intros w. destruct (LS x) as (P & S). set (s := map (fun i => nth i x NaN) (lexsort x)) in *.
  assert (PX : Permutation s x) by (unfold s; transitivity (map (fun i => nth i x NaN) (seq 0 (length x))); [now apply Permutation_map|rewrite map_nth_seq; reflexivity]).
  destruct (fl_sorted_shape s S) as (E & SW). split; [exact SW|]. split; [now apply flat_map_perm|]. intros k.
  assert (C : forall f : fl -> bool, count f s = count f x) by (intros f; now apply filter_perm_len). rewrite !C in E. fold w in E.
  assert (LW : length w = length (finite x)) by (apply Permutation_length, flat_map_perm, PX).
  pose proof (count_parts x) as CP. 
  assert (LL : length (lexsort x) = length x) by (rewrite (Permutation_length P); apply seq_length).
  rewrite nth_error_firstn. destruct (Nat.ltb_spec k (length x - (count is_nan x + count is_pinf x) - count is_ninf x)) as [Lk|Lk].
  - rewrite nth_error_skip. destruct (nth_error (lexsort x) (count is_ninf x + k)) as [r|] eqn:Er; [|apply nth_error_None in Er; lia].
    assert (Rx : r < length x). { apply nth_error_In in Er. apply (Permutation_in _ P) in Er. apply in_seq in Er. lia. }
    cbn [bind]. rewrite (nth_error_nth' x NaN) by exact Rx.
    assert (Q : nth_error s (count is_ninf x + k) = Some (nth r x NaN)) by (unfold s; exact (map_nth_error (fun i => nth i x NaN) _ _ Er)).
    rewrite E in Q. rewrite nth_error_app2 in Q by (rewrite repeat_length; lia). rewrite repeat_length in Q.
    replace (count is_ninf x + k - count is_ninf x) with k in Q by lia.
    rewrite nth_error_app1 in Q by (rewrite map_length; lia). rewrite nth_error_map in Q. symmetry. exact Q.
  - rewrite (nth_error_none w) by lia. reflexivity.
Qed.
Lemma bin_quantile_shape m x q :
  bin_quantile lexsort m x q =
  let w := finite (map (fun i => nth i x NaN) (lexsort x)) in
  if length (finite x) =? 0 then Some NaN
  else
    let h := (q * inject_Z (Z.of_nat (length (finite x)) - 1))%Q in
    let k := Z.to_nat (Qfloor h) in
    if Qeq_bool (frac h) 0 then option_map Fin (nth_error w k)
    else match m with
         | Fraction => bind (option_map Fin (nth_error w k)) (fun a => bind (option_map Fin (nth_error w (k + 1))) (fun b => Some (lerp a b (frac h))))
         | _ => None
         end.
Proof.
  pose proof (window_ok x) as (_ & _ & W). pose proof (count_parts x) as CP. unfold bin_quantile.
  set (w := finite (map (fun i => nth i x NaN) (lexsort x))) in *.
  assert (D : (if 0 <? count is_ninf x + count is_nan x + count is_pinf x then length x - (count is_nan x + count is_pinf x + count is_ninf x) else length x) = length (finite x)).
  { destruct (Nat.ltb_spec 0 (count is_ninf x + count is_nan x + count is_pinf x)); lia. }
  assert (V : forall k, bind (nth_error (if 0 <? count is_ninf x + count is_nan x + count is_pinf x
     then firstn (length x - (count is_nan x + count is_pinf x) - count is_ninf x) (skipn (count is_ninf x) (lexsort x)) else lexsort x) k) (nth_error x) = option_map Fin (nth_error w k)).
  { intros k. rewrite <- W. destruct (Nat.ltb_spec 0 (count is_ninf x + count is_nan x + count is_pinf x)) as [H|H]; [reflexivity|].
    replace (count is_ninf x) with 0 by lia. cbn [skipn]. rewrite firstn_all2; [reflexivity|].
    destruct (LS x) as (P & _). rewrite (Permutation_length P), seq_length. lia. }
  cbv zeta. rewrite D. destruct (length (finite x) =? 0); [reflexivity|]. rewrite !V. reflexivity.
Qed.
Lemma bin_quantile_ok x q : (0 <= q <= 1)%Q ->
  match finite x with
  | [] => forall m, bin_quantile lexsort m x q = Some NaN
  | _ => exists v, bin_quantile lexsort Fraction x q = Some (Fin v) /\ quantile_at (finite x) q v
  end.
Proof.
  intros Q01. pose proof (window_ok x) as (S & P & _). destruct (finite x) as [|f0 fr] eqn:EF.
  - intros m. rewrite bin_quantile_shape, EF. reflexivity.
  - assert (NE : finite x <> []) by (rewrite EF; discriminate). rewrite <- EF in *. rewrite bin_quantile_shape.
    destruct (length (finite x) =? 0) eqn:E0; [apply Nat.eqb_eq, length_zero_iff_nil in E0; contradiction|]. cbv zeta.
    destruct (read_sorted _ (finite x) q 0%Q S P NE Q01) as (a & Ha & Ka & [(Z & QA)|(Z & b & Hb & QA)]).
    + rewrite (proj2 (Qeq_bool_iff _ _) Z), Ha. exists a. split; [reflexivity|exact QA].
    + destruct (Qeq_bool _ 0) eqn:Eq; [apply Qeq_bool_iff in Eq; contradiction|]. rewrite Ha, Hb. cbn [option_map bind lerp].
      eexists. split; [reflexivity|]. destruct QA as (a' & b' & K1 & K2 & V). exists a', b'. split; [exact K1|]. split; [exact K2|]. rewrite <- V. ring.
Qed.
Lemma bin_quantile_grid m x q k : (0 <= q <= 1)%Q -> finite x <> [] -> (q * inject_Z (Z.of_nat (length (finite x)) - 1) == inject_Z (Z.of_nat k))%Q ->
  exists v, bin_quantile lexsort m x q = Some (Fin v) /\ kth (finite x) k v.
Proof.
  intros Q01 NE E. pose proof (window_ok x) as (S & P & _). rewrite bin_quantile_shape.
  destruct (length (finite x) =? 0) eqn:E0; [apply Nat.eqb_eq, length_zero_iff_nil in E0; contradiction|]. cbv zeta.
  destruct (read_sorted _ (finite x) q 0%Q S P NE Q01) as (a & Ha & Ka & H).
  assert (FK : Qfloor (q * inject_Z (Z.of_nat (length (finite x)) - 1))%Q = Z.of_nat k) by (rewrite E; apply Qfloor_Z).
  assert (Z : (frac (q * inject_Z (Z.of_nat (length (finite x)) - 1)) == 0)%Q) by (unfold frac; rewrite FK, E; ring).
  rewrite (proj2 (Qeq_bool_iff _ _) Z), Ha. exists a. split; [reflexivity|]. rewrite FK, Nat2Z.id in Ka. exact Ka.
Qed.
End BinQ.

(** ** rt_utils quantile and describe *)
Section UtilQ.
Variable qsort : list Q -> list Q.
Hypothesis QS : sorts_q qsort.
Lemma somes_valid arr : somes arr = valid_values arr. Proof. reflexivity. Qed.
Lemma valid_count (arr : list elem) : count isnotnan arr = length (valid_values arr).
Proof. unfold count, valid_values. induction arr as [|[v|] r IH]; cbn in *; lia. Qed.
Lemma invalid_count (arr : list elem) : count (fun x : elem => match x with None => true | _ => false end) arr + length (valid_values arr) = length arr.
Proof. unfold count, valid_values. induction arr as [|[v|] r IH]; cbn in *; lia. Qed.
Lemma sorted_length signed (arr : list elem) : length (sort_elems qsort signed arr) = length arr.
Proof.
  unfold sort_elems. change (somes arr) with (valid_values arr). pose proof (invalid_count arr) as C. pose proof (Permutation_length (proj1 (QS (valid_values arr)))) as L.
  destruct signed; rewrite app_length, map_length, repeat_length; lia.
Qed.
(** the window of valid values *)
Lemma valid_prefix (arr : list elem) : count isnotnan arr <> length arr \/ count isnotnan arr = length arr ->
  getslice (Some 0%Z) (Some (Z.of_nat (count isnotnan arr))) (sort_elems qsort false arr) = map Some (qsort (valid_values arr)).
Proof.
  intros _. unfold getslice. rewrite sorted_length. cbn [lo_bound hi_bound]. pose proof (invalid_count arr) as C. rewrite valid_count.
  rewrite !bound_pos by lia. rewrite Nat2Z.id. cbn [Z.to_nat skipn]. rewrite Nat.sub_0_r. unfold sort_elems. change (somes arr) with (valid_values arr).
  pose proof (Permutation_length (proj1 (QS (valid_values arr)))) as L. rewrite firstn_app, firstn_all2 by (rewrite map_length; lia).
  rewrite map_length, L, Nat.sub_diag. cbn. apply app_nil_r.
Qed.
Lemma valid_suffix (arr : list elem) :
  getslice (Some (Z.of_nat (length arr - count isnotnan arr))) None (sort_elems qsort true arr) = map Some (qsort (valid_values arr)).
Proof.
  unfold getslice. rewrite sorted_length. cbn [lo_bound hi_bound]. pose proof (invalid_count arr) as C. rewrite valid_count.
  rewrite bound_pos by lia. rewrite Nat2Z.id. unfold sort_elems. change (somes arr) with (valid_values arr).
  pose proof (Permutation_length (proj1 (QS (valid_values arr)))) as L.
  rewrite skipn_app, repeat_length. rewrite skipn_all2 by (rewrite repeat_length; lia).
  replace (length arr - length (valid_values arr) - _) with 0 by lia. cbn [skipn app]. apply firstn_all2. rewrite map_length. lia.
Qed.
Lemma valid_whole signed (arr : list elem) : count isnotnan arr = length arr -> sort_elems qsort signed arr = map Some (qsort (valid_values arr)).
Proof.
  intros E. pose proof (invalid_count arr) as C. rewrite valid_count in E. unfold sort_elems. change (somes arr) with (valid_values arr).
  replace (count _ arr) with 0 by lia. destruct signed; cbn; [reflexivity|apply app_nil_r].
Qed.
Lemma interpolate_ok (l : list Q) q : l <> [] -> (0 <= q <= 1)%Q ->
  exists v, interpolate (map Some (qsort l)) (q * inject_Z (Z.of_nat (length l) - 1)) = Some (Some v) /\ quantile_at l q v.
Proof.
  intros NE Q01. destruct (QS l) as (P & S). pose proof (Permutation_length P) as L.
  assert (Ln : 1 <= length l) by (destruct l; [congruence|cbn; lia]).
  unfold interpolate. rewrite map_length, L. set (m := inject_Z (Z.of_nat (length l) - 1)).
  assert (M0 : (0 <= m)%Q). { unfold m. change 0%Q with (inject_Z 0). rewrite <- Zle_Qle. lia. }
  destruct (Qle_bool 0 (q * m)) eqn:E1; [|apply Qle_bool_false in E1; exfalso; nra].
  destruct (Qle_bool (q * m) m) eqn:E2; [|apply Qle_bool_false in E2; exfalso; nra].
  destruct (read_sorted (qsort l) l q 0%Q S P NE Q01) as (a & Ha & Ka & [(Z & QA)|(Z & b & Hb & QA)]); fold m in Z, QA || fold m in Z; try fold m in Ha, Ka; try fold m in Hb.
  - rewrite (proj2 (Qeq_bool_iff _ _) Z). rewrite nth_error_map, Ha. exists a. split; [reflexivity|exact QA].
  - destruct (Qeq_bool _ 0) eqn:Eq; [apply Qeq_bool_iff in Eq; contradiction|]. rewrite !nth_error_map, Ha, Hb. cbn [option_map bind].
    eexists. split; [reflexivity|]. destruct QA as (a' & b' & K1 & K2 & V). exists a', b'. split; [exact K1|]. split; [exact K2|]. rewrite <- V. ring.
Qed.
Lemma all_quantiles (l : list Q) qs : l <> [] -> (forall q, In q qs -> (0 <= q <= 1)%Q) ->
  exists r, all_some (map (fun p => interpolate (map Some (qsort l)) (p * inject_Z (Z.of_nat (length l) - 1))) qs) = Some (map Some r) /\
    Forall2 (fun q v => quantile_at l q v) qs r.
Proof.
  intros NE. induction qs as [|q qs IH]; intros H; [exists []; split; [reflexivity|constructor]|].
  destruct (interpolate_ok l q NE (H q (or_introl eq_refl))) as (v & Ev & Hv).
  destruct IH as (r & Er & Hr); [intros; apply H; now right|]. exists (v :: r). cbn [map all_some]. rewrite Ev. cbn [all_some]. rewrite Er. split; [reflexivity|now constructor].
Qed.
Lemma util_quantile_ok signed (arr : list elem) qs : valid_values arr <> [] -> (forall q, In q qs -> (0 <= q <= 1)%Q) ->
  signed = false \/ length (valid_values arr) = length arr ->
  exists r, util_quantile qsort signed arr qs = Some (map Some r) /\ Forall2 (fun q v => quantile_at (valid_values arr) q v) qs r.
Proof.
  intros NE HQ C. destruct (all_quantiles (valid_values arr) qs NE HQ) as (r & Er & Hr). exists r. split; [|exact Hr].
  unfold util_quantile. cbv zeta. destruct (Nat.eqb_spec (count isnotnan arr) 0) as [Z|Z].
  { rewrite valid_count in Z. apply length_zero_iff_nil in Z. contradiction. }
  destruct (Nat.eqb_spec (count isnotnan arr) (length arr)) as [E|E].
  - rewrite (valid_whole signed arr E). rewrite valid_count. exact Er.
  - destruct C as [->|C]; [|rewrite valid_count in E; contradiction]. rewrite valid_prefix by tauto. rewrite valid_count. exact Er.
Qed.

Lemma getslice_nat {A} a b (l : list A) : b <= length l -> a <= length l -> getslice (Some (Z.of_nat a)) (Some (Z.of_nat b)) l = firstn (b - a) (skipn a l).
Proof. intros H H'. unfold getslice. cbn [lo_bound hi_bound]. rewrite !bound_pos by lia. now rewrite !Nat2Z.id. Qed.

Lemma describe_ok signed (arr : list elem) qs : valid_values arr <> [] -> (forall q, In q qs -> (0 <= q <= 1)%Q) ->
  exists d r mn mx lo mid hi, describe qsort signed arr qs = Some d /\
    d_count d = length arr /\ d_valid d = length (valid_values arr) /\
    d_nans d = Some (inject_Z (Z.of_nat (length arr - length (valid_values arr)))) /\
    d_quantiles d = map Some r /\ Forall2 (fun q v => quantile_at (valid_values arr) q v) qs r /\
    d_min d = Some mn /\ In mn (valid_values arr) /\ (forall x, In x (valid_values arr) -> (mn <= x)%Q) /\
    d_max d = Some mx /\ In mx (valid_values arr) /\ (forall x, In x (valid_values arr) -> (x <= mx)%Q) /\
    d_middle d = map Some mid /\ Permutation (valid_values arr) (lo ++ mid ++ hi) /\ StronglySorted Qle (lo ++ mid ++ hi) /\
    length lo = (length (valid_values arr) - 1) / 10 /\ length hi = length lo.
Proof.
  intros NE HQ. set (l := valid_values arr) in *. destruct (all_quantiles l qs NE HQ) as (r & Er & Hr).
  destruct (QS l) as (P & S). pose proof (Permutation_length P) as L. set (w := qsort l) in *.
  assert (Ln : 1 <= length l) by (destruct l; [congruence|cbn; lia]).
  destruct (nth_error w 0) as [mn|] eqn:E0; [|apply nth_error_None in E0; lia].
  destruct (nth_error w (length w - 1)) as [mx|] eqn:E1; [|apply nth_error_None in E1; lia].
  assert (VW : (if count isnotnan arr =? length arr then sort_elems qsort signed arr
      else if signed then getslice (Some (Z.of_nat (length arr - count isnotnan arr))) None (sort_elems qsort signed arr)
      else getslice (Some 0%Z) (Some (Z.of_nat (count isnotnan arr))) (sort_elems qsort signed arr)) = map Some w).
  { destruct (Nat.eqb_spec (count isnotnan arr) (length arr)) as [E|E]; [exact (valid_whole signed arr E)|].
    destruct signed; [apply valid_suffix|apply valid_prefix; tauto]. }
  set (m := length l - 1). set (a := m / 10).
  set (e := let d9 := 9 * m / 10 in let d9 := if 9 * m mod 10 =? 0 then d9 else d9 + 1 in let d9 := d9 + 1 in if length l <? d9 then length l else d9).
  assert (EE : e = length l - a).
  { unfold e, a. cbv zeta. pose proof (Nat.div_mod_eq m 10) as D1. pose proof (Nat.mod_upper_bound m 10 ltac:(lia)).
    pose proof (Nat.div_mod_eq (9 * m) 10) as D2. pose proof (Nat.mod_upper_bound (9 * m) 10 ltac:(lia)).
    destruct (Nat.eqb_spec ((9 * m) mod 10) 0) as [Z|Z].
    - destruct (Nat.ltb_spec (length l) (9 * m / 10 + 1)); unfold m in *; lia.
    - destruct (Nat.ltb_spec (length l) (9 * m / 10 + 1 + 1)); unfold m in *; lia. }
  assert (A2 : a + a <= length l). { unfold a. pose proof (Nat.div_mod_eq m 10). unfold m in *. lia. }
  assert (G : @getslice elem (Some (Z.of_nat a)) (Some (Z.of_nat e)) (map Some w) = map Some (firstn (length l - a - a) (skipn a w))).
  { rewrite getslice_nat by (rewrite map_length; lia). rewrite EE. now rewrite skipn_map, firstn_map. }
  eexists (mkDesc (length arr) (length l) _ (Some mn) (map Some r) (Some mx) _), r, mn, mx, (firstn a w), (firstn (length l - a - a) (skipn a w)), (skipn (length l - a) w).
  split; [|split; [reflexivity|]].
  { unfold describe. cbv zeta. rewrite VW, !valid_count. fold l. destruct (Nat.eqb_spec (length l) 0) as [Z|Z]; [lia|]. fold m a.
    rewrite Er. cbn [bind]. rewrite !nth_error_map, E0, map_length, E1. cbn [option_map bind].
    match goal with |- context [getslice (Some (Z.of_nat a)) (Some (Z.of_nat ?x)) _] => change x with e end. rewrite G. reflexivity. }
  cbn [d_count d_valid d_nans d_min d_quantiles d_max d_middle].
  split; [reflexivity|]. split. { destruct (Nat.eqb_spec (length l) (length arr)) as [->|]; [now rewrite Nat.sub_diag|reflexivity]. }
  split; [reflexivity|]. split; [exact Hr|]. split; [reflexivity|].
  assert (SPLIT : firstn a w ++ firstn (length l - a - a) (skipn a w) ++ skipn (length l - a) w = w).
  { rewrite <- (firstn_skipn a w) at 4. f_equal. rewrite <- (firstn_skipn (length l - a - a) (skipn a w)) at 2. f_equal.
    apply nth_error_ext'. intros i. rewrite !nth_error_skip. f_equal. lia. }
  split; [apply (Permutation_in _ P); exact (nth_error_In _ _ E0)|].
  split. { intros x X. apply (Permutation_in _ (Permutation_sym P)) in X. apply In_nth_error in X. destruct X as (i & X). apply (sorted_nth w S 0 i); [lia|exact E0|exact X]. }
  split; [reflexivity|]. split; [apply (Permutation_in _ P); exact (nth_error_In _ _ E1)|].
  split. { intros x X. apply (Permutation_in _ (Permutation_sym P)) in X. apply In_nth_error in X. destruct X as (i & X). assert (i < length w) by (apply nth_error_Some; congruence). apply (sorted_nth w S i (length w - 1)); [lia|exact X|exact E1]. }
  split; [reflexivity|]. rewrite SPLIT. split; [now symmetry|]. split; [exact S|]. split; [rewrite firstn_length; unfold a, m in *; lia|].
  rewrite skipn_length, firstn_length. lia.
Qed.
End UtilQ.

(** ** sample *)
Lemma all_some_map {A B} (f : A -> option B) l : (forall x, In x l -> f x <> None) -> exists r, all_some (map f l) = Some r /\ Forall2 (fun x y => f x = Some y) l r.
Proof.
  induction l as [|x l IH]; intros H; [exists []; split; [reflexivity|constructor]|]. destruct IH as (r & E & F); [intros; apply H; now right|].
  destruct (f x) as [y|] eqn:Q; [|elim (H x (or_introl eq_refl) Q)]. exists (y :: r). cbn. rewrite Q, E. split; [reflexivity|now constructor].
Qed.
Lemma select_in (m : list bool) : forall off i, In i (select m (seq off (length m))) <-> off <= i < off + length m /\ nth_error m (i - off) = Some true.
Proof.
  induction m as [|b m IH]; intros off i; cbn [length seq select].
  - cbn. split; [intros []|lia].
  - assert (X : In i (select m (seq (S off) (length m))) <-> S off <= i < off + S (length m) /\ nth_error (b :: m) (i - off) = Some true).
    { rewrite IH. split; intros (H1 & H2); (split; [lia|]); replace (i - off) with (S (i - S off)) in * by lia; exact H2. }
    destruct b; cbn [In]; rewrite X; split.
    + intros [<-|(H1 & H2)]; [rewrite Nat.sub_diag; cbn; split; [lia|reflexivity]|split; [lia|exact H2]].
    + intros (H1 & H2). destruct (Nat.eq_dec off i) as [->|D]; [now left|right; split; [lia|exact H2]].
    + intros (H1 & H2). split; [lia|exact H2].
    + intros (H1 & H2). destruct (Nat.eq_dec off i) as [->|D]; [rewrite Nat.sub_diag in H2; discriminate|split; [lia|exact H2]].
Qed.
Lemma select_nodup (m : list bool) : forall (l : list nat), NoDup l -> NoDup (select m l).
Proof.
  assert (I : forall m (l : list nat) x, In x (select m l) -> In x l).
  { clear. induction m as [|b m IH]; intros [|y l] x; cbn; try tauto. destruct b; cbn; intros H; [destruct H; [tauto|right; eauto]|right; eauto]. }
  induction m as [|b m IH]; intros [|x l] N; cbn; try constructor. inversion N; subst. destruct b; [constructor|]; auto. intros Z. apply I in Z. contradiction.
Qed.
Lemma select_count (m : list bool) : forall (l : list nat), length m = length l -> length (select m l) = length (filter (fun b => b) m).
Proof. induction m as [|b m IH]; intros [|x l] L; try discriminate; [reflexivity|]. cbn. destruct b; cbn; rewrite IH by (cbn in L; lia); reflexivity. Qed.

(** ** an insertion sort, to show that the contracts of the sorts can be met *)
Section ISort.
Context {A : Type}.
Variable leb : A -> A -> bool.
Hypothesis total : forall a b, leb a b = true \/ leb b a = true.
Hypothesis trans : forall a b c, leb a b = true -> leb b c = true -> leb a c = true.
Fixpoint ins (x : A) (l : list A) : list A := match l with [] => [x] | y :: r => if leb x y then x :: l else y :: ins x r end.
Definition isort (l : list A) : list A := fold_right ins [] l.
Lemma ins_perm x l : Permutation (ins x l) (x :: l).
Proof. induction l as [|y r IH]; cbn; [reflexivity|]. destruct (leb x y); [reflexivity|]. rewrite IH. apply perm_swap. Qed.
Lemma isort_perm l : Permutation (isort l) l.
Proof. induction l as [|x l IH]; cbn; [constructor|]. rewrite ins_perm. now constructor. Qed.
Lemma ins_sorted x l : StronglySorted (fun a b => leb a b = true) l -> StronglySorted (fun a b => leb a b = true) (ins x l).
Proof.
  induction 1 as [|y r S IH F]; cbn; [constructor; constructor|]. destruct (leb x y) eqn:E.
  - constructor; [now constructor|]. constructor; [exact E|]. rewrite Forall_forall in *. intros z Z. eapply trans; eauto.
  - constructor; [exact IH|]. rewrite Forall_forall in *. intros z Z. apply (Permutation_in _ (ins_perm x r)) in Z. destruct Z as [<-|Z]; [|auto].
    destruct (total x y); congruence.
Qed.
Lemma isort_sorted l : StronglySorted (fun a b => leb a b = true) (isort l).
Proof. induction l as [|x l IH]; cbn; [constructor|]. now apply ins_sorted. Qed.
End ISort.
Lemma sorted_weaken {A} (R1 R2 : A -> A -> Prop) l : (forall a b, R1 a b -> R2 a b) -> StronglySorted R1 l -> StronglySorted R2 l.
Proof. intros H. induction 1; constructor; auto. rewrite Forall_forall in *. auto. Qed.
Lemma sorted_map {A B} (f : A -> B) (R : B -> B -> Prop) l : StronglySorted (fun a b => R (f a) (f b)) l -> StronglySorted R (map f l).
Proof. induction 1; cbn; constructor; auto. rewrite Forall_forall in *. intros y Y. apply in_map_iff in Y. destruct Y as (x & <- & X). auto. Qed.
Definition fl_leb (a b : fl) : bool :=
  match a, b with
  | NegInf, _ => true
  | Fin p, Fin q => Qle_bool p q
  | Fin _, (PosInf | NaN) => true
  | PosInf, (PosInf | NaN) => true
  | NaN, NaN => true
  | _, _ => false
  end.
Definition fl_lexsort (x : list fl) : list nat := isort (fun i j => fl_leb (nth i x NaN) (nth j x NaN)) (seq 0 (length x)).
Lemma Qle_total p q : Qle_bool p q = true \/ Qle_bool q p = true.
Proof. destruct (Qlt_le_dec p q) as [L|L]; [left|right]; apply Qle_bool_iff; lra. Qed.
Lemma fl_lexsort_ok : sorts fl_lexsort.
Proof.
  intros x. split; [apply isort_perm|]. apply sorted_map. eapply sorted_weaken; [|apply isort_sorted].
  - cbn beta. intros i j. destruct (nth i x NaN), (nth j x NaN); cbn; intros H; try discriminate; auto. now apply Qle_bool_iff.
  - intros i j. destruct (nth i x NaN), (nth j x NaN); cbn; auto. apply Qle_total.
  - intros i j k. destruct (nth i x NaN), (nth j x NaN), (nth k x NaN); cbn; intros H1 H2; try discriminate; auto.
    apply Qle_bool_iff in H1, H2. apply Qle_bool_iff. lra.
Qed.
Lemma q_isort_ok : sorts_q (isort Qle_bool).
Proof.
  intros l. split; [apply isort_perm|]. eapply sorted_weaken; [|apply isort_sorted].
  - intros a b H. now apply Qle_bool_iff.
  - apply Qle_total.
  - intros a b c H1 H2. apply Qle_bool_iff in H1, H2. apply Qle_bool_iff. lra.
Qed.
Lemma n_isort_ok : sorts_n (isort Nat.leb).
Proof.
  intros l. split; [apply isort_perm|]. eapply sorted_weaken; [|apply isort_sorted].
  - intros a b H. now apply Nat.leb_le.
  - intros a b. rewrite !Nat.leb_le. lia.
  - intros a b c. rewrite !Nat.leb_le. lia.
Qed.
