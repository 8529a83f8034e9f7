(** cut with a number of bins; order statistics of distinct values. *)
From Coq Require Import List Arith Bool ZArith QArith Qround Lia Lqa Sorted Permutation.
From Verif Require Import FlattenModel ArrModel ArrSpec ArrProofs3 CutModel CutSpec CutProofs.
Import ListNotations.
Open Scope nat_scope.

Notation Qn k := (inject_Z (Z.of_nat k)).
Lemma Qn_lt i j : i < j -> (Qn i < Qn j)%Q.
Proof. intros H. rewrite <- Zlt_Qlt. lia. Qed.
Lemma Qn_le i j : i <= j -> (Qn i <= Qn j)%Q.
Proof. intros H. rewrite <- Zle_Qle. lia. Qed.

Lemma sorted_map_seq (f : nat -> fl) : (forall i j, i < j -> flt (f i) (f j)) -> forall n s, StronglySorted flt (map f (seq s n)).
Proof.
  intros H. induction n as [|n IH]; intros s; cbn [seq map]; [constructor|]. constructor; [apply IH|]. rewrite Forall_forall. intros x I. apply in_map_iff in I. destruct I as (j & <- & I). apply in_seq in I. apply H. lia.
Qed.
Lemma nth_error_seq s n i : i < n -> nth_error (seq s n) i = Some (s + i).
Proof. revert s i. induction n as [|n IH]; intros s i H; [lia|]. destruct i as [|i]; cbn [seq nth_error]; [f_equal; lia|]. rewrite IH by lia. f_equal. lia. Qed.
Lemma linspace_ok mn mx n : (mn < mx)%Q -> 1 <= n ->
  let w := ((mx - mn) / Qn n)%Q in
  (0 < w)%Q /\ (mn + Qn n * w == mx)%Q /\ length (linspace mn mx n) = n + 1 /\ edges_ok (linspace mn mx n) /\
  (forall i, i <= n -> nth_error (linspace mn mx n) i = Some (Fin (mn + Qn i * w)%Q)) /\
  last (linspace mn mx n) NaN = Fin (mn + Qn n * w)%Q.
Proof.
  intros L N w. assert (P : (0 < Qn n)%Q) by (apply (Qn_lt 0 n); lia). assert (W : (0 < w)%Q) by (unfold w, Qdiv; apply Qmult_lt_0_compat; [lra|now apply Qinv_lt_0_compat]).
  assert (E : (mn + Qn n * w == mx)%Q) by (unfold w; field; lra).
  assert (NT : forall i, i <= n -> nth_error (linspace mn mx n) i = Some (Fin (mn + Qn i * w)%Q)).
  { intros i H. unfold linspace. erewrite map_nth_error; [|apply nth_error_seq; lia]. reflexivity. }
  assert (LE : length (linspace mn mx n) = n + 1) by (unfold linspace; now rewrite map_length, seq_length).
  split; [exact W|]. split; [exact E|]. split; [exact LE|]. split; [|split; [exact NT|]].
  - split; [lia|]. split.
    + apply sorted_map_seq. intros i j H. cbn [flt]. fold w. pose proof (Qn_lt i j H). nra.
    + intros I. apply in_map_iff in I. destruct I as (x & I & _). discriminate.
  - assert (NE : linspace mn mx n <> []) by (intros X; rewrite X in LE; cbn in LE; lia). pose proof (last_nth (linspace mn mx n) NaN NE) as X. rewrite LE in X. replace (n + 1 - 1) with n in X by lia. rewrite (NT n) in X by lia. congruence.
Qed.
Lemma qmin_ok l : forall a, (forall q, In q (a :: l) -> (qmin a l <= q)%Q) /\ In (qmin a l) (a :: l).
Proof.
  unfold qmin. induction l as [|b l IH]; intros a; cbn [fold_left]; [split; [intros q [<-|[]]; lra|now left]|].
  destruct (IH (if Qle_bool a b then a else b)) as [A B]. split.
  - intros q I. assert (X : (fold_left (fun m q0 => if Qle_bool m q0 then m else q0) l (if Qle_bool a b then a else b) <= (if Qle_bool a b then a else b))%Q) by (apply A; now left). destruct I as [<-|[<-|I]]; [| |apply A; now right]; destruct (Qle_bool a b) eqn:E; try lra.
    + apply Qle_bool_false in E. lra.
    + apply Qle_bool_iff in E. lra.
  - destruct B as [B|B]; [|right; now right]. rewrite <- B. destruct (Qle_bool a b); [now left|right; now left].
Qed.
Lemma qmax_ok l : forall a, (forall q, In q (a :: l) -> (q <= qmax a l)%Q) /\ In (qmax a l) (a :: l).
Proof.
  unfold qmax. induction l as [|b l IH]; intros a; cbn [fold_left]; [split; [intros q [<-|[]]; lra|now left]|].
  destruct (IH (if Qle_bool b a then a else b)) as [A B]. split.
  - intros q I. assert (X : ((if Qle_bool b a then a else b) <= fold_left (fun m q0 => if Qle_bool q0 m then m else q0) l (if Qle_bool b a then a else b))%Q) by (apply A; now left). destruct I as [<-|[<-|I]]; [| |apply A; now right]; destruct (Qle_bool b a) eqn:E; try lra.
    + apply Qle_bool_false in E. lra.
    + apply Qle_bool_iff in E. lra.
  - destruct B as [B|B]; [|right; now right]. rewrite <- B. destruct (Qle_bool b a); [now left|right; now left].
Qed.
Lemma qabs_pos a : ~ (a == 0)%Q -> (0 < qabs a)%Q.
Proof. intros N. unfold qabs. destruct (Qle_bool 0 a) eqn:E; [apply Qle_bool_iff in E|apply Qle_bool_false in E]; lra. Qed.
Lemma finite_in q x : In q (finite x) <-> In (Fin q) x.
Proof.
  unfold finite. rewrite in_flat_map. split; [intros (v & I & H); destruct v; try contradiction; destruct H as [<-|[]]; exact I|]. intros I. exists (Fin q). split; [exact I|now left].
Qed.
(** the edges made for a number of bins *)
Lemma equal_edges_ok x n : 1 <= n -> finite x <> [] -> ~ In PosInf x -> ~ In NegInf x ->
  exists lo hi, equal_edges x n = Some (linspace lo hi n) /\ (lo < hi)%Q /\ (forall q, In q (finite x) -> (lo <= q <= hi)%Q) /\
    ((exists p q, In p (finite x) /\ In q (finite x) /\ ~ (p == q)%Q) -> In lo (finite x) /\ In hi (finite x)).
Proof.
  intros N F P M. unfold equal_edges.
  assert (E1 : existsb is_pinf x = false) by (destruct (existsb is_pinf x) eqn:E; [apply existsb_exists in E; destruct E as (v & I & H); destruct v; try discriminate; contradiction|reflexivity]).
  assert (E2 : existsb is_ninf x = false) by (destruct (existsb is_ninf x) eqn:E; [apply existsb_exists in E; destruct E as (v & I & H); destruct v; try discriminate; contradiction|reflexivity]).
  rewrite E1, E2. cbn [orb]. change (fin_values x) with (finite x). destruct (finite x) as [|a r] eqn:EF; [congruence|].
  destruct (qmin_ok r a) as [A1 A2]. destruct (qmax_ok r a) as [B1 B2]. destruct (Qeq_bool (qmin a r) (qmax a r)) eqn:EQ.
  - apply Qeq_bool_iff in EQ. eexists. eexists. split; [reflexivity|].
    assert (D : forall q, In q (a :: r) -> (q == qmin a r)%Q) by (intros q I; specialize (A1 q I); specialize (B1 q I); lra).
    assert (T : (0 < tolerance)%Q) by reflexivity.
    assert (LO : ((if Qeq_bool (qmin a r) 0 then qmin a r - tolerance else qmin a r - tolerance * qabs (qmin a r)) < qmin a r)%Q).
    { destruct (Qeq_bool (qmin a r) 0) eqn:Z; [lra|]. assert (~ (qmin a r == 0)%Q) by (intros X; apply Qeq_bool_iff in X; congruence). pose proof (qabs_pos _ H). nra. }
    assert (HI : (qmax a r < (if Qeq_bool (qmax a r) 0 then qmax a r + tolerance else qmax a r + tolerance * qabs (qmax a r)))%Q).
    { destruct (Qeq_bool (qmax a r) 0) eqn:Z; [lra|]. assert (~ (qmax a r == 0)%Q) by (intros X; apply Qeq_bool_iff in X; congruence). pose proof (qabs_pos _ H). nra. }
    split; [lra|]. split; [intros q I; specialize (D q I); lra|]. intros (p & q & I & J & NE). exfalso. apply NE. rewrite (D p I), (D q J). reflexivity.
  - exists (qmin a r), (qmax a r). split; [reflexivity|].
    assert (NE : ~ (qmin a r == qmax a r)%Q) by (intros X; apply Qeq_bool_iff in X; congruence). specialize (A1 _ B2) as X. split; [lra|]. split; [intros q I; specialize (A1 q I); specialize (B1 q I); lra|]. intros _. split; assumption.
Qed.

(** *** order statistics of distinct values *)
Lemma distinct_count l : distinct l -> forall a, (exists w, In w l /\ (w == a)%Q) ->
  length (filter (fun x => Qle_bool x a) l) = S (length (filter (fun x => negb (Qle_bool a x)) l)).
Proof.
  intros D a. induction D as [|x l F D IH]; intros (w & I & E); [destruct I|]. cbn [filter].
  assert (NO : (x == a)%Q -> length (filter (fun y => Qle_bool y a) l) = length (filter (fun y => negb (Qle_bool a y)) l)).
  { intros X. f_equal. apply filter_ext_in. intros y Y. rewrite Forall_forall in F. specialize (F y Y). destruct (Qle_bool y a) eqn:U; destruct (Qle_bool a y) eqn:V; try reflexivity.
    - apply Qle_bool_iff in U, V. exfalso. apply F. lra.
    - apply Qle_bool_false in U, V. lra. }
  destruct I as [->|I].
  - assert (U : Qle_bool w a = true) by (apply Qle_bool_iff; lra). assert (V : Qle_bool a w = true) by (apply Qle_bool_iff; lra). rewrite U, V. cbn [negb length]. f_equal. now apply NO.
  - specialize (IH (ex_intro _ w (conj I E))). rewrite Forall_forall in F. specialize (F w I). destruct (Qle_bool x a) eqn:U; destruct (Qle_bool a x) eqn:V; cbn [negb length]; try lia.
    + apply Qle_bool_iff in U, V. exfalso. apply F. lra.
    + apply Qle_bool_false in U, V. lra.
Qed.
Lemma kth_count l k a : distinct l -> kth l k a -> length (filter (fun x => Qle_bool x a) l) = S k.
Proof. intros D (I & L). pose proof (distinct_count l D a I). lia. Qed.
Lemma count_mono l a b : (a <= b)%Q -> length (filter (fun x => Qle_bool x a) l) <= length (filter (fun x => Qle_bool x b) l).
Proof.
  intros L. induction l as [|x l IH]; cbn [filter]; [lia|]. destruct (Qle_bool x a) eqn:U; destruct (Qle_bool x b) eqn:V; cbn [length]; try lia. apply Qle_bool_iff in U. apply Qle_bool_false in V. lra.
Qed.
Lemma kth_strict l k k' a a' : distinct l -> k < k' -> kth l k a -> kth l k' a' -> (a < a')%Q.
Proof.
  intros D L K K'. destruct (Qlt_le_dec a a') as [X|X]; [exact X|]. exfalso. pose proof (kth_count l k a D K). pose proof (kth_count l k' a' D K'). pose proof (count_mono l a' a X). lia.
Qed.
Lemma quantile_count l q v : distinct l -> quantile_at l q v ->
  length (filter (fun x => Qle_bool x v) l) = S (Z.to_nat (Qfloor (q * inject_Z (Z.of_nat (length l) - 1))%Q)).
Proof.
  intros D (a & b & Ka & Kb & V). set (h := (q * inject_Z (Z.of_nat (length l) - 1))%Q) in *. fold (frac h) in *. pose proof (frac_bounds h) as (F1 & F2). set (k := Z.to_nat (Qfloor h)) in *.
  rewrite <- (kth_count l k a D Ka). f_equal. apply filter_ext_in. intros x I.
  assert (AV : (a <= v)%Q). { destruct Kb as [Kb|F0]; [|rewrite V, F0; lra]. pose proof (kth_strict l k (k + 1) a b D ltac:(lia) Ka Kb). rewrite V. nra. }
  destruct (Qle_bool x a) eqn:U; [apply Qle_bool_iff in U; apply Qle_bool_iff; lra|]. apply Qle_bool_false in U. apply Qle_bool_false.
  destruct Kb as [Kb|F0]; [|rewrite V, F0; lra]. pose proof (kth_strict l k (k + 1) a b D ltac:(lia) Ka Kb) as AB.
  assert (VB : (v < b)%Q) by (rewrite V; nra). destruct (Qlt_le_dec v x) as [X|X]; [exact X|]. exfalso.
  (* a < x <= v < b *)
  pose proof (kth_count l k a D Ka) as CA. pose proof (proj2 Kb) as [CB _].
  pose proof (distinct_count l D x (ex_intro _ x (conj I (Qeq_refl x)))) as CX.
  assert (C1 : length (filter (fun y => Qle_bool y a) l) <= length (filter (fun y => negb (Qle_bool x y)) l)).
  { clear -U. induction l as [|y l IH]; cbn [filter]; [lia|]. destruct (Qle_bool y a) eqn:P; destruct (Qle_bool x y) eqn:R; cbn [negb length]; try lia. apply Qle_bool_iff in P, R. exfalso. lra. }
  assert (C2 : length (filter (fun y => Qle_bool y x) l) <= length (filter (fun y => negb (Qle_bool b y)) l)).
  { assert (XB : (x < b)%Q) by lra. clear -XB. induction l as [|y l IH]; cbn [filter]; [lia|]. destruct (Qle_bool y x) eqn:P; destruct (Qle_bool b y) eqn:R; cbn [negb length]; try lia. apply Qle_bool_iff in P, R. exfalso. lra. }
  lia.
Qed.
Lemma quantile_strict l q q' v v' : distinct l -> 2 <= length l -> (0 <= q)%Q -> (q < q')%Q -> quantile_at l q v -> quantile_at l q' v' -> (v < v')%Q.
Proof.
  intros D L2 Q0 QQ HV HV'. set (m := inject_Z (Z.of_nat (length l) - 1)).
  assert (M0 : (0 < m)%Q). { unfold m. change 0%Q with (inject_Z 0). rewrite <- Zlt_Qlt. lia. }
  assert (HH : (q * m < q' * m)%Q) by nra. assert (H0 : (0 <= q * m)%Q) by nra.
  pose proof (Qfloor_resp_le _ _ (Qlt_le_weak _ _ HH)) as FL. pose proof (floor_nonneg _ H0) as F0.
  destruct HV as (a & b & Ka & Kb & V). destruct HV' as (a' & b' & Ka' & Kb' & V'). cbv zeta in *. fold m in Ka, Kb, V, Ka', Kb', V'.
  pose proof (frac_bounds (q * m)) as (G1 & G2). pose proof (frac_bounds (q' * m)) as (G3 & G4). unfold frac in G1, G2, G3, G4.
  destruct (Z.eq_dec (Qfloor (q * m)) (Qfloor (q' * m))) as [E|E].
  - rewrite <- E in *. pose proof (kth_unique _ _ _ _ Ka Ka') as EA. set (k := inject_Z (Qfloor (q * m))) in *.
    destruct Kb' as [Kb'|Kb']; [|lra]. assert (AB : (a' < b')%Q) by (eapply kth_strict; [exact D| |exact Ka'|exact Kb']; lia). rewrite V'.
    destruct Kb as [Kb|Kb]; [pose proof (kth_unique _ _ _ _ Kb Kb') as EB; rewrite V, EA, EB; nra|]. rewrite V, Kb, EA. nra.
  - assert (A' : (a' <= v')%Q). { destruct Kb' as [Kb'|Kb']; [|rewrite V', Kb'; lra]. assert (AB : (a' < b')%Q) by (eapply kth_strict; [exact D| |exact Ka'|exact Kb']; lia). rewrite V'. nra. }
    destruct Kb as [Kb|Kb].
    + assert (AB : (a < b)%Q) by (eapply kth_strict; [exact D| |exact Ka|exact Kb]; lia). assert (b <= a')%Q by (eapply kth_mono; [|exact Kb|exact Ka']; lia). assert (v < b)%Q by (rewrite V; nra). lra.
    + assert (AB : (a < a')%Q) by (eapply kth_strict; [exact D| |exact Ka|exact Ka']; lia). assert (v == a)%Q by (rewrite V, Kb; lra). lra.
Qed.
(** the 0-quantile is the smallest value, the 1-quantile the largest *)
Lemma quantile_0 l q v x : (q == 0)%Q -> quantile_at l q v -> In x l -> (v <= x)%Q.
Proof.
  intros Z (a & b & Ka & Kb & V) I. set (m := inject_Z (Z.of_nat (length l) - 1)) in *. assert (H : (q * m == 0)%Q) by (rewrite Z; lra). assert (FZ : Qfloor (q * m) = 0%Z) by (rewrite H; reflexivity). rewrite FZ in *. change (inject_Z 0) with 0%Q in *.
  assert (v == a)%Q. { rewrite V. setoid_replace (q * m - 0)%Q with 0%Q by lra. lra. }
  rewrite H0. destruct Ka as (_ & L & _). destruct (Qlt_le_dec x a) as [X|X]; [|exact X]. exfalso. assert (J : In x (filter (fun y => negb (Qle_bool a y)) l)) by (apply filter_In; split; [exact I|]; apply negb_true_iff, Qle_bool_false; exact X). destruct (filter _ l); [destruct J|cbn in L; lia].
Qed.
Lemma quantile_1 l q v x : l <> [] -> (q == 1)%Q -> quantile_at l q v -> In x l -> (x <= v)%Q.
Proof.
  intros NE Z (a & b & Ka & Kb & V) I. set (m := inject_Z (Z.of_nat (length l) - 1)) in *. assert (H : (q * m == m)%Q) by (rewrite Z; lra). assert (FZ : Qfloor (q * m) = (Z.of_nat (length l) - 1)%Z) by (rewrite H; unfold m; apply Qfloor_Z). rewrite FZ in *. fold m in Kb, V.
  assert (E : (v == a)%Q). { rewrite V. setoid_replace (q * m - m)%Q with 0%Q by lra. lra. }
  rewrite E. destruct Ka as (_ & _ & L). destruct (Qlt_le_dec a x) as [X|X]; [|exact X]. exfalso. assert (LT : length (filter (fun y => Qle_bool y a) l) < length l).
  { clear -I X. induction l as [|y l IH]; [destruct I|]. cbn [filter length]. pose proof (filter_le (fun y => Qle_bool y a) l). destruct (Qle_bool y a) eqn:Q; cbn [length]; [|lia]. destruct I as [->|I]; [apply Qle_bool_iff in Q; lra|]. specialize (IH I). lia. }
  destruct l; [congruence|]. cbn [length] in *. lia.
Qed.
