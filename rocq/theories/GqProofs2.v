(** Proofs about the argument of agg (C161) and the quantile parameter (C162, C164). *)
From Coq Require Import List Arith Bool ZArith Permutation Sorted Lia.
From Verif Require Import FlattenModel FlattenProofs DsModel DsProofs3 StModel StSpec StProofs GqModel GqSpec.
Import ListNotations.

Section Dict.
Context {V : Type}.
Variable func : name -> option (list V -> V).
Definition flat (spec : list (name * list name)) : list (name * name) := flat_map (fun q => map (pair (fst q)) (snd q)) spec.
Definition grow (ks ops : list name) : list name := fold_left (fun ks k => if mem k ks then ks else ks ++ [k]) ops ks.
Lemma grow_firsts ops : grow [] ops = firsts ops.
Proof.
  pose proof (all_keys_firsts (X := unit) (D := unit) [map (fun op => (op, IScal tt)) ops]) as H. unfold all_keys in H. cbn [concat] in H. rewrite app_nil_r, map_map in H. cbn [fst] in H. rewrite map_id in H. exact H.
Qed.
(** what the dictionary holds after the pairs [L] *)
Definition holds (fd : list (name * list name)) (L : list (name * name)) : Prop :=
  map fst fd = grow [] (map snd L) /\ forall op c, In c (match dget op fd with Some l => l | None => [] end) <-> In (c, op) L.
Lemma holds_add c ops : forall fd L, (forall op, In op ops -> func op <> None) -> holds fd L -> exists fd', add_ops func c ops fd = Some fd' /\ holds fd' (L ++ map (pair c) ops).
Proof.
  induction ops as [|op ops IH]; intros fd L Fs [H1 H2]; [exists fd; cbn [map]; rewrite app_nil_r; split; [reflexivity|split; assumption]|].
  cbn [add_ops]. destruct (func op) eqn:Ef; [|exfalso; apply (Fs op); [now left|exact Ef]].
  destruct (IH (dset op ((match dget op fd with Some l => l | None => [] end) ++ [c]) fd) (L ++ [(c, op)])) as (fd' & E & Hh).
  - intros o I. apply Fs. now right.
  - split.
    + rewrite dset_names, map_app. unfold grow in *. rewrite fold_left_app. cbn [map fold_left snd]. rewrite <- H1. reflexivity.
    + intros o c'. rewrite dget_dset, in_app_iff. cbn [In]. destruct (name_dec op o) as [<-|N].
      * rewrite in_app_iff, H2. cbn [In]. split; [intros [?|[->|[]]]; auto|intros [?|[E|[]]]; [auto|injection E as ->; auto]].
      * rewrite H2. split; [auto|]. intros [?|[E|[]]]; [assumption|]. injection E as -> ->. contradiction.
  - exists fd'. split; [exact E|]. cbn [map]. rewrite <- app_assoc in Hh. exact Hh.
Qed.
Lemma func_dict_ok (data : list (name * list V)) spec : forall fd L, (forall c op, asked spec c op -> func op <> None) -> (forall c ops, In (c, ops) spec -> In c (map fst data)) ->
  holds fd L -> exists fd', func_dict func data spec fd = Some fd' /\ holds fd' (L ++ flat spec).
Proof.
  induction spec as [|[c ops] spec IH]; intros fd L Fs Cs Hh; [exists fd; cbn [flat flat_map]; rewrite app_nil_r; auto|].
  cbn [func_dict]. assert (M : mem c (map fst data) = true) by (apply mem_in; apply (Cs c ops); now left). rewrite M.
  destruct (holds_add c ops fd L) as (fd1 & -> & H1); [intros op I; apply (Fs c op); exists ops; split; [now left|exact I]|exact Hh|].
  destruct (IH fd1 (L ++ map (pair c) ops)) as (fd2 & E & H2).
  - intros c' op' (ops' & I & J). apply (Fs c' op'). exists ops'. split; [now right|exact J].
  - intros c' ops' I. apply (Cs c' ops'). now right.
  - exact H1.
  - exists fd2. split; [exact E|]. cbn [flat flat_map fst snd]. rewrite <- app_assoc in H2. exact H2.
Qed.
Lemma flat_asked spec c op : In (c, op) (flat spec) <-> asked spec c op.
Proof.
  unfold flat, asked. rewrite in_flat_map. split.
  - intros [[c' ops] [I J]]. cbn [fst snd] in J. apply in_map_iff in J. destruct J as [o [E J]]. injection E as -> ->. eauto.
  - intros (ops & I & J). exists (c, ops). split; [exact I|]. cbn [fst snd]. now apply in_map.
Qed.
Lemma flat_ops spec : map snd (flat spec) = concat (map snd spec).
Proof. unfold flat. induction spec as [|[c ops] spec IH]; [reflexivity|]. cbn [flat_map map concat fst snd]. rewrite map_app, IH, map_map. cbn [snd]. now rewrite map_id. Qed.
Lemma func_dict_spec (data : list (name * list V)) spec : (forall c op, asked spec c op -> func op <> None) -> (forall c ops, In (c, ops) spec -> In c (map fst data)) ->
  exists fd, func_dict func data spec [] = Some fd /\ map fst fd = firsts (concat (map snd spec)) /\
    forall op cs, In (op, cs) fd -> forall c, In c cs <-> asked spec c op.
Proof.
  intros Fs Cs. destruct (func_dict_ok data spec [] [] Fs Cs) as (fd & E & H1 & H2); [split; [reflexivity|]; intros; split; intros []|].
  cbn [app] in *. exists fd. split; [exact E|]. rewrite flat_ops, grow_firsts in H1. split; [exact H1|].
  intros op cs I c. rewrite <- flat_asked, <- H2. assert (G : dget op fd = Some cs); [|now rewrite G].
  apply (dget_in op cs fd); [rewrite H1; apply firsts_nodup|exact I].
Qed.
End Dict.

(** ** quantiles *)
Open Scope Z_scope.
Lemma pow_pos z : 0 <= z -> 1 <= 2 ^ z. Proof. intros. change 1 with (2 ^ 0). apply Z.pow_le_mono_r; lia. Qed.
Lemma round_even_near a b : 0 < b -> round_even a b * b - b <= a <= round_even a b * b + b.
Proof.
  intros H. unfold round_even. pose proof (Z.div_mod a b) as D. pose proof (Z.mod_pos_bound a b H).
  destruct ((2 * (a mod b) <? b) || _); nia.
Qed.
Lemma round_even_exact k b : 0 < b -> round_even (k * b) b = k.
Proof. intros H. unfold round_even. rewrite Z.div_mul, Z.mod_mul by lia. destruct (Z.ltb_spec (2 * 0) b); [reflexivity|lia]. Qed.
Lemma round_even_le a b n : 0 < b -> a <= n * b -> round_even a b <= n.
Proof.
  intros H L. unfold round_even. assert (a / b <= n) by (apply Z.div_le_upper_bound; lia). destruct (Z.eq_dec (a / b) n) as [E|N].
  - assert (R : a mod b = 0) by (pose proof (Z.div_mod a b); pose proof (Z.mod_pos_bound a b H); nia). rewrite R. destruct (Z.ltb_spec (2 * 0) b); [cbn [orb]; lia|lia].
  - destruct (_ || _); lia.
Qed.
Lemma round_even_nonneg a b : 0 < b -> 0 <= a -> 0 <= round_even a b.
Proof. intros H L. unfold round_even. assert (0 <= a / b) by (apply Z.div_pos; lia). destruct (_ || _); lia. Qed.
(** the exponent is small for numbers up to 2 ^ j *)
Lemma round53_form a b j : 0 < a -> 0 < b -> 0 <= j -> a <= 2 ^ j * b ->
  exists e, e <= j - 52 /\ round53 a b = (round_even (a * 2 ^ Z.max 0 (- e)) (b * 2 ^ Z.max 0 e), e).
Proof.
  intros Ha Hb Hj L. unfold round53. destruct (Z.eqb_spec a 0); [lia|]. set (e0 := Z.log2 a - Z.log2 b - 52).
  assert (E0 : e0 <= j - 52).
  { unfold e0. assert (Z.log2 a <= Z.log2 (b * 2 ^ j)) by (apply Z.log2_le_mono; lia). rewrite Z.log2_mul_pow2 in H by lia. lia. }
  destruct (_ <? _); [exists (e0 - 1); split; [lia|reflexivity]|exists e0; split; [exact E0|reflexivity]].
Qed.
(** the fraction of a rounded number up to 2 ^ 31 *)
Lemma round53_frac a b j x y : 0 <= a -> 0 < b -> 0 <= j <= 31 -> a <= 2 ^ j * b -> frac_of (round53 a b) = (x, y) ->
  1 <= y /\ 0 <= x /\ a * y - b <= x * b <= a * y + b /\ (0 < a -> 2 ^ (52 - j) <= y) /\ (forall k, a = k * b -> x = k * y) /\ (forall k, a <= k * b -> x <= k * y).
Proof.
  intros Ha Hb Hj L E. destruct (Z.eq_dec a 0) as [->|N].
  - cbv in E. injection E as <- <-. repeat split; try lia; intros k Hk; nia.
  - destruct (round53_form a b j) as (e & He & E1); try lia. rewrite E1 in E. unfold frac_of in E. cbn [fst snd] in E.
    rewrite (Z.max_l 0 e) in E by lia. rewrite (Z.max_r 0 (- e)) in E by lia. rewrite Z.pow_0_r, !Z.mul_1_r in E. injection E as <- <-.
    pose proof (pow_pos (- e)) as P. set (y := 2 ^ (- e)) in *. assert (Y : 1 <= y) by (apply P; lia).
    pose proof (round_even_near (a * y) b Hb). split; [exact Y|]. split; [apply round_even_nonneg; nia|]. split; [lia|]. split; [intros _; apply Z.pow_le_mono_r; lia|]. split.
    + intros k ->. replace (k * b * y) with (k * y * b) by lia. now apply round_even_exact.
    + intros k Hk. apply round_even_le; [exact Hb|]. nia.
Qed.
Lemma frac_pos q a b : frac_of q = (a, b) -> 0 < b.
Proof. unfold frac_of. intros E. injection E as _ <-. apply Z.pow_pos_nonneg; lia. Qed.
Lemma billion_val : billion = 1000000000. Proof. reflexivity. Qed.
Lemma times_billion_ok q a b : frac_of q = (a, b) -> 0 <= a <= b -> let k := times_billion q in
  0 <= k <= billion /\ a * billion - 2 * b < k * b < a * billion + 2 * b /\ (forall k0 : Z, a * billion = k0 * b -> k = k0).
Proof.
  intros F R k. pose proof (frac_pos _ _ _ F) as Hb. assert (K : k = times_billion q) by reflexivity. clearbody k. unfold times_billion in K. rewrite F in K.
  destruct (frac_of (round53 (a * billion) b)) as [x y] eqn:E. cbv beta iota in K.
  assert (B : billion <= 2 ^ 30) by (rewrite billion_val; vm_compute; discriminate). assert (B0 : 0 < billion) by (rewrite billion_val; lia).
  destruct (round53_frac (a * billion) b 30 x y) as (Y & X & N & _ & Ex & Le); try nia; [exact E|].
  subst k.
  pose proof (Z.div_mod x y) as D. pose proof (Z.mod_pos_bound x y) as M. assert (x <= billion * y) by (apply Le; nia).
  split; [split; [apply Z.div_pos; lia|apply Z.div_le_upper_bound; lia]|]. split.
  - set (k := x / y) in *. assert (x = y * k + x mod y) by (apply D; lia). assert (0 <= x mod y < y) by (apply M; lia). nia.
  - intros k0 H0. rewrite (Ex k0 H0). now rewrite Z.div_mul by lia.
Qed.
Lemma param_ok (k : Z) (is_nan : bool) : 0 <= k <= billion -> param_quantile (k + (if is_nan then billion + 1 else 0)) = (k, is_nan).
Proof.
  intros H. unfold param_quantile. destruct is_nan.
  - destruct (Z.leb_spec (billion + 1) (k + (billion + 1))); [f_equal; lia|lia].
  - destruct (Z.leb_spec (billion + 1) (k + 0)); [lia|f_equal; lia].
Qed.
Lemma percent_ok q a b a1 b1 : frac_of q = (a, b) -> 0 <= a <= 100 * b -> frac_of (percent q) = (a1, b1) ->
  0 <= a1 <= b1 /\ a * b1 - 100 * b <= a1 * (100 * b) <= a * b1 + 100 * b /\ (0 < a -> 2 ^ 52 <= b1).
Proof.
  intros F R E. pose proof (frac_pos _ _ _ F). unfold percent in E. rewrite F in E.
  destruct (round53_frac a (b * 100) 0 a1 b1) as (Y & X & N & P & _ & Le); try lia; [exact E|]. split; [split; [exact X|]|split; [lia|exact P]]. specialize (Le 1). lia.
Qed.
(** k / 10^9 and the quantile asked for *)
Lemma near_quantile (pct : bool) q a b : frac_of q = (a, b) -> 0 <= a <= (if pct then 100 else 1) * b -> let k := times_billion (if pct then percent q else q) in
  let den := (if pct then 100 else 1) * b in
  0 <= k <= billion /\ a * billion - 3 * den <= k * den <= a * billion + 3 * den.
Proof.
  intros F R. pose proof (frac_pos _ _ _ F). destruct pct; cbn zeta.
  - destruct (frac_of (percent q)) as [a1 b1] eqn:E. destruct (percent_ok q a b a1 b1 F R E) as (R1 & N1 & P1).
    destruct (times_billion_ok (percent q) a1 b1 E R1) as (Kr & N & Ex). split; [exact Kr|]. set (k := times_billion (percent q)) in *.
    destruct (Z.eq_dec a 0) as [->|Na].
    + assert (a1 = 0) by (unfold percent in E; rewrite F in E; cbv in E; congruence). subst a1. rewrite (Ex 0) by lia. lia.
    + assert (Y : 2 ^ 52 <= b1) by (apply P1; lia). assert (B : billion <= b1) by (rewrite billion_val; change (2 ^ 52) with 4503599627370496 in Y; lia).
      clear Ex P1 E F Y Kr. set (B9 := billion) in *. assert (0 < B9) by (unfold B9; rewrite billion_val; lia). set (D := 100 * b) in *. assert (0 < D) by lia.
      assert (L1 : k * b1 * D <= (a1 * B9 + 2 * b1) * D) by nia. assert (L2 : (a1 * B9 - 2 * b1) * D <= k * b1 * D) by nia.
      assert (L3 : a1 * D * B9 <= (a * b1 + D) * B9) by nia. assert (L4 : (a * b1 - D) * B9 <= a1 * D * B9) by nia.
      assert (L5 : D * B9 <= D * b1) by nia. split.
      * apply Z.mul_le_mono_pos_r with (p := b1); nia.
      * apply Z.mul_le_mono_pos_r with (p := b1); nia.
  - destruct (times_billion_ok q a b F) as (Kr & N & _); [lia|]. split; [exact Kr|]. lia.
Qed.
Lemma zsort_perm l : Permutation (zsort l) l.
Proof.
  assert (Ins : forall x l, Permutation (zinsert x l) (x :: l)).
  { intros x. induction l0 as [|y r IH]; [reflexivity|]. cbn [zinsert]. destruct (x <=? y); [reflexivity|]. rewrite IH. apply perm_swap. }
  unfold zsort. induction l as [|x l IH]; [constructor|]. cbn [fold_right]. rewrite Ins. now constructor.
Qed.
Lemma zsort_sorted l : StronglySorted Z.le (zsort l).
Proof.
  assert (Ins : forall x l, StronglySorted Z.le l -> StronglySorted Z.le (zinsert x l)).
  { intros x. induction l0 as [|y r IH]; intros S; [repeat constructor|]. cbn [zinsert]. inversion S as [|? ? Sr Fy]; subst. destruct (Z.leb_spec x y).
    - constructor; [exact S|]. constructor; [assumption|]. rewrite Forall_forall in *. intros z Hz. specialize (Fy z Hz). lia.
    - constructor; [now apply IH|]. rewrite Forall_forall in *. intros z Hz. assert (Q : In z (x :: r)).
      { clear -Hz. revert Hz. induction r as [|w r IH]; cbn [zinsert]; [tauto|]. destruct (x <=? w); [tauto|]. intros [->|Hz]; [right; now left|]. destruct (IH Hz) as [->|]; [now left|right; now right]. }
      destruct Q as [<-|Q]; [lia|now apply Fy]. }
  unfold zsort. induction l as [|x l IH]; [constructor|]. cbn [fold_right]. now apply Ins.
Qed.
Lemma ceil_div pos d : 0 < d -> (pos + d - 1) / d = - (- pos / d).
Proof.
  intros H. symmetry. pose proof (Z.div_mod (- pos) d) as D. pose proof (Z.mod_pos_bound (- pos) d H). pose proof (Z.div_mod (pos + d - 1) d). pose proof (Z.mod_pos_bound (pos + d - 1) d H). nia.
Qed.
Lemma neighbours_at k l : quantile_at k billion l (neighbours k l).
Proof.
  exists (zsort l). split; [apply zsort_perm|]. split; [apply zsort_sorted|]. cbn zeta. unfold neighbours. rewrite ceil_div by (rewrite billion_val; lia). reflexivity.
Qed.
Lemma quantile_at_det a b l r r' : quantile_at a b l r -> quantile_at a b l r' -> r = r'.
Proof.
  intros (s & P & S & ->) (s' & P' & S' & ->). assert (s = s'); [|now subst].
  assert (Q : Permutation s s') by (etransitivity; [exact P|now symmetry]). clear P P' l. revert s' S' Q. induction S as [|x s Ss IH F]; intros s' S' Q; [apply Permutation_nil in Q; now symmetry|].
  destruct s' as [|y s']; [symmetry in Q; apply Permutation_nil in Q; discriminate|]. inversion S' as [|? ? Ss' F']; subst. rewrite Forall_forall in F, F'.
  assert (x = y).
  { assert (I1 : In x (y :: s')) by (apply (Permutation_in _ Q); now left). assert (I2 : In y (x :: s)) by (symmetry in Q; apply (Permutation_in _ Q); now left).
    destruct I1 as [|I1]; [auto|]. destruct I2 as [|I2]; [auto|]. pose proof (F y I2). pose proof (F' x I1). lia. }
  subst y. f_equal. apply IH; [exact Ss'|]. now apply Permutation_cons_inv in Q.
Qed.
(** the same neighbours when the position is not close to a whole number *)
Lemma clear_same k den a l : 0 < den -> a * billion - 3 * den <= k * den <= a * billion + 3 * den -> clear a den (length l) ->
  quantile_at a den l (neighbours k l).
Proof.
  intros Hd N (i & C1 & C2). change (10 ^ 9) with billion in *. set (m := Z.of_nat (length l) - 1) in *.
  assert (B0 : 0 < billion) by (rewrite billion_val; lia). exists (zsort l). split; [apply zsort_perm|]. split; [apply zsort_sorted|]. cbn zeta. fold m. unfold neighbours. fold m.
  assert (Hm : 0 <= m \/ m = -1) by lia. destruct Hm as [Hm|Hm].
  2:{ assert (length l = 0%nat) as L0 by lia. apply length_zero_iff_nil in L0. subst l. assert (Nn : forall i, nth i (zsort []) 0 = 0) by (intros [|?]; reflexivity). now rewrite !Nn. }
  set (B9 := billion) in *. clearbody B9.
  assert (L1 : (i * B9 < k * m)). { apply Z.mul_lt_mono_pos_r with (p := den); [exact Hd|]. assert ((a * B9 - 3 * den) * m <= k * den * m) by nia. nia. }
  assert (L2 : (k * m < (i + 1) * B9)). { apply Z.mul_lt_mono_pos_r with (p := den); [exact Hd|]. assert (k * den * m <= (a * B9 + 3 * den) * m) by nia. nia. }
  assert (L3 : i * den < a * m). { apply Z.mul_lt_mono_pos_r with (p := B9); [exact B0|]. nia. }
  assert (L4 : a * m < (i + 1) * den). { apply Z.mul_lt_mono_pos_r with (p := B9); [exact B0|]. nia. }
  assert (F1 : k * m / B9 = i) by (symmetry; apply Z.div_unique with (k * m - i * B9); lia).
  assert (F2 : a * m / den = i) by (symmetry; apply Z.div_unique with (a * m - i * den); lia).
  assert (G1 : (k * m + B9 - 1) / B9 = i + 1) by (symmetry; apply Z.div_unique with (k * m + B9 - 1 - (i + 1) * B9); lia).
  assert (G2 : - (- (a * m) / den) = i + 1) by (assert (- (a * m) / den = - (i + 1)); [symmetry; apply Z.div_unique with (- (a * m) + (i + 1) * den); lia|lia]).
  rewrite F1, F2, G1, G2. reflexivity.
Qed.
Lemma somes_values l : somes l = values l. Proof. reflexivity. Qed.
Lemma values_all l : length (values l) = length l <-> ~ In None l.
Proof.
  assert (LE : forall l, (length (values l) <= length l)%nat) by (unfold values; induction l0 as [|[z|] l0 IH]; cbn [flat_map app length]; lia).
  induction l as [|[z|] l IH]; cbn [values flat_map app length]; [split; [intros _ []|reflexivity]| |].
  - change (flat_map _ l) with (values l). cbn [In]. split; [intros Hl [Hn|I]; [discriminate|]; revert I; apply IH; lia|intros Hl; rewrite (proj2 IH); [reflexivity|tauto]].
  - change (flat_map _ l) with (values l). pose proof (LE l). split; [lia|]. intros Hl. exfalso. apply Hl. now left.
Qed.
Lemma quantile1_ok is_nan (pct : bool) q l a b : frac_of q = (a, b) -> 0 <= a <= (if pct then 100 else 1) * b ->
  let den := (if pct then 100 else 1) * b in
  exists r, quantile1 is_nan pct q l = Some r /\
    (r = None <-> values l = [] \/ (is_nan = false /\ In None l)) /\
    (forall x, r = Some x ->
       (exists k, 0 <= k <= billion /\ a * billion - 3 * den <= k * den <= a * billion + 3 * den /\ quantile_at k billion (values l) x) /\
       (clear a den (length (values l)) -> quantile_at a den (values l) x) /\
       (forall k, pct = false -> a * billion = k * b -> quantile_at a b (values l) x)).
Proof.
  intros F R den. pose proof (frac_pos _ _ _ F) as Hb. destruct (near_quantile pct q a b F R) as (Kr & N). cbn zeta in N. fold den in N.
  unfold quantile1. rewrite F. destruct (Z.leb_spec 0 a); [|lia]. destruct (Z.leb_spec a ((if pct then 100 else 1) * b)); [|lia]. cbn [andb].
  set (k := times_billion (if pct then percent q else q)) in *. eexists. split; [reflexivity|]. unfold gb_quantile, quantile_param. fold k. rewrite (param_ok k is_nan Kr). rewrite somes_values.
  assert (NB : forall x, Some (neighbours k (values l)) = Some x ->
       (exists k, 0 <= k <= billion /\ a * billion - 3 * den <= k * den <= a * billion + 3 * den /\ quantile_at k billion (values l) x) /\
       (clear a den (length (values l)) -> quantile_at a den (values l) x) /\
       (forall k, pct = false -> a * billion = k * b -> quantile_at a b (values l) x)).
  { intros x E. assert (x = neighbours k (values l)) by congruence. subst x. clear E. split; [exists k; split; [exact Kr|split; [exact N|apply neighbours_at]]|]. split.
    - intros C. apply (clear_same k den a); [unfold den; destruct pct; lia|exact N|exact C].
    - intros k0 -> E0. destruct (times_billion_ok q a b F) as (_ & _ & Ex); [lia|]. assert (k = k0) by (apply Ex; exact E0). subst k0.
      exists (zsort (values l)). split; [apply zsort_perm|]. split; [apply zsort_sorted|]. cbn zeta. unfold neighbours. set (m := Z.of_nat (length (values l)) - 1).
      assert (B0 : 0 < billion) by (rewrite billion_val; lia). rewrite ceil_div by exact B0.
      assert (D1 : forall z, k * z / billion = a * z / b).
      { intros z. rewrite <- (Z.div_mul_cancel_r (k * z) billion b) by lia. rewrite <- (Z.div_mul_cancel_r (a * z) b billion) by lia. replace (k * z * b) with (k * b * z) by ring. rewrite <- E0. f_equal; ring. }
      rewrite D1. f_equal. f_equal. f_equal. f_equal. specialize (D1 (- m)). replace (- (k * m)) with (k * - m) by lia. replace (- (a * m)) with (a * - m) by lia. exact D1. }
  destruct (values l) as [|v0 v] eqn:Ev; [split; [split; auto|discriminate]|].
  destruct is_nan; cbn [orb]; [split; [split; [discriminate|intros [?|[? _]]; discriminate]|exact NB]|].
  destruct (Nat.eqb_spec (length (v0 :: v)) (length l)) as [El|El].
  - split; [|exact NB]. split; [discriminate|]. intros [?|[_ I]]; [discriminate|]. rewrite <- Ev in El. apply values_all in El. contradiction.
  - split; [|discriminate]. split; [|reflexivity]. intros _. right. split; [reflexivity|]. destruct (in_dec (fun x y : option Z => ltac:(decide equality; apply Z.eq_dec)) None l) as [I|I]; [exact I|]. exfalso. apply El. rewrite <- Ev. now apply values_all.
Qed.
(** rolling *)
Lemma last_rows_skip {X} (l : list X) w r : (r < length l)%nat -> 0 <= w -> last_rows w r l = skipn (S r - Z.to_nat w) (firstn (S r) l).
Proof.
  intros Hr Hw. unfold last_rows.
  assert (G : forall (l : list X) s, (r < s + length l)%nat -> map snd (filter (fun p => (fst p <=? r)%nat && (Z.of_nat r <? Z.of_nat (fst p) + w)) (combine (seq s (length l)) l)) = skipn (S r - Z.to_nat w - s) (firstn (S r - s) l)).
  { clear. induction l as [|x l IH]; intros s Hs; cbn [length seq combine]; [now rewrite firstn_nil, skipn_nil|]. cbn [length] in Hs. cbn [filter fst].
    destruct (Nat.leb_spec s r) as [L|L]; cbn [andb].
    - replace (S r - s)%nat with (S (r - s)) by lia. cbn [firstn]. destruct (Z.ltb_spec (Z.of_nat r) (Z.of_nat s + w)) as [L2|L2].
      + replace (S r - Z.to_nat w - s)%nat with 0%nat by lia. cbn [skipn map snd]. f_equal. rewrite IH by lia. replace (S r - Z.to_nat w - S s)%nat with 0%nat by lia. reflexivity.
      + replace (S r - Z.to_nat w - s)%nat with (S (S r - Z.to_nat w - S s)) by lia. cbn [skipn]. rewrite IH by lia. reflexivity.
    - replace (S r - s)%nat with 0%nat by lia. cbn [firstn]. rewrite skipn_nil. clear IH Hs. assert (Z0 : forall (l : list X) s', (s < s')%nat -> filter (fun p => (fst p <=? r)%nat && (Z.of_nat r <? Z.of_nat (fst p) + w)) (combine (seq s' (length l)) l) = []).
      { clear -L. induction l as [|x l IH]; intros s' H; [reflexivity|]. cbn [length seq combine filter fst]. destruct (Nat.leb_spec s' r); [lia|]. cbn [andb]. apply IH. lia. }
      rewrite Z0 by lia. reflexivity. }
  rewrite (G l 0%nat) by lia. now rewrite !Nat.sub_0_r.
Qed.
Lemma rolling_ok q a b w l : frac_of q = (a, b) -> 0 <= a <= b -> 0 <= w ->
  exists k, 0 <= k <= billion /\ a * billion - 2 * b < k * b < a * billion + 2 * b /\ length (rolling_quantile q w l) = length l /\
  forall r, (r < length l)%nat -> exists x, nth_error (rolling_quantile q w l) r = Some x /\
    (x = None <-> values (last_rows w r l) = []) /\ (forall y, x = Some y -> quantile_at k billion (values (last_rows w r l)) y).
Proof.
  intros F R Hw. destruct (times_billion_ok q a b F R) as (Kr & N & _). exists (times_billion q). split; [exact Kr|]. split; [exact N|].
  unfold rolling_quantile, rolling_param. set (k := times_billion q) in *. set (w' := Z.min w (Z.of_nat (length l))). assert (B0 : 0 < billion) by (rewrite billion_val; lia).
  assert (E1 : (k + w' * (billion + 1)) / (billion + 1) = w') by (rewrite Z.div_add by lia; rewrite Z.div_small by lia; lia).
  assert (E2 : (k + w' * (billion + 1)) mod (billion + 1) = k) by (rewrite Z.mod_add by lia; apply Z.mod_small; lia).
  rewrite E1, E2. split; [now rewrite map_length, seq_length|]. intros r Hr. eexists. split.
  - rewrite nth_error_map. rewrite (nth_error_nth' _ 0%nat) by (rewrite seq_length; lia). rewrite seq_nth by lia. cbn [option_map Nat.add]. reflexivity.
  - cbv zeta. assert (W : skipn (S r - Z.to_nat w') (firstn (S r) l) = last_rows w r l).
    { rewrite last_rows_skip by lia. unfold w'. destruct (Z.le_ge_cases w (Z.of_nat (length l))); [now rewrite Z.min_l by lia|]. rewrite Z.min_r by lia. replace (S r - Z.to_nat (Z.of_nat (length l)))%nat with 0%nat by lia. now replace (S r - Z.to_nat w)%nat with 0%nat by lia. }
    rewrite W. rewrite somes_values. destruct (values (last_rows w r l)) as [|v0 v] eqn:Ev; [split; [tauto|discriminate]|]. split; [split; discriminate|]. intros y E. assert (y = neighbours k (v0 :: v)) by congruence. subst y. apply neighbours_at.
Qed.
Close Scope Z_scope.
