(** cut and qcut (C130-C132). *)
From Coq Require Import List Arith Bool ZArith QArith Qround Lia Lqa Sorted.
From Verif Require Import FlattenModel ArrModel ArrSpec ArrProofs3 CutModel CutSpec CutProofs CutProofs2 CutProofs3.
Import ListNotations.
Open Scope nat_scope.

(** C130: with increasing edges (and right=True) every row gets the number of the bin its value is in,
    counted from 1, and 0 if it is NaN, left out by the filter, or outside the edges.  The categories
    are the labels given, or the texts of the edges of the bins. *)
Theorem C130_bins_partial : forall rnd text x e labels precision filt dups,
  edges_ok e -> filter_fits filt x -> labels_fit labels e -> dups <> DOther ->
  exists codes cats, cut rnd text x (Edges e) labels true precision filt dups = Cut codes cats e /\
    length codes = length x /\
    (forall r, r < length x ->
       (forall i, 1 <= i -> (nth r codes 0 = i <-> in_bin e i (value_at filt x r))) /\
       (nth r codes 0 = 0 <-> outside e (value_at filt x r))) /\
    match labels with
    | LOff => cats = None
    | LGiven l => cats = Some l
    | LAuto => exists l p, cats = Some l /\ length l = length e - 1 /\
        forall i a b, nth_error e i = Some a -> nth_error e (S i) = Some b -> nth_error l i = Some (text (rnd p a) ++ arrow ++ text (rnd p b))
    end.
Proof.
  intros rnd text x e labels precision filt dups EO FF LF DU. destruct (masked_ok filt x FF) as [ML MN].
  destruct (codes_ok rnd text (masked filt x) e false labels precision dups EO LF DU) as (cats & E & C).
  exists (map (bsearch true e) (masked filt x)), cats. unfold cut. assert (EO' := EO). destruct EO' as (LE & SS & NN). rewrite (sorted_decreases e SS). split; [exact E|]. split; [now rewrite map_length|]. split.
  - intros r H. rewrite nth_map_codes by lia. rewrite (MN r H). split; [intros i Hi; now apply bsearch_bin|now apply bsearch_out].
  - destruct labels as [| |l]; [|exact C|exact C]. exists (format_labels rnd text e precision false), (infer_precision rnd precision e). split; [exact C|]. unfold format_labels. cbn [app]. split; [now rewrite between_length, map_length|].
    intros i a b A B. apply between_nth; now apply (map_nth_error (fun b0 => text (rnd (infer_precision rnd precision e) b0))).
Qed.
(** a value is in at most one bin, and in none exactly if it is outside *)
Theorem C130_partition : forall e v, edges_ok e ->
  (forall i j, in_bin e i v -> in_bin e j v -> i = j) /\ ((exists i, in_bin e i v /\ i <= length e - 1) <-> ~ outside e v).
Proof.
  intros e v EO. split.
  - intros i j A B. assert (Hi : 1 <= i) by (destruct A as (? & ? & _ & _ & H & _); exact H). assert (Hj : 1 <= j) by (destruct B as (? & ? & _ & _ & H & _); exact H). apply (bsearch_bin e v EO i Hi) in A. apply (bsearch_bin e v EO j Hj) in B. congruence.
  - split.
    + intros (i & A & _) O. assert (Hi : 1 <= i) by (destruct A as (? & ? & _ & _ & H & _); exact H). apply (bsearch_bin e v EO i Hi) in A. apply (bsearch_out e v EO) in O. lia.
    + intros NO. assert (NZ : bsearch true e v <> 0) by (intros Z; apply NO; now apply bsearch_out). exists (bsearch true e v). assert (IB : in_bin e (bsearch true e v) v) by (apply bsearch_bin; [exact EO|lia|reflexivity]). split; [exact IB|]. destruct IB as (a & b & _ & H & _). assert (bsearch true e v < length e) by (apply nth_error_Some; congruence). lia.
Qed.
(** larger values are in later bins *)
Theorem C130_order : forall e i j v w, edges_ok e -> in_bin e i v -> in_bin e j w -> fle v w -> i <= j.
Proof.
  intros e i j v w EO A B L. destruct A as (a & b & Ea & Eb & Hi & Hb & Ha). destruct B as (c & d & Ec & Ed & Hj & Hd & Hc). destruct (Nat.le_gt_cases i j) as [|G]; [assumption|]. exfalso. assert (EO' := EO). destruct EO' as (LE & SS & NN).
  (* w <= d <= a < v *)
  assert (AV : flt a v) by (destruct Ha as [Ha|[-> _]]; [exact Ha|lia]).
  assert (DA : fle d a). { destruct (Nat.eq_dec j (i - 1)) as [D|D]; [right; rewrite <- D, Ed in Ea; injection Ea as <-; apply feq_refl; intros ->; apply NN; now apply nth_error_In with j|]. left. apply (sorted_pair e j (i - 1)); auto; lia. }
  assert (DV : flt d v) by (destruct DA as [DA|DA]; [exact (flt_trans _ _ _ DA AV)|exact (feq_flt _ _ _ DA AV)]).
  assert (WV : flt w v) by (destruct Hd as [Hd|Hd]; [exact (flt_trans _ _ _ Hd DV)|exact (feq_flt _ _ _ Hd DV)]). exact (fle_not v w L WV).
Qed.
(** edges that go down are refused; repeated edges are refused, or dropped if that is asked for *)
Theorem C130_repeated : forall rnd text x e labels precision filt,
  (decreases e = true -> forall dups, cut rnd text x (Edges e) labels true precision filt dups = CutRaise) /\
  (forall i j a b, ~ In NaN e -> length e <> 2 -> i < j -> nth_error e i = Some a -> nth_error e j = Some b -> feq a b ->
     cut rnd text x (Edges e) labels true precision filt DRaise = CutRaise) /\
  (~ In NaN e -> decreases e = false -> length e <> 2 ->
     exists e', StronglySorted flt e' /\ (forall v, In v e' -> In v e) /\ (forall v, In v e -> exists w, In w e' /\ feq w v) /\
       cut rnd text x (Edges e) labels true precision filt DDrop = cut rnd text x (Edges e') labels true precision filt DDrop).
Proof.
  intros rnd text x e labels precision filt. split; [intros D dups; unfold cut; now rewrite D|]. split.
  - intros i j a b NN L2 L EI EJ F. unfold cut. destruct (decreases e); [reflexivity|]. unfold bins_to_cuts. rewrite (no_nan e NN). pose proof (uniq_dup e i j a b NN L EI EJ F) as U. apply Nat.ltb_lt in U. rewrite U. apply Nat.eqb_neq in L2. rewrite L2. reflexivity.
  - intros NN D L2. destruct (uniq_ok e NN) as (A & B & C & E). exists (uniq e). split; [exact A|]. split; [exact C|]. split; [exact E|].
    unfold cut. rewrite D, (sorted_decreases _ A). unfold bins_to_cuts. rewrite (no_nan e NN), (no_nan _ B), (uniq_id _ A). apply Nat.eqb_neq in L2. rewrite L2. rewrite Nat.ltb_irrefl. cbv zeta. cbn [negb andb]. rewrite !andb_false_r, andb_true_r.
    destruct (length (uniq e) <? length e) eqn:U; [reflexivity|].
    assert (SE : StronglySorted flt e).
    { apply nondec_strict; [exact NN|exact D|]. intros i j a b L EI EJ F. pose proof (uniq_dup e i j a b NN L EI EJ F) as X. apply Nat.ltb_ge in U. lia. }
    rewrite (uniq_id e SE). reflexivity.
Qed.
Lemma no_arrow (a a' b b' : name) : ~ In 62 a -> ~ In 62 a' -> a ++ arrow ++ b = a' ++ arrow ++ b' -> a = a'.
Proof.
  revert a'. induction a as [|x a IH]; intros [|y a'] N N' E; cbn [app arrow] in E; try reflexivity.
  - exfalso. injection E as E1 E2. destruct a' as [|z a']; cbn [app] in E2; [injection E2 as E2 _; discriminate|]. injection E2 as E2 _. apply N'. right. now left.
  - exfalso. injection E as E1 E2. destruct a as [|z a]; cbn [app] in E2; [injection E2 as E2 _; discriminate|]. injection E2 as E2 _. apply N. right. now left.
  - injection E as E1 E2. f_equal; [exact E1|]. apply IH; [intros I; apply N; now right|intros I; apply N'; now right|exact E2].
Qed.
(** different bins have different labels, if some number of digits below 20 tells the edges apart *)
Theorem C130_labels : forall rnd text e precision clipped p,
  (forall v k, In v e -> rnd k v <> NaN /\ ~ In 62 (text (rnd k v))) ->
  (forall v w k, In v e -> In w e -> text (rnd k v) = text (rnd k w) -> feq (rnd k v) (rnd k w)) ->
  precision <= p < 20 -> (StronglySorted flt (map (rnd p) e)) ->
  NoDup (format_labels rnd text e precision clipped).
Proof.
  intros rnd text e precision clipped p OK INJ Hp DI. unfold format_labels. set (q := infer_precision rnd precision e).
  assert (LQ : length (uniq (map (rnd q) e)) = length e).
  { unfold q, infer_precision. destruct (find _ _) as [k|] eqn:F; [apply find_some in F; destruct F as [_ F]; now apply Nat.eqb_eq|].
    exfalso. pose proof (find_none _ _ F p) as X. cbv beta in X. rewrite (uniq_id _ DI), map_length, Nat.eqb_refl in X. discriminate X. apply in_seq. lia. }
  assert (NN : ~ In NaN (map (rnd q) e)) by (intros I; apply in_map_iff in I; destruct I as (v & E & I); now apply (proj1 (OK v q I))).
  assert (ND : NoDup (between (map (fun b => text (rnd q b)) e))).
  { apply NoDup_nth_error. intros i j Hi E. rewrite between_length, map_length in Hi.
    assert (X : forall a, a < length e - 1 -> exists v w, nth_error e a = Some v /\ nth_error e (S a) = Some w /\ nth_error (between (map (fun b => text (rnd q b)) e)) a = Some (text (rnd q v) ++ arrow ++ text (rnd q w))).
    { intros a Ha. destruct (nth_error e a) as [v|] eqn:V; [|apply nth_error_None in V; lia]. destruct (nth_error e (S a)) as [w|] eqn:W; [|apply nth_error_None in W; lia]. exists v, w. split; [reflexivity|]. split; [reflexivity|]. apply between_nth; now apply (map_nth_error (fun b0 => text (rnd q b0))). }
    destruct (X i Hi) as (v & w & V & W & Ei). assert (Hj : j < length e - 1). { assert (j < length (between (map (fun b => text (rnd q b)) e))) by (apply nth_error_Some; rewrite <- E, Ei; discriminate). now rewrite between_length, map_length in H. }
    destruct (X j Hj) as (v' & w' & V' & W' & Ej). rewrite Ei, Ej in E. injection E as E.
    assert (T : text (rnd q v) = text (rnd q v')) by (apply (no_arrow _ _ (text (rnd q w)) (text (rnd q w'))); [apply OK; now apply nth_error_In with i|apply OK; now apply nth_error_In with j|exact E]).
    apply INJ in T; [|now apply nth_error_In with i|now apply nth_error_In with j].
    destruct (Nat.lt_trichotomy i j) as [L|[L|L]]; [|exact L|]; exfalso.
    - pose proof (uniq_dup (map (rnd q) e) i j _ _ NN L (map_nth_error (rnd q) i e V) (map_nth_error (rnd q) j e V') T). rewrite map_length in H. lia.
    - pose proof (uniq_dup (map (rnd q) e) j i _ _ NN L (map_nth_error (rnd q) j e V') (map_nth_error (rnd q) i e V) (feq_sym _ _ T)). rewrite map_length in H. lia. }
  destruct clipped; [|exact ND]. cbn [app]. constructor; [|exact ND]. intros I.
  assert (XI : forall l, In clipped_name (between l) -> In 62 clipped_name).
  { induction l as [|a l IH]; [intros []|]. destruct l as [|b l]; [intros []|]. intros [H|H]; [|exact (IH H)]. rewrite <- H. apply in_or_app. right. right. now left. }
  apply XI in I. vm_compute in I. intuition discriminate.
Qed.
(** C131: a number of bins makes that many bins of equal width; every finite value is in one of them.
    Partial: the values that are not NaN are finite (otherwise the edges are not numbers). *)
Theorem C131_equal_width_partial : forall rnd text x n labels precision filt dups, 1 <= n -> filter_fits filt x ->
  (forall l, labels = LGiven l -> length l = n) -> dups <> DOther ->
  (exists r q, r < length x /\ value_at filt x r = Fin q) ->
  (forall r, r < length x -> value_at filt x r <> PosInf /\ value_at filt x r <> NegInf) ->
  exists codes cats e lo w, cut rnd text x (NBins n) labels true precision filt dups = Cut codes cats e /\
    length e = n + 1 /\ edges_ok e /\ (0 < w)%Q /\
    (forall i, i <= n -> exists q, nth_error e i = Some (Fin q) /\ (q == lo + inject_Z (Z.of_nat i) * w)%Q) /\
    length codes = length x /\
    (forall r, r < length x -> match value_at filt x r with
       | Fin q => 1 <= nth r codes 0 <= n /\ in_bin e (nth r codes 0) (Fin q) /\ (lo <= q <= lo + inject_Z (Z.of_nat n) * w)%Q
       | _ => nth r codes 0 = 0
       end) /\
    ((exists r r' q q', r < length x /\ r' < length x /\ value_at filt x r = Fin q /\ value_at filt x r' = Fin q' /\ ~ (q == q')%Q) ->
     (exists r q, r < length x /\ value_at filt x r = Fin q /\ (q == lo)%Q) /\
     (exists r q, r < length x /\ value_at filt x r = Fin q /\ (q == lo + inject_Z (Z.of_nat n) * w)%Q)).
Proof.
  intros rnd text x n labels precision filt dups N FF LF DU (r0 & q0 & Hr0 & V0) NI. destruct (masked_ok filt x FF) as [ML MN]. set (m := masked filt x) in *.
  assert (INX : forall v, In v m <-> exists r, r < length x /\ value_at filt x r = v).
  { intros v. split; [intros I; apply In_nth with (d := NaN) in I; destruct I as (r & H & E); exists r; split; [lia|]; rewrite <- E; symmetry; apply MN; lia|]. intros (r & H & E). rewrite <- E, <- (MN r H). apply nth_In. lia. }
  assert (FIN : finite m <> []) by (intros X; assert (In q0 (finite m)) by (apply finite_in, INX; now exists r0); rewrite X in H; destruct H).
  destruct (equal_edges_ok m n N FIN) as (lo & hi & E & LH & COV & TIGHT); [intros I; apply INX in I; destruct I as (r & H & V); destruct (NI r H); contradiction|intros I; apply INX in I; destruct I as (r & H & V); destruct (NI r H); contradiction|].
  destruct (linspace_ok lo hi n LH N) as (W & EH & LE & EO & NT & LAST). set (w := ((hi - lo) / Qn n)%Q) in *. set (e := linspace lo hi n) in *.
  assert (LF' : labels_fit labels e) by (intros l L; rewrite (LF l L), LE; lia).
  destruct (codes_ok rnd text m e false labels precision dups EO LF' DU) as (cats & EC & _).
  exists (map (bsearch true e) m), cats, e, lo, w. split.
  { unfold cut. replace (n <? 1) with false by (symmetry; apply Nat.ltb_ge; lia). fold m. replace (length m =? 0) with false by (symmetry; apply Nat.eqb_neq; lia). rewrite E. exact EC. }
  split; [exact LE|]. split; [exact EO|]. split; [exact W|]. split; [intros i Hi; exists (lo + Qn i * w)%Q; split; [now apply NT|reflexivity]|]. split; [now rewrite map_length|]. split.
  - intros r H. rewrite nth_map_codes by lia. rewrite (MN r H). destruct (value_at filt x r) as [|q| |] eqn:V; [destruct (NI r H); congruence| |destruct (NI r H); congruence|reflexivity].
    assert (IQ : In q (finite m)) by (apply finite_in, INX; now exists r). specialize (COV q IQ).
    assert (HD : hd NaN e = Fin (lo + Qn 0 * w)%Q). { pose proof (NT 0 ltac:(lia)) as X. destruct e; [discriminate|]. injection X as ->. reflexivity. }
    assert (NO : ~ outside e (Fin q)). { intros [O|[O|O]]; [discriminate| |]; [rewrite HD in O|rewrite LAST in O]; cbn [flt] in O; [change (Qn 0) with 0%Q in O; lra|lra]. }
    assert (NZ : bsearch true e (Fin q) <> 0) by (intros Z; apply NO; now apply bsearch_out).
    assert (IB : in_bin e (bsearch true e (Fin q)) (Fin q)) by (apply bsearch_bin; [exact EO|lia|reflexivity]). split; [|split; [exact IB|lra]]. destruct IB as (a & b & _ & H1 & _). assert (bsearch true e (Fin q) < length e) by (apply nth_error_Some; congruence). lia.
  - intros (r & r' & q & q' & H & H' & V & V' & NE). destruct TIGHT as [T1 T2]; [exists q, q'; split; [apply finite_in, INX; now exists r|split; [apply finite_in, INX; now exists r'|exact NE]]|].
    apply finite_in, INX in T1. apply finite_in, INX in T2. destruct T1 as (s & S1 & S2). destruct T2 as (t & T1 & T2). split; [exists s, lo; split; [exact S1|split; [exact S2|reflexivity]]|exists t, hi; split; [exact T1|split; [exact T2|lra]]].
Qed.

(** C132: qcut by increasing quantiles of values that are all different: 0 for NaN and rows left out, 1
    ("Clipped") for values outside the quantiles, and one more than the number of the bin for the rest. *)
Theorem C132_quantiles_partial : forall rnd text lexsort x q labels precision dups filt, sorts lexsort -> filter_fits filt x ->
  (forall p, In p (quants q) -> (0 <= p <= 1)%Q) -> StronglySorted Qlt (quants q) -> 2 <= length (quants q) ->
  distinct (finite (masked filt x)) -> 2 <= length (finite (masked filt x)) ->
  (forall l, labels = LGiven l -> length l = length (quants q) - 1) -> dups <> DOther ->
  exists codes cats e, qcut rnd text lexsort x q labels precision dups filt = Cut codes cats e /\
    length e = length (quants q) /\ edges_ok e /\
    (forall i p, nth_error (quants q) i = Some p -> exists v, nth_error e i = Some (Fin v) /\ quantile_at (finite (masked filt x)) p v) /\
    length codes = length x /\
    (forall r, r < length x ->
       (nth r codes 0 = 0 <-> value_at filt x r = NaN) /\
       (nth r codes 0 = 1 <-> value_at filt x r <> NaN /\ outside e (value_at filt x r)) /\
       (forall i, 1 <= i -> (nth r codes 0 = S i <-> in_bin e i (value_at filt x r)))) /\
    match labels with
    | LOff => cats = None
    | LGiven l => cats = Some (clipped_name :: l)
    | LAuto => exists l, cats = Some (clipped_name :: l) /\ length l = length e - 1
    end.
Proof.
  intros rnd text lexsort x q labels precision dups filt LS FF Q01 QS Q2 DI L2 LF DU. destruct (masked_ok filt x FF) as [ML MN]. set (m := masked filt x) in *.
  assert (NE : finite m <> []) by (intros X; rewrite X in L2; cbn in L2; lia).
  destruct (qcut_edges lexsort m (quants q) LS NE Q01) as (vs & E & F). pose proof (forall2_length _ _ _ F) as LEN.
  assert (EO : edges_ok (map Fin vs)) by (split; [rewrite map_length; lia|]; split; [now apply (edges_strict (finite m) (quants q))|apply nan_map_fin]).
  assert (LF' : labels_fit labels (map Fin vs)) by (intros l L; rewrite (LF l L), map_length; lia).
  destruct (codes_ok rnd text m (map Fin vs) true labels precision dups EO LF' DU) as (cats & EC & CC).
  exists (map (bsearch_sorted (map Fin vs)) m), cats, (map Fin vs). split; [unfold qcut; fold m; rewrite E; exact EC|]. split; [rewrite map_length; lia|]. split; [exact EO|]. split.
  { intros i p P. destruct (forall2_nth _ _ _ F i p P) as (v & V & QA). exists v. split; [now apply map_nth_error|exact QA]. }
  split; [now rewrite map_length|]. split.
  - intros r H. rewrite nth_map_codes by lia. rewrite (MN r H). split; [apply sorted_nan|]. split; [now apply sorted_clip|]. intros i Hi. now apply sorted_bin.
  - destruct labels as [| |l]; [|exact CC|exact CC]. exists (between (map (fun b => text (rnd (infer_precision rnd precision (map Fin vs)) b)) (map Fin vs))). split; [exact CC|]. now rewrite between_length, !map_length.
Qed.
(** A number of quantiles makes bins that cover all finite values and have equal sizes: with N different
    values the first k bins hold floor(k (N - 1) / n) + 1 of them. *)
Theorem C132_equal_sizes_partial : forall rnd text lexsort x n labels precision dups filt, sorts lexsort -> filter_fits filt x -> 1 <= n ->
  distinct (finite (masked filt x)) -> 2 <= length (finite (masked filt x)) ->
  (forall l, labels = LGiven l -> length l = n) -> dups <> DOther ->
  exists codes cats e, qcut rnd text lexsort x (NQuant n) labels precision dups filt = Cut codes cats e /\ length e = n + 1 /\
    (forall r q, r < length x -> value_at filt x r = Fin q -> 2 <= nth r codes 0 <= S n /\ in_bin e (nth r codes 0 - 1) (Fin q)) /\
    forall k, 1 <= k <= n ->
      rows_with codes (S k) + (if k =? 1 then 0 else S ((k - 1) * (length (finite (masked filt x)) - 1) / n))
      = S (k * (length (finite (masked filt x)) - 1) / n).
Proof.
  intros rnd text lexsort x n labels precision dups filt LS FF N DI L2 LF DU. destruct (masked_ok filt x FF) as [ML MN]. set (m := masked filt x) in *.
  assert (NE : finite m <> []) by (intros X; rewrite X in L2; cbn in L2; lia).
  destruct (qcut_edges lexsort m (quants (NQuant n)) LS NE (nquant_range n N)) as (vs & E & F). pose proof (forall2_length _ _ _ F) as LEN. rewrite nquant_length in LEN.
  assert (EO : edges_ok (map Fin vs)) by (split; [rewrite map_length; lia|]; split; [apply (edges_strict (finite m) (quants (NQuant n))); auto; [now apply nquant_range|now apply nquant_sorted]|apply nan_map_fin]).
  assert (LF' : labels_fit labels (map Fin vs)) by (intros l L; rewrite (LF l L), map_length; lia).
  destruct (codes_ok rnd text m (map Fin vs) true labels precision dups EO LF' DU) as (cats & EC & CC).
  exists (map (bsearch_sorted (map Fin vs)) m), cats, (map Fin vs). split; [unfold qcut; fold m; rewrite E; exact EC|]. split; [rewrite map_length; lia|].
  assert (COV : forall q, In q (finite m) -> ~ outside (map Fin vs) (Fin q)) by (intros q I [O|[O|O]]; [discriminate| |]; destruct (quantiles_cover (finite m) n vs NE N F q I); contradiction).
  split.
  - intros r q H V. rewrite nth_map_codes by lia. rewrite (MN r H), V. unfold bsearch_sorted. cbn [is_nan]. assert (IQ : In q (finite m)) by (apply finite_in; rewrite <- V, <- (MN r H); apply nth_In; lia). specialize (COV q IQ).
    assert (NZ : bsearch true (map Fin vs) (Fin q) <> 0) by (intros Z; apply COV; now apply bsearch_out). replace (S (bsearch true (map Fin vs) (Fin q)) - 1) with (bsearch true (map Fin vs) (Fin q)) by lia.
    assert (IB : in_bin (map Fin vs) (bsearch true (map Fin vs) (Fin q)) (Fin q)) by (apply bsearch_bin; [exact EO|lia|reflexivity]). split; [|exact IB]. destruct IB as (a & b & _ & H1 & _). assert (bsearch true (map Fin vs) (Fin q) < length (map Fin vs)) by (apply nth_error_Some; congruence). rewrite map_length in H0. lia.
  - intros k Hk. assert (FE : forall i a, nth_error (map Fin vs) i = Some a -> exists b, a = Fin b) by (intros i a X; apply nth_error_In, in_map_iff in X; destruct X as (b & <- & _); now exists b).
    assert (CNT : forall j, j <= n -> exists v, nth_error (map Fin vs) j = Some (Fin v) /\ length (filter (fun y => Qle_bool y v) (finite m)) = S (j * (length (finite m) - 1) / n)).
    { intros j Hj. destruct (forall2_nth _ _ _ F j _ (nquant_nth n j Hj)) as (v & V & QA). exists v. split; [now apply map_nth_error|]. rewrite (quantile_count (finite m) _ v DI QA). f_equal. apply nquant_floor; lia. }
    destruct (CNT k ltac:(lia)) as (v & V & C). pose proof (bin_size (map Fin vs) m k v EO FE COV ltac:(lia) V) as BS. destruct k as [|[|j]]; [lia| |].
    + cbn [Nat.eqb]. rewrite BS, C. lia.
    + destruct (CNT (S j) ltac:(lia)) as (u & U & CU). specialize (BS u U). rewrite CU, C in BS. replace (S (S j) =? 1) with false by reflexivity. replace (S (S j) - 1) with (S j) by lia. exact BS.
Qed.
Lemma quantile_comp l q q' v : (q == q')%Q -> quantile_at l q v -> quantile_at l q' v.
Proof.
  intros E. unfold quantile_at. cbv zeta. remember (inject_Z (Z.of_nat (length l) - 1)) as m eqn:M. clear M.
  assert (HM : (q * m == q' * m)%Q) by (now rewrite E). pose proof (Qfloor_comp _ _ HM) as FC. rewrite <- FC. remember (Qfloor (q * m)) as z eqn:Z. clear Z FC.
  remember (q * m)%Q as h eqn:A. remember (q' * m)%Q as h' eqn:B. clear A B. intros (a & b & KA & KB & V). exists a, b. split; [exact KA|]. split; [destruct KB as [KB|KB]; [now left|right; lra]|]. rewrite V. setoid_replace h with h' by exact HM. reflexivity.
Qed.
(** Equal values make equal quantiles: by default qcut refuses them; duplicates='drop' merges the bins, and
    if not all values are equal every finite value is still in a bin. *)
Theorem C132_ties : forall rnd text lexsort x n precision filt, sorts lexsort -> filter_fits filt x -> 2 <= n ->
  (exists r r' q q', r < length x /\ r' < length x /\ value_at filt x r = Fin q /\ value_at filt x r' = Fin q' /\ ~ (q == q')%Q) ->
  (forall labels k k' v v', k < k' <= n -> quantile_at (finite (masked filt x)) (inject_Z (Z.of_nat k) / inject_Z (Z.of_nat n)) v -> quantile_at (finite (masked filt x)) (inject_Z (Z.of_nat k') / inject_Z (Z.of_nat n)) v' -> (v == v')%Q ->
     qcut rnd text lexsort x (NQuant n) labels precision DRaise filt = CutRaise) /\
  (forall labels, labels = LAuto \/ labels = LOff ->
   exists codes cats e, qcut rnd text lexsort x (NQuant n) labels precision DDrop filt = Cut codes cats e /\ edges_ok e /\
     (forall a, In a e -> exists k v, k <= n /\ a = Fin v /\ quantile_at (finite (masked filt x)) (inject_Z (Z.of_nat k) / inject_Z (Z.of_nat n)) v) /\
     forall r q, r < length x -> value_at filt x r = Fin q -> 2 <= nth r codes 0 <= length e /\ in_bin e (nth r codes 0 - 1) (Fin q)).
Proof.
  intros rnd text lexsort x n precision filt LS FF N2 (r0 & r1 & q0 & q1 & H0 & H1 & V0 & V1 & NEQ). assert (N : 1 <= n) by lia. destruct (masked_ok filt x FF) as [ML MN]. set (m := masked filt x) in *.
  assert (INF : forall r q, r < length x -> value_at filt x r = Fin q -> In q (finite m)) by (intros r q H V; apply finite_in; rewrite <- V, <- (MN r H); apply nth_In; lia).
  assert (NE : finite m <> []) by (intros X; pose proof (INF r0 q0 H0 V0) as Y; rewrite X in Y; destruct Y).
  destruct (qcut_edges lexsort m (quants (NQuant n)) LS NE (nquant_range n N)) as (vs & E & F). pose proof (forall2_length _ _ _ F) as LEN. rewrite nquant_length in LEN.
  assert (QP : forall k v, quantile_at (finite m) (0 + Qn k * ((1 - 0) / Qn n))%Q v <-> quantile_at (finite m) (Qn k / Qn n) v).
  { intros k v. pose proof (nquant_eq n k N) as EQ. split; apply quantile_comp; [exact EQ|exact (Qeq_sym _ _ EQ)]. }
  pose proof (nan_map_fin vs) as NN. pose proof (quantiles_mono (finite m) _ vs NE (nquant_range n N) (nquant_sorted n N) F) as DEC. set (e := map Fin vs) in *.
  assert (L2 : (length e =? 2) = false) by (apply Nat.eqb_neq; unfold e; rewrite map_length; lia). split.
  - intros labels k k' v v' Hk QV QV' EV. unfold qcut. fold m. rewrite E. fold e. unfold bins_to_cuts. rewrite (no_nan e NN).
    destruct (forall2_nth _ _ _ F k _ (nquant_nth n k ltac:(lia))) as (w & W & QW). destruct (forall2_nth _ _ _ F k' _ (nquant_nth n k' ltac:(lia))) as (w' & W' & QW'). apply QP in QW. apply QP in QW'.
    assert (UNI : forall j u u', quantile_at (finite m) (Qn j / Qn n) u -> quantile_at (finite m) (Qn j / Qn n) u' -> (u == u')%Q).
    { intros j u u' A B. assert (P0 : (0 <= Qn j / Qn n)%Q). { pose proof (Qn_lt 0 n ltac:(lia)) as P. change (Qn 0) with 0%Q in P. pose proof (Qn_le 0 j ltac:(lia)) as P0. change (Qn 0) with 0%Q in P0. apply Qle_shift_div_l; lra. } apply Qle_antisym; eapply quantile_mono; try eassumption; split; lra. }
    assert (FQ : feq (Fin w) (Fin w')). { cbn [feq]. rewrite (UNI k w v QW QV), (UNI k' w' v' QW' QV'). exact EV. }
    pose proof (uniq_dup e k k' (Fin w) (Fin w') NN ltac:(lia) (map_nth_error Fin k vs W) (map_nth_error Fin k' vs W') FQ) as U. apply Nat.ltb_lt in U. rewrite U, L2. reflexivity.
  - intros labels HL. destruct (uniq_ok e NN) as (A & B & C & D). set (e' := uniq e) in *.
    assert (COV : forall q, In q (finite m) -> ~ flt (Fin q) (hd NaN e) /\ ~ flt (last e NaN) (Fin q)) by (intros q I; exact (quantiles_cover (finite m) n vs NE N F q I)).
    assert (NEe : e <> []) by (intros X; apply (f_equal (@length _)) in X; unfold e in X; rewrite map_length in X; cbn in X; lia).
    assert (IH : In (hd NaN e) e) by (destruct e; [congruence|now left]). assert (IL : In (last e NaN) e) by (apply nth_error_In with (length e - 1); now apply last_nth).
    (* the first and the last edge are different *)
    assert (FL : flt (hd NaN e) (last e NaN)).
    { pose proof (COV q0 (INF r0 q0 H0 V0)) as [A0 B0]. pose proof (COV q1 (INF r1 q1 H1 V1)) as [A1 B1]. apply in_map_iff in IH. destruct IH as (h & Eh & _). apply in_map_iff in IL. destruct IL as (l & El & _). rewrite <- Eh in *. rewrite <- El in *. cbn [flt] in *. apply Qnot_lt_le in A0, A1, B0, B1. destruct (Qlt_le_dec h l) as [X|X]; [exact X|]. exfalso. apply NEQ. lra. }
    assert (HB : forall y, In y e' -> fle (hd NaN e') y /\ fle y (last e' NaN)).
    { clear -A B. intros y I. apply In_nth_error in I. destruct I as (i & I). assert (NZ : e' <> []) by (intros ->; destruct i; discriminate). assert (Li : i < length e') by (apply nth_error_Some; congruence).
      assert (Y : y <> NaN) by (intros ->; apply B; now apply nth_error_In with i). assert (E0 : nth_error e' 0 = Some (hd NaN e')) by (destruct e'; [congruence|reflexivity]). pose proof (last_nth e' NaN NZ) as EL. split.
      - destruct i as [|i]; [rewrite I in E0; injection E0 as <-; right; now apply feq_refl|]. left. apply (sorted_pair e' 0 (S i)); auto; lia.
      - destruct (Nat.eq_dec i (length e' - 1)) as [Q|Q]; [rewrite <- Q, I in EL; injection EL as <-; right; now apply feq_refl|]. left. apply (sorted_pair e' i (length e' - 1)); auto; lia. }
    assert (EO : edges_ok e').
    { split; [|split; assumption]. destruct (D _ IH) as (y & Y & FY). destruct (D _ IL) as (z & Z & FZ). destruct e' as [|a [|b e'']]; cbn [length]; try lia; [destruct Y|]. exfalso. destruct Y as [<-|[]]. destruct Z as [<-|[]]. exact (proj1 (feq_not_flt _ _ (feq_trans _ _ _ (feq_sym _ _ FY) FZ)) FL). }
    assert (COV' : forall q, In q (finite m) -> ~ outside e' (Fin q)).
    { intros q I O. destruct (COV q I) as [P Q]. destruct O as [O|[O|O]]; [discriminate| |].
      - apply P. destruct (D _ IH) as (y & Y & FY). destruct (HB y Y) as [[X|X] _]; [exact (flt_feq _ _ _ (flt_trans _ _ _ O X) FY)|exact (flt_feq _ _ _ (flt_feq _ _ _ O X) FY)].
      - apply Q. destruct (D _ IL) as (z & Z & FZ). destruct (HB z Z) as [_ [X|X]]; [exact (feq_flt _ _ _ (feq_sym _ _ FZ) (flt_trans _ _ _ X O))|exact (feq_flt _ _ _ (feq_sym _ _ FZ) (feq_flt _ _ _ X O))]. }
    destruct (codes_ok rnd text m e' true labels precision DDrop EO ltac:(intros l L; destruct HL; congruence) ltac:(discriminate)) as (cats & EC & _).
    exists (map (bsearch_sorted e') m), cats, e'. split.
    { unfold qcut. fold m. rewrite E. fold e. rewrite <- EC. unfold bins_to_cuts. rewrite (no_nan e NN), (no_nan _ B), (uniq_id _ A), L2, Nat.ltb_irrefl. cbv zeta. fold e'. cbn [negb andb]. rewrite !andb_false_r, andb_true_r.
      destruct (length e' <? length e) eqn:U; [reflexivity|].
      assert (SE : StronglySorted flt e). { apply nondec_strict; [exact NN|exact DEC|]. intros i j a b L EI EJ FQ. pose proof (uniq_dup e i j a b NN L EI EJ FQ) as X. fold e' in X. apply Nat.ltb_ge in U. lia. }
      unfold e' in *. rewrite (uniq_id e SE). reflexivity. }
    split; [exact EO|]. split.
    + intros a I. apply C in I. apply In_nth_error in I. destruct I as (k & K). assert (Hk : k < length e) by (apply nth_error_Some; congruence). unfold e in Hk. rewrite map_length in Hk. destruct (forall2_nth _ _ _ F k _ (nquant_nth n k ltac:(lia))) as (v & V & QV). exists k, v. split; [lia|]. unfold e in K. rewrite (map_nth_error Fin k vs V) in K. injection K as <-. split; [reflexivity|now apply QP].
    + intros r q H V. rewrite nth_map_codes by lia. rewrite (MN r H), V. unfold bsearch_sorted. cbn [is_nan]. specialize (COV' q (INF r q H V)).
      assert (NZ : bsearch true e' (Fin q) <> 0) by (intros Z; apply COV'; now apply bsearch_out). replace (S (bsearch true e' (Fin q)) - 1) with (bsearch true e' (Fin q)) by lia.
      assert (IB : in_bin e' (bsearch true e' (Fin q)) (Fin q)) by (apply bsearch_bin; [exact EO|lia|reflexivity]). split; [|exact IB]. destruct IB as (a & b & _ & HH & _). assert (bsearch true e' (Fin q) < length e') by (apply nth_error_Some; congruence). lia.
Qed.
Print Assumptions C130_bins_partial.
Print Assumptions C130_partition.
Print Assumptions C130_order.
Print Assumptions C130_repeated.
Print Assumptions C130_labels.
Print Assumptions C131_equal_width_partial.
Print Assumptions C132_quantiles_partial.
Print Assumptions C132_equal_sizes_partial.
Print Assumptions C132_ties.

(** Finding: right=False does not make bins that include their left and exclude their right edge: a value on
    the right edge stays in the bin, the first edge is in no bin, and a value above the last edge gets a code
    one past the categories instead of 0. *)
Theorem C130_right_refuted : forall rnd text precision, exists x e,
  edges_ok e /\ cut rnd text x (Edges e) LOff false precision None DRaise = Cut [0; 1; 3] None e /\
  nth_error x 0 = Some (Fin 1) /\ nth_error x 1 = Some (Fin 2) /\ nth_error x 2 = Some (Fin 9) /\ e = [Fin 1; Fin 2; Fin 3].
Proof.
  intros. exists [Fin 1; Fin 2; Fin 9], [Fin 1; Fin 2; Fin 3]. split; [|repeat split; vm_compute; reflexivity]. split; [cbn; lia|]. split; [repeat constructor; cbn; lra|]. cbn. intuition discriminate.
Qed.
(** Finding: a filter shorter than the array is not refused: the rows past its end disappear. *)
Theorem C130_short_filter_refuted : forall rnd text precision, exists x f codes,
  length f < length x /\ cut rnd text x (Edges [Fin 0; Fin 5]) LOff true precision (Some f) DRaise = Cut codes None [Fin 0; Fin 5] /\ length codes < length x.
Proof. intros. exists [Fin 1; Fin 2; Fin 3], [true; false], [1; 0]. cbn [length]. split; [lia|]. split; [vm_compute; reflexivity|cbn; lia]. Qed.
(** Finding: two equal edges are refused unless they are the only two: then the one bin holds just that value. *)
Theorem C130_two_equal_refuted : forall rnd text precision, exists x,
  cut rnd text x (Edges [Fin 3; Fin 3]) LOff true precision None DRaise = Cut [0; 1; 0] None [Fin 3; Fin 3].
Proof. intros. exists [Fin 2; Fin 3; Fin 4]. vm_compute. reflexivity. Qed.
Print Assumptions C130_right_refuted.
Print Assumptions C130_short_filter_refuted.
Print Assumptions C130_two_equal_refuted.

Definition tx (v : fl) : name := match v with Fin q => repeat 48 (Z.to_nat (Qnum q)) | _ => [] end.
Example C130_case : let e := [Fin 1; Fin 3; Fin 6] in
  edges_ok e /\ cut (fun _ v => v) tx [Fin 1; Fin 7; Fin 5; NaN; Fin 6; Fin 3] (Edges e) LAuto true 3 (Some [true; true; true; true; false; true]) DRaise
  = Cut [1; 0; 2; 0; 0; 1] (Some [[48; 45; 62; 48; 48; 48]; [48; 48; 48; 45; 62; 48; 48; 48; 48; 48; 48]]) e.
Proof. split; [|vm_compute; reflexivity]. split; [cbn; lia|]. split; [repeat constructor; cbn; lra|]. cbn. intuition discriminate. Qed.
Example C130_case_labels : let e := [Fin 1; Fin 3; Fin 6] in
  (forall v (k : nat), In v e -> v <> NaN /\ ~ In 62 (tx v)) /\ (forall v w, In v e -> In w e -> tx v = tx w -> feq v w).
Proof.
  split; [intros v k I; repeat (destruct I as [<-|I]; [split; [discriminate|vm_compute; intuition discriminate]|]); destruct I|].
  intros v w I J. repeat (destruct I as [<-|I]; [repeat (destruct J as [<-|J]; [vm_compute; intros; try discriminate; reflexivity|]); destruct J|]). destruct I.
Qed.
Example C131_case : exists codes e, cut (fun _ v => v) tx [Fin 1; Fin 7; NaN; Fin 5] (NBins 3) LOff true 3 None DRaise = Cut codes None e /\ codes = [1; 3; 0; 2].
Proof. eexists. eexists. split; vm_compute; reflexivity. Qed.
Example C132_case : sorts fl_lexsort /\ distinct [3; 1; 2; 7; 5]%Q /\
  exists e, qcut (fun _ v => v) tx fl_lexsort [Fin 3; Fin 1; NaN; Fin 2; Fin 7; PosInf; Fin 5] (NQuant 2) LOff 3 DRaise None = Cut [2; 2; 0; 2; 3; 1; 3] None e.
Proof.
  split; [exact fl_lexsort_ok|]. split; [repeat constructor; cbn; lra|]. eexists. vm_compute. reflexivity.
Qed.
Example C132_case_ties : let x := [Fin 1; Fin 1; Fin 1; Fin 4; NaN] in
  qcut (fun _ v => v) tx fl_lexsort x (NQuant 4) LOff 3 DRaise None = CutRaise /\
  exists e, qcut (fun _ v => v) tx fl_lexsort x (NQuant 4) LOff 3 DDrop None = Cut [2; 2; 2; 3; 0] None e.
Proof. split; [vm_compute; reflexivity|]. eexists. vm_compute. reflexivity. Qed.
