(** Proofs about time arithmetic, continued: the tables of + and -, round trips, in-place operations. *)
From Coq Require Import List Arith ZArith Bool Lia.
From Verif Require Import DateTables DateModel TmModel TmSpec TmProofs TmProofs2.
Import ListNotations.
Open Scope Z_scope.

Lemma both_comm x y : both Z.add x y = both Z.add y x.
Proof. destruct x, y; cbn; auto. now rewrite Z.add_comm. Qed.
Lemma rows_swap n a b : rows n a b -> rows n b a.
Proof. unfold rows. intros H. destruct (Nat.eq_dec (length b) n), (Nat.eq_dec (length a) n); lia. Qed.
Lemma rowwise_swap n ka a kb b k r : rowwise Z.add n ka a kb b k r -> rowwise Z.add n kb b ka a k r.
Proof.
  intros [L [S H]]. split; [exact L|]. split; [exact S|]. intros i y x I B A.
  destruct (H i x y I A B) as [w [E M]]. exists w. rewrite both_comm. auto.
Qed.
Lemma all_fit_swap n ka a kb b k : all_fit Z.add n ka a kb b k -> all_fit Z.add n kb b ka a k.
Proof. intros H i y x z I B A E. apply (H i x y z I A B). now rewrite both_comm. Qed.

Lemma timespan_timespan plus n a b : (2 <= n)%nat -> rows n a b -> Forall (stored KTimeSpan) a -> Forall (stored KTimeSpan) b ->
  all_fit (op_of plus) n KTimeSpan a KTimeSpan b KTimeSpan ->
  rowwise (op_of plus) n KTimeSpan a KTimeSpan b KTimeSpan (zip (calc plus) a b).
Proof. intros N R Sa Sb Fit. goz idc idc. destruct plus; row. Qed.
Lemma timespan_datespan big n a b : (2 <= n)%nat -> rows n a b -> length b = n \/ all_valid KDateSpan b ->
  Forall (stored KTimeSpan) a -> Forall (stored KDateSpan) b ->
  all_fit Z.add n KTimeSpan a KDateSpan b KTimeSpan ->
  rowwise Z.add n KTimeSpan a KDateSpan b KTimeSpan (fix_binary (zip (calc true) a (scale big b)) (map (isnan KDateSpan) b)).
Proof.
  intros N R V Sa Sb Fit.
  destruct (Nat.eq_dec (length b) 1) as [L1|L1].
  - assert (V' : all_valid KDateSpan b) by (destruct V; [lia|auto]).
    assert (E : fix_binary (zip (calc true) a (scale big b)) (map (isnan KDateSpan) b) = zip (calc true) a (scale big b)).
    { destruct b as [|y [|y' b]]; cbn in L1; try lia. reflexivity. }
    rewrite E. goz idc (sc big). unfold all_valid in V'. rewrite Forall_forall in V'.
    intros x y Ix Iy. specialize (V' y Iy). clear Ix Iy. intros S1 S2 H; cbn zeta.
    destruct x as [x|]; destruct y as [y|]; try (cbn in S2; tauto); unfold idc in *; fin H; congruence.
  - assert (Lb : length b = n) by (unfold rows in R; lia).
    assert (Z : length (zip (calc true) a (scale big b)) = n).
    { apply zip_length; [lia|]. unfold rows, scale in *. rewrite map_length. lia. }
    assert (E : fix_binary (zip (calc true) a (scale big b)) (map (isnan KDateSpan) b) =
      putmask_val (zip (calc true) a (scale big b)) (map (isnan KDateSpan) b) None).
    { destruct b as [|y [|y' b]]; cbn in L1; try lia; reflexivity. }
    rewrite E. apply rowwise_intro; [lia|auto|now rewrite putmask_length|]. intros i x y I A B.
    assert (B' : nth_error b i = Some y) by (destruct b as [|p [|q b]]; cbn in L1, Lb; [lia|lia|exact B]).
    exists (if isnan KDateSpan y then None else calc true x (sc big y)). split.
    + apply putmask_at; [|now apply map_nth_error].
      apply (zip_at _ n); auto; [unfold rows, scale in *; rewrite map_length; lia|].
      rewrite scale_map. now apply at_row_map.
    + pose proof (stored_in _ _ _ _ Sa A) as S1. pose proof (stored_in _ _ _ _ Sb B) as S2.
      pose proof (fun z => Fit i x y z I A B) as H. clear - S1 S2 H.
      destruct x as [x|]; destruct y as [y|]; try (cbn in S2; tauto); fin H.
Qed.

Lemma add_ok big utc n ka (a : cells) kb (b : cells) k : (2 <= n)%nat -> rows n a b -> add_kind ka kb = Some k -> add_covered n ka a kb b ->
  Forall (stored ka) a -> Forall (stored kb) b -> all_fit Z.add n ka a kb b k ->
  exists r : cells, math big utc true ka a kb b = Done k r /\ rowwise Z.add n ka a kb b k r.
Proof.
  intros N R K C Sa Sb Fit.
  destruct ka, kb; cbn [add_kind] in K; try discriminate; inversion K; subst k; clear K;
    cbn [math date_math datespan_math nano_math timespan_math add_covered] in *;
    (eexists; split; [reflexivity|]).
  - apply (date_datespan true); auto. unfold rows in R; lia.
  - apply (date_timespan big true); auto. unfold rows in R; lia.
  - apply (datespan_date true); auto. unfold rows in R; lia.
  - apply (datespan_datespan true); auto. unfold rows in R; lia.
  - destruct C as [L [Va Vb]]. apply (datespan_nano big true); auto. unfold rows in R; lia.
  - destruct C as [L [Va Vb]]. apply (datespan_timespan big true); auto. unfold rows in R; lia.
  - apply (nano_datespan big true); auto. unfold rows in R; lia.
  - apply (nano_timespan true); auto. unfold rows in R; lia.
  - apply rowwise_swap. apply (date_timespan big true); auto; [unfold rows in R; lia|now apply all_fit_swap].
  - apply timespan_datespan; auto.
  - apply rowwise_swap. apply (nano_timespan true); auto; [unfold rows in R; lia|now apply all_fit_swap].
  - apply (timespan_timespan true); auto.
Qed.

Lemma day_odd d : d * day <> - 2 ^ 63. Proof. unfold day. lia. Qed.
Lemma map_zip g op a b : map g (zip op a b) = zip (fun x y => g (op x y)) a b.
Proof. unfold zip. cbn zeta. now rewrite map_map. Qed.
Definition i32 (x : option Z) : option Z := match x with Some z => Some z | None => Some INVALID_32 end.
Definition tsub (nan : option Z -> bool) (x y : option Z) : option Z := if nan x || nan y then None else calc false x y.
Lemma date_date n a b : (2 <= n)%nat -> rows n a b -> Forall (stored KDate) a -> Forall (stored KDate) b ->
  all_fit Z.sub n KDate a KDate b KDateSpan ->
  rowwise Z.sub n KDate a KDate b KDateSpan (to_int32 (sub_times (isnan KDate) a b)).
Proof.
  intros N R Sa Sb Fit.
  assert (E : to_int32 (sub_times (isnan KDate) a b) = zip (fun x y => i32 (tsub (isnan KDate) x y)) a b)
    by (exact (map_zip i32 _ a b)).
  rewrite E. goz idc idc. unfold i32, tsub. row.
Qed.
Lemma nano_nano n a b : (2 <= n)%nat -> rows n a b -> Forall (stored KNano) a -> Forall (stored KNano) b ->
  all_fit Z.sub n KNano a KNano b KTimeSpan ->
  rowwise Z.sub n KNano a KNano b KTimeSpan (sub_times (isnan KNano) a b).
Proof.
  intros N R Sa Sb Fit. change (sub_times (isnan KNano) a b) with (zip (tsub (isnan KNano)) a b).
  goz idc idc. unfold tsub. row.
Qed.
Lemma nano_date big n a b : (2 <= n)%nat -> rows n a b -> ~ In (Some (- 2 ^ 31)) b -> Forall (stored KNano) a -> Forall (stored KDate) b ->
  all_fit Z.sub n KNano a KDate b KTimeSpan ->
  rowwise Z.sub n KNano a KDate b KTimeSpan (sub_times (isnan KNano) a (scale big b)).
Proof.
  intros N R NI Sa Sb Fit. change (sub_times (isnan KNano) a (scale big b)) with (zip (tsub (isnan KNano)) a (scale big b)).
  goz idc (sc big). unfold tsub. intros x y Ix Iy S1 S2 H. cbn zeta.
  assert (Q : y <> Some (- 2 ^ 31)) by (intros ->; auto). clear NI Ix Iy Sa Sb Fit.
  destruct x as [x|]; destruct y as [y|]; try (cbn in S1; tauto); try (cbn in S2; tauto); unfold idc.
  assert (Q' : y <> - 2 ^ 31) by congruence. clear Q. pose proof (day_odd y). fin H.
Qed.
Lemma date_nano big n a b : (2 <= n)%nat -> rows n a b -> ~ In (Some (- 2 ^ 31)) a -> Forall (stored KDate) a -> Forall (stored KNano) b ->
  all_fit Z.sub n KDate a KNano b KTimeSpan ->
  rowwise Z.sub n KDate a KNano b KTimeSpan
    (sub_times (isnan KNano) (map (fun x => match x with Some z => Some (@id Z z) | None => None end) (scale big a)) b).
Proof.
  intros N R NI Sa Sb Fit.
  assert (E : map (fun x : option Z => match x with Some z => Some (id z) | None => None end) (scale big a) = scale big a).
  { unfold id. rewrite <- (map_id (scale big a)) at 2. apply map_ext. intros [z|]; reflexivity. }
  rewrite E. change (sub_times (isnan KNano) (scale big a) b) with (zip (tsub (isnan KNano)) (scale big a) b).
  goz (sc big) idc. unfold tsub. intros x y Ix Iy S1 S2 H. cbn zeta.
  assert (Q : x <> Some (- 2 ^ 31)) by (intros ->; auto). clear NI Ix Iy Sa Sb Fit.
  destruct x as [x|]; destruct y as [y|]; try (cbn in S1; tauto); try (cbn in S2; tauto); unfold idc.
  assert (Q' : x <> - 2 ^ 31) by congruence. clear Q. pose proof (day_odd x). fin H.
Qed.
Lemma sub_ok big n ka (a : cells) kb (b : cells) k : (2 <= n)%nat -> rows n a b -> sub_kind ka kb = Some k -> sub_covered n ka a kb b ->
  Forall (stored ka) a -> Forall (stored kb) b -> all_fit Z.sub n ka a kb b k ->
  exists r : cells, math big id false ka a kb b = Done k r /\ rowwise Z.sub n ka a kb b k r.
Proof.
  intros N R K C Sa Sb Fit.
  destruct ka, kb; cbn [sub_kind] in K; try discriminate; inversion K; subst k; clear K;
    cbn [math date_math datespan_math nano_math timespan_math sub_covered] in *;
    (eexists; split; [reflexivity|]).
  - apply date_date; auto.
  - apply (date_datespan false); auto. unfold rows in R; lia.
  - apply date_nano; auto.
  - apply (date_timespan big false); auto. unfold rows in R; lia.
  - apply (datespan_datespan false); auto. unfold rows in R; lia.
  - destruct C as [L [Va Vb]]. apply (datespan_timespan big false); auto. unfold rows in R; lia.
  - apply nano_date; auto.
  - apply (nano_datespan big false); auto. unfold rows in R; lia.
  - apply nano_nano; auto.
  - apply (nano_timespan false); auto. unfold rows in R; lia.
  - tauto.
  - apply (timespan_timespan false); auto.
Qed.
Lemma refused_ok big utc (plus : bool) ka a kb b : (if plus then add_kind ka kb else sub_kind ka kb) = None ->
  math big utc plus ka a kb b = Refused.
Proof. destruct plus, ka, kb; cbn; intros H; congruence || reflexivity. Qed.

(** ** In place *)
Lemma masked_at_two (a r : cells) m1 m2 fill inv : (2 <= length a)%nat ->
  apply_mask a r m1 m2 fill inv = putmask_val (putmask_val r m1 fill) (bcast (length r) m2) fill.
Proof. destruct a as [|x [|y a]]; cbn; intros; try lia. reflexivity. Qed.
Lemma in_place_ok k plus ka a v m2 fill inv : (2 <= length a)%nat ->
  let r := apply_mask a (zip (calc plus) a v) (map (isnan ka) a) m2 fill inv in in_place k plus ka a v m2 fill inv = (r, Done k r).
Proof. destruct a as [|x [|y a]]; cbn [length]; intros; try lia. reflexivity. Qed.
Lemma inplace_same big utc plus ka a kb b r : (2 <= length a)%nat -> (ka = KTimeSpan -> kb = KTimeSpan) ->
  math big utc plus ka a kb b = Done ka r -> imath big utc plus ka a kb b = (r, Done ka r).
Proof.
  intros N T H. destruct ka; destruct kb; try (specialize (T eq_refl); discriminate);
    cbn [math date_math datespan_math nano_math timespan_math] in H; try discriminate;
    destruct plus; try discriminate; inversion H; subst r;
    cbn [imath date_imath datespan_imath nano_imath timespan_imath]; cbn zeta; rewrite ?in_place_ok by exact N; reflexivity.
Qed.

(** ** Round trips *)
Lemma rowwise_row f n ka a kb b k r i x y : (2 <= n)%nat -> rowwise f n ka a kb b k r -> (i < n)%nat -> at_row a i = Some x -> at_row b i = Some y ->
  exists w, at_row r i = Some w /\ nth_error r i = Some w /\ meaning k w = both f (meaning ka x) (meaning kb y).
Proof.
  intros N [L [_ H]] I A B. destruct (H i x y I A B) as [w [E M]]. exists w. split; [|split; auto].
  destruct r as [|p [|q r]]; cbn in L; [lia|lia|exact E].
Qed.
Section Compose.
Variables (f g h : Z -> Z -> Z) (n : nat) (ka kb k k' : kind) (a b r : cells).
Hypothesis N : (2 <= n)%nat.
Hypothesis R : rows n a b.
Hypothesis W : rowwise f n ka a kb b k r.
Section B.
Hypothesis E : forall u v, g (f u v) v = h u v.
Lemma fit_b : all_fit h n ka a kb b k' -> all_fit g n k r kb b k'.
Proof.
  intros H i w y z I A B Z. destruct (at_row_some n a i) as [x Ax]; [unfold rows in R; lia|auto|].
  destruct (rowwise_row _ _ _ _ _ _ _ _ i x y N W I Ax B) as [w' [Aw [_ M]]].
  assert (w' = w) by congruence. subst w'. apply (H i x y z I Ax B). rewrite <- Z, M.
  destruct (meaning ka x), (meaning kb y); cbn; auto. now rewrite E.
Qed.
Lemma comp_b r' : rowwise g n k r kb b k' r' -> rowwise h n ka a kb b k' r'.
Proof.
  intros [L [S H]]. split; [exact L|]. split; [exact S|]. intros i x y I A B.
  destruct (rowwise_row _ _ _ _ _ _ _ _ i x y N W I A B) as [w [Aw [_ M]]].
  destruct (H i w y I Aw B) as [v [Ev Mv]]. exists v. split; [exact Ev|]. rewrite Mv, M.
  destruct (meaning ka x), (meaning kb y); cbn; auto. now rewrite E.
Qed.
End B.
Section A.
Hypothesis E : forall u v, g (f u v) u = h u v.
Lemma fit_a : all_fit h n ka a kb b k' -> all_fit g n k r ka a k'.
Proof.
  intros H i w x z I A Ax Z. destruct (at_row_some n b i) as [y B]; [unfold rows in R; lia|auto|].
  destruct (rowwise_row _ _ _ _ _ _ _ _ i x y N W I Ax B) as [w' [Aw [_ M]]].
  assert (w' = w) by congruence. subst w'. apply (H i x y z I Ax B). rewrite <- Z, M.
  destruct (meaning ka x), (meaning kb y); cbn; auto. now rewrite E.
Qed.
Lemma comp_a r' : rowwise g n k r ka a k' r' -> rowwise h n ka a kb b k' r'.
Proof.
  intros [L [S H]]. split; [exact L|]. split; [exact S|]. intros i x y I A B.
  destruct (rowwise_row _ _ _ _ _ _ _ _ i x y N W I A B) as [w [Aw [_ M]]].
  destruct (H i w x I Aw A) as [v [Ev Mv]]. exists v. split; [exact Ev|]. rewrite Mv, M.
  destruct (meaning ka x), (meaning kb y); cbn; auto. now rewrite E.
Qed.
End A.
End Compose.
Lemma rowwise_rows f n ka a kb b k r c : rowwise f n ka a kb b k r -> length c = n \/ length c = 1%nat -> rows n r c.
Proof. intros [L _] H. left. auto. Qed.
Lemma nth_error_same {A} : forall l m : list A, (forall i, nth_error l i = nth_error m i) -> l = m.
Proof.
  induction l as [|x l IH]; intros [|y m] H; auto.
  - specialize (H 0%nat). discriminate.
  - specialize (H 0%nat). discriminate.
  - pose proof (H 0%nat) as H0. cbn in H0. inversion H0; subst. f_equal. apply IH. intros i. exact (H (S i)).
Qed.
