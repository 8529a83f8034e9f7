(** Theorems on date arithmetic, ranges, comparison, time buckets, resampling and zones: C87-C91. *)
From Coq Require Import List ZArith Bool Lia.
From Verif Require Import DateTables DateSpec DateModel DateOpsModel DateProofs DateProofs2 DateProofs3 DateProps.
Import ListNotations.
Open Scope Z_scope.

(** ** C87: Date arithmetic and ranges *)
(** Adding [k] days to a valid date moves it [k] days. *)
Theorem C87_add l i x k : nth_error l i = Some x -> 0 < x -> nth_error (date_add l k) i = Some (x + k).
Proof. apply date_add_row. Qed.
Print Assumptions C87_add.

Theorem C87_sub l o i x k : nth_error l i = Some x -> 0 < x -> nth_error o i = Some k -> k <> INVALID_32 ->
  nth_error (date_sub_arr l o) i = Some (x - k).
Proof. apply date_sub_row. Qed.
Print Assumptions C87_sub.

(** Arithmetic on an invalid date gives an invalid date. *)
Theorem C87_add_invalid l i x k : nth_error l i = Some x -> x = 0 \/ x = INVALID_32 ->
  exists y, nth_error (date_add l k) i = Some y /\ date_isnan y = true.
Proof.
  intros Hi Hx. unfold date_add.
  assert (G : nth_error (putmask_val (putmask_val (map (fun x => x + k) l) (map date_isnan l) NAN_DATE) [] NAN_DATE) i = Some NAN_DATE).
  { assert (E : forall (m : list Z), putmask_val m [] NAN_DATE = m) by (intros []; reflexivity).
    rewrite E, putmask_val_map, nth_error_map, Hi. cbn [option_map]. destruct Hx as [->| ->]; reflexivity. }
  destruct l as [|a [|b l]]; [destruct i; discriminate| |exists NAN_DATE; split; [exact G|reflexivity]].
  destruct i as [|i]; [|destruct i; discriminate]. injection Hi as ->. cbn [apply_inv_mask2 map].
  replace (x <=? 0) with true by (symmetry; apply Z.leb_le; destruct Hx as [->| ->]; [lia|discriminate]).
  exists INVALID_32. split; reflexivity.
Qed.
Print Assumptions C87_add_invalid.

Lemma first_of_month_pos : forall y m, 1970 <= y -> 1 <= m <= 12 -> 1970 < y \/ 1 < m -> 31 <= day_number (Civil y m 1).
Proof.
  intros y m Hy Hm H. unfold day_number; cbn [c_year c_month c_day].
  pose proof (days_to_month_pos y m). pose proof (year_after y 1970 ltac:(lia)) as Y0. change (days_to_year 1970) with 0 in Y0.
  destruct (Z.eq_dec y 1970) as [->|N].
  - destruct H as [H|H]; [lia|]. change (days_to_year 1970) with 0.
    assert (C : m = 2 \/ m = 3 \/ m = 4 \/ m = 5 \/ m = 6 \/ m = 7 \/ m = 8 \/ m = 9 \/ m = 10 \/ m = 11 \/ m = 12) by lia.
    repeat (destruct C as [->|C]; [vm_compute; congruence|]). subst m. vm_compute. congruence.
  - pose proof (year_after y 1971 ltac:(lia)) as Y1. change (days_to_year 1971) with 365 in Y1. lia.
Qed.

(** start_of_month: the first day of the date's month (not in January 1970). *)
Theorem C87_start_of_month_partial l i x : nth_error l i = Some x -> 0 < x ->
  let c := civil (Z.to_nat x) in c_year c <= 2099 -> 1970 < c_year c \/ 1 < c_month c ->
  nth_error (start_of_month l) i = Some (day_number (Civil (c_year c) (c_month c) 1)).
Proof.
  intros Hi Hx c Hy Hc. unfold start_of_month.
  destruct (date_row_fields l i x Hi Hx Hy) as (_ & _ & D & _). fold c in D.
  destruct (civil_ok (Z.to_nat x)) as [V E]. fold c in V, E. rewrite Z2Nat.id in E by lia.
  destruct V as (V1 & V2 & V3).
  assert (F : day_number (Civil (c_year c) (c_month c) 1) = x - c_day c + 1)
    by (rewrite <- E; unfold day_number; cbn [c_year c_month c_day]; lia).
  pose proof (first_of_month_pos _ _ V1 V2 Hc) as P.
  assert (S1 : nth_error (date_sub_arr l (as_int (date_day_of_month l))) i = Some (x - c_day c)).
  { apply date_sub_row; [exact Hi|exact Hx|apply as_int_row; exact D|]. unfold INVALID_32. lia. }
  rewrite F. apply (date_add_row _ i (x - c_day c) 1 S1). lia.
Qed.
Print Assumptions C87_start_of_month_partial.

(** start_of_week: the Monday on or before. *)
Theorem C87_start_of_week l i x : nth_error l i = Some x -> 0 < x ->
  exists r, nth_error (start_of_week l) i = Some r /\ r <= x < r + 7 /\ (0 <= r -> weekday_of (Z.to_nat r) = Monday).
Proof.
  intros Hi Hx. set (w := weekday_number (weekday_of (Z.to_nat x))).
  assert (Ew : w = (x + 3) mod 7) by (unfold w; rewrite weekday_ok, Z2Nat.id by lia; reflexivity).
  assert (B : 0 <= w < 7) by (rewrite Ew; apply Z.mod_pos_bound; lia).
  exists (x - w). split; [|split; [lia|]].
  - unfold start_of_week. apply date_sub_row; [exact Hi|exact Hx| |unfold INVALID_32; lia].
    apply as_int_row. apply date_dow_row; assumption.
  - intros Hr. assert (W : weekday_number (weekday_of (Z.to_nat (x - w))) = 0).
    { rewrite weekday_ok, Z2Nat.id by exact Hr. unfold EPOCH_DAY_OF_WEEK. 
      pose proof (Z.div_mod (x + 3) 7 ltac:(lia)) as D. rewrite <- Ew in D.
      replace (x - w + 3) with ((x + 3) / 7 * 7) by lia. apply Z.mod_mul. lia. }
    destruct (weekday_of (Z.to_nat (x - w))); cbn in W; congruence.
Qed.
Print Assumptions C87_start_of_week.

(** Date.range: the days between the ends, each included or not as [closed] says. *)
Theorem C87_range s e v :
  (In v (date_range s (ByEnd e) 1 ClosedNone) <-> s <= v <= e) /\
  (In v (date_range s (ByEnd e) 1 ClosedLeft) <-> s <= v < e) /\
  (In v (date_range s (ByEnd e) 1 ClosedRight) <-> s < v <= e).
Proof.
  unfold date_range; cbn [Z.eqb Pos.eqb]. split; [|split].
  - rewrite arange_in by lia. split; [intros (k & Hk & -> & Hb); lia|intros H; exists (v - s); lia].
  - rewrite arange_in by lia. split; [intros (k & Hk & -> & Hb); lia|intros H; exists (v - s); lia].
  - rewrite arange_in by lia. split; [intros (k & Hk & -> & Hb); lia|intros H; exists (v - s - 1); lia].
Qed.
Print Assumptions C87_range.

Theorem C87_range_step s e step c v : 1 < step ->
  (In v (date_range s (ByEnd e) step c) <-> s <= v < e /\ (step | v - s)).
Proof.
  intros H. unfold date_range. replace (step =? 1) with false by (symmetry; apply Z.eqb_neq; lia).
  rewrite arange_in by lia. split.
  - intros (k & Hk & -> & Hb). split; [nia|]. exists k. lia.
  - intros [B [k Hk]]. exists k. split; [nia|]. lia.
Qed.
Print Assumptions C87_range_step.

(** [days] dates, [step] days apart, from the start; and rows of every range are in order. *)
Theorem C87_range_days s n step c : 0 <= n -> 0 < step ->
  length (date_range s (ByDays n) step c) = Z.to_nat n /\
  forall i v, nth_error (date_range s (ByDays n) step c) i = Some v -> v = s + Z.of_nat i * step.
Proof.
  intros Hn Hs. unfold date_range. split; [|intros i v; apply arange_nth].
  rewrite arange_length. f_equal. replace (s + n * step - s + step - 1) with ((step - 1) + n * step) by lia.
  rewrite Z.div_add by lia. rewrite Z.div_small by lia. lia.
Qed.
Print Assumptions C87_range_days.

(** Finding: start_of_month of a date in January 1970 is invalid. *)
Theorem C87_refuted : civil 14 = Civil 1970 1 15 /\ start_of_month [14] = [INVALID_32] /\
  start_of_month [14; 50] = [0; 31] /\ date_isnan 0 = true.
Proof. vm_compute. repeat split. Qed.
Print Assumptions C87_refuted.

Example C87_case : start_of_month [date 2024 2 29; 0; date 2021 12 31] = [date 2024 2 1; 0; date 2021 12 1] /\
  start_of_week [date 2024 2 29; date 2024 2 26] = [date 2024 2 26; date 2024 2 26] /\
  date_range 10 (ByEnd 13) 1 ClosedRight = [11; 12; 13] /\ date_range 10 (ByEnd 14) 2 ClosedNone = [10; 12] /\
  date_range 10 (ByDays 3) 2 ClosedNone = [10; 12; 14].
Proof. vm_compute. repeat split. Qed.

(** ** C88: comparisons *)
Lemma compare_row : forall isnan o l r i x y, nth_error l i = Some x -> nth_error r i = Some y ->
  nth_error (preserve_cmp isnan o l r) i =
  Some (match o with CNe => cmp_op o x y || isnan x | _ => cmp_op o x y && negb (isnan x) end).
Proof.
  intros isnan o l r i x y. revert r i.
  assert (G : forall l r i, nth_error l i = Some x -> nth_error r i = Some y ->
    nth_error (combine (map (fun p => cmp_op o (fst p) (snd p)) (combine l r)) (map isnan l)) i = Some (cmp_op o x y, isnan x) /\
    nth_error (combine (map (fun p => cmp_op o (fst p) (snd p)) (combine l r)) (map (fun x => negb (isnan x)) l)) i = Some (cmp_op o x y, negb (isnan x))).
  { clear. induction l as [|a l IH]; intros [|b r] i Hl Hr; destruct i; try discriminate.
    - cbn in Hl, Hr. injection Hl as ->. injection Hr as ->. split; reflexivity.
    - cbn in Hl, Hr. cbn [combine map]. cbn [nth_error]. apply IH; assumption. }
  intros r i Hl Hr. destruct (G l r i Hl Hr) as [A B]. unfold preserve_cmp.
  destruct o; rewrite nth_error_map, ?A, ?B; reflexivity.
Qed.

(** Valid dates compare as their day numbers, valid times as their instants. *)
Theorem C88_valid o l r i x y : nth_error l i = Some x -> nth_error r i = Some y ->
  let holds := match o with CNe => x <> y | CEq => x = y | CGe => x >= y | CGt => x > y | CLe => x <= y | CLt => x < y end in
  (date_isnan x = false -> exists b, nth_error (date_compare o l r) i = Some b /\ (b = true <-> holds)) /\
  (nano_isnan x = false -> exists b, nth_error (nano_compare o l r) i = Some b /\ (b = true <-> holds)).
Proof.
  intros Hl Hr holds. unfold date_compare, nano_compare.
  rewrite !(compare_row _ o l r i x y Hl Hr).
  assert (G : cmp_op o x y = true <-> holds).
  { unfold holds. destruct o; cbn [cmp_op].
    - rewrite negb_true_iff, Z.eqb_neq. reflexivity.
    - apply Z.eqb_eq.
    - rewrite Z.leb_le. lia.
    - rewrite Z.ltb_lt. lia.
    - apply Z.leb_le.
    - apply Z.ltb_lt. }
  split; intros ->; exists (cmp_op o x y); (split; [|exact G]); destruct o; rewrite ?andb_true_r, ?orb_false_r; reflexivity.
Qed.
Print Assumptions C88_valid.

(** With an invalid left operand only != holds. *)
Theorem C88_left_invalid_partial o l r i x y : nth_error l i = Some x -> nth_error r i = Some y ->
  (date_isnan x = true -> nth_error (date_compare o l r) i = Some (match o with CNe => true | _ => false end)) /\
  (nano_isnan x = true -> nth_error (nano_compare o l r) i = Some (match o with CNe => true | _ => false end)).
Proof.
  intros Hl Hr. unfold date_compare, nano_compare.
  rewrite !(compare_row _ o l r i x y Hl Hr). split; intros ->; destruct o; rewrite ?andb_false_r, ?orb_true_r; reflexivity.
Qed.
Print Assumptions C88_left_invalid_partial.

(** Finding: every valid date is > and >= an invalid right operand. *)
Theorem C88_refuted x : 0 < x -> date_compare CGt [x] [0] = [true] /\ nano_compare CGe [x] [INVALID_64] = [true].
Proof.
  intros H. split.
  - unfold date_compare, preserve_cmp. cbn [combine map fst snd cmp_op].
    rewrite (date_isnan_pos x H). replace (0 <? x) with true by (symmetry; apply Z.ltb_lt; exact H). reflexivity.
  - unfold nano_compare, preserve_cmp. cbn [combine map fst snd cmp_op].
    rewrite (nano_isnan_pos x H). replace (INVALID_64 <=? x) with true by (symmetry; apply Z.leb_le; unfold INVALID_64; lia). reflexivity.
Qed.
Print Assumptions C88_refuted.

Example C88_case : date_compare CLt [3; 0; 5; INVALID_32] [4; 7; 5; 9] = [true; false; false; false] /\
  date_compare CNe [3; 0; 5; 0] [4; 7; 5; 0] = [true; true; false; true].
Proof. vm_compute. repeat split. Qed.

(** ** C89: cut_time *)
Lemma cut_code_row : forall points d i t, nth_error (nanos_since_midnight d) i = Some (Some t) ->
  nth_error (cut_codes points d) i =
  Some (if (length points <=? ss_left points t)%nat then 0%nat else ss_left points t).
Proof. intros points d i t H. unfold cut_codes. rewrite nth_error_map, H. reflexivity. Qed.

(** Code [c] > 0 is the bucket between cut points [c-1] and [c], right end included;
    code 0 means before or at the first cut point or after the last. *)
Theorem C89_bucket points d i t c : increasing points -> points <> [] ->
  nth_error (nanos_since_midnight d) i = Some (Some t) -> nth_error (cut_codes points d) i = Some c ->
  ((0 < c)%nat -> exists lo hi, nth_error points (c - 1) = Some lo /\ nth_error points c = Some hi /\ lo < t <= hi) /\
  (c = 0%nat -> (forall p, In p points -> t <= p) \/ (forall p, In p points -> p < t)).
Proof.
  intros Hp Hne Ht Hc. rewrite (cut_code_row _ _ _ _ Ht) in Hc.
  destruct (ss_left_spec points t Hp) as [A B].
  destruct (length points <=? ss_left points t)%nat eqn:E; [apply Nat.leb_le in E|apply Nat.leb_gt in E].
  - assert (c = 0%nat) by congruence. subst c. split; [lia|]. intros _. right. intros p Hin.
    apply In_nth_error in Hin. destruct Hin as [j Hj].
    assert (j < length points)%nat by (apply nth_error_Some; congruence).
    apply (B j p Hj). lia.
  - assert (Ec : c = ss_left points t) by congruence. split.
    + intros Hpos.
      destruct (nth_error points (c - 1)) as [lo|] eqn:Elo; [|apply nth_error_None in Elo; lia].
      destruct (nth_error points c) as [hi|] eqn:Ehi; [|apply nth_error_None in Ehi; lia].
      exists lo, hi. split; [reflexivity|]. split; [reflexivity|].
      pose proof (B _ _ Elo). pose proof (B _ _ Ehi). lia.
    + intros E0. left. intros p Hin. apply In_nth_error in Hin. destruct Hin as [j Hj].
      pose proof (B j p Hj). lia.
Qed.
Print Assumptions C89_bucket.

(** Buckets of [size] from [start] to [stop]: a time after [start] up to [stop] gets
    the number of its bucket, counted from 1; other times get 0 (filtered). *)
Theorem C89_regular start stop size d i t : 0 < size -> start < stop ->
  nth_error (nanos_since_midnight d) i = Some (Some t) ->
  nth_error (cut_codes (regular_points start stop size) d) i =
  Some (if (start <? t) && (t <=? stop) then Z.to_nat ((t - start + size - 1) / size) else 0%nat).
Proof.
  intros Hs Hlt Ht. set (fuel := Z.to_nat ((stop - start) / size + 1)).
  assert (Hf : stop <= start + Z.of_nat fuel * size).
  { unfold fuel. rewrite Z2Nat.id by (pose proof (Z.div_pos (stop - start) size ltac:(lia) Hs); lia).
    pose proof (Z.div_mod (stop - start) size ltac:(lia)). pose proof (Z.mod_pos_bound (stop - start) size Hs). nia. }
  destruct (cut_loop_spec fuel start stop size Hs Hf) as (I & N & F0 & _ & Ln).
  assert (P : regular_points start stop size = cut_loop fuel start stop size ++ [stop]) by reflexivity.
  set (body := cut_loop fuel start stop size) in *. set (points := regular_points start stop size) in *.
  specialize (F0 Hlt).
  destruct (nth_error (cut_codes points d) i) as [c|] eqn:Ec.
  2:{ rewrite (cut_code_row _ _ _ _ Ht) in Ec. discriminate. }
  assert (Hpt : forall j p, nth_error points j = Some p -> p <= start + Z.of_nat j * size).
  { intros j p Hj. rewrite P in Hj. destruct (Nat.lt_ge_cases j (length body)) as [L|L].
    - rewrite nth_error_app1 in Hj by exact L. destruct (N j p Hj). lia.
    - rewrite nth_error_app2 in Hj by exact L. destruct (j - length body)%nat as [|k] eqn:K.
      + cbn in Hj. injection Hj as <-. replace j with (length body) by lia. exact Ln.
      + destruct k; discriminate. }
  destruct (C89_bucket points d i t c) as [Bpos B0]; auto.
  { rewrite P. destruct body; discriminate. }
  assert (Istart : In start points) by (rewrite P; eapply nth_error_In; exact F0).
  assert (Istop : In stop points) by (rewrite P; apply in_app_iff; right; left; reflexivity).
  destruct (Nat.eq_dec c 0) as [->|Nc].
  - destruct (B0 eq_refl) as [A|A].
    + specialize (A start Istart). replace (start <? t) with false by (symmetry; apply Z.ltb_ge; lia). reflexivity.
    + specialize (A stop Istop). replace (t <=? stop) with false by (symmetry; apply Z.leb_gt; lia). rewrite andb_false_r. reflexivity.
  - destruct (Bpos ltac:(lia)) as (lo & hi & Hlo & Hhi & Hb).
    assert (Lc : (c < length points)%nat) by (apply nth_error_Some; congruence).
    assert (Lb : (c - 1 < length body)%nat) by (rewrite P, app_length in Lc; cbn in Lc; lia).
    assert (Elo : lo = start + (Z.of_nat c - 1) * size).
    { rewrite P, nth_error_app1 in Hlo by exact Lb. destruct (N _ _ Hlo) as [-> _]. do 2 f_equal. lia. }
    pose proof (Hpt _ _ Hhi) as Uhi.
    assert (hi <= stop).
    { rewrite P in Hhi. destruct (Nat.lt_ge_cases c (length body)) as [L|L].
      - rewrite nth_error_app1 in Hhi by exact L. destruct (N _ _ Hhi). lia.
      - rewrite nth_error_app2 in Hhi by exact L. destruct (c - length body)%nat as [|k]; [cbn in Hhi; injection Hhi as <-; lia|destruct k; discriminate]. }
    replace (start <? t) with true by (symmetry; apply Z.ltb_lt; nia).
    replace (t <=? stop) with true by (symmetry; apply Z.leb_le; lia). cbn [andb].
    f_equal. assert (Q : (t - start + size - 1) / size = Z.of_nat c).
    { symmetry. apply (Z.div_unique_pos (t - start + size - 1) size (Z.of_nat c) (t - start + size - 1 - size * Z.of_nat c)); nia. }
    rewrite Q. lia.
Qed.
Print Assumptions C89_regular.

(** Labels: the bucket between two cut points carries its left or right end. *)
Theorem C89_label right points k lo hi : nth_error points k = Some lo -> nth_error points (S k) = Some hi ->
  nth_error (cut_labels right false false points) k = Some (LTime (if right then hi else lo)).
Proof.
  intros Hlo Hhi. unfold cut_labels; cbv zeta. rewrite nth_error_map.
  destruct right.
  - destruct points as [|p points]; [destruct k; discriminate|]. cbn [tl nth_error] in *. rewrite Hhi. reflexivity.
  - assert (E : nth_error (removelast points) k = Some lo); [|rewrite E; reflexivity].
    revert k Hlo Hhi. induction points as [|p points IH]; intros k Hlo Hhi; [destruct k; discriminate|].
    destruct points as [|q points]; [destruct k; discriminate|]. change (removelast (p :: q :: points)) with (p :: removelast (q :: points)).
    destruct k as [|k]; [exact Hlo|]. cbn [nth_error] in *. apply IH; assumption.
Qed.
Print Assumptions C89_label.

(** With a bucket before and one after: every time after midnight is in some bucket,
    labelled "pre" up to the first cut point and "post" after the last. *)
Theorem C89_pre_post right first rest final d i t c :
  increasing (first :: rest) -> (forall p, In p (first :: rest) -> 0 < p < timetuple_to_nsm 24 0 0 0) ->
  nth_error (rev (first :: rest)) 0 = Some final ->
  nth_error (nanos_since_midnight d) i = Some (Some t) -> 0 < t < day ->
  let points := cut_points (first :: rest) true true in
  nth_error (cut_codes points d) i = Some c ->
  (0 < c)%nat /\ exists lbl, nth_error (cut_labels right true true points) (c - 1) = Some lbl /\
    (lbl = LPre <-> t <= first) /\ (lbl = LPost <-> final < t).
Proof.
  intros Hinc Hb Hf Ht Hr points Hc.
  set (base := first :: rest) in *. set (stop := timetuple_to_nsm 24 0 0 0) in *.
  assert (P : points = 0 :: base ++ [stop]) by reflexivity. clearbody points.
  assert (I0 : increasing (base ++ [stop])) by (apply increasing_app_one; [exact Hinc|intros p Hp; apply Hb; exact Hp]).
  assert (I1 : increasing points).
  { rewrite P. split; [|exact I0]. unfold base. cbn [app]. apply Hb. left. reflexivity. }
  destruct (C89_bucket points d i t c I1 ltac:(rewrite P; discriminate) Ht Hc) as [Bp B0].
  assert (Pos : (0 < c)%nat).
  { destruct (Nat.eq_dec c 0) as [->|N]; [|lia]. exfalso. destruct (B0 eq_refl) as [A|A].
    - specialize (A 0). rewrite P in A. specialize (A (or_introl eq_refl)). lia.
    - specialize (A stop). rewrite P in A. specialize (A ltac:(right; apply in_app_iff; right; left; reflexivity)).
      change stop with day in A. lia. }
  split; [exact Pos|]. destruct (Bp Pos) as (lo & hi & Hlo & Hhi & Hbt).
  destruct c as [|k]; [lia|]. replace (S k - 1)%nat with k in * by lia.
  assert (Hk : (k <= length base)%nat).
  { assert (S k < length points)%nat by (apply nth_error_Some; congruence). rewrite P in *. cbn [length] in *. rewrite app_length in *. cbn [length] in *. lia. }
  (* the labels *)
  assert (LL : exists ls, cut_labels right true true points = LPre :: ls ++ [LPost] /\ length (ls ++ [LPost]) = length base /\
     forall x, In x ls -> exists v, x = LTime v).
  { unfold cut_labels; cbv zeta.
    set (m := if right then tl points else removelast points).
    assert (Lm : length m = S (length base)).
    { unfold m. rewrite P. destruct right; cbn [tl].
      - rewrite app_length; cbn; lia.
      - change (0 :: base ++ [stop]) with ((0 :: base) ++ [stop]). rewrite removelast_last. reflexivity. }
    destruct m as [|m0 m']; [discriminate|]. cbn [map set_first].
    assert (Lm' : length m' = length base) by (cbn [length] in Lm; congruence).
    destruct (exists_last (l := m')) as (m1 & ml & ->); [intros ->; unfold base in Lm'; discriminate|].
    exists (map LTime m1). rewrite map_app. cbn [map].
    split; [|split].
    - unfold set_last. change (LPre :: map LTime m1 ++ [LTime ml]) with ((LPre :: map LTime m1) ++ [LTime ml]).
      rewrite removelast_last. reflexivity.
    - rewrite app_length in *. rewrite map_length. cbn [length] in *. lia.
    - intros x Hx. apply in_map_iff in Hx. destruct Hx as (v & <- & _). exists v. reflexivity. }
  destruct LL as (ls & -> & Ll & Lt).
  (* first and last cut points *)
  assert (Hmono : forall j v, nth_error base j = Some v -> first <= v) by (intros j v; apply (increasing_first rest first j v Hinc)).
  assert (Hfin : nth_error base (length base - 1) = Some final /\ forall v, In v base -> v <= final).
  { destruct (exists_last (l := base)) as (b1 & bl & Eb); [discriminate|]. rewrite Eb in *.
    rewrite rev_app_distr in Hf. cbn in Hf. injection Hf as ->. rewrite app_length. cbn [length].
    replace (length b1 + 1 - 1)%nat with (length b1) by lia. rewrite nth_error_app2, Nat.sub_diag by lia. split; [reflexivity|].
    intros v Hv. apply in_app_iff in Hv. destruct Hv as [Hv|[<-|[]]]; [|lia].
    clear - Hinc Hv. induction b1 as [|q b1 IH]; [destruct Hv|]. destruct Hv as [->|Hv].
    - apply (increasing_first (b1 ++ [final]) v (S (length b1)) final Hinc).
      cbn [nth_error]. rewrite nth_error_app2, Nat.sub_diag by lia. reflexivity.
    - apply IH; [destruct Hinc; assumption|exact Hv]. }
  destruct Hfin as [Hfin Hle].
  rewrite P in Hlo, Hhi. cbn [nth_error] in Hhi.
  destruct k as [|k].
  - (* first bucket *) exists LPre. split; [reflexivity|].
    unfold base in Hhi; cbn [app nth_error] in Hhi. assert (hi = first) by congruence. subst hi.
    split; [split; [lia|reflexivity]|]. split; [discriminate|].
    intros K. specialize (Hle first (or_introl eq_refl)). lia.
  - cbn [nth_error] in Hlo. cbn [nth_error]. rewrite nth_error_app1 in Hlo by lia.
    pose proof (Hmono _ _ Hlo) as Hge. rewrite app_length in Ll; cbn [length] in Ll.
    destruct (Nat.eq_dec k (length ls)) as [->|Nk].
    + rewrite nth_error_app2, Nat.sub_diag by lia. exists LPost. split; [reflexivity|].
      split; [split; [discriminate|lia]|]. split; [|reflexivity]. intros _.
      replace (length base - 1)%nat with (length ls) in Hfin by lia. assert (lo = final) by congruence. lia.
    + rewrite nth_error_app1 by lia. destruct (nth_error ls k) as [x|] eqn:Ex; [|apply nth_error_None in Ex; lia].
      exists x. split; [reflexivity|]. destruct (Lt x (nth_error_In _ _ Ex)) as [v ->].
      split; [split; [discriminate|lia]|]. split; [discriminate|].
      intros K. rewrite nth_error_app1 in Hhi by lia. specialize (Hle hi (nth_error_In _ _ Hhi)). lia.
Qed.
Print Assumptions C89_pre_post.

(** Times that are invalid are filtered. *)
Theorem C89_invalid points d i : (forall p, In p points -> 0 <= p) ->
  nth_error (nanos_since_midnight d) i = Some None -> nth_error (cut_codes points d) i = Some 0%nat.
Proof.
  intros Hp Hi. unfold cut_codes. rewrite nth_error_map, Hi. cbn [option_map].
  assert (E : ss_left points INVALID_64 = 0%nat).
  { destruct points as [|p points]; [reflexivity|]. cbn [ss_left].
    replace (INVALID_64 <=? p) with true; [reflexivity|]. symmetry. apply Z.leb_le.
    specialize (Hp p (or_introl eq_refl)). unfold INVALID_64. lia. }
  rewrite E. destruct (length points <=? 0)%nat; reflexivity.
Qed.
Print Assumptions C89_invalid.

(** Finding: with a bucket for the time before the first cut point, exactly midnight is still filtered. *)
Theorem C89_refuted : let d := Dtn [at_ 2021 6 1 0 0; at_ 2021 6 1 8 0] (TimeZone UTC UTC) in
  let points := cut_points (regular_points (timetuple_to_nsm 9 30 0 0) (timetuple_to_nsm 16 0 0 0) (30 * minute)) true true in
  cut_codes points d = [0; 1]%nat /\ nth_error (cut_labels false true true points) 0 = Some LPre.
Proof. vm_compute. repeat split. Qed.
Print Assumptions C89_refuted.

Example C89_case : let d := Dtn [at_ 2021 6 1 9 30; at_ 2021 6 1 9 31; at_ 2021 6 1 10 0; at_ 2021 6 1 15 59; at_ 2021 6 1 17 0; 0] (TimeZone UTC UTC) in
  let points := regular_points (timetuple_to_nsm 9 30 0 0) (timetuple_to_nsm 16 0 0 0) (60 * minute) in
  length points = 8%nat /\ cut_codes points d = [0; 1; 1; 7; 0; 0]%nat /\
  nth_error (cut_labels false false false points) 0 = Some (LTime (timetuple_to_nsm 9 30 0 0)).
Proof. vm_compute. repeat split. Qed.

(** ** C90: resample *)
(** dropna=True: each valid time becomes the largest multiple of the step not after it. *)
Theorem C90_down l step i x : 0 < step -> nth_error l i = Some x -> 0 < x ->
  exists r, nth_error (resample_down l step) i = Some r /\ (step | r) /\ r <= x < r + step.
Proof.
  intros Hs Hi Hx. exists (x - x mod step).
  pose proof (Z.div_mod x step ltac:(lia)) as D. pose proof (Z.mod_pos_bound x step Hs) as B.
  split; [|split; [exists (x / step); lia|lia]].
  unfold resample_down; cbv zeta.
  assert (R : nth_error (sub2 l (map (fun x => x mod step) l)) i = Some (x - x mod step))
    by (apply sub2_rows; [exact Hi|rewrite nth_error_map, Hi; reflexivity]).
  destruct l as [|a [|b l]]; [destruct i; discriminate| |].
  - destruct i as [|i]; [|destruct i; discriminate]. injection Hi as ->.
    replace (x <=? 0) with false by (symmetry; apply Z.leb_gt; lia). exact R.
  - apply putmask_row; [exact R|]. apply (nth_map_false nano_isnan _ i x Hi). apply nano_isnan_pos. exact Hx.
Qed.
Print Assumptions C90_down.

(** dropna=False: evenly spaced multiples of the step from the earliest time to the
    latest, so that every time lies in one of the intervals and none lies outside. *)
Theorem C90_range_partial l step : 0 < step -> l <> [] ->
  (forall x, In x l -> exists v, In v (resample_range l step) /\ v <= x < v + step) /\
  (forall i v, nth_error (resample_range l step) i = Some v ->
     (step | v) /\ (forall w, nth_error (resample_range l step) (S i) = Some w -> w = v + step) /\
     (exists x y, In x l /\ In y l /\ x - step < v <= y)).
Proof.
  intros Hs Hl. unfold resample_range; cbv zeta.
  destruct (list_min_ok l Hl) as [M1 M2]. destruct (list_max_ok l Hl) as [N1 N2].
  set (lo := list_min l) in *. set (hi := list_max l) in *.
  pose proof (Z.div_mod lo step ltac:(lia)) as D1. pose proof (Z.mod_pos_bound lo step Hs) as B1.
  pose proof (Z.div_mod hi step ltac:(lia)) as D2. pose proof (Z.mod_pos_bound hi step Hs) as B2.
  split.
  - intros x Hx. specialize (M2 x Hx). specialize (N2 x Hx).
    pose proof (Z.div_mod x step ltac:(lia)) as D. pose proof (Z.mod_pos_bound x step Hs) as B.
    exists (x - x mod step). split; [|lia]. apply arange_in; [exact Hs|].
    exists (x / step - lo / step). 
    pose proof (Z.div_le_mono lo x step Hs M2). pose proof (Z.div_le_mono x hi step Hs N2).
    split; [lia|]. split; nia.
  - intros i v Hv. pose proof (arange_nth _ _ _ _ _ Hv) as Ev.
    assert (Hin : In v (arange (lo - lo mod step) (hi - hi mod step + step) step)) by (eapply nth_error_In; exact Hv).
    apply (arange_in _ _ _ _ Hs) in Hin. destruct Hin as (k & Hk & Ek & Hb).
    split; [exists (lo / step + k); nia|]. split.
    + intros w Hw. apply arange_nth in Hw. rewrite Hw, Ev. lia.
    + exists lo, hi. split; [exact M1|]. split; [exact N1|]. split; [nia|].
      assert ((lo / step + k) * step < (hi / step + 1) * step) by nia.
      assert (lo / step + k < hi / step + 1) by (apply (Zmult_lt_reg_r _ _ step); lia). nia.
Qed.
Print Assumptions C90_range_partial.

(** Finding: an invalid (zero) row counts as 1970, so the range runs from there. *)
Theorem C90_refuted : let l := [0; 5 * day + hour] in
  nano_isnan 0 = true /\ resample_range l day = [0; day; 2 * day; 3 * day; 4 * day; 5 * day] /\
  resample_range [5 * day + hour] day = [5 * day].
Proof. vm_compute. repeat split. Qed.
Print Assumptions C90_refuted.

Example C90_case : resample_down [25; 0; 39; 40] 10 = [20; 0; 30; 40] /\ resample_range [25; 51; 40] 10 = [20; 30; 40; 50].
Proof. vm_compute. repeat split. Qed.

(** ** C91: changing zones *)
(** astimezone and set_timezone keep the instants and display them in the new zone. *)
Theorem C91_zones d z :
  nanos (astimezone d z) = nanos d /\ to_tz (tzone (astimezone d z)) = z /\
  nanos (set_timezone d z) = nanos d /\ to_tz (tzone (set_timezone d z)) = z /\
  fix_dst (tzone (astimezone d z)) (nanos (astimezone d z)) = fix_dst (tzone (set_timezone d z)) (nanos (set_timezone d z)).
Proof. repeat split. Qed.
Print Assumptions C91_zones.

(** Arrow and back: the same instants, invalid ones staying invalid, when times were given in UTC. *)
Theorem C91_arrow_partial d i u : from_tz (tzone d) = UTC -> nth_error (nanos d) i = Some u ->
  exists v, nth_error (nanos (from_arrow (to_arrow d))) i = Some v /\
    (nano_isnan u = false -> v = u) /\ (nano_isnan u = true -> nano_isnan v = true).
Proof.
  intros Hz Hi. unfold from_arrow, to_arrow, make_dtn; cbv zeta. cbn [a_values a_tz nanos]. rewrite Hz.
  cbn [to_utc from_tz]. rewrite map_map, nth_error_map, Hi. cbn [option_map].
  destruct (nano_isnan u) eqn:E; eexists; (split; [reflexivity|split; intros; try reflexivity; discriminate]).
Qed.
Print Assumptions C91_arrow_partial.

(** Findings: times given in New York come back four or five hours late, invalid ones
    become valid, and the display zone is lost. *)
Theorem C91_refuted :
  let d := make_dtn [at_ 2021 7 1 8 0; 0] NewYork Dublin in
  nanos d = [at_ 2021 7 1 12 0; 0] /\ map nano_isnan (nanos d) = [false; true] /\
  nth_error (nanos (from_arrow (to_arrow d))) 0 = Some (at_ 2021 7 1 16 0) /\
  map nano_isnan (nanos (from_arrow (to_arrow d))) = [false; false] /\
  to_tz (tzone (from_arrow (to_arrow d))) = NewYork.
Proof. vm_compute. repeat split. Qed.
Print Assumptions C91_refuted.

Example C91_case : let d := make_dtn [at_ 2021 7 1 8 0; 0] UTC Dublin in
  from_tz (tzone d) = UTC /\ nanos (from_arrow (to_arrow d)) = [at_ 2021 7 1 8 0; INVALID_64] /\
  nth_error (fix_dst (tzone (astimezone d Sydney)) (nanos d)) 0 = Some (at_ 2021 7 1 18 0).
Proof. vm_compute. repeat split. Qed.
