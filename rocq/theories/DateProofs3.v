(** Date and DateTimeNano fields of arrays, arithmetic, ranges, buckets. *)
From Coq Require Import List ZArith Bool Lia.
From Verif Require Import DateTables DateSpec DateModel DateOpsModel DateProofs DateProofs2.
Import ListNotations.
Open Scope Z_scope.

(** * Rows of arrays *)

Lemma some_all_map : forall {A B} (f : A -> B) l, some_all (map f l) = map (fun a => Some (f a)) l.
Proof. intros. unfold some_all. apply map_map. Qed.

Lemma date_mask_row : forall {B} (f : Z -> B) l i x,
  nth_error l i = Some x -> 0 < x ->
  nth_error (date_mask l (map f l)) i = Some (Some (f x)).
Proof.
  intros B f l i x Hi Hx. unfold date_mask. rewrite some_all_map.
  rewrite (map_id' l) at 1.
  rewrite (apply_inv_row date_isnan None (fun x => x) (fun a => Some (f a)) l i x Hi Hx); [reflexivity|].
  unfold date_isnan. apply orb_false_iff; split; apply Z.eqb_neq; unfold INVALID_32; lia.
Qed.

Lemma date_mask_nan : forall {B} (f : Z -> B) l i x,
  nth_error l i = Some x -> x = 0 \/ x = INVALID_32 ->
  nth_error (date_mask l (map f l)) i = Some None.
Proof.
  intros B f l i x Hi Hx. unfold date_mask. rewrite some_all_map.
  rewrite (map_id' l) at 1.
  apply (apply_inv_nan date_isnan None (fun x => x) (fun a => Some (f a)) l i x Hi).
  - destruct Hx as [->| ->]; [lia|unfold INVALID_32; lia].
  - unfold date_isnan. destruct Hx as [->| ->]; reflexivity.
Qed.

Lemma date_year_rows : forall l, date_year l = date_mask l (map (row_year date_splits) l).
Proof. reflexivity. Qed.

Lemma date_month_rows : forall l, date_month l = date_mask l (map (row_month date_splits) l).
Proof. intros l. unfold date_month. rewrite (map_id' l) at 2. rewrite month_of_map. reflexivity. Qed.

Lemma year_of_rows : forall s l, year_of s l = map (row_year s) l.
Proof. reflexivity. Qed.

Lemma date_doy_rows : forall l, date_day_of_year l =
  date_mask l (map (fun x => row_since date_splits x (row_year date_splits x) + 1) l).
Proof.
  intros l. unfold date_day_of_year. rewrite year_of_rows.
  rewrite (map_id' l) at 2. rewrite since_year_map, map_map. reflexivity.
Qed.

Lemma date_dom_rows : forall l, date_day_of_month l =
  date_mask l (map (fun x => row_monthtime date_splits x (row_year date_splits x) + 1) l).
Proof.
  intros l. unfold date_day_of_month. rewrite year_of_rows.
  rewrite (map_id' l) at 2. rewrite monthtime_of_map, map_map. reflexivity.
Qed.

Section DateRow.
  Variables (l : list Z) (i : nat) (x : Z).
  Hypothesis Hi : nth_error l i = Some x.
  Hypothesis Hx : 0 < x.
  Let c := civil (Z.to_nat x).
  Hypothesis Hy : c_year c <= 2099.

  Lemma civil_x : valid_date c /\ x = day_number c * 1 + 0.
  Proof. destruct (civil_ok (Z.to_nat x)) as [V E]. fold c in V, E. split; [exact V|]. lia. Qed.

  Lemma date_row_fields :
    nth_error (date_year l) i = Some (Some (c_year c)) /\
    nth_error (date_month l) i = Some (Some (c_month c)) /\
    nth_error (date_day_of_month l) i = Some (Some (c_day c)) /\
    nth_error (date_day_of_year l) i = Some (Some (ordinal_day c)) /\
    nth_error (date_is_leapyear l) i = Some (leap (c_year c)).
  Proof.
    destruct civil_x as [V E].
    assert (RY : row_year date_splits x = c_year c)
      by (apply (row_year_ok _ 1 c 0 x date_scaled V Hy ltac:(lia) E)).
    rewrite date_year_rows, date_month_rows, date_dom_rows, date_doy_rows.
    rewrite !(date_mask_row _ l i x Hi Hx).
    rewrite (row_month_ok _ 1 c 0 x date_scaled V Hy ltac:(lia) E).
    rewrite RY.
    rewrite (row_monthtime_ok _ 1 c 0 x date_scaled V Hy ltac:(lia) E).
    rewrite (row_since_ok _ 1 c 0 x date_scaled V Hy E).
    repeat split.
    - do 2 f_equal. lia.
    - do 2 f_equal. lia.
    - unfold date_is_leapyear. rewrite year_of_rows, leapmask_map, nth_error_map, Hi. cbn [option_map].
      rewrite RY. f_equal. apply leap_mod4. destruct V as (V & _). lia.
  Qed.
End DateRow.

Lemma date_dow_row : forall l i x, nth_error l i = Some x -> 0 < x ->
  nth_error (date_day_of_week l) i = Some (Some (weekday_number (weekday_of (Z.to_nat x)))).
Proof.
  intros l i x Hi Hx. unfold date_day_of_week.
  rewrite (date_mask_row _ l i x Hi Hx). rewrite weekday_ok, Z2Nat.id by lia. reflexivity.
Qed.

Lemma nth_error_put_id : forall {A} (l : list A), l = map (fun x => x) l.
Proof. intros. symmetry. apply map_id. Qed.

Lemma inv_mask_length : forall {A} isnan (inv : A) l (r : list A) i x y,
  nth_error l i = Some x -> 0 < x -> isnan x = false -> nth_error r i = Some y ->
  (length l = 1%nat -> length r = 1%nat) ->
  nth_error (apply_inv_mask isnan inv l r) i = Some y.
Proof.
  intros A isnan inv l r i x y Hi Hx Hn Hr Hl.
  assert (G : forall l r i, nth_error l i = Some x -> nth_error r i = Some y ->
            nth_error (putmask_val r (map isnan l) inv) i = Some y).
  { clear - Hn. induction l as [|a l IH]; intros [|b r] i Hi Hr; destruct i; try discriminate.
    - cbn in Hi, Hr. injection Hi as ->. injection Hr as ->. cbn. rewrite Hn. reflexivity.
    - cbn in *. apply IH; assumption. }
  destruct l as [|a [|b l]]; [destruct i; discriminate| |apply G; assumption].
  cbn [apply_inv_mask]. destruct i as [|i]; [|destruct i; discriminate]. injection Hi as ->.
  replace (x <=? 0) with false by (symmetry; apply Z.leb_gt; lia). exact Hr.
Qed.

Lemma date_isnan_pos : forall x, 0 < x -> date_isnan x = false.
Proof. intros. unfold date_isnan. apply orb_false_iff; split; apply Z.eqb_neq; unfold INVALID_32; lia. Qed.

Lemma nano_isnan_pos : forall x, 0 < x -> nano_isnan x = false.
Proof. intros. unfold nano_isnan. apply orb_false_iff; split; apply Z.eqb_neq; unfold INVALID_64; lia. Qed.

Lemma date_mask_len : forall {B} (f : Z -> B) l, length (date_mask l (map f l)) = length l.
Proof.
  intros. unfold date_mask, some_all. rewrite map_map.
  destruct l as [|a [|b l]]; [reflexivity|cbn; destruct (a <=? 0); reflexivity|].
  unfold apply_inv_mask. rewrite putmask_val_map, map_length. reflexivity.
Qed.

Lemma date_weekend_rows : forall l i x, nth_error l i = Some x -> 0 < x ->
  let w := weekday_of (Z.to_nat x) in
  nth_error (date_is_weekend l) i = Some (match w with Saturday | Sunday => true | _ => false end) /\
  nth_error (date_is_weekday l) i = Some (match w with Saturday | Sunday => false | _ => true end).
Proof.
  intros l i x Hi Hx w.
  pose proof (date_dow_row l i x Hi Hx) as D. fold w in D.
  assert (Len : length (date_day_of_week l) = length l) by apply date_mask_len.
  unfold date_is_weekend, date_is_weekday.
  split.
  - apply (inv_mask_length _ _ l _ i x); [exact Hi|exact Hx|apply date_isnan_pos; exact Hx| |].
    + rewrite nth_error_map, D. cbn [option_map cmp_inv]. destruct w; reflexivity.
    + rewrite map_length, Len. auto.
  - apply (inv_mask_length _ _ l _ i x); [exact Hi|exact Hx|apply date_isnan_pos; exact Hx| |].
    + rewrite nth_error_map, D. cbn [option_map cmp_inv]. destruct w; reflexivity.
    + rewrite map_length, Len. auto.
Qed.

(** * DateTimeNano rows *)

Lemma fix_dst_rows : forall tz l, fix_dst tz l = map (row_local (to_tz tz)) l.
Proof. intros. rewrite (map_id' l) at 1. apply fix_dst_map. Qed.

Lemma to_utc_rows : forall tz l, to_utc tz l = map (row_utc (from_tz tz)) l.
Proof. intros. rewrite (map_id' l) at 1. apply to_utc_map. Qed.

Lemma nano_mask_row : forall {B} (d : dtn) (f : Z -> B) i x,
  nth_error (nanos d) i = Some x -> 0 < x ->
  nth_error (nano_mask d (map f (nanos d))) i = Some (Some (f x)).
Proof.
  intros B d f i x Hi Hx. unfold nano_mask. rewrite some_all_map.
  rewrite (map_id' (nanos d)) at 1.
  apply (apply_inv_row nano_isnan None (fun x => x) (fun a => Some (f a)) (nanos d) i x Hi Hx).
  apply nano_isnan_pos; exact Hx.
Qed.

Definition row_yyyymmdd (s : splits) (x : Z) : Z :=
  let y := row_year s x in
  y * 10000 + row_month s x * 100 + (row_monthtime s x y / NANOS_PER_DAY + 1).

Lemma yyyymmdd_rows : forall d, nano_yyyymmdd d =
  map (fun u => row_yyyymmdd nano_splits (row_local (to_tz (tzone d)) u)) (nanos d).
Proof.
  intros d. unfold nano_yyyymmdd; cbv zeta. rewrite fix_dst_rows.
  set (z := to_tz (tzone d)). set (l := nanos d).
  rewrite year_of_map, since_year_map, leapmask_map, compress_map, !map_map, !sub2_map.
  rewrite !assign_map, !map_map, !add2_map.
  apply map_ext; intros a. unfold row_yyyymmdd, row_month, row_monthtime, row_table; cbv zeta.
  destruct (row_year nano_splits (row_local z a) mod 4 =? 0); reflexivity.
Qed.

Section NanoRow.
  Variables (d : dtn) (i : nat) (u : Z).
  Hypothesis Hi : nth_error (nanos d) i = Some u.
  Let x := row_local (to_tz (tzone d)) u.
  Hypothesis Hx : 0 <= x.
  Let n := Z.to_nat (x / day).
  Let c := civil n.
  Hypothesis Hy : c_year c <= 2099.

  Lemma local_decomp : valid_date c /\ x = day_number c * NANOS_PER_DAY + x mod NANOS_PER_DAY /\
    0 <= x mod NANOS_PER_DAY < NANOS_PER_DAY /\ day_number c = x / day.
  Proof.
    destruct (civil_ok n) as [V E]. split; [exact V|].
    fold c in E. assert (Q : day_number c = x / day).
    { rewrite E. unfold n. rewrite Z2Nat.id; [reflexivity|]. apply Z.div_pos; [exact Hx|reflexivity]. }
    split; [|split; [apply Z.mod_pos_bound; reflexivity|exact Q]].
    rewrite Q. change NANOS_PER_DAY with day. rewrite Z.mul_comm. apply Z.div_mod. discriminate.
  Qed.

  Lemma nano_row_fields : 0 < u ->
    nth_error (nano_year d) i = Some (Some (c_year c)) /\
    nth_error (nano_month d) i = Some (Some (c_month c)) /\
    nth_error (nano_day_of_year d) i = Some (ordinal_day c) /\
    nth_error (nano_yyyymmdd d) i = Some (yyyymmdd_of c) /\
    nth_error (days_since_epoch d) i = Some (day_number c) /\
    nth_error (nano_day_of_week d) i = Some (weekday_number (weekday_of n)) /\
    nth_error (nanos_since_midnight d) i = Some (Some (x mod day)) /\
    nth_error (nano_hour_span d) i = Some (Some (x mod day)).
  Proof.
    intros Hu. destruct local_decomp as (V & E & R & Q).
    assert (RY : row_year nano_splits x = c_year c) by (apply (row_year_ok _ _ c _ x nano_scaled V Hy R E)).
    assert (RM : row_month nano_splits x = c_month c) by (apply (row_month_ok _ _ c _ x nano_scaled V Hy R E)).
    assert (RT : row_monthtime nano_splits x (c_year c) = (c_day c - 1) * NANOS_PER_DAY + x mod NANOS_PER_DAY)
      by (apply (row_monthtime_ok _ _ c _ x nano_scaled V Hy R E)).
    assert (RS : row_since nano_splits x (c_year c) = (ordinal_day c - 1) * NANOS_PER_DAY + x mod NANOS_PER_DAY)
      by (apply (row_since_ok _ _ c _ x nano_scaled V Hy E)).
    assert (DE : nth_error (days_since_epoch d) i = Some (day_number c)).
    { unfold days_since_epoch. rewrite fix_dst_rows, map_map, nth_error_map, Hi. cbn [option_map].
      fold x. rewrite Q. reflexivity. }
    split; [|split; [|split; [|split; [|split; [|split; [|split]]]]]].
    - unfold nano_year. rewrite fix_dst_rows, year_of_map. rewrite (nano_mask_row d _ i u Hi Hu).
      fold x. rewrite RY. reflexivity.
    - unfold nano_month. rewrite fix_dst_rows, month_of_map. rewrite (nano_mask_row d _ i u Hi Hu).
      fold x. rewrite RM. reflexivity.
    - unfold nano_day_of_year, nanos_since_start_of_year; cbv zeta.
      rewrite fix_dst_rows, year_of_map, since_year_map, map_map, nth_error_map, Hi. cbn [option_map].
      fold x. rewrite RY, RS, div_row by exact R. f_equal. lia.
    - rewrite yyyymmdd_rows, nth_error_map, Hi. cbn [option_map]. fold x.
      unfold row_yyyymmdd; cbv zeta. rewrite RY, RM, RT, div_row by exact R.
      unfold yyyymmdd_of. f_equal. lia.
    - exact DE.
    - unfold nano_day_of_week. rewrite nth_error_map, DE. cbn [option_map]. f_equal.
      rewrite weekday_ok. unfold EPOCH_DAY_OF_WEEK. f_equal. f_equal.
      unfold c. apply civil_ok.
    - unfold nanos_since_midnight. rewrite fix_dst_rows, map_map. rewrite (nano_mask_row d _ i u Hi Hu). reflexivity.
    - unfold nano_hour_span. rewrite fix_dst_rows, map_map, some_all_map, putmask_val_map, nth_error_map, Hi.
      cbn [option_map]. rewrite nano_isnan_pos by exact Hu. reflexivity.
  Qed.

  Lemma nano_week_rows : 0 < u ->
    nth_error (nano_is_weekend d) i = Some (match weekday_of n with Saturday | Sunday => true | _ => false end) /\
    nth_error (nano_is_weekday d) i = Some (match weekday_of n with Saturday | Sunday => false | _ => true end).
  Proof.
    intros Hu. destruct (nano_row_fields Hu) as (_ & _ & _ & _ & _ & W & _).
    unfold nano_is_weekend, nano_is_weekday.
    assert (M : nano_day_of_week d = map (fun a => (row_local (to_tz (tzone d)) a / NANOS_PER_DAY + 3) mod 7) (nanos d)).
    { unfold nano_day_of_week, days_since_epoch. rewrite fix_dst_rows, !map_map. reflexivity. }
    rewrite M, nth_error_map, Hi in W. cbn [option_map] in W.
    rewrite M, !map_map, !putmask_val_map, !nth_error_map, Hi. cbn [option_map].
    rewrite nano_isnan_pos by exact Hu.
    match type of W with Some ?a = Some ?b => assert (W' : a = b) by congruence end.
    rewrite W'. destruct (weekday_of n); split; reflexivity.
  Qed.
End NanoRow.

(** day_of_month: the day of the UTC date, when UTC and local time are in the same year. *)
Lemma nano_dom_row : forall d i u, nth_error (nanos d) i = Some u -> 0 <= u ->
  let c := civil (Z.to_nat (u / day)) in
  c_year c <= 2099 -> row_year nano_splits (row_local (to_tz (tzone d)) u) = c_year c ->
  nth_error (nano_day_of_month d) i = Some (c_day c).
Proof.
  intros d i u Hi Hu c Hy Hsame.
  unfold nano_day_of_month; cbv zeta. rewrite fix_dst_rows, year_of_map.
  rewrite (map_id' (nanos d)) at 1. rewrite monthtime_of_map, map_map, nth_error_map, Hi. cbn [option_map].
  rewrite Hsame.
  destruct (civil_ok (Z.to_nat (u / day))) as [V E]. fold c in V, E.
  rewrite Z2Nat.id in E by (apply Z.div_pos; [exact Hu|reflexivity]).
  assert (R : 0 <= u mod NANOS_PER_DAY < NANOS_PER_DAY) by (apply Z.mod_pos_bound; reflexivity).
  assert (X : u = day_number c * NANOS_PER_DAY + u mod NANOS_PER_DAY).
  { rewrite E. change NANOS_PER_DAY with day. rewrite Z.mul_comm. apply Z.div_mod. discriminate. }
  rewrite (row_monthtime_ok _ _ c _ u nano_scaled V Hy R X), div_row by exact R. f_equal. lia.
Qed.

(** * Arithmetic *)

Lemma add2_rows : forall a b i x y, nth_error a i = Some x -> nth_error b i = Some y ->
  nth_error (add2 a b) i = Some (x + y).
Proof.
  unfold add2. induction a as [|p a IH]; intros [|q b] i x y Ha Hb; destruct i; try discriminate.
  - cbn in *. injection Ha as ->. injection Hb as ->. reflexivity.
  - cbn in *. apply IH; assumption.
Qed.

Lemma sub2_rows : forall a b i x y, nth_error a i = Some x -> nth_error b i = Some y ->
  nth_error (sub2 a b) i = Some (x - y).
Proof.
  unfold sub2. induction a as [|p a IH]; intros [|q b] i x y Ha Hb; destruct i; try discriminate.
  - cbn in *. injection Ha as ->. injection Hb as ->. reflexivity.
  - cbn in *. apply IH; assumption.
Qed.

Lemma putmask_row : forall {A} (l : list A) m v i x,
  nth_error l i = Some x -> nth i m false = false -> nth_error (putmask_val l m v) i = Some x.
Proof.
  induction l as [|a l IH]; intros [|b m] v i x Hl Hm; destruct i; try discriminate; cbn in *; auto.
  subst b. exact Hl.
Qed.

Lemma apply2_row : forall arr res m1 m2 i x r,
  nth_error arr i = Some x -> 0 < x -> nth_error res i = Some r ->
  nth i m1 false = false -> nth i m2 false = false ->
  nth_error (apply_inv_mask2 arr res m1 m2) i = Some r.
Proof.
  intros arr res m1 m2 i x r Ha Hx Hr H1 H2.
  assert (G : nth_error (putmask_val (putmask_val res m1 NAN_DATE) m2 NAN_DATE) i = Some r)
    by (apply putmask_row; [apply putmask_row|]; assumption).
  destruct arr as [|a [|b arr]]; [destruct i; discriminate| |exact G].
  destruct i as [|i]; [|destruct i; discriminate]. injection Ha as ->.
  cbn [apply_inv_mask2]. replace (x <=? 0) with false by (symmetry; apply Z.leb_gt; lia). exact Hr.
Qed.

Lemma nth_map_false : forall (f : Z -> bool) l i x, nth_error l i = Some x -> f x = false ->
  nth i (map f l) false = false.
Proof.
  intros f l i x H Hf. apply nth_error_nth. rewrite nth_error_map, H. cbn. rewrite Hf. reflexivity.
Qed.

Lemma date_sub_row : forall arr o i x k, nth_error arr i = Some x -> 0 < x ->
  nth_error o i = Some k -> k <> INVALID_32 -> nth_error (date_sub_arr arr o) i = Some (x - k).
Proof.
  intros arr o i x k Ha Hx Ho Hk. unfold date_sub_arr. apply (apply2_row arr _ _ _ i x); auto.
  - apply sub2_rows; assumption.
  - apply (nth_map_false _ _ _ x); [exact Ha|apply date_isnan_pos; exact Hx].
  - apply (nth_map_false _ _ _ k); [exact Ho|apply Z.eqb_neq; exact Hk].
Qed.

Lemma date_add_row : forall arr i x k, nth_error arr i = Some x -> 0 < x ->
  nth_error (date_add arr k) i = Some (x + k).
Proof.
  intros arr i x k Ha Hx. unfold date_add. apply (apply2_row arr _ _ _ i x); auto.
  - rewrite nth_error_map, Ha. reflexivity.
  - apply (nth_map_false _ _ _ x); [exact Ha|apply date_isnan_pos; exact Hx].
  - destruct i; reflexivity.
Qed.

Lemma as_int_row : forall l i v, nth_error l i = Some (Some v) -> nth_error (as_int l) i = Some v.
Proof. intros l i v H. unfold as_int. rewrite nth_error_map, H. reflexivity. Qed.

(** * Ranges *)

Lemma arange_in : forall a b s v, 0 < s ->
  (In v (arange a b s) <-> exists k, 0 <= k /\ v = a + k * s /\ v < b).
Proof.
  intros a b s v Hs. unfold arange. rewrite in_map_iff. split.
  - intros (k & <- & Hk). apply in_seq in Hk. exists (Z.of_nat k). split; [lia|]. split; [reflexivity|].
    assert (Z.of_nat k < (b - a + s - 1) / s) by lia.
    assert (s * ((b - a + s - 1) / s) <= b - a + s - 1) by (apply Z.mul_div_le; exact Hs). nia.
  - intros (k & Hk & -> & Hb). exists (Z.to_nat k). split; [rewrite Z2Nat.id by lia; reflexivity|].
    apply in_seq. assert (k < (b - a + s - 1) / s); [|lia].
    assert (k + 1 <= (b - a + s - 1) / s); [|lia]. apply Z.div_le_lower_bound; nia.
Qed.

Lemma arange_nth : forall a b s i v, nth_error (arange a b s) i = Some v -> v = a + Z.of_nat i * s.
Proof.
  intros a b s i v H. unfold arange in H. rewrite nth_error_map in H.
  destruct (nth_error (seq 0 _) i) as [k|] eqn:E; [|discriminate].
  assert (L : (i < Z.to_nat ((b - a + s - 1) / s))%nat).
  { rewrite <- (seq_length (Z.to_nat ((b - a + s - 1) / s)) 0). apply nth_error_Some. congruence. }
  assert (k = i).
  { apply (nth_error_nth _ _ 0%nat) in E. rewrite seq_nth in E by exact L. lia. }
  subst k. cbn in H. congruence.
Qed.

Lemma arange_length : forall a b s, length (arange a b s) = Z.to_nat ((b - a + s - 1) / s).
Proof. intros. unfold arange. rewrite map_length, seq_length. reflexivity. Qed.

(** * Time buckets *)

(** Strictly increasing points. *)
Fixpoint increasing (l : list Z) : Prop :=
  match l with
  | [] => True
  | x :: r => match r with [] => True | y :: _ => x < y end /\ increasing r
  end.

Lemma increasing_first : forall l x i v, increasing (x :: l) -> nth_error (x :: l) i = Some v -> x <= v.
Proof.
  induction l as [|y l IH]; intros x i v H Hi.
  - destruct i as [|i]; [injection Hi as ->; lia|destruct i; discriminate].
  - destruct i as [|i]; [injection Hi as ->; lia|]. destruct H as [H1 H2].
    specialize (IH y i v H2 Hi). lia.
Qed.

(** searchsorted(left): the entries before are smaller, the entry there is not. *)
Lemma ss_left_spec : forall l v, increasing l ->
  (ss_left l v <= length l)%nat /\
  (forall i p, nth_error l i = Some p -> ((i < ss_left l v)%nat <-> p < v)).
Proof.
  induction l as [|x l IH]; intros v H.
  - split; [cbn; lia|]. intros [|i] p Hp; discriminate.
  - cbn [ss_left length]. assert (Hl : increasing l) by (destruct H; assumption).
    destruct (v <=? x) eqn:E; [apply Z.leb_le in E|apply Z.leb_gt in E].
    + split; [lia|]. intros i p Hp. pose proof (increasing_first l x i p H Hp). lia.
    + destruct (IH v Hl) as [A B]. split; [lia|]. intros [|i] p Hp.
      * injection Hp as ->. lia.
      * specialize (B i p Hp). rewrite <- B. lia.
Qed.

Lemma cut_loop_spec : forall fuel now stop size, 0 < size -> stop <= now + Z.of_nat fuel * size ->
  increasing (cut_loop fuel now stop size ++ [stop]) /\
  (forall i p, nth_error (cut_loop fuel now stop size) i = Some p -> p = now + Z.of_nat i * size /\ p < stop) /\
  (now < stop -> nth_error (cut_loop fuel now stop size ++ [stop]) 0 = Some now) /\
  (stop <= now -> cut_loop fuel now stop size = []) /\
  stop <= now + Z.of_nat (length (cut_loop fuel now stop size)) * size.
Proof.
  induction fuel as [|fuel IH]; intros now stop size Hs Hf.
  - cbn [cut_loop app length]. split; [cbn; auto|]. split; [intros [|i] p H; discriminate|]. split; [lia|]. split; [reflexivity|]. lia.
  - cbn [cut_loop]. destruct (now <? stop) eqn:E; [apply Z.ltb_lt in E|apply Z.ltb_ge in E].
    + destruct (IH (now + size) stop size Hs ltac:(nia)) as (I & N & F0 & Z0 & Ln).
      cbn [app length]. split; [|split; [|split; [|split]]].
      * split; [|exact I].
        destruct (Z.lt_ge_cases (now + size) stop) as [A|A].
        -- specialize (F0 A). destruct (cut_loop fuel (now + size) stop size ++ [stop]) as [|y r]; [discriminate|].
           injection F0 as ->. lia.
        -- rewrite (Z0 A). cbn. exact E.
      * intros [|i] p Hp; [cbn in Hp; injection Hp as <-; lia|].
        cbn in Hp. destruct (N i p Hp) as [-> L]. split; [lia|exact L].
      * reflexivity.
      * lia.
      * rewrite Nat2Z.inj_succ. lia.
    + cbn [app length]. split; [cbn; auto|]. split; [intros [|i] p H; discriminate|].
      split; [lia|]. split; [reflexivity|]. lia.
Qed.

Lemma increasing_app_one : forall l v, increasing l -> (forall p, In p l -> p < v) -> increasing (l ++ [v]).
Proof.
  induction l as [|x l IH]; intros v H Hv; [cbn; auto|].
  cbn [app increasing]. split.
  - destruct l as [|y l]; [apply Hv; left; reflexivity|]. destruct H; assumption.
  - apply IH; [destruct H; assumption|]. intros p Hp. apply Hv. right. exact Hp.
Qed.

(** * Minimum and maximum *)

Lemma fold_min_le : forall l a, fold_left Z.min l a <= a /\ (forall x, In x l -> fold_left Z.min l a <= x) /\
  (fold_left Z.min l a = a \/ In (fold_left Z.min l a) l).
Proof.
  induction l as [|b l IH]; intros a; cbn [fold_left].
  - split; [lia|]. split; [intros x []|left; reflexivity].
  - destruct (IH (Z.min a b)) as (A & B & C). split; [lia|]. split.
    + intros x [<-|Hx]; [lia|apply B; exact Hx].
    + destruct C as [C|C]; [|right; right; exact C].
      destruct (Z.min_spec a b) as [[_ E]|[_ E]]; rewrite E in C; rewrite E; [left; exact C|right; left; symmetry; exact C].
Qed.

Lemma fold_max_ge : forall l a, a <= fold_left Z.max l a /\ (forall x, In x l -> x <= fold_left Z.max l a) /\
  (fold_left Z.max l a = a \/ In (fold_left Z.max l a) l).
Proof.
  induction l as [|b l IH]; intros a; cbn [fold_left].
  - split; [lia|]. split; [intros x []|left; reflexivity].
  - destruct (IH (Z.max a b)) as (A & B & C). split; [lia|]. split.
    + intros x [<-|Hx]; [lia|apply B; exact Hx].
    + destruct C as [C|C]; [|right; right; exact C].
      destruct (Z.max_spec a b) as [[_ E]|[_ E]]; rewrite E in C; rewrite E; [right; left; symmetry; exact C|left; exact C].
Qed.

Lemma list_min_ok : forall l, l <> [] -> In (list_min l) l /\ forall x, In x l -> list_min l <= x.
Proof.
  intros [|a l] H; [congruence|]. cbn [list_min]. destruct (fold_min_le l a) as (A & B & C). split.
  - destruct C as [->|C]; [left; reflexivity|right; exact C].
  - intros x [<-|Hx]; [exact A|apply B; exact Hx].
Qed.

Lemma list_max_ok : forall l, l <> [] -> In (list_max l) l /\ forall x, In x l -> x <= list_max l.
Proof.
  intros [|a l] H; [congruence|]. cbn [list_max]. destruct (fold_max_ge l a) as (A & B & C). split.
  - destruct C as [->|C]; [left; reflexivity|right; exact C].
  - intros x [<-|Hx]; [exact A|apply B; exact Hx].
Qed.
