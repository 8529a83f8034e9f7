(** Calendar arithmetic: the year, month and day found by table search are
    those of the civil calendar. *)
From Coq Require Import List ZArith Bool Lia.
From Verif Require Import DateTables DateSpec DateModel.
Import ListNotations.
Open Scope Z_scope.

(** * Table search *)

Lemma ss_right_map : forall (f : nat -> Z) n a k x,
  (forall i, (a <= i)%nat -> (S i < a + n)%nat -> f i < f (S i)) ->
  (a <= k < a + n)%nat -> f k <= x -> ((S k < a + n)%nat -> x < f (S k)) ->
  ss_right (map f (seq a n)) x = (S k - a)%nat.
Proof.
  intros f n; induction n as [|n IH]; intros a k x Hm Hk Hlo Hhi; [lia|].
  cbn [seq map ss_right].
  assert (Hall : forall d, (a <= k - d)%nat -> f (k - d)%nat <= f k).
  { induction d as [|d IHd]; intros Hd; [rewrite Nat.sub_0_r; lia|].
    destruct (Nat.le_gt_cases k d) as [L|L].
    - replace (k - S d)%nat with (k - d)%nat by lia. apply IHd; lia.
    - assert (f (k - S d)%nat < f (S (k - S d))) by (apply Hm; lia).
      replace (S (k - S d)) with (k - d)%nat in * by lia.
      assert (f (k - d)%nat <= f k) by (apply IHd; lia). lia. }
  assert (f a <= f k).
  { replace a with (k - (k - a))%nat at 1 by lia. apply Hall; lia. }
  destruct (x <? f a) eqn:E; [apply Z.ltb_lt in E; lia|].
  destruct (Nat.eq_dec a k) as [->|N].
  - replace (S k - k)%nat with 1%nat by lia. f_equal.
    destruct n as [|n]; [reflexivity|]. cbn [seq map ss_right].
    replace (x <? f (S k)) with true; [reflexivity|].
    symmetry; apply Z.ltb_lt. apply Hhi; lia.
  - rewrite (IH (S a) k x); [lia| |lia|lia|].
    + intros i Hi1 Hi2; apply Hm; lia.
    + intros Hs; apply Hhi; lia.
Qed.

Lemma nth_map_seq_z : forall (f : nat -> Z) n k d, (k < n)%nat -> nth k (map f (seq 0 n)) d = f k.
Proof.
  intros f n k d H. rewrite (nth_indep _ d (f 0%nat)) by (rewrite map_length, seq_length; lia).
  rewrite map_nth, seq_nth by lia. reflexivity.
Qed.

Lemma take_at_map : forall (f : nat -> Z) n k, (k < n)%nat ->
  take_at (map f (seq 0 n)) (Z.of_nat k) = f k.
Proof.
  intros f n k H. unfold take_at. rewrite map_length, seq_length.
  replace (Z.of_nat k <? 0) with false by (symmetry; apply Z.ltb_ge; lia).
  replace (0 <=? Z.of_nat k) with true by (symmetry; apply Z.leb_le; lia).
  replace (Z.of_nat k <? Z.of_nat n) with true by (symmetry; apply Z.ltb_lt; lia).
  cbn [andb]. rewrite Nat2Z.id. apply nth_map_seq_z; exact H.
Qed.

(** Scaling a table to a finer unit. *)
Lemma ss_right_scale : forall u t x r, 0 < u -> 0 <= r < u ->
  ss_right (map (fun d => d * u) t) (x * u + r) = ss_right t x.
Proof.
  intros u t x r Hu Hr. induction t as [|a t IH]; [reflexivity|].
  cbn [map ss_right]. rewrite IH.
  replace (x * u + r <? a * u) with (x <? a); [reflexivity|].
  destruct (Z.ltb_spec x a); symmetry; [apply Z.ltb_lt|apply Z.ltb_ge]; nia.
Qed.

Lemma take_at_scale : forall u t i, 0 <= i < Z.of_nat (length t) ->
  take_at (map (fun d => d * u) t) i = take_at t i * u.
Proof.
  intros u t i H. unfold take_at. rewrite map_length.
  replace (i <? 0) with false by (symmetry; apply Z.ltb_ge; lia).
  replace ((0 <=? i) && (i <? Z.of_nat (length t))) with true
    by (symmetry; apply andb_true_iff; split; [apply Z.leb_le|apply Z.ltb_lt]; lia).
  rewrite (nth_indep _ INVALID_64 (INVALID_64 * u)) by (rewrite map_length; lia).
  rewrite (map_nth (fun d => d * u)). reflexivity.
Qed.

(** * The calendar *)

Lemma zsum_S : forall f a n, zsum f a (S n) = zsum f a n + f (a + Z.of_nat n).
Proof. reflexivity. Qed.

Lemma days_to_year_S : forall y, 1970 <= y -> days_to_year (y + 1) = days_to_year y + year_len y.
Proof.
  intros y H. unfold days_to_year.
  replace (Z.to_nat (y + 1 - 1970)) with (S (Z.to_nat (y - 1970))) by lia.
  rewrite zsum_S. f_equal. f_equal. lia.
Qed.

Lemma days_to_month_S : forall y m, 1 <= m -> days_to_month y (m + 1) = days_to_month y m + month_len y m.
Proof.
  intros y m H. unfold days_to_month.
  replace (Z.to_nat (m + 1 - 1)) with (S (Z.to_nat (m - 1))) by lia.
  rewrite zsum_S. f_equal. f_equal. lia.
Qed.

Lemma month_cases : forall m, 1 <= m <= 12 ->
  m = 1 \/ m = 2 \/ m = 3 \/ m = 4 \/ m = 5 \/ m = 6 \/ m = 7 \/ m = 8 \/ m = 9 \/ m = 10 \/ m = 11 \/ m = 12.
Proof. intros; lia. Qed.

Lemma month_len_pos : forall y m, 28 <= month_len y m <= 31.
Proof. intros. unfold month_len. destruct (m =? 2), (leap y), ((m =? 4) || (m =? 6) || (m =? 9) || (m =? 11)); lia. Qed.

Lemma year_len_months : forall y, days_to_month y 13 = year_len y.
Proof.
  intros y. unfold days_to_month, year_len.
  change (Z.to_nat (13 - 1)) with 12%nat. cbn [zsum].
  unfold month_len. destruct (leap y); reflexivity.
Qed.

Lemma days_to_month_pos : forall y m, 0 <= days_to_month y m.
Proof.
  intros. unfold days_to_month. induction (Z.to_nat (m - 1)) as [|n IH]; [cbn; lia|].
  rewrite zsum_S. pose proof (month_len_pos y (1 + Z.of_nat n)). lia.
Qed.

Lemma year_len_pos : forall y, 365 <= year_len y <= 366.
Proof. intros. unfold year_len. destruct (leap y); lia. Qed.

Lemma days_to_year_mono : forall y k, 1970 <= y -> 0 <= k ->
  days_to_year y + 365 * k <= days_to_year (y + k).
Proof.
  intros y k Hy Hk. pattern k. apply natlike_ind; [|intros n Hn IH|exact Hk].
  - replace (y + 0) with y by lia. lia.
  - replace (y + Z.succ n) with (y + n + 1) by lia. rewrite days_to_year_S by lia.
    pose proof (year_len_pos (y + n)). lia.
Qed.

Lemma days_to_month_mono : forall y m, 1 <= m <= 12 -> days_to_month y m + month_len y m <= year_len y.
Proof.
  intros y m H. rewrite <- year_len_months.
  assert (G : forall k, 0 <= k -> days_to_month y (m + 1) <= days_to_month y (m + 1 + k)).
  { intros k Hk. pattern k. apply natlike_ind; [|intros n Hn IH|exact Hk].
    - rewrite Z.add_0_r. lia.
    - replace (m + 1 + Z.succ n) with (m + 1 + n + 1) by lia. rewrite (days_to_month_S y (m + 1 + n)) by lia.
      pose proof (month_len_pos y (m + 1 + n)). lia. }
  specialize (G (12 - m)). replace (m + 1 + (12 - m)) with 13 in G by lia.
  rewrite days_to_month_S in G by lia. lia.
Qed.

Lemma next_day_ok : forall c, valid_date c ->
  valid_date (next_day c) /\ day_number (next_day c) = day_number c + 1.
Proof.
  intros [y m d] (Hy & Hm & Hd). cbn [c_year c_month c_day] in *.
  unfold next_day; cbn [c_year c_month c_day].
  destruct (d <? month_len y m) eqn:E; [apply Z.ltb_lt in E|apply Z.ltb_ge in E].
  - split; [repeat split; cbn [c_year c_month c_day]; lia|].
    unfold day_number; cbn [c_year c_month c_day]; lia.
  - assert (d = month_len y m) by lia; subst d.
    destruct (m <? 12) eqn:F; [apply Z.ltb_lt in F|apply Z.ltb_ge in F].
    + split.
      * pose proof (month_len_pos y (m + 1)). repeat split; cbn [c_year c_month c_day]; lia.
      * unfold day_number; cbn [c_year c_month c_day]. rewrite days_to_month_S by lia. lia.
    + assert (m = 12) by lia; subst m. split.
      * pose proof (month_len_pos (y + 1) 1). repeat split; cbn [c_year c_month c_day]; lia.
      * unfold day_number; cbn [c_year c_month c_day]. rewrite days_to_year_S by lia.
        rewrite <- year_len_months. change 13 with (12 + 1). rewrite days_to_month_S by lia.
        change (days_to_month (y + 1) 1) with 0. lia.
Qed.

Theorem civil_ok : forall n, valid_date (civil n) /\ day_number (civil n) = Z.of_nat n.
Proof.
  induction n as [|n [V E]].
  - split; [|reflexivity]. unfold valid_date; cbn. lia.
  - cbn [civil]. destruct (next_day_ok _ V) as [V' E']. split; [exact V'|]. lia.
Qed.

(** A day number determines its date. *)
Theorem day_number_inj : forall a b, valid_date a -> valid_date b ->
  day_number a = day_number b -> a = b.
Proof.
  assert (Y : forall a b, valid_date a -> valid_date b -> day_number a = day_number b ->
              c_year a < c_year b -> False).
  { intros [y m d] [y' m' d'] (Hy & Hm & Hd) (Hy' & Hm' & Hd') E L.
    unfold day_number in E; cbn [c_year c_month c_day] in *.
    pose proof (days_to_year_mono (y + 1) (y' - (y + 1))) as G.
    replace (y + 1 + (y' - (y + 1))) with y' in G by lia.
    rewrite days_to_year_S in G by lia.
    pose proof (days_to_month_mono y m Hm). pose proof (days_to_month_pos y' m'). lia. }
  assert (M : forall y m d m' d', valid_date (Civil y m d) -> valid_date (Civil y m' d') ->
              days_to_month y m + d = days_to_month y m' + d' -> m < m' -> False).
  { intros y m d m' d' (Hy & Hm & Hd) (Hy' & Hm' & Hd') E L; cbn [c_year c_month c_day] in *.
    assert (G : forall k, 0 <= k -> days_to_month y (m + 1) <= days_to_month y (m + 1 + k)).
    { intros k Hk. pattern k. apply natlike_ind; [|intros n Hn IH|exact Hk].
      - rewrite Z.add_0_r. lia.
      - replace (m + 1 + Z.succ n) with (m + 1 + n + 1) by lia. rewrite (days_to_month_S y (m + 1 + n)) by lia.
        pose proof (month_len_pos y (m + 1 + n)). lia. }
    specialize (G (m' - (m + 1))). replace (m + 1 + (m' - (m + 1))) with m' in G by lia.
    rewrite days_to_month_S in G by lia. lia. }
  intros a b Va Vb E.
  destruct (Z.lt_trichotomy (c_year a) (c_year b)) as [L|[L|L]].
  - exfalso. exact (Y a b Va Vb E L).
  - destruct a as [y m d], b as [y' m' d']; cbn [c_year] in L; subst y'.
    unfold day_number in E; cbn [c_year c_month c_day] in E.
    destruct (Z.lt_trichotomy m m') as [K|[K|K]].
    + exfalso; eapply M; [exact Va|exact Vb| |exact K]; lia.
    + subst m'. f_equal; lia.
    + exfalso; eapply M; [exact Vb|exact Va| |exact K]; lia.
  - exfalso; eapply Y; [exact Vb|exact Va|symmetry; exact E|exact L].
Qed.

Corollary civil_unique : forall c n, valid_date c -> day_number c = Z.of_nat n -> civil n = c.
Proof.
  intros c n V E. destruct (civil_ok n) as [V' E']. apply day_number_inj; auto. lia.
Qed.

(** * The tables hold the calendar *)

Lemma year_table : UTC_1970_DAY_SPLITS = map (fun k => days_to_year (1970 + Z.of_nat k)) (seq 0 130).
Proof. vm_compute. reflexivity. Qed.

Lemma leap_mod4 : forall y, 1970 <= y <= 2099 -> (y mod 4 =? 0) = leap y.
Proof.
  intros y H.
  assert (G : forallb (fun k => Bool.eqb ((1970 + Z.of_nat k) mod 4 =? 0) (leap (1970 + Z.of_nat k)))
                (seq 0 130) = true) by (vm_compute; reflexivity).
  rewrite forallb_forall in G. specialize (G (Z.to_nat (y - 1970))).
  rewrite Z2Nat.id in G by lia. replace (1970 + (y - 1970)) with y in G by lia.
  apply eqb_prop, G, in_seq. lia.
Qed.

Definition month_table (lp : bool) : list Z := if lp then YDAY_SPLITS_LEAP else YDAY_SPLITS.

Lemma month_table_ok : forall y,
  month_table (leap y) = map (fun k => days_to_month y (1 + Z.of_nat k)) (seq 0 12).
Proof.
  intros y. unfold month_table, days_to_month, month_len.
  cbn [seq map]. destruct (leap y); reflexivity.
Qed.

Lemma ss_year : forall y x, 1970 <= y <= 2099 -> days_to_year y <= x < days_to_year (y + 1) ->
  Z.of_nat (ss_right UTC_1970_DAY_SPLITS x) + 1969 = y.
Proof.
  intros y x Hy Hx. rewrite year_table.
  rewrite (ss_right_map _ 130 0 (Z.to_nat (y - 1970))).
  - lia.
  - intros i _ Hi. replace (1970 + Z.of_nat (S i)) with (1970 + Z.of_nat i + 1) by lia.
    rewrite days_to_year_S by lia. pose proof (year_len_pos (1970 + Z.of_nat i)). lia.
  - lia.
  - rewrite Z2Nat.id by lia. replace (1970 + (y - 1970)) with y by lia. lia.
  - intros _. rewrite Nat2Z.inj_succ, Z2Nat.id by lia.
    replace (1970 + Z.succ (y - 1970)) with (y + 1) by lia. lia.
Qed.

Lemma take_year : forall y, 1970 <= y <= 2099 ->
  take_at UTC_1970_DAY_SPLITS (y - 1970) = days_to_year y.
Proof.
  intros y H. rewrite year_table. replace (y - 1970) with (Z.of_nat (Z.to_nat (y - 1970))) by lia.
  rewrite take_at_map by lia. f_equal. lia.
Qed.

Lemma ss_month : forall y m d, 1 <= m <= 12 -> 1 <= d <= month_len y m ->
  ss_right (month_table (leap y)) (days_to_month y m + d - 1) = Z.to_nat m.
Proof.
  intros y m d Hm Hd. rewrite month_table_ok.
  rewrite (ss_right_map _ 12 0 (Z.to_nat (m - 1))).
  - lia.
  - intros i _ Hi. replace (1 + Z.of_nat (S i)) with (1 + Z.of_nat i + 1) by lia.
    rewrite days_to_month_S by lia. pose proof (month_len_pos y (1 + Z.of_nat i)). lia.
  - lia.
  - rewrite Z2Nat.id by lia. replace (1 + (m - 1)) with m by lia. lia.
  - intros _. rewrite Nat2Z.inj_succ, Z2Nat.id by lia.
    replace (1 + Z.succ (m - 1)) with (m + 1) by lia. rewrite days_to_month_S by lia. lia.
Qed.

Lemma take_month : forall y m, 1 <= m <= 12 ->
  take_at (month_table (leap y)) (m - 1) = days_to_month y m.
Proof.
  intros y m H. rewrite month_table_ok. replace (m - 1) with (Z.of_nat (Z.to_nat (m - 1))) by lia.
  rewrite take_at_map by lia. f_equal. lia.
Qed.

(** * One row *)

Definition row_year (s : splits) (x : Z) : Z := Z.of_nat (ss_right (year_splits s) x) + 1969.
Definition row_since (s : splits) (x y : Z) : Z := x - take_at (year_splits s) (y - 1970).
Definition row_table (s : splits) (y : Z) : list Z :=
  if y mod 4 =? 0 then yearday_splits_leap s else yearday_splits s.
Definition row_month (s : splits) (x : Z) : Z :=
  let y := row_year s x in Z.of_nat (ss_right (row_table s y) (row_since s x y)).
Definition row_monthtime (s : splits) (x y : Z) : Z :=
  let t := row_since s x y in
  t - take_at (row_table s y) (Z.of_nat (ss_right (row_table s y) t) - 1).

(** Both sets of tables are the calendar in units of [u]. *)
Definition scaled (s : splits) (u : Z) : Prop :=
  0 < u /\ year_splits s = map (fun d => d * u) UTC_1970_DAY_SPLITS /\
  yearday_splits s = map (fun d => d * u) YDAY_SPLITS /\
  yearday_splits_leap s = map (fun d => d * u) YDAY_SPLITS_LEAP.

Lemma date_scaled : scaled date_splits 1.
Proof. repeat split; try lia; vm_compute; reflexivity. Qed.

Lemma nano_scaled : scaled nano_splits NANOS_PER_DAY.
Proof. repeat split; try (vm_compute; reflexivity). Qed.

Lemma row_table_scaled : forall s u y, scaled s u -> 1970 <= y <= 2099 ->
  row_table s y = map (fun d => d * u) (month_table (leap y)).
Proof.
  intros s u y (Hu & A & B & C) Hy. unfold row_table, month_table. rewrite leap_mod4 by exact Hy.
  destruct (leap y); assumption.
Qed.

Lemma year_bounds : forall c, valid_date c ->
  days_to_year (c_year c) <= day_number c < days_to_year (c_year c + 1).
Proof.
  intros [y m d] (Hy & Hm & Hd); cbn [c_year c_month c_day] in *.
  unfold day_number; cbn [c_year c_month c_day]. rewrite days_to_year_S by lia.
  pose proof (days_to_month_mono y m Hm). pose proof (days_to_month_pos y m). lia.
Qed.

Section Row.
  Variables (s : splits) (u : Z) (c : civil_date) (r x : Z).
  Hypothesis Hs : scaled s u.
  Hypothesis Hv : valid_date c.
  Hypothesis Hy : c_year c <= 2099.
  Hypothesis Hr : 0 <= r < u.
  Hypothesis Hx : x = day_number c * u + r.

  Lemma row_year_ok : row_year s x = c_year c.
  Proof.
    destruct Hs as (Hu & A & _). unfold row_year. rewrite A, Hx, ss_right_scale by assumption.
    destruct Hv as (V & _). apply ss_year; [lia|]. apply year_bounds; assumption.
  Qed.

  Lemma row_since_ok : row_since s x (c_year c) = (ordinal_day c - 1) * u + r.
  Proof.
    destruct Hs as (Hu & A & _). destruct Hv as (V & _). unfold row_since.
    rewrite A, take_at_scale, take_year by (try (change (Z.of_nat (length UTC_1970_DAY_SPLITS)) with 130); lia).
    rewrite Hx. unfold day_number, ordinal_day. lia.
  Qed.

  Lemma row_ss : ss_right (row_table s (c_year c)) (row_since s x (c_year c)) = Z.to_nat (c_month c).
  Proof.
    destruct Hv as (V & Vm & Vd). rewrite row_since_ok.
    rewrite (row_table_scaled s u) by (auto; lia).
    destruct Hs as (Hu & _). rewrite ss_right_scale by assumption.
    unfold ordinal_day. apply ss_month; assumption.
  Qed.

  Lemma row_month_ok : row_month s x = c_month c.
  Proof.
    unfold row_month. rewrite row_year_ok. rewrite row_ss. destruct Hv as (V & Vm & Vd). lia.
  Qed.

  Lemma row_monthtime_ok : row_monthtime s x (c_year c) = (c_day c - 1) * u + r.
  Proof.
    destruct Hv as (V & Vm & Vd). unfold row_monthtime. rewrite row_ss, row_since_ok.
    rewrite (row_table_scaled s u) by (auto; lia).
    destruct Hs as (Hu & _). rewrite Z2Nat.id by lia.
    rewrite take_at_scale.
    - rewrite take_month by assumption. unfold ordinal_day. lia.
    - unfold month_table. destruct (leap (c_year c)); cbn [length YDAY_SPLITS YDAY_SPLITS_LEAP]; lia.
  Qed.
End Row.

Lemma div_row : forall a u r, 0 <= r < u -> (a * u + r) / u = a.
Proof. intros. rewrite Z.add_comm, Z.div_add by lia. rewrite Z.div_small by lia. lia. Qed.

(** * Arrays: every field is computed row by row *)

Lemma sub2_map : forall {A} (f g : A -> Z) l, sub2 (map f l) (map g l) = map (fun x => f x - g x) l.
Proof.
  intros A f g l. unfold sub2. induction l as [|x l IH]; [reflexivity|].
  cbn [map combine fst snd]. f_equal. exact IH.
Qed.

Lemma add2_map : forall {A} (f g : A -> Z) l, add2 (map f l) (map g l) = map (fun x => f x + g x) l.
Proof.
  intros A f g l. unfold add2. induction l as [|x l IH]; [reflexivity|].
  cbn [map combine fst snd]. f_equal. exact IH.
Qed.

Lemma compress_map : forall {A B} (p : A -> bool) (f : A -> B) l,
  compress (map p l) (map f l) = map f (filter p l).
Proof.
  intros A B p f l. induction l as [|x l IH]; [reflexivity|].
  cbn [map compress filter]. destruct (p x); cbn [map]; rewrite IH; reflexivity.
Qed.

Lemma assign_map : forall {A B} (p : A -> bool) (f g : A -> B) l,
  assign_mask (map f l) (map p l) (map g (filter p l)) = map (fun x => if p x then g x else f x) l.
Proof.
  intros A B p f g l. induction l as [|x l IH]; [reflexivity|].
  cbn [map filter assign_mask]. destruct (p x); cbn [map]; rewrite IH; reflexivity.
Qed.

Lemma putmask_arr_map : forall {A B} (p : A -> bool) (f g : A -> B) l,
  putmask_arr (map f l) (map p l) (map g l) = map (fun x => if p x then g x else f x) l.
Proof.
  intros A B p f g l. induction l as [|x l IH]; [reflexivity|].
  cbn [map putmask_arr]. rewrite IH. reflexivity.
Qed.

Lemma putmask_val_map : forall {A B} (p : A -> bool) (f : A -> B) v l,
  putmask_val (map f l) (map p l) v = map (fun x => if p x then v else f x) l.
Proof.
  intros A B p f v l. induction l as [|x l IH]; [reflexivity|].
  cbn [map putmask_val]. rewrite IH. reflexivity.
Qed.

Lemma since_year_map : forall {A} s (f y : A -> Z) l,
  since_year s (map f l) (map y l) = map (fun a => row_since s (f a) (y a)) l.
Proof. intros. unfold since_year, row_since. rewrite map_map, sub2_map. reflexivity. Qed.

Lemma year_of_map : forall {A} s (f : A -> Z) l, year_of s (map f l) = map (fun a => row_year s (f a)) l.
Proof. intros. unfold year_of. rewrite map_map. reflexivity. Qed.

Lemma leapmask_map : forall {A} (f : A -> Z) l, leapmask_of (map f l) = map (fun a => f a mod 4 =? 0) l.
Proof. intros. unfold leapmask_of. rewrite map_map. reflexivity. Qed.

Lemma month_of_map : forall {A} s (f : A -> Z) l, month_of s (map f l) = map (fun a => row_month s (f a)) l.
Proof.
  intros. unfold month_of; cbv zeta.
  rewrite year_of_map, since_year_map, leapmask_map, !map_map, putmask_arr_map.
  apply map_ext; intros a. unfold row_month, row_table; cbv zeta.
  destruct (row_year s (f a) mod 4 =? 0); reflexivity.
Qed.

Lemma monthtime_of_map : forall {A} s (f y : A -> Z) l,
  monthtime_of s (map f l) (map y l) = map (fun a => row_monthtime s (f a) (y a)) l.
Proof.
  intros. unfold monthtime_of; cbv zeta.
  rewrite since_year_map, leapmask_map, compress_map, !map_map, !sub2_map, assign_map.
  apply map_ext; intros a. unfold row_monthtime, row_table; cbv zeta.
  destruct (y a mod 4 =? 0); reflexivity.
Qed.

Lemma map_id' : forall {A} (l : list A), l = map (fun x => x) l.
Proof. intros. symmetry. apply map_id. Qed.

(** Rows that are valid keep their value under the invalid mask. *)
Lemma apply_inv_row : forall {A B} isnan (inv : B) (g : A -> Z) (f : A -> B) l i a,
  nth_error l i = Some a -> 0 < g a -> isnan (g a) = false ->
  nth_error (apply_inv_mask isnan inv (map g l) (map f l)) i = Some (f a).
Proof.
  intros A B isnan inv g f l i a Hi Hp Hn.
  assert (G : nth_error (putmask_val (map f l) (map isnan (map g l)) inv) i = Some (f a)).
  { rewrite map_map, putmask_val_map, nth_error_map, Hi. cbn [option_map]. rewrite Hn. reflexivity. }
  destruct l as [|x [|y l]]; [destruct i; discriminate| |exact G].
  destruct i as [|i]; [|destruct i; discriminate]. injection Hi as ->.
  cbn [map apply_inv_mask]. replace (g a <=? 0) with false by (symmetry; apply Z.leb_gt; lia).
  reflexivity.
Qed.

(** Invalid rows become the invalid value. *)
Lemma apply_inv_nan : forall {A B} isnan (inv : B) (g : A -> Z) (f : A -> B) l i a,
  nth_error l i = Some a -> g a <= 0 -> isnan (g a) = true ->
  nth_error (apply_inv_mask isnan inv (map g l) (map f l)) i = Some inv.
Proof.
  intros A B isnan inv g f l i a Hi Hp Hn.
  assert (G : nth_error (putmask_val (map f l) (map isnan (map g l)) inv) i = Some inv).
  { rewrite map_map, putmask_val_map, nth_error_map, Hi. cbn [option_map]. rewrite Hn. reflexivity. }
  destruct l as [|x [|y l]]; [destruct i; discriminate| |exact G].
  destruct i as [|i]; [|destruct i; discriminate]. injection Hi as ->.
  cbn [map apply_inv_mask]. replace (g a <=? 0) with true by (symmetry; apply Z.leb_le; lia).
  reflexivity.
Qed.

Lemma weekday_ok : forall n, weekday_number (weekday_of n) = (Z.of_nat n + 3) mod 7.
Proof.
  induction n as [|n IH]; [reflexivity|].
  cbn [weekday_of]. rewrite Nat2Z.inj_succ.
  assert (E : weekday_number (tomorrow (weekday_of n)) = (weekday_number (weekday_of n) + 1) mod 7)
    by (destruct (weekday_of n); reflexivity).
  rewrite E, IH. rewrite Zplus_mod_idemp_l. f_equal. lia.
Qed.
