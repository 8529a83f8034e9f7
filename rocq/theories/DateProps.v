(** Theorems on dates and times: C63-C66, C87-C91. *)
From Coq Require Import List ZArith Bool Lia.
From Verif Require Import DateTables DateSpec DateModel DateOpsModel DateProofs DateProofs2 DateProofs3.
Import ListNotations.
Open Scope Z_scope.

(** ** C63: Date fields *)
(** Row [i] of a Date array holds day number [x], that is the date [civil x] found by
    counting days from 1 January 1970.  Its fields are those of that date, whatever
    the other rows are, up to the end of 2099 (the library's year table). *)
Theorem C63_fields_partial l i x : nth_error l i = Some x -> 0 < x ->
  let c := civil (Z.to_nat x) in c_year c <= 2099 ->
  nth_error (date_year l) i = Some (Some (c_year c)) /\
  nth_error (date_month l) i = Some (Some (c_month c)) /\
  nth_error (date_day_of_month l) i = Some (Some (c_day c)) /\
  nth_error (date_day_of_year l) i = Some (Some (ordinal_day c)) /\
  nth_error (date_is_leapyear l) i = Some (leap (c_year c)).
Proof. intros Hi Hx c Hy. exact (date_row_fields l i x Hi Hx Hy). Qed.
Print Assumptions C63_fields_partial.

(** Weekdays, for every date: counted from Thursday 1 January 1970. *)
Theorem C63_weekday l i x : nth_error l i = Some x -> 0 < x ->
  let w := weekday_of (Z.to_nat x) in
  nth_error (date_day_of_week l) i = Some (Some (weekday_number w)) /\
  nth_error (date_is_weekend l) i = Some (match w with Saturday | Sunday => true | _ => false end) /\
  nth_error (date_is_weekday l) i = Some (match w with Saturday | Sunday => false | _ => true end).
Proof.
  intros Hi Hx w. split; [apply date_dow_row; assumption|]. apply (date_weekend_rows l i x Hi Hx).
Qed.
Print Assumptions C63_weekday.

Theorem C63_yyyymmdd_partial l i x : nth_error l i = Some x -> 0 <= x ->
  let c := civil (Z.to_nat x) in c_year c <= 2099 ->
  nth_error (date_yyyymmdd l) i = Some (yyyymmdd_of c).
Proof.
  intros Hi Hx c Hy. unfold date_yyyymmdd. rewrite yyyymmdd_rows.
  change (nanos (make_dtn (map (fun x => x * NANOS_PER_DAY) l) UTC UTC)) with (map (fun x => x * NANOS_PER_DAY) l).
  rewrite map_map, nth_error_map, Hi. cbn [option_map].
  change (to_tz (tzone (make_dtn (map (fun x => x * NANOS_PER_DAY) l) UTC UTC))) with UTC.
  replace (row_local UTC (x * NANOS_PER_DAY)) with (x * NANOS_PER_DAY) by (unfold row_local; cbn; ring).
  destruct (civil_ok (Z.to_nat x)) as [V E]. fold c in V, E. rewrite Z2Nat.id in E by exact Hx.
  assert (X : x * NANOS_PER_DAY = day_number c * NANOS_PER_DAY + 0) by (rewrite E; lia).
  assert (R : 0 <= 0 < NANOS_PER_DAY) by (split; [lia|reflexivity]).
  unfold row_yyyymmdd; cbv zeta.
  rewrite (row_year_ok _ _ c 0 _ nano_scaled V Hy R X), (row_month_ok _ _ c 0 _ nano_scaled V Hy R X),
    (row_monthtime_ok _ _ c 0 _ nano_scaled V Hy R X), div_row by exact R.
  unfold yyyymmdd_of. f_equal. lia.
Qed.
Print Assumptions C63_yyyymmdd_partial.

(** Invalid dates have invalid fields. *)
Theorem C63_invalid l i x : nth_error l i = Some x -> x = 0 \/ x = INVALID_32 ->
  nth_error (date_year l) i = Some None /\ nth_error (date_month l) i = Some None /\
  nth_error (date_day_of_month l) i = Some None /\ nth_error (date_day_of_year l) i = Some None /\
  nth_error (date_day_of_week l) i = Some None.
Proof.
  intros Hi Hx. rewrite date_year_rows, date_month_rows, date_dom_rows, date_doy_rows. unfold date_day_of_week.
  repeat split; apply (date_mask_nan _ l i x Hi Hx).
Qed.
Print Assumptions C63_invalid.

(** Findings: from 2100 on the year stays 2099 and days run past 31; 1 January 1970 is
    taken for invalid; a date before 1970 has month 0 or is invalid according to the length of the array. *)
Theorem C63_refuted :
  (let x := date 2100 1 1 in civil (Z.to_nat x) = Civil 2100 1 1 /\
     date_year [x] = [Some 2099] /\ date_month [x] = [Some 12] /\ date_day_of_month [x] = [Some 32]) /\
  (civil 0 = Civil 1970 1 1 /\ date_year [0; 1] = [None; Some 1970]) /\
  (date_month [-5; 1] = [Some 0; Some 1] /\ date_month [-5] = [None]).
Proof.
  split; [|split; [split; [reflexivity|vm_compute; reflexivity]|split; vm_compute; reflexivity]].
  cbv zeta. split; [|repeat split; vm_compute; reflexivity].
  apply day_number_inj.
  - apply civil_ok.
  - repeat split; vm_compute; congruence.
  - rewrite (proj2 (civil_ok _)). unfold date. rewrite Z2Nat.id; [reflexivity|vm_compute; discriminate].
Qed.
Print Assumptions C63_refuted.

Example C63_case : let l := [0; 11016; 47481] in
  nth_error l 1 = Some 11016 /\ date_yyyymmdd l = [19700101; 20000229; 20991231] /\
  date_year l = [None; Some 2000; Some 2099] /\ date_day_of_year l = [None; Some 60; Some 365] /\
  date_is_leapyear l = [false; true; false] /\ date_day_of_week l = [None; Some 1; Some 3].
Proof. vm_compute. repeat split. Qed.

(** ** C64: DateTimeNano fields *)
(** [x] is the displayed (local) time of row [i]. *)
Theorem C64_fields_partial d i u x : nth_error (nanos d) i = Some u -> 0 < u ->
  nth_error (fix_dst (tzone d) (nanos d)) i = Some x -> 0 <= x ->
  let c := civil (Z.to_nat (x / day)) in c_year c <= 2099 ->
  nth_error (nano_year d) i = Some (Some (c_year c)) /\
  nth_error (nano_month d) i = Some (Some (c_month c)) /\
  nth_error (nano_day_of_year d) i = Some (ordinal_day c) /\
  nth_error (nano_yyyymmdd d) i = Some (yyyymmdd_of c) /\
  nth_error (days_since_epoch d) i = Some (x / day) /\
  nth_error (nano_day_of_week d) i = Some (weekday_number (weekday_of (Z.to_nat (x / day)))) /\
  nth_error (nanos_since_midnight d) i = Some (Some (x mod day)) /\
  nth_error (nano_hour_span d) i = Some (Some (x mod day)).
Proof.
  intros Hi Hu Hf Hx c Hy. rewrite fix_dst_rows, nth_error_map, Hi in Hf. cbn [option_map] in Hf.
  assert (E : x = row_local (to_tz (tzone d)) u) by congruence. subst x.
  destruct (nano_row_fields d i u Hi Hx Hy Hu) as (A & B & C & D & E & F & G & H).
  destruct (local_decomp d u Hx) as (_ & _ & _ & Q). rewrite Q in E.
  repeat split; assumption.
Qed.
Print Assumptions C64_fields_partial.

Theorem C64_weekend_partial d i u x : nth_error (nanos d) i = Some u -> 0 < u ->
  nth_error (fix_dst (tzone d) (nanos d)) i = Some x -> 0 <= x -> c_year (civil (Z.to_nat (x / day))) <= 2099 ->
  let w := weekday_of (Z.to_nat (x / day)) in
  nth_error (nano_is_weekend d) i = Some (match w with Saturday | Sunday => true | _ => false end) /\
  nth_error (nano_is_weekday d) i = Some (match w with Saturday | Sunday => false | _ => true end).
Proof.
  intros Hi Hu Hf Hx Hy w. rewrite fix_dst_rows, nth_error_map, Hi in Hf. cbn [option_map] in Hf.
  assert (E : x = row_local (to_tz (tzone d)) u) by congruence. subst x.
  exact (nano_week_rows d i u Hi Hx Hy Hu).
Qed.
Print Assumptions C64_weekend_partial.

(** day_of_month is that of the UTC date, provided the local year is the UTC year. *)
Theorem C64_day_of_month_partial d i u x : nth_error (nanos d) i = Some u -> 0 <= u ->
  nth_error (fix_dst (tzone d) (nanos d)) i = Some x -> 0 <= x ->
  c_year (civil (Z.to_nat (u / day))) <= 2099 -> c_year (civil (Z.to_nat (x / day))) = c_year (civil (Z.to_nat (u / day))) ->
  nth_error (nano_day_of_month d) i = Some (c_day (civil (Z.to_nat (u / day)))).
Proof.
  intros Hi Hu Hf Hx Hy Hsame. rewrite fix_dst_rows, nth_error_map, Hi in Hf. cbn [option_map] in Hf.
  assert (E : x = row_local (to_tz (tzone d)) u) by congruence. subst x.
  apply (nano_dom_row d i u Hi Hu Hy).
  destruct (local_decomp d u Hx) as (V & X & R & _).
  rewrite <- Hsame. apply (row_year_ok _ _ _ _ _ nano_scaled V ltac:(lia) R X).
Qed.
Print Assumptions C64_day_of_month_partial.


Lemma row_local_mod : forall z u m, (m | NANOS_PER_HOUR) -> 0 < m -> (z = Kolkata -> (m | NANOS_PER_MINUTE)) ->
  row_local z u mod m = u mod m.
Proof.
  intros z u m [k Hk] Hm Hz.
  assert (O : exists q, snd (init_to_tz z) = q * m).
  { destruct z; try (unfold init_to_tz; cbn [snd]; eexists; rewrite ?Hk;
      match goal with |- ?c * (k * m) = _ => instantiate (1 := c * k); ring | |- _ => instantiate (1 := 0); reflexivity end).
    all: try (match goal with |- exists q, snd (init_to_tz _) = _ =>
       unfold init_to_tz; cbn [snd] end).
    all: match goal with
      | |- exists q, NYC_OFFSET_NS = _ => exists (5 * k); unfold NYC_OFFSET_NS; rewrite Hk; ring
      | |- exists q, DUBLIN_OFFSET_NS = _ => exists 0; reflexivity
      | |- exists q, Australia__Sydney_OFFSET_NS = _ => exists (-10 * k); unfold Australia__Sydney_OFFSET_NS; rewrite Hk; ring
      | |- exists q, Asia__Hong_Kong_OFFSET_NS = _ => exists (-8 * k); unfold Asia__Hong_Kong_OFFSET_NS; rewrite Hk; ring
      | |- exists q, Asia__Tokyo_OFFSET_NS = _ => exists (-9 * k); unfold Asia__Tokyo_OFFSET_NS; rewrite Hk; ring
      | |- exists q, Asia__Seoul_OFFSET_NS = _ => exists (-9 * k); unfold Asia__Seoul_OFFSET_NS; rewrite Hk; ring
      | |- exists q, 0 = _ => exists 0; reflexivity
      | _ => idtac end.
    destruct (Hz eq_refl) as [k' Hk']. exists (- (5 * k + 30 * k')).
    unfold Asia__Kolkata_OFFSET_NS. rewrite Hk, Hk'. ring. }
  destruct O as [q O]. unfold row_local. rewrite O.
  destruct (dst_in (fst (init_to_tz z)) u).
  - rewrite Hk. replace (u - q * m + k * m) with (u + (k - q) * m) by ring. apply Z.mod_add. lia.
  - replace (u - q * m + 0) with (u + (- q) * m) by ring. apply Z.mod_add. lia.
Qed.

(** minute_span (time since the full hour) is right in zones whole hours from UTC,
    second_span in all zones. *)
Theorem C64_minute_partial d i u x : nth_error (nanos d) i = Some u -> 0 < u ->
  nth_error (fix_dst (tzone d) (nanos d)) i = Some x ->
  (to_tz (tzone d) <> Kolkata -> nth_error (nano_minute_span d) i = Some (Some (x mod hour))) /\
  nth_error (nano_second_span d) i = Some (Some (x mod minute)).
Proof.
  intros Hi Hu Hf. rewrite fix_dst_rows, nth_error_map, Hi in Hf. cbn [option_map] in Hf.
  assert (E : x = row_local (to_tz (tzone d)) u) by congruence. subst x.
  unfold nano_minute_span, nano_second_span, nano_time_fraction.
  rewrite !some_all_map, !putmask_val_map, !nth_error_map, Hi. cbn [option_map].
  rewrite nano_isnan_pos by exact Hu. split.
  - intros Hz. change hour with NANOS_PER_HOUR. rewrite row_local_mod; [reflexivity|exists 1; reflexivity|reflexivity|congruence].
  - change minute with NANOS_PER_MINUTE. rewrite row_local_mod; [reflexivity|exists 60; reflexivity|reflexivity|].
    intros _. exists 1. reflexivity.
Qed.
Print Assumptions C64_minute_partial.

(** date() is displayed as the midnight that begins the displayed day, in UTC and the
    zones with a daylight-saving table. *)
Theorem C64_date_partial d i u x : nth_error (nanos d) i = Some u ->
  to_tz (tzone d) <> Tokyo -> to_tz (tzone d) <> Kolkata ->
  nth_error (fix_dst (tzone d) (nanos d)) i = Some x -> day <= x ->
  nth_error (fix_dst (tzone (nano_date d)) (nanos (nano_date d))) i = Some (x - x mod day).
Proof.
  intros Hi NT NK Hf Hx. rewrite fix_dst_rows, nth_error_map, Hi in Hf. cbn [option_map] in Hf.
  assert (E : x = row_local (to_tz (tzone d)) u) by congruence. clear Hf.
  set (z := to_tz (tzone d)) in *.
  assert (N : nano_date d = make_dtn (map (fun a => row_local z a - row_local z a mod day) (nanos d)) z z).
  { unfold nano_date; cbv zeta. rewrite fix_dst_rows, map_map. fold z. clearbody z.
    destruct z; try congruence; try reflexivity.
    cbn [init_to_tz fst]. f_equal. apply map_ext; intros a.
    replace (row_local UTC a) with a by (unfold row_local; cbn; ring). reflexivity. }
  rewrite N. unfold make_dtn; cbv zeta. cbn [nanos tzone]. rewrite to_utc_rows, fix_dst_rows, !map_map.
  cbn [from_tz to_tz]. rewrite nth_error_map, Hi. cbn [option_map]. rewrite <- E. f_equal.
  assert (D : x - x mod day = x / day * day).
  { pose proof (Z.div_mod x day ltac:(discriminate)). lia. }
  rewrite D. apply zone_round_trip; [|apply midnight_not_skipped].
  assert (1 <= x / day) by (apply Z.div_le_lower_bound; [reflexivity|lia]).
  intros K. assert (0 < x / day * day); [|lia]. apply Z.mul_pos_pos; [lia|reflexivity].
Qed.
Print Assumptions C64_date_partial.

(** [at_] y m d h mi: nanoseconds of a date and time. *)
Definition at_ (y m d h mi : Z) : Z := date y m d * day + h * hour + mi * minute.

(** Findings: day_of_month mixes the local year with UTC time: 1 instead of 31 and even 32;
    minutes in Kolkata and date() in Tokyo (midnight of the previous day) are UTC's. *)
Theorem C64_refuted :
  (let d := Dtn [at_ 2021 6 1 2 0; at_ 2021 1 1 3 0] (TimeZone UTC NewYork) in
   nano_yyyymmdd d = [20210531; 20201231] /\ nano_day_of_month d = [1; 32]) /\
  (let d := Dtn [at_ 2021 6 1 12 0] (TimeZone UTC Kolkata) in
   fix_dst (tzone d) (nanos d) = [at_ 2021 6 1 17 30] /\ nano_minute_span d = [Some 0]) /\
  (let d := Dtn [at_ 2021 6 1 20 0] (TimeZone UTC Tokyo) in
   fix_dst (tzone d) (nanos d) = [at_ 2021 6 2 5 0] /\
   fix_dst (tzone (nano_date d)) (nanos (nano_date d)) = [at_ 2021 6 1 0 0]).
Proof. vm_compute. repeat split. Qed.
Print Assumptions C64_refuted.

Example C64_case : let d := Dtn [0; at_ 2021 6 1 2 0] (TimeZone UTC NewYork) in
  nth_error (fix_dst (tzone d) (nanos d)) 1 = Some (at_ 2021 5 31 22 0) /\
  nano_year d = [None; Some 2021] /\ nano_month d = [None; Some 5] /\
  nth_error (nano_yyyymmdd d) 1 = Some 20210531 /\ nth_error (nano_day_of_week d) 1 = Some 0 /\
  nth_error (nano_hour_span d) 1 = Some (Some (22 * hour)) /\
  nth_error (fix_dst (tzone (nano_date d)) (nanos (nano_date d))) 1 = Some (at_ 2021 5 31 0 0).
Proof. vm_compute. repeat split. Qed.

(** ** C65: daylight saving *)
(** At every instant the rules describe and the tables cover, except the very
    nanosecond of a switch, the displayed time is the zone's local time, and is_dst
    and the UTC offset agree with it. *)
Theorem C65_rule_partial tz l i u : nth_error l i = Some u -> covered (to_tz tz) u -> ~ switch_instant (to_tz tz) u ->
  exists x, nth_error (fix_dst tz l) i = Some x /\ local_time (to_tz tz) u x /\
    nth_error (tz_offset tz l) i = Some (x - u) /\
    exists b, nth_error (is_dst tz l) i = Some b /\ (b = true <-> summer (to_tz tz) u).
Proof.
  intros Hi Hc Hs. pose proof (dst_rule (to_tz tz) u Hc Hs) as R.
  assert (O : snd (init_to_tz (to_tz tz)) = - std_offset (to_tz tz)) by (destruct (to_tz tz); reflexivity).
  exists (row_local (to_tz tz) u). rewrite fix_dst_rows, nth_error_map, Hi. split; [reflexivity|].
  set (z := to_tz tz) in *. split; [|split].
  - unfold local_time, row_local. rewrite O. change NANOS_PER_HOUR with hour.
    destruct (dst_in (fst (init_to_tz z)) u); [left|right]; (split; [|lia]).
    + apply R. reflexivity.
    + intros K. apply R in K. discriminate.
  - unfold tz_offset. fold z. unfold row_local. rewrite O.
    destruct (init_to_tz z) as [[c|] off] eqn:E; cbn [fst snd dst_in mask_dst] in *.
    + rewrite map_map, nth_error_map, Hi. cbn [option_map]. change NANOS_PER_HOUR with hour.
      destruct (Nat.odd (ss_left c u)); f_equal; lia.
    + rewrite nth_error_map, Hi. cbn [option_map]. f_equal. lia.
  - exists (dst_in (fst (init_to_tz z)) u). split; [|exact R].
    unfold is_dst, mask_dst. fold z. destruct (fst (init_to_tz z)); rewrite nth_error_map, Hi; reflexivity.
Qed.
Print Assumptions C65_rule_partial.

(** In the zones without summer time the statement holds at all instants. *)
Theorem C65_fixed_zones tz l i u : nth_error l i = Some u -> In (to_tz tz) [UTC; Tokyo; Kolkata] ->
  nth_error (fix_dst tz l) i = Some (u + std_offset (to_tz tz)) /\ nth_error (is_dst tz l) i = Some false.
Proof.
  intros Hi Hz. rewrite fix_dst_rows. unfold is_dst.
  destruct Hz as [<-|[<-|[<-|[]]]]; cbn [init_to_tz fst mask_dst]; rewrite !nth_error_map, Hi; cbn [option_map];
    (split; [f_equal|reflexivity]); unfold row_local; cbn; ring.
Qed.
Print Assumptions C65_fixed_zones.

(** Findings: at the exact switch the old offset is still used (New York, 14 March 2021
    7:00 UTC is shown as 2:00, a time that does not exist); no summer time from 2041. *)
Theorem C65_refuted :
  (let u := at_ 2021 3 14 7 0 in covered NewYork u /\ local_time NewYork u (at_ 2021 3 14 3 0) /\
     fix_dst (TimeZone UTC NewYork) [u] = [at_ 2021 3 14 2 0]) /\
  (let u := at_ 2041 7 1 12 0 in local_time NewYork u (at_ 2041 7 1 8 0) /\ ~ switch_instant NewYork u /\
     fix_dst (TimeZone UTC NewYork) [u] = [at_ 2041 7 1 7 0]).
Proof.
  split.
  - cbv zeta. split; [split; vm_compute; congruence|]. split; [|vm_compute; reflexivity].
    left. split; [|vm_compute; reflexivity].
    exists 2021, (at_ 2021 3 14 7 0), (at_ 2021 11 7 6 0). split; [lia|].
    split; [vm_compute; reflexivity|split; vm_compute; congruence].
  - cbv zeta. split; [|split; [|vm_compute; reflexivity]].
    + left. split; [|vm_compute; reflexivity].
      exists 2041, (at_ 2041 3 10 7 0), (at_ 2041 11 3 6 0). split; [lia|].
      split; [vm_compute; reflexivity|split; vm_compute; congruence].
    + intros (y & s & e & Hy & Hp & K).
      assert (P : In (at_ 2041 7 1 12 0) [s; e]) by (destruct K; [left|right; left]; congruence). clear K.
      cbn [dst_period] in Hp. assert (Hp' : new_york_period y = (s, e)) by congruence. clear Hp.
      assert (M : s mod day <> 12 * hour /\ e mod day <> 12 * hour).
      { unfold new_york_period, at_std, at_dst in Hp'.
        match type of Hp' with (?a * day + 2 * hour - std_offset NewYork, ?b * day + 2 * hour - _) = _ =>
          generalize dependent a; generalize dependent b end.
        intros b a Hp'.
        assert (S1 : s = 7 * hour + a * day) by (apply (f_equal fst) in Hp'; cbn [fst] in Hp'; rewrite <- Hp'; unfold std_offset; ring).
        assert (E1 : e = 6 * hour + b * day) by (apply (f_equal snd) in Hp'; cbn [snd] in Hp'; rewrite <- Hp'; unfold std_offset; ring).
        rewrite S1, E1, !Z.mod_add by discriminate. split; vm_compute; congruence. }
      destruct M as (M1 & M2). destruct P as [P|[P|[]]]; subst.
      * apply M1. vm_compute. reflexivity.
      * apply M2. vm_compute. reflexivity.
Qed.
Print Assumptions C65_refuted.

Example C65_case : let u := at_ 2021 7 1 12 0 in
  covered NewYork u /\ summer NewYork u /\ fix_dst (TimeZone UTC NewYork) [u] = [at_ 2021 7 1 8 0] /\
  fix_dst (TimeZone UTC Sydney) [u] = [at_ 2021 7 1 22 0] /\ tz_offset (TimeZone UTC Sydney) [u] = [10 * hour].
Proof.
  cbv zeta. split; [split; vm_compute; congruence|]. split; [|vm_compute; repeat split].
  exists 2021, (at_ 2021 3 14 7 0), (at_ 2021 11 7 6 0). split; [lia|].
  split; [vm_compute; reflexivity|split; vm_compute; congruence].
Qed.

(** ** C66: local time and UTC *)
(** Reading a displayed time back in the same zone gives an instant displayed the same. *)
Theorem C66_round_trip z f t l : (forall x, In x (fix_dst (TimeZone f z) l) -> x <> 0) ->
  fix_dst (TimeZone f z) (to_utc (TimeZone z t) (fix_dst (TimeZone f z) l)) = fix_dst (TimeZone f z) l.
Proof.
  intros H. rewrite to_utc_rows, !fix_dst_rows, !map_map. cbn [to_tz from_tz].
  apply map_ext_in; intros a Ha. apply shown_round_trip. apply H. rewrite fix_dst_rows. cbn [to_tz].
  apply (in_map (row_local z)). exact Ha.
Qed.
Print Assumptions C66_round_trip.

(** If no other instant is displayed the same, it is the same instant. *)
Theorem C66_instant z f t u x : fix_dst (TimeZone f z) [u] = [x] -> x <> 0 ->
  (forall v, fix_dst (TimeZone f z) [v] = [x] -> v = u) -> to_utc (TimeZone z t) [x] = [u].
Proof.
  intros Hu Hx Hv. rewrite to_utc_rows. cbn [map from_tz]. f_equal. apply Hv.
  rewrite fix_dst_rows. cbn [map to_tz]. rewrite fix_dst_rows in Hu. cbn [map to_tz] in Hu.
  assert (E : row_local z u = x) by congruence. rewrite <- E. f_equal. apply shown_round_trip. congruence.
Qed.
Print Assumptions C66_instant.

(** Only times within an hour are displayed the same: what is read back is at most one hour off. *)
Theorem C66_within_hour z f t u x : fix_dst (TimeZone f z) [u] = [x] -> x <> 0 ->
  exists v, to_utc (TimeZone z t) [x] = [v] /\ (v = u \/ v = u + hour \/ v = u - hour).
Proof.
  intros Hu Hx. rewrite fix_dst_rows in Hu. cbn [map to_tz] in Hu.
  assert (E : row_local z u = x) by congruence. subst x. rewrite to_utc_rows. cbn [map from_tz].
  exists (row_utc z (row_local z u)). split; [reflexivity|].
  pose proof (shown_round_trip z u Hx) as R. remember (row_utc z (row_local z u)) as v.
  unfold row_local in R. change NANOS_PER_HOUR with hour in R.
  destruct (dst_in (fst (init_to_tz z)) v), (dst_in (fst (init_to_tz z)) u); lia.
Qed.
Print Assumptions C66_within_hour.

(** Finding: 3:00 on the day summer time starts exists in New York, but is displayed as 2:00 once read. *)
Theorem C66_refuted :
  let u := at_ 2021 3 14 7 0 in let x := at_ 2021 3 14 3 0 in
  local_time NewYork u x /\ to_utc (TimeZone NewYork NewYork) [x] = [u] /\
  fix_dst (TimeZone NewYork NewYork) (to_utc (TimeZone NewYork NewYork) [x]) = [at_ 2021 3 14 2 0].
Proof.
  cbv zeta. split; [|split; vm_compute; reflexivity]. apply C65_refuted.
Qed.
Print Assumptions C66_refuted.

Example C66_case : let l := [at_ 2021 7 1 12 0; at_ 2021 11 7 5 30; at_ 2021 11 7 6 30] in
  let x := fix_dst (TimeZone UTC NewYork) l in
  x = [at_ 2021 7 1 8 0; at_ 2021 11 7 1 30; at_ 2021 11 7 1 30] /\
  to_utc (TimeZone NewYork NewYork) x = [at_ 2021 7 1 12 0; at_ 2021 11 7 5 30; at_ 2021 11 7 5 30].
Proof. vm_compute. repeat split. Qed.
