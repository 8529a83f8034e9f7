(** Model of Date (rt_datetime.py), the calendar part of DateTimeNano and
    TimeZone (rt_timezone.py).

    Arrays are lists of integers: days since 1970-01-01 for Date, nanoseconds
    since 1970-01-01 00:00 UTC for DateTimeNano.  Integer overflow is not
    modelled (int32 / int64 values are integers).  In results, [None] stands for
    the invalid value of the result's dtype. *)
From Coq Require Import List ZArith Bool.
From Verif Require Import DateTables DateSpec.
Import ListNotations.
Open Scope Z_scope.

(** * numpy primitives (by contract) *)

(** searchsorted(v, side="right") of a sorted table: number of leading entries <= v. *)
Fixpoint ss_right (t : list Z) (v : Z) : nat :=
  match t with [] => 0%nat | x :: r => if v <? x then 0%nat else S (ss_right r v) end.

(** searchsorted(v, side="left"): number of leading entries < v. *)
Fixpoint ss_left (t : list Z) (v : Z) : nat :=
  match t with [] => 0%nat | x :: r => if v <=? x then 0%nat else S (ss_left r v) end.

Definition INVALID_64 : Z := - 2 ^ 63.
Definition INVALID_32 : Z := - 2 ^ 31.

(** t[i] for an integer index: negative indices count from the end, out of
    range gives the invalid value (FastArray.__getitem__). *)
Definition take_at (t : list Z) (i : Z) : Z :=
  let n := Z.of_nat (length t) in
  let j := if i <? 0 then i + n else i in
  if (0 <=? j) && (j <? n) then nth (Z.to_nat j) t INVALID_64 else INVALID_64.

(** arr[mask] *)
Fixpoint compress {A} (m : list bool) (l : list A) : list A :=
  match m, l with
  | b :: m, x :: l => if b then x :: compress m l else compress m l
  | _, _ => []
  end.

(** dst[mask] = vals *)
Fixpoint assign_mask {A} (dst : list A) (m : list bool) (vals : list A) : list A :=
  match dst, m with
  | x :: dst, true :: m =>
      match vals with v :: vals => v :: assign_mask dst m vals | [] => x :: assign_mask dst m [] end
  | x :: dst, false :: m => x :: assign_mask dst m vals
  | _, _ => dst
  end.

(** putmask(dst, mask, vals) with a full-length vals *)
Fixpoint putmask_arr {A} (dst : list A) (m : list bool) (vals : list A) : list A :=
  match dst, m, vals with
  | x :: dst, b :: m, v :: vals => (if b then v else x) :: putmask_arr dst m vals
  | _, _, _ => dst
  end.

(** putmask(dst, mask, scalar) *)
Fixpoint putmask_val {A} (dst : list A) (m : list bool) (v : A) : list A :=
  match dst, m with
  | x :: dst, b :: m => (if b then v else x) :: putmask_val dst m v
  | _, _ => dst
  end.

(** Elementwise a - b, a + b of equally long arrays. *)
Definition sub2 (a b : list Z) : list Z := map (fun p => fst p - snd p) (combine a b).
Definition add2 (a b : list Z) : list Z := map (fun p => fst p + snd p) (combine a b).

(** * Invalid values *)

(* rt_datetime.py:1475-1531 (Date.isnan = FastArray.isnanorzero) *)
Definition date_isnan (x : Z) : bool := (x =? 0) || (x =? INVALID_32).

(* rt_datetime.py:5297-5357 (DateTimeNano.isnan) *)
Definition nano_isnan (x : Z) : bool := (x =? 0) || (x =? INVALID_64).

(* rt_datetime.py:545-580, array path without arr2_inv_mask: an array of one
   element is invalid when <= 0, otherwise the isnan mask is applied.  [inv] is
   INVALID_DICT of the result type. *)
Definition apply_inv_mask {A} (isnan : Z -> bool) (inv : A) (arr1 : list Z) (arr2 : list A) : list A :=
  match arr1 with
  | [x] => if x <=? 0 then [inv] else arr2
  | _ => putmask_val arr2 (map isnan arr1) inv
  end.

(** * Calendar fields *)

Record splits := Splits { year_splits : list Z; yearday_splits : list Z; yearday_splits_leap : list Z }.

(* rt_datetime.py:1709-1723 *)
Definition date_splits : splits := Splits UTC_1970_DAY_SPLITS YDAY_SPLITS YDAY_SPLITS_LEAP.
(* rt_datetime.py:3349-3364 *)
Definition nano_splits : splits := Splits UTC_1970_SPLITS UTC_YDAY_SPLITS UTC_YDAY_SPLITS_LEAP.

(* rt_datetime.py:782-798 (fix_dst=False) *)
Definition year_of (s : splits) (arr : list Z) : list Z :=
  map (fun x => Z.of_nat (ss_right (year_splits s) x) + 1969) arr.

(* rt_datetime.py:812, 1876, 1917, 1960, 3325, 3468, 3983: arr - self._year_splits[year - 1970] *)
Definition since_year (s : splits) (arr year : list Z) : list Z :=
  sub2 arr (map (fun y => take_at (year_splits s) (y - 1970)) year).

(* rt_datetime.py:814, 1877, 1967, 3332, 3475 *)
Definition leapmask_of (year : list Z) : list bool := map (fun y => y mod 4 =? 0) year.

(* rt_datetime.py:801-821, from the (already local) array on *)
Definition month_of (s : splits) (arr : list Z) : list Z :=
  let year := year_of s arr in
  let startyear := since_year s arr year in
  let smonth := map (fun x => Z.of_nat (ss_right (yearday_splits s) x)) startyear in
  putmask_arr smonth (leapmask_of year)
    (map (fun x => Z.of_nat (ss_right (yearday_splits_leap s) x)) startyear).

(* rt_datetime.py:1960-1969, 3468-3477: time since the start of the month *)
Definition monthtime_of (s : splits) (arr year : list Z) : list Z :=
  let startyear := since_year s arr year in
  let startmonth_idx := map (fun x => Z.of_nat (ss_right (yearday_splits s) x) - 1) startyear in
  let monthtime := sub2 startyear (map (take_at (yearday_splits s)) startmonth_idx) in
  let leapmask := leapmask_of year in
  let sl := compress leapmask startyear in
  let startmonth_idx_leap := map (fun x => Z.of_nat (ss_right (yearday_splits_leap s) x) - 1) sl in
  assign_mask monthtime leapmask (sub2 sl (map (take_at (yearday_splits_leap s)) startmonth_idx_leap)).

(** ** Date *)

Definition some_all {A} (l : list A) : list (option A) := map Some l.
Definition date_mask {A} (arr : list Z) (res : list A) : list (option A) :=
  apply_inv_mask date_isnan None arr (some_all res).

(* rt_datetime.py:1727-1762 *)
Definition date_year (arr : list Z) : list (option Z) :=
  date_mask arr (year_of date_splits arr).

(* rt_datetime.py:1766-1799 *)
Definition date_month (arr : list Z) : list (option Z) :=
  date_mask arr (month_of date_splits arr).

(* rt_datetime.py:1843-1878 (the unused [arr] is dropped; no invalid mask) *)
Definition date_is_leapyear (arr : list Z) : list bool :=
  leapmask_of (year_of date_splits arr).

(* rt_datetime.py:1882-1919 *)
Definition date_day_of_year (arr : list Z) : list (option Z) :=
  date_mask arr (map (fun x => x + 1) (since_year date_splits arr (year_of date_splits arr))).

(* rt_datetime.py:1923-1974 *)
Definition date_day_of_month (arr : list Z) : list (option Z) :=
  date_mask arr (map (fun x => x + 1) (monthtime_of date_splits arr (year_of date_splits arr))).

(* rt_datetime.py:1978-2015 *)
Definition date_day_of_week (arr : list Z) : list (option Z) :=
  date_mask arr (map (fun x => (x + EPOCH_DAY_OF_WEEK) mod 7) arr).

(* Comparison of an int array having invalid entries with a number: False where invalid. *)
Definition cmp_inv (f : Z -> bool) (v : option Z) : bool :=
  match v with Some x => f x | None => false end.

(* rt_datetime.py:2019-2052; INVALID_DICT of bool is False *)
Definition date_is_weekend (arr : list Z) : list bool :=
  apply_inv_mask date_isnan false arr (map (cmp_inv (fun d => 4 <? d)) (date_day_of_week arr)).

(* rt_datetime.py:2056-2088 *)
Definition date_is_weekday (arr : list Z) : list bool :=
  apply_inv_mask date_isnan false arr (map (cmp_inv (fun d => d <? 5)) (date_day_of_week arr)).

(* rt_datetime.py:2092-2097 *)
Definition date_seconds_since_epoch (arr : list Z) : list (option Z) :=
  date_mask arr (map (fun x => x * SECONDS_PER_DAY) arr).

(** * Time zones *)

(** rc.DateTimeStringToNanos (C++) by contract: nanoseconds from 1970-01-01 00:00
    to the date and time in the text.  For the one entry before 1970 (Sydney,
    1969-10-26) the value is the negative number of nanoseconds. *)
Definition stamp_nanos (st : stamp) : Z :=
  match st with
  | (y, m, d, h, mi) =>
      (if y <? 1970 then days_to_month y m + (d - 1) - 365 else day_number (Civil y m d)) * NANOS_PER_DAY
      + h * NANOS_PER_HOUR + mi * NANOS_PER_MINUTE
  end.

(* rt_timezone.py:1083-1116 (_init_from_tz): (_dst_cutoffs, _fix_offset) *)
Definition init_from_tz (z : zone) : option (list Z) * Z :=
  match z with
  | NewYork => (Some (map stamp_nanos DST_CUTOFFS_NYC), NYC_OFFSET_NS)
  | Dublin => (Some (map stamp_nanos DST_CUTOFFS_DUBLIN), DUBLIN_OFFSET_NS)
  | Sydney => (Some (map stamp_nanos DST_CUTOFFS_Australia__Sydney), Australia__Sydney_OFFSET_NS)
  | HongKong => (Some (map stamp_nanos DST_CUTOFFS_Asia__Hong_Kong), Asia__Hong_Kong_OFFSET_NS)
  | Tokyo => (None, Asia__Tokyo_OFFSET_NS)
  | Seoul => (Some (map stamp_nanos DST_CUTOFFS_Asia__Seoul), Asia__Seoul_OFFSET_NS)
  | Kolkata => (None, Asia__Kolkata_OFFSET_NS)
  | UTC => (None, 0)
  end.

(* rt_timezone.py:1120-1162 (_init_to_tz): (_dst_reverse, _timezone_offset) *)
Definition init_to_tz (z : zone) : option (list Z) * Z :=
  match z with
  | NewYork => (Some (map stamp_nanos DST_REVERSE_NYC), NYC_OFFSET_NS)
  | Dublin => (Some (map stamp_nanos DST_REVERSE_DUBLIN), DUBLIN_OFFSET_NS)
  | Sydney => (Some (map stamp_nanos DST_REVERSE_Australia__Sydney), Australia__Sydney_OFFSET_NS)
  | HongKong => (Some (map stamp_nanos DST_REVERSE_Asia__Hong_Kong), Asia__Hong_Kong_OFFSET_NS)
  | Tokyo => (None, Asia__Tokyo_OFFSET_NS)
  | Seoul => (Some (map stamp_nanos DST_REVERSE_Asia__Seoul), Asia__Seoul_OFFSET_NS)
  | Kolkata => (None, Asia__Kolkata_OFFSET_NS)
  | UTC => (None, 0)
  end.

(** A TimeZone object is determined by its two zone names (aliases are resolved
    by normalize_tz_to_tzdb_name, rt_timezone.py:1065-1079; GMT and UTC are one zone here). *)
Record timezone := TimeZone { from_tz : zone; to_tz : zone }.

(* rt_timezone.py:1180-1195 (the cutoffs are passed explicitly) *)
Definition mask_dst (cutoffs : option (list Z)) (arr : list Z) : list bool :=
  match cutoffs with
  | None => map (fun _ => false) arr
  | Some c => map (fun x => Nat.odd (ss_left c x)) arr
  end.

(* rt_timezone.py:1198-1199 *)
Definition is_dst (tz : timezone) (arr : list Z) : list bool :=
  mask_dst (fst (init_to_tz (to_tz tz))) arr.

(* rt_timezone.py:1202-1213, in nanoseconds instead of hours *)
Definition tz_offset (tz : timezone) (arr : list Z) : list Z :=
  let '(rev, off) := init_to_tz (to_tz tz) in
  match rev with
  | None => map (fun _ => -1 * off) arr
  | Some _ => map (fun b : bool => if b then -1 * off + NANOS_PER_HOUR else -1 * off) (mask_dst rev arr)
  end.

(* rt_timezone.py:1237-1291 (cutoffs=None) *)
Definition fix_dst (tz : timezone) (arr : list Z) : list Z :=
  let '(rev, off) := init_to_tz (to_tz tz) in
  match rev with
  | None => map (fun x => x - off) arr
  | Some _ =>
      let isd := mask_dst rev arr in
      let arr' := map (fun x => x - off) arr in
      assign_mask arr' isd (map (fun x => x + NANOS_PER_HOUR) (compress isd arr'))
  end.

(* rt_timezone.py:1294-1317 (inv_mask=None) *)
Definition to_utc (tz : timezone) (dtn : list Z) : list Z :=
  match from_tz tz with
  | UTC => dtn
  | z =>
      let '(cut, off) := init_from_tz z in
      let inv_mask := map (fun x => x =? 0) dtn in
      let isd := mask_dst cut dtn in
      let dtn' := map (fun x => x + off) dtn in
      let dtn' := assign_mask dtn' isd (map (fun x => x - NANOS_PER_HOUR) (compress isd dtn')) in
      putmask_val dtn' inv_mask 0
  end.

(** ** DateTimeNano *)

Record dtn := Dtn { nanos : list Z; tzone : timezone }.

(* rt_datetime.py:4439-4564, integer input, no start_date *)
Definition make_dtn (arr : list Z) (f t : zone) : dtn :=
  let tz := TimeZone f t in Dtn (to_utc tz arr) tz.

Definition nano_mask {A} (d : dtn) (res : list A) : list (option A) :=
  apply_inv_mask nano_isnan None (nanos d) (some_all res).

(* rt_datetime.py:3367-3383 *)
Definition nano_year (d : dtn) : list (option Z) :=
  nano_mask d (year_of nano_splits (fix_dst (tzone d) (nanos d))).

(* rt_datetime.py:3386-3402 *)
Definition nano_month (d : dtn) : list (option Z) :=
  nano_mask d (month_of nano_splits (fix_dst (tzone d) (nanos d))).

(* rt_datetime.py:3962-3984 *)
Definition nanos_since_start_of_year (d : dtn) : list Z :=
  let arr := fix_dst (tzone d) (nanos d) in
  since_year nano_splits arr (year_of nano_splits arr).

(* rt_datetime.py:3421-3443 *)
Definition nano_day_of_year (d : dtn) : list Z :=
  map (fun x => x / NANOS_PER_DAY + 1) (nanos_since_start_of_year d).

(* rt_datetime.py:3447-3486: the year is that of the local time, but the time
   since the start of the year is taken from the UTC array *)
Definition nano_day_of_month (d : dtn) : list Z :=
  let arr := nanos d in
  let year := year_of nano_splits (fix_dst (tzone d) arr) in
  map (fun x => x / NANOS_PER_DAY + 1) (monthtime_of nano_splits arr year).

(* rt_datetime.py:3298-3346 *)
Definition nano_yyyymmdd (d : dtn) : list Z :=
  let s := nano_splits in
  let arr := fix_dst (tzone d) (nanos d) in
  let year := year_of s arr in
  let final := map (fun y => y * 10000) year in
  let startyear := since_year s arr year in
  let monthnum := map (fun x => Z.of_nat (ss_right (yearday_splits s) x)) startyear in
  let monthtime := sub2 startyear (map (fun n => take_at (yearday_splits s) (n - 1)) monthnum) in
  let leapmask := leapmask_of year in
  let sl := compress leapmask startyear in
  let monthnum_leap := map (fun x => Z.of_nat (ss_right (yearday_splits_leap s) x)) sl in
  let monthnum := assign_mask monthnum leapmask monthnum_leap in
  let monthtime := assign_mask monthtime leapmask
    (sub2 sl (map (fun n => take_at (yearday_splits_leap s) (n - 1)) monthnum_leap)) in
  let final := add2 final (map (fun n => n * 100) monthnum) in
  add2 final (map (fun t => t / NANOS_PER_DAY + 1) monthtime).

(* rt_datetime.py:1704-1705 *)
Definition date_yyyymmdd (arr : list Z) : list Z :=
  nano_yyyymmdd (make_dtn (map (fun x => x * NANOS_PER_DAY) arr) UTC UTC).

(* rt_datetime.py:3114-3130; the array handed to fix_dst is the DateTimeNano
   itself, so invalid (zero) entries stay invalid: their value is not modelled *)
Definition days_since_epoch (d : dtn) : list Z :=
  map (fun x => x / NANOS_PER_DAY) (fix_dst (tzone d) (nanos d)).

(* rt_datetime.py:3134-3149 *)
Definition seconds_since_epoch (d : dtn) : list Z :=
  map (fun x => x / NANOS_PER_SECOND) (fix_dst (tzone d) (nanos d)).

(* rt_datetime.py:3152-3205 *)
Definition nanos_since_midnight (d : dtn) : list (option Z) :=
  nano_mask d (map (fun x => x mod NANOS_PER_DAY) (fix_dst (tzone d) (nanos d))).

(* rt_datetime.py:3490-3516 *)
Definition nano_day_of_week (d : dtn) : list Z :=
  map (fun x => (x + EPOCH_DAY_OF_WEEK) mod 7) (days_since_epoch d).

(* rt_datetime.py:3606-3625, 3629-3648 *)
Definition nano_is_weekday (d : dtn) : list bool :=
  putmask_val (map (fun w => w <? 5) (nano_day_of_week d)) (map nano_isnan (nanos d)) false.
Definition nano_is_weekend (d : dtn) : list bool :=
  putmask_val (map (fun w => 4 <? w) (nano_day_of_week d)) (map nano_isnan (nanos d)) false.

(* rt_datetime.py:3520-3534: day numbers of the Date returned *)
Definition nano_start_of_week (d : dtn) : list Z :=
  map (fun a => let a := a + EPOCH_DAY_OF_WEEK in a - a mod 7 - EPOCH_DAY_OF_WEEK) (days_since_epoch d).

(* rt_datetime.py:3722-3731, span=True: nanoseconds since midnight; the
   fractional hour is this divided by NANOS_PER_HOUR in floating point *)
Definition nano_hour_span (d : dtn) : list (option Z) :=
  putmask_val (some_all (map (fun x => x mod NANOS_PER_DAY) (fix_dst (tzone d) (nanos d))))
              (map nano_isnan (nanos d)) None.

(* rt_datetime.py:3734-3749, span=True: remainder of the UTC nanoseconds *)
Definition nano_time_fraction (modulo : Z) (d : dtn) : list (option Z) :=
  putmask_val (some_all (map (fun x => x mod modulo) (nanos d))) (map nano_isnan (nanos d)) None.

(* rt_datetime.py:3774-3792 (minute_span), 3817-3827 (second_span) *)
Definition nano_minute_span : dtn -> list (option Z) := nano_time_fraction NANOS_PER_HOUR.
Definition nano_second_span : dtn -> list (option Z) := nano_time_fraction NANOS_PER_MINUTE.

(* rt_datetime.py:3266-3294 *)
Definition nano_date (d : dtn) : dtn :=
  let z := to_tz (tzone d) in
  let arr :=
    match fst (init_to_tz z) with
    | Some _ => map (fun x => x - x mod NANOS_PER_DAY) (fix_dst (tzone d) (nanos d))
    | None => map (fun x => x - x mod NANOS_PER_DAY) (nanos d)
    end in
  make_dtn arr z z.

(* rt_datetime.py:4717-4763 *)
Definition astimezone (d : dtn) (z : zone) : dtn := make_dtn (nanos d) UTC z.

(* rt_datetime.py:4666-4714, rt_timezone.py:1171-1177: changes only the display zone *)
Definition set_timezone (d : dtn) (z : zone) : dtn :=
  Dtn (nanos d) (TimeZone (from_tz (tzone d)) z).
