(** Model of operations on Date and DateTimeNano: arithmetic, comparison,
    ranges, time buckets, resampling and Arrow conversion (rt_datetime.py). *)
From Coq Require Import List ZArith Bool.
From Verif Require Import DateTables DateSpec DateModel.
Import ListNotations.
Open Scope Z_scope.

(** * Date arithmetic *)

(* rt_datetime.py:844 *)
Definition NAN_DATE : Z := 0.

(* rt_datetime.py:545-580 with fillval and arr2_inv_mask, as called from
   _build_mathops_result (1060-1086); [inv2] is the mask of the other operand
   broadcast to an array *)
Definition apply_inv_mask2 (arr1 arr2 : list Z) (inv1 inv2 : list bool) : list Z :=
  match arr1 with
  | [x] => if x <=? 0 then [INVALID_32] else arr2
  | _ => putmask_val (putmask_val arr2 inv1 NAN_DATE) inv2 NAN_DATE
  end.

(* rt_datetime.py:1018-1057 (_funnel_mathops) with an integer array operand of
   the same length; isnan of an int array is its sentinel *)
Definition date_add_arr (arr other : list Z) : list Z :=
  apply_inv_mask2 arr (add2 arr other) (map date_isnan arr) (map (fun v => v =? INVALID_32) other).
Definition date_sub_arr (arr other : list Z) : list Z :=
  apply_inv_mask2 arr (sub2 arr other) (map date_isnan arr) (map (fun v => v =? INVALID_32) other).

(* rt_datetime.py:1018-1057 with a valid integer scalar *)
Definition date_add (arr : list Z) (k : Z) : list Z :=
  apply_inv_mask2 arr (map (fun x => x + k) arr) (map date_isnan arr) [].

(** Storing a possibly invalid field as an int array again. *)
Definition as_int (l : list (option Z)) : list Z :=
  map (fun v => match v with Some x => x | None => INVALID_32 end) l.

(* rt_datetime.py:2573-2580 *)
Definition start_of_month (arr : list Z) : list Z :=
  date_add (date_sub_arr arr (as_int (date_day_of_month arr))) 1.

(* rt_datetime.py:2583-2590 *)
Definition start_of_week (arr : list Z) : list Z :=
  date_sub_arr arr (as_int (date_day_of_week arr)).

(** * Date.range *)

Inductive closed := ClosedNone | ClosedLeft | ClosedRight.
Inductive range_end := ByEnd (e : Z) | ByDays (n : Z).

(** arange(start, end, step) with step > 0 (numpy contract). *)
Definition arange (start stop step : Z) : list Z :=
  map (fun k => start + Z.of_nat k * step) (seq 0 (Z.to_nat ((stop - start + step - 1) / step))).

(* rt_datetime.py:2122-2235; start and end are the parsed day numbers *)
Definition date_range (start : Z) (e : range_end) (step : Z) (c : closed) : list Z :=
  match e with
  | ByDays n => arange start (start + n * step) step
  | ByEnd e =>
      if step =? 1 then
        match c with
        | ClosedNone => arange start (e + 1) step
        | ClosedRight => arange (start + 1) (e + 1) step
        | ClosedLeft => arange start e step
        end
      else arange start e step
  end.

(** * Comparison *)

Inductive cmp := CNe | CEq | CGe | CGt | CLe | CLt.
Definition cmp_op (o : cmp) (a b : Z) : bool :=
  match o with
  | CNe => negb (a =? b) | CEq => a =? b | CGe => b <=? a
  | CGt => b <? a | CLe => a <=? b | CLt => a <? b
  end.

(* rt_datetime.py:824-834 (_preserve_invalid_comparison), operands of equal length *)
Definition preserve_cmp (isnan : Z -> bool) (o : cmp) (self other : list Z) : list bool :=
  let result := map (fun p => cmp_op o (fst p) (snd p)) (combine self other) in
  match o with
  | CNe => map (fun p => orb (fst p) (snd p)) (combine result (map isnan self))
  | _ => map (fun p => andb (fst p) (snd p)) (combine result (map (fun x => negb (isnan x)) self))
  end.

(* rt_datetime.py:2238-2288 *)
Definition date_compare : cmp -> list Z -> list Z -> list bool := preserve_cmp date_isnan.
(* rt_datetime.py:5556-5594 *)
Definition nano_compare : cmp -> list Z -> list Z -> list bool := preserve_cmp nano_isnan.

(** * DateTimeNano.cut_time *)

(* rt_datetime.py:5201-5208 *)
Definition timetuple_to_nsm (h m s ms : Z) : Z := 1000000 * (ms + 1000 * (s + 60 * (m + 60 * h))).

(* rt_datetime.py:5255-5257: while now < end: append(now); now += size *)
Fixpoint cut_loop (fuel : nat) (now stop size : Z) : list Z :=
  match fuel with
  | O => []
  | S fuel => if now <? stop then now :: cut_loop fuel (now + size) stop size else []
  end.

(* rt_datetime.py:5249-5259 (size > 0; the loop does not end otherwise) *)
Definition regular_points (start stop size : Z) : list Z :=
  cut_loop (Z.to_nat ((stop - start) / size + 1)) start stop size ++ [stop].

(* rt_datetime.py:5261-5265 *)
Definition cut_points (base : list Z) (pre post : bool) : list Z :=
  let p := if pre then 0 :: base else base in
  if post then p ++ [timetuple_to_nsm 24 0 0 0] else p.

Inductive bucket_label := LPre | LPost | LTime (t : Z).
Definition set_first {A} (v : A) (l : list A) : list A := match l with [] => [] | _ :: r => v :: r end.
Definition set_last {A} (v : A) (l : list A) : list A := match l with [] => [] | _ => removelast l ++ [v] end.

(* rt_datetime.py:5270-5280; the strftime text of a time is that time; an empty
   label array with a pre or post bucket (IndexError) cannot occur: there are
   then at least two points *)
Definition cut_labels (right : bool) (pre post : bool) (points : list Z) : list bucket_label :=
  let l := map LTime (if right then tl points else removelast points) in
  let l := if pre then set_first LPre l else l in
  if post then set_last LPost l else l.

(* rt_datetime.py:5282-5285; invalid times are the int64 sentinel *)
Definition cut_codes (points : list Z) (d : dtn) : list nat :=
  map (fun t => let c := ss_left points (match t with Some x => x | None => INVALID_64 end) in
                if (length points <=? c)%nat then 0%nat else c) (nanos_since_midnight d).

(** * DateTimeNano.resample (the step in nanoseconds, > 0) *)

(* rt_datetime.py:6292-6298; subtraction keeps invalid (zero) entries: 0 - 0 = 0;
   a one-element array <= 0 becomes the invalid value (545-556) *)
Definition resample_down (arr : list Z) (step : Z) : list Z :=
  let res := sub2 arr (map (fun x => x mod step) arr) in
  match arr with
  | [x] => if x <=? 0 then [INVALID_64] else res
  | _ => putmask_val res (map nano_isnan arr) 0
  end.

Definition list_min (l : list Z) : Z := match l with [] => INVALID_64 | x :: r => fold_left Z.min r x end.
Definition list_max (l : list Z) : Z := match l with [] => INVALID_64 | x :: r => fold_left Z.max r x end.

(* rt_datetime.py:6270-6289; min/max of the raw array (5597-5671) *)
Definition resample_range (arr : list Z) (step : Z) : list Z :=
  let start := list_min arr in
  let stop := list_max arr in
  arange (start - start mod step) (stop - stop mod step + step) step.

(** * Arrow *)

(** A pyarrow timestamp array: UTC nanoseconds (None = null) and a zone name. *)
Record arrow_ts := Arrow { a_values : list (option Z); a_tz : zone }.

(* rt_datetime.py:6416-6455 *)
Definition to_arrow (d : dtn) : arrow_ts :=
  Arrow (map (fun x => if nano_isnan x then None else Some x) (nanos d)) (from_tz (tzone d)).

(* rt_datetime.py:6315-6414 (nanosecond unit, one chunk, zero_copy_only=False);
   to_tz is left at its default, New York (4461) *)
Definition from_arrow (a : arrow_ts) : dtn :=
  make_dtn (map (fun v => match v with Some x => x | None => INVALID_64 end) (a_values a)) (a_tz a) NewYork.
