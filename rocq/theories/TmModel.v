(** Model of + and - between Date, DateSpan, DateTimeNano and TimeSpan arrays (rt_datetime.py:545-581, 1018-1086, 2291-2346,
    2481-2547, 2925-3001, 4066-4104, 5736-5867, 6769-6886).  Numbers are unbounded and floats are whole numbers; the ranges in which the
    machine numbers agree with them are hypotheses of the theorems.  Operands are arrays (scalars are left out). *)
From Coq Require Import List Arith ZArith Bool.
From Verif Require Import DateTables DateModel.
Import ListNotations.
Open Scope Z_scope.

(** The four classes; Date and DateSpan hold int32 days, DateTimeNano int64 nanoseconds (UTC), TimeSpan float64 nanoseconds. *)
Inductive kind := KDate | KDateSpan | KNano | KTimeSpan.
(** An element of an array; [None] is the float NaN. *)
Definition cells := list (option Z).
Inductive outcome := Done (k : kind) (l : cells) | Refused.

Definition num_is (z : Z) (x : option Z) : bool := match x with Some y => y =? z | None => false end.
(** isnan: rt_datetime.py:1531 (Date) and 5357 (DateTimeNano) isnanorzero; FastArray.isnan of an int32 (DateSpan) or float (TimeSpan) *)
Definition isnan (k : kind) (x : option Z) : bool :=
  match k with
  | KDate => num_is 0 x || num_is INVALID_32 x
  | KDateSpan => num_is INVALID_32 x
  | KNano => num_is 0 x || num_is INVALID_64 x
  | KTimeSpan => match x with None => true | _ => false end
  end.
(** numpy: an array of length 1 is repeated *)
Definition bcast {X} (n : nat) (l : list X) : list X := match l with [x] => repeat x n | _ => l end.
Definition zip (op : option Z -> option Z -> option Z) (a b : cells) : cells :=
  let n := Nat.max (length a) (length b) in map (fun p => op (fst p) (snd p)) (combine (bcast n a) (bcast n b)).
Definition calc (plus : bool) (x y : option Z) : option Z :=
  match x, y with Some u, Some v => Some (if plus then u + v else u - v) | _, _ => None end.
(** rt_datetime.py:545-576 [_apply_inv_mask]; [inv]: the invalid of the type of arr2 *)
Definition apply_mask (arr1 arr2 : cells) (m1 m2 : list bool) (fill inv : option Z) : cells :=
  match arr1 with
  | [x] => if match x with Some z => z <=? 0 | None => false end then [inv] else arr2
  | _ => putmask_val (putmask_val arr2 m1 fill) (bcast (length arr2) m2) fill
  end.
(** astype(np.int64) of floats *)
Definition to_int64 (l : cells) : cells := map (fun x => match x with Some z => Some z | None => Some INVALID_64 end) l.
Definition to_int32 (l : cells) : cells := map (fun x => match x with Some z => Some z | None => Some INVALID_32 end) l.
(** MATH_OPERATION.SUBDATETIMES (rt_enum.py:217): NaN if either is invalid or zero *)
Definition sub_times (nan : option Z -> bool) (a b : cells) : cells :=
  zip (fun x y => if nan x || nan y then None else calc false x y) a b.

Section Ops.
(** what the invalid int32 times NANOS_PER_DAY gives *)
Variable big : Z.
(** the DateTimeNano constructor with from_tz of the other operand: local time to UTC *)
Variable to_utc : Z -> Z.
Definition scale (l : cells) : cells := map (fun x => match x with Some d => Some (if d =? INVALID_32 then big else d * NANOS_PER_DAY) | None => None end) l.

(** rt_datetime.py:2291-2337: Date + other, Date - other, with _funnel_mathops (1018-1057), _check_mathops (2481-2516) and
    _check_mathops_nano (2519-2547) *)
Definition date_math (plus : bool) (a : cells) (kb : kind) (b : cells) : outcome :=
  match kb with
  | KDate => if plus then Refused else Done KDateSpan (to_int32 (sub_times (isnan KDate) a b))
  | KNano => if plus then Refused
             else Done KTimeSpan (sub_times (isnan KNano) (map (fun x => match x with Some z => Some (to_utc z) | None => None end) (scale a)) b)
  | KTimeSpan => Done KNano (apply_mask a (zip (calc plus) (scale a) (to_int64 b)) (map (isnan KDate) a) (map (isnan KTimeSpan) b) (Some 0) (Some INVALID_64))
  | KDateSpan => Done KDate (apply_mask a (zip (calc plus) a b) (map (isnan KDate) a) (map (isnan KDateSpan) b) (Some 0) (Some INVALID_32))
  end.
(** rt_datetime.py:2925-2998: DateSpan + other, DateSpan - other; the fill value is the int32 invalid *)
Definition datespan_math (plus : bool) (a : cells) (kb : kind) (b : cells) : outcome :=
  match kb with
  | KTimeSpan => Done KTimeSpan (apply_mask a (zip (calc plus) (scale a) b) (map (isnan KDateSpan) a) (map (isnan KTimeSpan) b) (Some INVALID_32) None)
  | KNano => if plus then Done KNano (apply_mask a (zip (calc plus) (scale a) b) (map (isnan KDateSpan) a) (map (isnan KNano) b) (Some INVALID_32) (Some INVALID_64))
             else Refused
  | KDate => if plus then Done KDate (apply_mask a (zip (calc plus) a b) (map (isnan KDateSpan) a) (map (isnan KDate) b) (Some INVALID_32) (Some INVALID_32))
             else Refused
  | KDateSpan => Done KDateSpan (apply_mask a (zip (calc plus) a b) (map (isnan KDateSpan) a) (map (isnan KDateSpan) b) (Some INVALID_32) (Some INVALID_32))
  end.
(** rt_datetime.py:5745-5867 and 4066-4104: DateTimeNano + other, DateTimeNano - other *)
Definition nano_math (plus : bool) (a : cells) (kb : kind) (b : cells) : outcome :=
  match kb with
  | KNano => if plus then Refused else Done KTimeSpan (sub_times (isnan KNano) a b)
  | KDate => if plus then Refused else Done KTimeSpan (sub_times (isnan KNano) a (scale b))
  | KTimeSpan => let v := to_int64 b in
                 Done KNano (apply_mask a (zip (calc plus) a v) (map (isnan KNano) a)
                               (if plus then map (isnan KTimeSpan) b else map (num_is INVALID_64) v) (Some 0) (Some INVALID_64))
  | KDateSpan => Done KNano (apply_mask a (zip (calc plus) a (scale b)) (map (isnan KNano) a) (map (isnan KDateSpan) b) (Some 0) (Some INVALID_64))
  end.
(** rt_datetime.py:6855-6886 [_fix_binary_ops] with a mask; isnan of a mask of length 1 is never true *)
Definition fix_binary (result : cells) (m2 : list bool) : cells := match m2 with [_] => result | _ => putmask_val result m2 None end.
(** rt_datetime.py:6769-6799: TimeSpan + other, TimeSpan - other; a DateTimeNano or Date on the right of - refuses (5793-5797,
    2342-2346); - takes the days of a DateSpan as they are *)
Definition timespan_math (plus : bool) (a : cells) (kb : kind) (b : cells) : outcome :=
  match kb with
  | KDate => if plus then date_math true b KTimeSpan a else Refused
  | KNano => if plus then nano_math true b KTimeSpan a else Refused
  | KDateSpan => Done KTimeSpan (if plus then fix_binary (zip (calc true) a (scale b)) (map (isnan KDateSpan) b) else zip (calc false) a b)
  | KTimeSpan => Done KTimeSpan (zip (calc plus) a b)
  end.
Definition math (plus : bool) (ka : kind) (a : cells) (kb : kind) (b : cells) : outcome :=
  match ka with
  | KDate => date_math plus a kb b
  | KDateSpan => datespan_math plus a kb b
  | KNano => nano_math plus a kb b
  | KTimeSpan => timespan_math plus a kb b
  end.

(** ** += and -= : the elements of the array afterwards, and the outcome *)
(** the calculation in the memory of the array, then [_apply_inv_mask] on it; for one element it looks at the new content *)
Definition in_place (k : kind) (plus : bool) (ka : kind) (a v : cells) (m2 : list bool) (fill inv : option Z) : cells * outcome :=
  let r := zip (calc plus) a v in
  match a with
  | [_] => (r, Done k (apply_mask r r (map (isnan ka) a) m2 fill inv))
  | _ => let r' := apply_mask a r (map (isnan ka) a) m2 fill inv in (r', Done k r')
  end.
(** rt_datetime.py:2304-2305, 2339-2340: the calculation (1046) comes before the check of the types (1049) *)
Definition date_imath (plus : bool) (a : cells) (kb : kind) (b : cells) : cells * outcome :=
  match kb with
  | KDate => (zip (calc plus) a b, Refused)
  | KNano => (a, Refused)
  | KTimeSpan => (a, date_math plus a KTimeSpan b)
  | KDateSpan => in_place KDate plus KDate a b (map (isnan KDateSpan) b) (Some 0) (Some INVALID_32)
  end.
(** rt_datetime.py:2994-2995, 3000-3001 *)
Definition datespan_imath (plus : bool) (a : cells) (kb : kind) (b : cells) : cells * outcome :=
  match kb with
  | KDate => if plus then in_place KDate plus KDateSpan a b (map (isnan KDate) b) (Some INVALID_32) (Some INVALID_32)
             else (zip (calc plus) a b, Refused)
  | KDateSpan => in_place KDateSpan plus KDateSpan a b (map (isnan KDateSpan) b) (Some INVALID_32) (Some INVALID_32)
  | KNano | KTimeSpan => (a, datespan_math plus a kb b)
  end.
(** rt_datetime.py:5740-5742, 5800-5804 *)
Definition nano_imath (plus : bool) (a : cells) (kb : kind) (b : cells) : cells * outcome :=
  match kb with
  | KNano | KDate => (a, Refused)
  | KTimeSpan => let v := to_int64 b in
                 in_place KNano plus KNano a v (if plus then map (isnan KTimeSpan) b else map (num_is INVALID_64) v) (Some 0) (Some INVALID_64)
  | KDateSpan => in_place KNano plus KNano a (scale b) (map (isnan KDateSpan) b) (Some 0) (Some INVALID_64)
  end.
(** TimeSpan has no += of its own: that of the number array (rt_datetime.py:6769-6820 defines only __add__, __radd__, __sub__, __rsub__) *)
Definition timespan_imath (plus : bool) (a : cells) (kb : kind) (b : cells) : cells * outcome :=
  let r := zip (calc plus) a b in (r, Done KTimeSpan r).
Definition imath (plus : bool) (ka : kind) (a : cells) (kb : kind) (b : cells) : cells * outcome :=
  match ka with
  | KDate => date_imath plus a kb b
  | KDateSpan => datespan_imath plus a kb b
  | KNano => nano_imath plus a kb b
  | KTimeSpan => timespan_imath plus a kb b
  end.
End Ops.
