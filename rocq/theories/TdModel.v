(** * How TimeSpans are shown.

    Modelled: [TimeSpanBase.display_item_clock] (riptable/rt_datetime.py:6700-6724) with
    [DateTimeBase._add_nano_ext] (681-692), [hhmmss] (6600-6606), [display_item_unit] and
    [_display_resolution] (6643-6697).

    A TimeSpan is a float64 number of nanoseconds, here a whole number; None is NaN.  The
    division of floats is modelled as the nearest number with 53 bits.  Texts are modelled
    by the numbers in them, so not the padding with zeros. *)
From Coq Require Import List ZArith Bool.
From Verif Require Import TdSpec.
Import ListNotations.
Local Open Scope Z_scope.

Definition NANOS_PER_SECOND : Z := 1000000000.
Definition NANOS_PER_DAY : Z := 86400000000000.
(** IEEE 754: a / b to a whole number, to the nearest, ties to even *)
Definition rne (a b : Z) : Z :=
  let q := a / b in let r := a mod b in
  if 2 * r <? b then q else if b <? 2 * r then q + 1 else if Z.even q then q else q + 1.
(** n / 1e9 as a float64 is [rne (n * 2^s) 1e9 / 2^s] with 53 bits before the last
    division; gmtime takes the floor.  For 0 <= n < 2^82. *)
Definition gmtime_seconds (n : Z) : Z :=
  let s0 := 82 - Z.log2 n in
  let s := if 2 ^ 53 * NANOS_PER_SECOND <=? n * 2 ^ s0 then s0 - 1 else s0 in
  rne (n * 2 ^ s) NANOS_PER_SECOND / 2 ^ s.
(** 681-692; [precision]: DateTimeBase.PRECISION *)
Definition nano_ext (precision nanos : Z) : option (Z * Z) :=
  if 0 <? precision then let p := Z.min precision 9 in Some (p, nanos mod 10 ^ p) else None.
(** 6700-6724; None: Inv *)
Definition display_item_clock (precision : Z) (x : option Z) : option clock :=
  match x with
  | None => None
  | Some nanosecs =>
      let item := Z.abs nanosecs in
      let t := gmtime_seconds item in
      Some (mkClock (nanosecs <? 0) (item / NANOS_PER_DAY) (t / 3600 mod 24) (t / 60 mod 60) (t mod 60) (nano_ext precision item))
  end.
(** 6600-6606 *)
Definition hhmmss (x : Z) : Z :=
  let t := x / NANOS_PER_SECOND in
  let hour := t / 3600 in let remainder := t mod 3600 in
  10000 * hour + 100 * (remainder / 60) + remainder mod 60.
(** 6662-6697 *)
Definition display_resolution (x : Z) : unit :=
  let n := Z.abs x in
  if n <? 1000 then Uns else if n <? 1000000 then Uus else if n <? NANOS_PER_SECOND then Ums
  else if n <? 60000000000 then Us else if n <? 3600000000000 then Um else Uh.
(** 6643-6660: thousandths of the unit ("{0:.3f}" of the exact quotient, ties to even) *)
Definition display_item_unit (x : option Z) : option (Z * unit) :=
  match x with
  | None => None
  | Some n => let u := display_resolution n in Some (rne (1000 * n) (length_of u), u)
  end.
