(** Vocabulary for how TimeSpans are shown (C233, C234). *)
From Coq Require Import List ZArith Bool.
Import ListNotations.
Local Open Scope Z_scope.

(** A TimeSpan as a clock: "-12d 03:04:05.678": sign, days (shown if there are any), hours,
    minutes, seconds, and the decimals: how many, and the number they form. *)
Record clock := mkClock { c_neg : bool; c_days : Z; c_hours : Z; c_minutes : Z; c_seconds : Z; c_decimals : option (Z * Z) }.
(** the nanoseconds it says; [p] decimals that form the number [v] are v / 10^p seconds *)
Definition says (c : clock) : Z :=
  (if c_neg c then -1 else 1) *
  (((c_days c * 24 + c_hours c) * 60 + c_minutes c) * 60 * 1000000000 + c_seconds c * 1000000000 +
   match c_decimals c with Some (p, v) => v * 10 ^ (9 - p) | None => 0 end).
Definition well_formed (c : clock) : Prop :=
  0 <= c_days c /\ 0 <= c_hours c < 24 /\ 0 <= c_minutes c < 60 /\ 0 <= c_seconds c < 60 /\
  match c_decimals c with Some (p, v) => 0 <= v < 10 ^ p | None => True end.
(** a whole number that a float64 holds exactly, below 2^62 (146 years in nanoseconds) *)
Definition exact (n : Z) : Prop := exists j, 0 <= j <= 9 /\ (2 ^ j | n) /\ n < 2 ^ (53 + j).

(** an HHMMSS number is this many seconds *)
Definition seconds_of (h : Z) : Z := h / 10000 * 3600 + h / 100 mod 100 * 60 + h mod 100.

(** the units: their length in nanoseconds, and where the next begins *)
Inductive unit := Uns | Uus | Ums | Us | Um | Uh.
Definition length_of (u : unit) : Z :=
  match u with Uns => 1 | Uus => 1000 | Ums => 1000000 | Us => 1000000000 | Um => 60000000000 | Uh => 3600000000000 end.
Definition next (u : unit) : option unit :=
  match u with Uns => Some Uus | Uus => Some Ums | Ums => Some Us | Us => Some Um | Um => Some Uh | Uh => None end.
