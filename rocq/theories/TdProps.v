(** TimeSpans as clocks (C233), as HHMMSS numbers and with units (C234). *)
From Coq Require Import List ZArith Bool Lia.
From Verif Require Import TdSpec TdModel TdProofs.
Import ListNotations.
Local Open Scope Z_scope.

(** With nine decimals, the default, the clock of a TimeSpan below 146 years says the
    TimeSpan to the nanosecond, although the seconds come from a division of floats. *)
Theorem C233_clock_partial :
  forall x, exact (Z.abs x) ->
  exists c, display_item_clock 9 (Some x) = Some c /\ says c = x /\ well_formed c /\ (c_neg c = true <-> x < 0) /\ (exists v, c_decimals c = Some (9, v)).
Proof.
  intros x E. pose proof (Z.abs_nonneg x) as N. eexists. split; [reflexivity|]. unfold says, well_formed, nano_ext. cbn [c_neg c_days c_hours c_minutes c_seconds c_decimals Z.ltb Z.compare Z.min].
  change (Z.min 9 9) with 9. rewrite (gmtime_ok _ N E). unfold NANOS_PER_DAY, NANOS_PER_SECOND. change (10 ^ 9) with 1000000000. change (10 ^ (9 - 9)) with 1. split.
  - pose proof (div_mod_days (Z.abs x) N) as D. cbv zeta in D. rewrite Z.mul_1_r. rewrite D. destruct (Z.ltb_spec x 0); lia.
  - split; [|split; [apply Z.ltb_lt|eauto]]. split; [apply Z.div_pos; lia|]. repeat split; apply Z.mod_pos_bound; lia.
Qed.
Print Assumptions C233_clock_partial.

(** So two TimeSpans with the same clock are equal. *)
Theorem C233_injective_partial :
  forall x y, exact (Z.abs x) -> exact (Z.abs y) -> display_item_clock 9 (Some x) = display_item_clock 9 (Some y) -> x = y.
Proof.
  intros x y Ex Ey E. destruct (C233_clock_partial x Ex) as (c & Ec & Sc & _). destruct (C233_clock_partial y Ey) as (d & Ed & Sd & _). congruence.
Qed.
Print Assumptions C233_injective_partial.

(** Finding: with fewer decimals (DateTimeBase.PRECISION) the last digits of the
    nanoseconds are shown in place of the first: with three, 1.5 s is 00:00:01.000 and
    1 s and 7 ns is 00:00:01.007 (rt_datetime.py:688-690). *)
Theorem C233_precision_refuted :
  exists c d, display_item_clock 3 (Some 1500000000) = Some c /\ says c = 1000000000 /\
              display_item_clock 3 (Some 1000000007) = Some d /\ says d = 1007000000.
Proof. eexists. eexists. split; [reflexivity|]. split; [vm_compute; reflexivity|]. split; [reflexivity|vm_compute; reflexivity]. Qed.
Print Assumptions C233_precision_refuted.

(** Finding: for very long TimeSpans the division of floats can round up to the next
    second, the decimals are those of the second before (rt_datetime.py:6712): this one, a
    float64, of 272 years is shown a second too long. *)
Theorem C233_long_refuted :
  exists x c, x = 2048 * 4194814543457031 /\ 4194814543457031 < 2 ^ 53 /\
    display_item_clock 9 (Some x) = Some c /\ says c = x + 1000000000.
Proof. eexists. eexists. split; [reflexivity|]. split; [lia|]. split; [reflexivity|vm_compute; reflexivity]. Qed.
Print Assumptions C233_long_refuted.

Example C233_case :
  display_item_clock 9 (Some (-90061000000005)) = Some (mkClock true 1 1 1 1 (Some (9, 5))) /\
  says (mkClock true 1 1 1 1 (Some (9, 5))) = -90061000000005 /\ display_item_clock 9 None = None /\
  display_item_clock 0 (Some 59999999999) = Some (mkClock false 0 0 0 59 None) /\ exact 90061000000005 /\ exact (2 ^ 61).
Proof.
  split; [vm_compute; reflexivity|]. split; [vm_compute; reflexivity|]. split; [vm_compute; reflexivity|]. split; [vm_compute; reflexivity|]. split.
  - exists 0. split; [lia|]. split; [apply Z.divide_1_l|]. cbn. lia.
  - exists 9. split; [lia|]. split; [exists (2 ^ 52); reflexivity|reflexivity].
Qed.

(** hhmmss of a TimeSpan that is not negative: its whole seconds, as hours, minutes and
    seconds. *)
Theorem C234_hhmmss_partial :
  forall x, 0 <= x ->
  seconds_of (hhmmss x) = x / 1000000000 /\ 0 <= hhmmss x / 100 mod 100 < 60 /\ 0 <= hhmmss x mod 100 < 60.
Proof.
  intros x N. unfold hhmmss, seconds_of, NANOS_PER_SECOND. set (t := x / 1000000000). assert (T : 0 <= t) by (apply Z.div_pos; lia). clearbody t.
  set (h := t / 3600). set (r := t mod 3600). pose proof (Z.div_mod t 3600 ltac:(lia)) as E. fold h r in E. pose proof (Z.mod_pos_bound t 3600 ltac:(lia)) as R. fold r in R.
  set (m := r / 60). set (s := r mod 60). pose proof (Z.div_mod r 60 ltac:(lia)) as E2. fold m s in E2. pose proof (Z.mod_pos_bound r 60 ltac:(lia)) as S. fold s in S.
  clearbody h r m s. assert (0 <= m < 60) by lia.
  assert (A : (10000 * h + 100 * m + s) / 100 = 100 * h + m) by (symmetry; apply (Z.div_unique _ _ _ s); lia).
  assert (B : (10000 * h + 100 * m + s) mod 100 = s) by (symmetry; apply (Z.mod_unique _ _ (100 * h + m)); lia).
  assert (C : (10000 * h + 100 * m + s) / 10000 = h) by (symmetry; apply (Z.div_unique _ _ _ (100 * m + s)); lia).
  assert (D : (100 * h + m) mod 100 = m) by (symmetry; apply (Z.mod_unique _ _ h); lia).
  rewrite A, B, C, D. lia.
Qed.
Print Assumptions C234_hhmmss_partial.

(** Finding: a negative TimeSpan of one second has hhmmss -4041, that is -10000 for one
    hour less and 5959 (rt_datetime.py:6604-6606). *)
Theorem C234_negative_refuted : hhmmss (-1000000000) = -4041 /\ hhmmss 1000000000 = 1.
Proof. split; vm_compute; reflexivity. Qed.
Print Assumptions C234_negative_refuted.

(** With a unit: the longest unit not longer than the TimeSpan (or nanoseconds), and the
    number is right to half a thousandth of the unit. *)
Theorem C234_unit_partial :
  forall x, exists q u, display_item_unit (Some x) = Some (q, u) /\
  (u = Uns \/ length_of u <= Z.abs x) /\ (forall v, next u = Some v -> Z.abs x < length_of v) /\
  2 * Z.abs (q * length_of u - 1000 * x) <= length_of u.
Proof.
  intros x. exists (rne (1000 * x) (length_of (display_resolution x))), (display_resolution x). split; [reflexivity|].
  assert (P : 0 < length_of (display_resolution x)) by (destruct (display_resolution x); reflexivity).
  pose proof (rne_bounds (1000 * x) _ P) as R. repeat split.
  - unfold display_resolution, NANOS_PER_SECOND. repeat match goal with |- context [if ?a <? ?b then _ else _] => destruct (Z.ltb_spec a b) end; cbn [length_of]; auto; right; lia.
  - unfold display_resolution, NANOS_PER_SECOND. intros v. repeat match goal with |- context [if ?a <? ?b then _ else _] => destruct (Z.ltb_spec a b) end; cbn [next]; intros [= <-]; cbn [length_of]; assumption.
  - lia.
Qed.
Print Assumptions C234_unit_partial.

(** Finding: the unit is chosen before rounding: 59.9999 s is shown as 60.000s, not 1.000m
    (rt_datetime.py:6653-6658). *)
Theorem C234_round_refuted : display_item_unit (Some 59999900000) = Some (60000, Us) /\ display_item_unit (Some 60000000000) = Some (1000, Um).
Proof. split; vm_compute; reflexivity. Qed.
Print Assumptions C234_round_refuted.

Example C234_case :
  hhmmss 45296999999999 = 123456 /\ hhmmss 360000000000000 = 1000000 /\ display_item_unit (Some (-1234567)) = Some (-1235, Ums) /\
  display_item_unit (Some 7) = Some (7000, Uns) /\ display_item_unit (Some 7200000000000) = Some (2000, Uh).
Proof. repeat split; vm_compute; reflexivity. Qed.
