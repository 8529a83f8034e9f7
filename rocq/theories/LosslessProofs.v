(** Exactness of conversions. *)
From Coq Require Import List ZArith Bool Lia.
From Verif Require Import GroupModel GroupFacts GroupingModel LosslessModel.
Import ListNotations.
Open Scope Z_scope.

Lemma one_pos : 0 < one.
Proof. reflexivity. Qed.

Lemma one_pow : one = 2 ^ 1074.
Proof. reflexivity. Qed.

Global Opaque one.

(** A float is not changed by rounding to its type. *)
Lemma round_float_exact : forall d v, is_int d = false -> holds d v -> round_float d v = v.
Proof.
  intros d v Hd H. unfold holds in H. rewrite Hd in H. destruct H as (m & e & Hv & Hm & He & _).
  assert (Hp : 0 < fprec d) by (destruct d; cbn; lia).
  assert (Hf : 0 <= fexp d) by (destruct d; cbn; lia).
  unfold round_float. set (e' := Z.max (fexp d) (Z.log2 (Z.abs v) + 1 - fprec d)).
  cbv zeta. assert (E0 : 0 <= e') by (unfold e'; lia).
  assert (Le : e' <= e).
  { unfold e'. destruct (Z.eq_dec m 0) as [->|Nm].
    - rewrite Hv. cbn [Z.mul Z.abs]. change (Z.log2 0) with 0. lia.
    - assert (A : Z.abs v = Z.abs m * 2 ^ e) by (rewrite Hv, Z.abs_mul, (Z.abs_eq (2 ^ e)) by (apply Z.pow_nonneg; lia); reflexivity).
      assert (L : Z.log2 (Z.abs v) < fprec d + e).
      { apply Z.log2_lt_pow2.
        - rewrite A. apply Z.mul_pos_pos; [lia|apply Z.pow_pos_nonneg; lia].
        - rewrite A, Z.pow_add_r by lia. apply Z.mul_lt_mono_pos_r; [apply Z.pow_pos_nonneg; lia|exact Hm]. }
      lia. }
  assert (P : 0 < 2 ^ e') by (apply Z.pow_pos_nonneg; lia).
  assert (D : v = m * 2 ^ (e - e') * 2 ^ e').
  { rewrite Hv, <- Z.mul_assoc, <- Z.pow_add_r by lia. do 2 f_equal. lia. }
  assert (R : forall k, round_even (k * 2 ^ e') e' = k).
  { intros k. unfold round_even; cbv zeta. rewrite Z.mod_mul, Z.div_mul by lia. cbn [Z.eqb]. rewrite orb_true_r. reflexivity. }
  clearbody e'. rewrite D, R. reflexivity.
Qed.

Lemma int_exact : forall junk from to v, is_int to = true -> holds to v -> cast junk from to (Some v) = Some v.
Proof.
  intros junk from to v Ht H. unfold holds in H. rewrite Ht in H. destruct H as (z & -> & B & N).
  unfold cast. rewrite Ht. cbv zeta. rewrite Z.quot_mul by (pose proof one_pos; lia).
  replace (min_of to <=? z) with true by (symmetry; apply Z.leb_le; lia).
  replace (z <=? max_of to) with true by (symmetry; apply Z.leb_le; lia). cbn [andb].
  replace (z =? sentinel to) with false by (symmetry; apply Z.eqb_neq; exact N). reflexivity.
Qed.

(** A number the target type holds is converted to itself. *)
Lemma cast_exact : forall junk from to v, holds to v -> cast junk from to (Some v) = Some v.
Proof.
  intros junk from to v H. destruct (is_int to) eqn:E; [apply int_exact; assumption|].
  unfold cast. rewrite E. f_equal. apply round_float_exact; assumption.
Qed.

Lemma holds_int_int : forall a b v, is_int a = true -> is_int b = true ->
  (forall z, min_of a <= z <= max_of a -> z <> sentinel a -> min_of b <= z <= max_of b /\ z <> sentinel b) ->
  holds a v -> holds b v.
Proof.
  intros a b v Ha Hb H. unfold holds. rewrite Ha, Hb. intros (z & -> & B & N). exists z.
  destruct (H z B N). auto.
Qed.

Lemma holds_int_float : forall a b v, is_int a = true -> is_int b = false ->
  (forall z, min_of a <= z <= max_of a -> Z.abs z < 2 ^ fprec b) -> 2 ^ fprec b <= max_of b -> holds a v -> holds b v.
Proof.
  intros a b v Ha Hb H Hm. unfold holds. rewrite Ha, Hb. intros (z & -> & B & N). exists z, 1074.
  rewrite one_pow at 1. split; [reflexivity|]. specialize (H z B). split; [exact H|].
  split; [destruct b; cbn; lia|]. rewrite Z.abs_mul. rewrite (Z.abs_eq one) by (pose proof one_pos; lia).
  apply Z.mul_le_mono_nonneg_r; [pose proof one_pos; lia|]. lia.
Qed.

Lemma holds_f32_f64 : forall v, holds F32 v -> holds F64 v.
Proof.
  intros v (m & e & Hv & Hm & He & Ha). exists m, e. cbn [fprec fexp] in *. split; [exact Hv|].
  split; [apply (Z.lt_trans _ _ _ Hm); reflexivity|]. split; [lia|].
  apply (Z.le_trans _ _ _ Ha). apply Z.mul_le_mono_nonneg_r; [pose proof one_pos; lia|]. vm_compute. discriminate.
Qed.

Theorem find_lossless_holds : forall d1 d2 c, find_lossless d1 d2 = Some c ->
  forall v, (holds d1 v -> holds c v) /\ (holds d2 v -> holds c v).
Proof.
  intros d1 d2 c H.
  assert (G : forall a b, match find_lossless a b with None => True | Some c => forall v, holds a v -> holds c v end).
  { clear. intros a b.
    destruct (find_lossless a b) as [c|] eqn:E; [|exact I]. intros v.
    destruct a, b; vm_compute in E; try discriminate; injection E as <-; try exact (fun H => H); try exact (holds_f32_f64 v);
    try (apply holds_int_int; [reflexivity|reflexivity|]; intros z B N; unfold sentinel, min_of, max_of, is_signed, bits in *;
         repeat match goal with H : context [2 ^ ?k] |- _ => let u := eval vm_compute in (2 ^ k) in change (2 ^ k) with u in H end;
         repeat match goal with |- context [2 ^ ?k] => let u := eval vm_compute in (2 ^ k) in change (2 ^ k) with u end; lia);
    try (apply holds_int_float; [reflexivity|reflexivity| |vm_compute; discriminate]; intros z B; unfold min_of, max_of, is_signed, bits, fprec in *;
         repeat match goal with H : context [2 ^ ?k] |- _ => let u := eval vm_compute in (2 ^ k) in change (2 ^ k) with u in H end;
         repeat match goal with |- context [2 ^ ?k] => let u := eval vm_compute in (2 ^ k) in change (2 ^ k) with u end; lia). }
  assert (S1 : find_lossless d1 d2 = find_lossless d2 d1) by (clear; destruct d1, d2; reflexivity).
  intros v. split.
  - pose proof (G d1 d2) as K. rewrite H in K. apply K.
  - pose proof (G d2 d1) as K. rewrite <- S1, H in K. apply K.
Qed.

(** ** Matching *)

Lemma index_first : forall {B} (eqb : B -> B -> bool) b us k, index_of eqb b us = Some k <->
  (exists u, nth_error us k = Some u /\ eqb b u = true) /\ (forall j u, (j < k)%nat -> nth_error us j = Some u -> eqb b u = false).
Proof.
  intros B eqb b us. induction us as [|u us IH]; intros k; cbn [index_of].
  - split; [discriminate|]. intros ((u & H & _) & _). destruct k; discriminate.
  - destruct (eqb b u) eqn:E.
    + split.
      * intros H. injection H as <-. split; [exists u; auto|]. intros j w Hj. lia.
      * intros ((w & Hw & Ew) & H). destruct k as [|k]; [reflexivity|].
        specialize (H 0%nat u ltac:(lia) eq_refl). congruence.
    + destruct k as [|k].
      * split; [destruct (index_of eqb b us); discriminate|]. intros ((w & Hw & Ew) & _). injection Hw as ->. congruence.
      * specialize (IH k). destruct (index_of eqb b us) as [j|] eqn:Ej; cbn [option_map].
        -- split.
           ++ intros H. injection H as <-. destruct (proj1 IH eq_refl) as (A & C). split; [exact A|].
              intros [|i] w Hi Hw; [injection Hw as <-; exact E|]. apply (C i w); [lia|exact Hw].
           ++ intros (A & C). f_equal. f_equal. assert (Q : Some j = Some k); [|congruence]. apply IH. split; [exact A|].
              intros i w Hi Hw. apply (C (S i) w); [lia|exact Hw].
        -- split; [discriminate|]. intros (A & C). assert (Q : @None nat = Some k); [|congruence]. apply IH. split; [exact A|].
           intros i w Hi Hw. apply (C (S i) w); [lia|exact Hw].
Qed.

Lemma map_cast_id : forall junk from to l, (forall v, In (Some v) l -> holds to v) -> map (cast junk from to) l = l.
Proof.
  intros junk from to l H. rewrite <- (map_id l) at 2. apply map_ext_in. intros [v|] Hin; [|reflexivity].
  apply cast_exact. apply H. exact Hin.
Qed.
