(** nunique of FastArrays (C241), bitcount (C242). *)
From Coq Require Import List ZArith Bool Lia.
From Verif Require Import NuModel NuProofs.
Import ListNotations.
Local Open Scope Z_scope.

(** nunique is the number of distinct values that are not missing: integers of any width, floats
    and strings. *)
Theorem C241_nunique_partial : forall dt l, dt <> TBool -> Forall (of_dtype dt) l -> counts_distinct (fun e => ~ missing dt e) l (nunique dt l).
Proof. exact nunique_ok. Qed.
Print Assumptions C241_nunique_partial.
(** Finding: the sentinel of bools is False, so nunique of bools does not count False. *)
Theorem C241_bools_refuted : exists l, Forall (of_dtype TBool) l /\ ~ counts_distinct (fun e => ~ missing TBool e) l (nunique TBool l) /\ counts_distinct (fun e => ~ missing TBool e) l (nunique TBool l + 1).
Proof.
  assert (C : counts_distinct (fun e => ~ missing TBool e) [Num 0; Num 1] (nunique TBool [Num 0; Num 1] + 1)).
  { exists [Num 0; Num 1]. split; [|split; [|reflexivity]].
    - constructor; [intros [H|[]]; discriminate H|]. constructor; [intros []|constructor].
    - intros e. cbn. tauto. }
  exists [Num 0; Num 1]. split; [apply Forall_forall; intros e [<-|[<-|[]]]; cbn; auto|]. split; [|exact C].
  intros H. pose proof (counts_unique _ _ _ _ H C). lia.
Qed.
Print Assumptions C241_bools_refuted.
(** What it counts for bools: True, if it is there. *)
Theorem C241_bools : forall l, Forall (of_dtype TBool) l -> counts_distinct (fun e => e = Num 1) l (nunique TBool l).
Proof.
  intros l F. apply (counts_ext (fun e => e <> Num 0)); [|exact (nunique_inv TBool l F)]. intros e J. rewrite Forall_forall in F. specialize (F e J). destruct e as [z| |]; cbn in F; try tauto.
  destruct F as [-> | ->]; split; congruence.
Qed.
Print Assumptions C241_bools.
(** Finding: Dates are integers to nunique, so it counts the missing date 0 as a value. *)
Theorem C241_dates_refuted : exists l, Forall (of_dtype (TInt 32)) l /\ ~ counts_distinct (fun e => ~ missing_date e) l (nunique (TInt 32) l).
Proof.
  exists [Num 0; Num 1]. split; [apply Forall_forall; intros e [<-|[<-|[]]]; cbn; lia|]. intros H.
  assert (C : counts_distinct (fun e => ~ missing_date e) [Num 0; Num 1] 1).
  { exists [Num 1]. split; [constructor; [intros []|constructor]|]. split; [|reflexivity]. intros e. unfold missing_date. cbn. split.
    - intros [<-|[]]. split; [auto|]. intros [Q|Q]; discriminate Q.
    - intros [[<-|[<-|[]]] K]; [exfalso; auto|auto]. }
  pose proof (counts_unique _ _ _ _ H C) as E. vm_compute in E. discriminate E.
Qed.
Print Assumptions C241_dates_refuted.
Example C241_case : nunique (TUint 8) (map Num [255; 2; 3; 2; 3]) = 2 /\ nunique TFloat [Num 7; NaN; Num 3; NaN; Num 7] = 2 /\
  nunique (TInt 8) (map Num [5; -128; 5; -127]) = 2 /\ nunique TText [Text [98]; Text []; Text [97; 98]; Text [98]] = 2 /\ nunique TFloat [] = 0 /\
  Forall (of_dtype (TUint 8)) (map Num [255; 2; 3; 2; 3]) /\ nunique TBool [Num 0; Num 1; Num 0] = 1.
Proof. do 5 (split; [vm_compute; reflexivity|]). split; [cbn [map]; repeat (apply Forall_cons; [cbn; lia|]); apply Forall_nil|vm_compute; reflexivity]. Qed.

(** bitcount of a scalar is the number of its bits that are set, as bitcount of an array tells
    for each element: not negative, of any width. *)
Theorem C242_bitcount_partial : forall a w, 0 <= a < 2 ^ Z.of_nat w ->
  bitcount_scalar a = length (filter (fun i => Z.testbit a (Z.of_nat i)) (seq 0 w)) /\ bitcount_array w [a] = [bitcount_scalar a].
Proof. intros a w H. pose proof (bitcount_ok a w H) as E. split; [exact E|]. unfold bitcount_array. cbn. now rewrite E. Qed.
Print Assumptions C242_bitcount_partial.
(** Finding: of a negative scalar bitcount counts the bits of the absolute value, of an array
    with it those of two's complement. *)
Theorem C242_negative_refuted : (exists a w, - 2 ^ (Z.of_nat w - 1) <= a < 2 ^ (Z.of_nat w - 1) /\ bitcount_array w [a] <> [bitcount_scalar a]) /\
  forall a w, 0 <= a < 2 ^ Z.of_nat w -> bitcount_scalar (- a) = bits_set w a.
Proof.
  split.
  - exists (-1), 8%nat. split; [vm_compute; split; congruence|]. vm_compute. discriminate.
  - intros a w H. rewrite <- (bitcount_ok a w H). destruct a as [|p|p]; [reflexivity|apply bitcount_neg|lia].
Qed.
Print Assumptions C242_negative_refuted.
Example C242_case : bitcount_scalar 741858 = 10%nat /\ bitcount_array 32 [741858; 77285; 916765; 395393] = [10; 10; 14; 5]%nat /\
  bitcount_scalar 0 = 0%nat /\ bitcount_scalar (-1) = 1%nat /\ bitcount_array 8 [-1] = [8]%nat.
Proof. repeat split; vm_compute; reflexivity. Qed.
