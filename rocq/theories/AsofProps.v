(** C48-C53, C70 and the as-of part of C09.  Theorems only; models in AsofModel.v, specification in
    AsofSpec.v. *)
From Coq Require Import List Arith ZArith Bool Lia.
From Verif Require Import Sched GroupModel GroupFacts AsofModel AsofSpec AsofProofs AsofProofs2.
Import ListNotations.
Open Scope Z_scope.

(** C48: every left row gets the last right row not after it, if within tolerance. *)
Theorem C48_backward : forall right left tol exact,
  int64s right -> int64s left -> sorted_on anyrow right -> sorted_on anyrow left ->
  (tol = None \/ no_wrap left right) ->
  exists out, asof64 right left tol exact Backward = Some out /\
    every_row left out (backward_match anyrow right tol exact).
Proof. exact asof_backward. Qed.
(** C49: every left row gets the first right row not before it, if within tolerance. *)
Theorem C49_forward : forall right left tol exact,
  int64s right -> int64s left -> sorted_on anyrow right -> sorted_on anyrow left ->
  (tol = None \/ no_wrap right left) ->
  exists out, asof64 right left tol exact Forward = Some out /\
    every_row left out (forward_match anyrow right tol exact).
Proof. exact asof_forward. Qed.
(** C50: the closer of the two, the backward one on ties. *)
Theorem C50_nearest : forall right left tol exact,
  int64s right -> int64s left -> sorted_on anyrow right -> sorted_on anyrow left ->
  no_wrap left right -> no_wrap right left ->
  exists out, asof64 right left tol exact Nearest = Some out /\
    every_row left out (nearest_match anyrow right tol exact).
Proof. exact asof_nearest. Qed.

(** C51: with 'by' keys, every schedule of the parallel loop over groups gives every left row the
    match among the right rows with the same 'by' key (none for a null key). *)
Theorem C51_grouped : forall {B} (eqb : B -> B -> bool), (forall x y, eqb x y = true <-> x = y) ->
  forall lby rby lus rus likey rikey, grouping_of lby lus likey -> grouping_of rby rus rikey ->
  forall left right, length left = length lby -> length right = length rby ->
  forall tol exact, int64s right -> int64s left ->
  (forall b, sorted_on (same_key rby b) right) -> (forall b, sorted_on (same_key lby b) left) ->
  forall d res, no_wrap left right -> no_wrap right left ->
  grouped_result Z.leb Z.ltb diff64 min_valid64 max_valid64 (key_of right) (key_of left) tol exact
    likey rikey (length lus) (length rus) (lookup eqb lus rus) (length left) d res ->
  exists out, res = Some out /\ length out = length left /\
    forall i o x r, nth_error lby i = Some o -> nth_error left i = Some x -> nth_error out i = Some r ->
      row_answer rby (spec_of right tol exact d) o x r.
Proof. intros. eapply grouped_correct; eauto. Qed.
(** C09, as-of part: the outcome does not depend on the schedule, sorted or not, for every key type. *)
Theorem C09_asof_groups : forall {K} lek ltk diff (minv maxv : K) hkey nkey tol exact likey rikey nl nr to_right n d r1 r2,
  length to_right = nl ->
  grouped_result lek ltk diff minv maxv hkey nkey tol exact likey rikey nl nr to_right n d r1 ->
  grouped_result lek ltk diff minv maxv hkey nkey tol exact likey rikey nl nr to_right n d r2 -> r1 = r2.
Proof. intros. eapply grouped_det; eauto. Qed.
(** ... and there is an outcome. *)
Theorem C09_asof_groups_exist : forall {K} lek ltk diff (minv maxv : K) hkey nkey tol exact likey rikey nl nr to_right n d,
  exists res, grouped_result lek ltk diff minv maxv hkey nkey tol exact likey rikey nl nr to_right n d res.
Proof. intros. apply grouped_exists. Qed.

(** C52: an unsorted left column is rejected whenever the right table has rows.  Missing: the
    right column, and an empty right table, see the refutations.  (Sorted columns without nulls are
    never rejected: C48-C50.) *)
Theorem C52_unsorted_left_partial : forall right left tol exact d,
  right <> [] -> ~ sorted_on anyrow left -> asof64 right left tol exact d = None.
Proof.
  intros right left tol exact d Ne U. destruct (asof64 right left tol exact d) as [out|] eqn:E; [|reflexivity].
  elim U. eapply asof_left_sorted; eauto.
Qed.
Theorem C52_unsorted_right_refuted : exists right left out,
  unsorted right /\ asof64 right left None true Backward = Some out /\ int64s right /\ int64s left.
Proof. exact right_unsorted_refuted. Qed.
Theorem C52_unsorted_right_wrong_refuted : exists right left j k y z,
  asof64 right left None true Backward = Some [Some j] /\ left = [4] /\
  nth_error right j = Some y /\ nth_error right k = Some z /\ y < z <= 4.
Proof. exact right_unsorted_wrong. Qed.
Theorem C52_unsorted_left_empty_right_refuted : exists left out,
  unsorted left /\ asof64 [] left None true Backward = Some out.
Proof. exact left_unsorted_empty_refuted. Qed.
(** sorted float columns starting with -infinity are rejected as unsorted *)
Theorem C52_infinity_refuted : exists right left, sorted_fl right /\ sorted_fl left /\
  forall fmin fmax sub exact, asof_fl fmin fmax sub right left exact Backward = None.
Proof. exact infinity_refuted. Qed.

(** C53: the index type holds every row number; its smallest value, the marker, is none of them. *)
Theorem C53_index_width : forall n r, 0 <= r < n -> n < 2 ^ 63 ->
  let b := fancyindex_bits n in
  - 2 ^ (b - 1) <= r <= 2 ^ (b - 1) - 1 /\ r <> - 2 ^ (b - 1).
Proof. exact fancyindex_width. Qed.

(** C70: within the int64 range of differences, no two rows farther apart than the tolerance are
    matched, in any direction.  Missing: larger differences, where it is false (below). *)
Theorem C70_tolerance_partial : forall right left t exact d out i r x y,
  int64s right -> int64s left -> sorted_on anyrow right -> sorted_on anyrow left ->
  no_wrap left right -> no_wrap right left ->
  asof64 right left (Some t) exact d = Some out ->
  nth_error out i = Some (Some r) -> nth_error left i = Some x -> nth_error right r = Some y -> Z.abs (x - y) <= t.
Proof.
  intros right left t exact d out i r x y Ir Il Sr Sl N1 N2 H Ho Hx Hy.
  assert (B : backward_match anyrow right (Some t) exact x (Some r) -> Z.abs (x - y) <= t).
  { intros (y' & (_ & Hy' & P & _) & T). assert (y' = y) by congruence. subst y'. unfold precedes in P. cbn [tolerated] in T.
    destruct exact; lia. }
  assert (F : forward_match anyrow right (Some t) exact x (Some r) -> Z.abs (x - y) <= t).
  { intros (y' & (_ & Hy' & P & _) & T). assert (y' = y) by congruence. subst y'. unfold follows in P. cbn [tolerated] in T.
    destruct exact; lia. }
  destruct d.
  - destruct (C48_backward right left (Some t) exact Ir Il Sr Sl (or_intror N1)) as (o & E & L & R).
    rewrite E in H. injection H as <-. apply B. eapply R; eauto.
  - destruct (C49_forward right left (Some t) exact Ir Il Sr Sl (or_intror N2)) as (o & E & L & R).
    rewrite E in H. injection H as <-. apply F. eapply R; eauto.
  - destruct (C50_nearest right left (Some t) exact Ir Il Sr Sl N1 N2) as (o & E & L & R).
    rewrite E in H. injection H as <-. destruct (R i x (Some r) Hx Ho) as (b & f & Hb & Hf & C).
    destruct b as [j|]; [|apply F; rewrite C; exact Hf]. destruct f as [k|]; [|apply B; rewrite C; exact Hb].
    assert (Eb : exists yj, nth_error right j = Some yj) by (destruct Hb as (yj & (_ & ? & _) & _); eauto).
    assert (Ef : exists yk, nth_error right k = Some yk) by (destruct Hf as (yk & (_ & ? & _) & _); eauto).
    destruct Eb as [yj Ej], Ef as [yk Ek]. destruct (C _ _ Ej Ek) as [C1 C2].
    destruct (Z.le_gt_cases (x - yj) (yk - x)); [apply B; rewrite (C1 ltac:(lia)); exact Hb|apply F; rewrite (C2 ltac:(lia)); exact Hf].
Qed.
Print Assumptions C70_tolerance_partial.
(** C70: rows farther apart than the tolerance are matched when the subtraction overflows. *)
Theorem C70_far_apart_refuted : exists right left tol,
  int64s right /\ int64s left /\ sorted_on anyrow right /\ sorted_on anyrow left /\
  asof64 right left (Some tol) true Backward = Some [Some O] /\
  ~ backward_match anyrow right (Some tol) true (2 ^ 62) (Some O) /\ nth_error left 0 = Some (2 ^ 62).
Proof. exact wrap_refuted. Qed.

(** *** non-vacuity *)
Definition ex_right : list Z := [1; 3; 3; 7].
Definition ex_left : list Z := [0; 3; 5; 20].
Example asof_case :
  int64s ex_right /\ int64s ex_left /\ sorted_on anyrow ex_right /\ sorted_on anyrow ex_left /\
  no_wrap ex_left ex_right /\ no_wrap ex_right ex_left /\
  asof64 ex_right ex_left (Some 10) true Backward = Some [None; Some 2%nat; Some 2%nat; None] /\
  asof64 ex_right ex_left (Some 10) true Forward = Some [Some 0%nat; Some 1%nat; Some 3%nat; None] /\
  asof64 ex_right ex_left (Some 10) false Nearest = Some [Some 0%nat; Some 0%nat; Some 2%nat; None].
Proof.
  assert (S : forall l, (forall p, (S p < length l)%nat -> key_of l p <= key_of l (S p)) -> sorted_on anyrow l) by exact adjacent_sorted.
  split; [repeat constructor; lia|]. split; [repeat constructor; lia|].
  split; [apply S; intros [|[|[|p]]] H; cbn in *; lia|]. split; [apply S; intros [|[|[|p]]] H; cbn in *; lia|].
  split; [|split].
  - intros x y Hx Hy. cbn in Hx, Hy. lia.
  - intros x y Hx Hy. cbn in Hx, Hy. lia.
  - vm_compute. auto.
Qed.
Definition ex_lby : list (option nat) := [Some 5; None; Some 6; Some 5]%nat.
Definition ex_rby : list (option nat) := [Some 6; Some 5; Some 5; None]%nat.
Example grouped_case :
  grouping_of ex_lby (uniques Nat.eqb ex_lby) (ikeys Nat.eqb ex_lby) /\
  grouping_of ex_rby (uniques Nat.eqb ex_rby) (ikeys Nat.eqb ex_rby) /\
  grouped_result Z.leb Z.ltb diff64 min_valid64 max_valid64 (key_of ex_right) (key_of ex_left) None true
    (ikeys Nat.eqb ex_lby) (ikeys Nat.eqb ex_rby) 2 2 (lookup Nat.eqb (uniques Nat.eqb ex_lby) (uniques Nat.eqb ex_rby)) 4
    Backward (Some [None; None; Some 0%nat; Some 2%nat]).
Proof.
  split; [apply ikeys_grouping; exact Nat.eqb_eq|]. split; [apply ikeys_grouping; exact Nat.eqb_eq|].
  pose proof (gr_back Z.leb Z.ltb diff64 min_valid64 max_valid64 (key_of ex_right) (key_of ex_left) None true
    (ikeys Nat.eqb ex_lby) (ikeys Nat.eqb ex_rby) 2 2 (lookup Nat.eqb (uniques Nat.eqb ex_lby) (uniques Nat.eqb ex_rby)) 4 _
    (SchedFacts.interleave_serial _)) as H.
  match type of H with grouped_result _ _ _ _ _ _ _ _ _ _ _ _ _ _ _ _ ?r => 
    assert (E : r = Some [None; None; Some 0%nat; Some 2%nat]) by (vm_compute; reflexivity) end.
  rewrite E in H. exact H.
Qed.
Example unsorted_case : ~ sorted_on anyrow [3; 1].
Proof. intros S. specialize (S 0%nat 1%nat 3 1 I I ltac:(lia) eq_refl eq_refl). lia. Qed.

Print Assumptions C48_backward. Print Assumptions C49_forward. Print Assumptions C50_nearest.
Print Assumptions C51_grouped. Print Assumptions C09_asof_groups. Print Assumptions C52_unsorted_left_partial.
Print Assumptions C52_infinity_refuted. Print Assumptions C53_index_width. Print Assumptions C70_far_apart_refuted.
Print Assumptions C09_asof_groups_exist.
Print Assumptions C52_unsorted_right_refuted.
Print Assumptions C52_unsorted_right_wrong_refuted.
Print Assumptions C52_unsorted_left_empty_right_refuted.
