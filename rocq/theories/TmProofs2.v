(** Proofs about time arithmetic, continued: sums, differences and in-place operations. *)
From Coq Require Import List Arith ZArith Bool Lia.
From Verif Require Import DateTables DateModel TmModel TmSpec TmProofs.
Import ListNotations.
Open Scope Z_scope.

(** the masked operations *)
Lemma masked op f g h1 h2 fill inv F n ka a kb b k : (2 <= n)%nat -> length a = n -> length b = n \/ length b = 1%nat ->
  Forall (stored ka) a -> Forall (stored kb) b -> all_fit F n ka a kb b k ->
  (forall x y, In x a -> In y b -> stored ka x -> stored kb y -> (forall z, both F (meaning ka x) (meaning kb y) = Some z -> fits k z) ->
     let w := if h1 x || h2 y then fill else op (f x) (g y) in
     meaning k w = both F (meaning ka x) (meaning kb y) /\ stored k w) ->
  rowwise F n ka a kb b k (apply_mask a (zip op (map f a) (map g b)) (map h1 a) (map h2 b) fill inv).
Proof.
  intros N La Lb Sa Sb Fit H.
  destruct (mask_row op f g h1 h2 fill inv n a b N La Lb) as [L R].
  apply rowwise_intro; [lia|left; auto|exact L|]. intros i x y I A B.
  exists (if h1 x || h2 y then fill else op (f x) (g y)). split; [exact (R i x y I A B)|].
  apply H; try (eapply at_row_in; eauto); [eapply stored_in; eauto|eapply stored_in; eauto|].
  intros z Z. exact (Fit i x y z I A B Z).
Qed.
Lemma plain op f g F n ka a kb b k : (2 <= n)%nat -> rows n a b ->
  Forall (stored ka) a -> Forall (stored kb) b -> all_fit F n ka a kb b k ->
  (forall x y, In x a -> In y b -> stored ka x -> stored kb y -> (forall z, both F (meaning ka x) (meaning kb y) = Some z -> fits k z) ->
     let w := op (f x) (g y) in meaning k w = both F (meaning ka x) (meaning kb y) /\ stored k w) ->
  rowwise F n ka a kb b k (zip op (map f a) (map g b)).
Proof.
  intros N R Sa Sb Fit H.
  apply rowwise_intro; [lia|auto|apply zip_length; [lia|now apply rows_map]|]. intros i x y I A B.
  exists (op (f x) (g y)). split; [apply (zip_at op n); auto; try (now apply rows_map); now apply at_row_map|].
  apply H; try (eapply at_row_in; eauto); [eapply stored_in; eauto|eapply stored_in; eauto|].
  intros z Z. exact (Fit i x y z I A B Z).
Qed.

Lemma scale_ne0 d : d <> 0 -> d * day <> 0. Proof. unfold day. lia. Qed.
Ltac fin H := consts; dz; cbn [orb andb] in *; dz; cbn [orb andb] in *; try (specialize (H _ eq_refl));
  (split; [try reflexivity; try (f_equal; lia); try (exfalso; lia) | try exact I; try lia ]); try lia.



Definition op_of (plus : bool) : Z -> Z -> Z := if plus then Z.add else Z.sub.
Lemma masked' op f g h1 h2 fill inv F n ka a kb b k a' v : a' = map f a -> v = map g b ->
  (2 <= n)%nat -> length a = n -> length b = n \/ length b = 1%nat ->
  Forall (stored ka) a -> Forall (stored kb) b -> all_fit F n ka a kb b k ->
  (forall x y, In x a -> In y b -> stored ka x -> stored kb y -> (forall z, both F (meaning ka x) (meaning kb y) = Some z -> fits k z) ->
     let w := if h1 x || h2 y then fill else op (f x) (g y) in
     meaning k w = both F (meaning ka x) (meaning kb y) /\ stored k w) ->
  rowwise F n ka a kb b k (apply_mask a (zip op a' v) (map h1 a) (map h2 b) fill inv).
Proof. intros -> ->. apply masked. Qed.
Lemma plain' op f g F n ka a kb b k a' v : a' = map f a -> v = map g b -> (2 <= n)%nat -> rows n a b ->
  Forall (stored ka) a -> Forall (stored kb) b -> all_fit F n ka a kb b k ->
  (forall x y, In x a -> In y b -> stored ka x -> stored kb y -> (forall z, both F (meaning ka x) (meaning kb y) = Some z -> fits k z) ->
     let w := op (f x) (g y) in meaning k w = both F (meaning ka x) (meaning kb y) /\ stored k w) ->
  rowwise F n ka a kb b k (zip op a' v).
Proof. intros -> ->. apply plain. Qed.
Ltac go f g := apply (masked' _ f g); auto; try (symmetry; apply map_id).
Ltac goz f g := apply (plain' _ f g); auto; try (symmetry; apply map_id).
Definition idc (x : option Z) := x.
Ltac row := match goal with |- forall x y, _ => let S1 := fresh in let S2 := fresh in let H := fresh "H" in
  let Ix := fresh in let Iy := fresh in
  intros x y Ix Iy S1 S2 H; cbn zeta; unfold op_of in *; destruct x as [x|]; destruct y as [y|]; try (cbn in S1; tauto); try (cbn in S2; tauto); unfold idc; fin H end.
Section Row.
Variable big : Z.
Variable plus : bool.
Section Pair.
Variables (n : nat) (a b : cells).
Hypothesis N : (2 <= n)%nat.
Hypothesis La : length a = n.
Hypothesis Lb : length b = n \/ length b = 1%nat.

Lemma date_datespan : Forall (stored KDate) a -> Forall (stored KDateSpan) b -> all_fit (op_of plus) n KDate a KDateSpan b KDate ->
  rowwise (op_of plus) n KDate a KDateSpan b KDate
    (apply_mask a (zip (calc plus) a b) (map (isnan KDate) a) (map (isnan KDateSpan) b) (Some 0) (Some INVALID_32)).
Proof.
  intros Sa Sb Fit. go idc idc. destruct plus; row.
Qed.
Lemma date_timespan : Forall (stored KDate) a -> Forall (stored KTimeSpan) b -> all_fit (op_of plus) n KDate a KTimeSpan b KNano ->
  rowwise (op_of plus) n KDate a KTimeSpan b KNano
    (apply_mask a (zip (calc plus) (scale big a) (to_int64 b)) (map (isnan KDate) a) (map (isnan KTimeSpan) b) (Some 0) (Some INVALID_64)).
Proof.
  intros Sa Sb Fit. go (sc big) i64. destruct plus; row.
Qed.
Lemma datespan_datespan : Forall (stored KDateSpan) a -> Forall (stored KDateSpan) b -> all_fit (op_of plus) n KDateSpan a KDateSpan b KDateSpan ->
  rowwise (op_of plus) n KDateSpan a KDateSpan b KDateSpan
    (apply_mask a (zip (calc plus) a b) (map (isnan KDateSpan) a) (map (isnan KDateSpan) b) (Some INVALID_32) (Some INVALID_32)).
Proof.
  intros Sa Sb Fit. go idc idc. destruct plus; row.
Qed.
Lemma datespan_date : plus = true -> Forall (stored KDateSpan) a -> Forall (stored KDate) b -> all_fit (op_of plus) n KDateSpan a KDate b KDate ->
  rowwise (op_of plus) n KDateSpan a KDate b KDate
    (apply_mask a (zip (calc plus) a b) (map (isnan KDateSpan) a) (map (isnan KDate) b) (Some INVALID_32) (Some INVALID_32)).
Proof.
  intros -> Sa Sb Fit. go idc idc. row.
Qed.
Lemma nano_datespan : Forall (stored KNano) a -> Forall (stored KDateSpan) b -> all_fit (op_of plus) n KNano a KDateSpan b KNano ->
  rowwise (op_of plus) n KNano a KDateSpan b KNano
    (apply_mask a (zip (calc plus) a (scale big b)) (map (isnan KNano) a) (map (isnan KDateSpan) b) (Some 0) (Some INVALID_64)).
Proof.
  intros Sa Sb Fit. go idc (sc big). destruct plus; row.
Qed.
Lemma nano_timespan : Forall (stored KNano) a -> Forall (stored KTimeSpan) b -> all_fit (op_of plus) n KNano a KTimeSpan b KNano ->
  rowwise (op_of plus) n KNano a KTimeSpan b KNano
    (apply_mask a (zip (calc plus) a (to_int64 b)) (map (isnan KNano) a)
       (if plus then map (isnan KTimeSpan) b else map (num_is INVALID_64) (to_int64 b)) (Some 0) (Some INVALID_64)).
Proof.
  intros Sa Sb Fit. rewrite i64_map, map_map. destruct plus; go idc i64; row.
Qed.
Lemma datespan_timespan : all_valid KDateSpan a -> all_valid KTimeSpan b ->
  Forall (stored KDateSpan) a -> Forall (stored KTimeSpan) b -> all_fit (op_of plus) n KDateSpan a KTimeSpan b KTimeSpan ->
  rowwise (op_of plus) n KDateSpan a KTimeSpan b KTimeSpan
    (apply_mask a (zip (calc plus) (scale big a) b) (map (isnan KDateSpan) a) (map (isnan KTimeSpan) b) (Some INVALID_32) None).
Proof.
  intros Va Vb Sa Sb Fit. go (sc big) idc. unfold all_valid in *. rewrite Forall_forall in Va, Vb.
  intros x y Ix Iy. specialize (Va x Ix); specialize (Vb y Iy). clear Ix Iy. intros S1 S2 H; cbn zeta.
  destruct x as [x|]; destruct y as [y|]; try (cbn in S1; tauto); try (cbn in Vb; congruence). unfold idc, op_of in *. destruct plus; fin H; congruence.
Qed.
Lemma datespan_nano : plus = true -> all_valid KDateSpan a -> all_valid KNano b ->
  Forall (stored KDateSpan) a -> Forall (stored KNano) b -> all_fit (op_of plus) n KDateSpan a KNano b KNano ->
  rowwise (op_of plus) n KDateSpan a KNano b KNano
    (apply_mask a (zip (calc plus) (scale big a) b) (map (isnan KDateSpan) a) (map (isnan KNano) b) (Some INVALID_32) (Some INVALID_64)).
Proof.
  intros -> Va Vb Sa Sb Fit. go (sc big) idc. unfold all_valid in *. rewrite Forall_forall in Va, Vb.
  intros x y Ix Iy. specialize (Va x Ix); specialize (Vb y Iy). clear Ix Iy. intros S1 S2 H; cbn zeta.
  destruct x as [x|]; destruct y as [y|]; try (cbn in S1; tauto); try (cbn in S2; tauto). unfold idc, op_of in *. fin H; congruence.
Qed.
End Pair.
End Row.
