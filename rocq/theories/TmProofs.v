(** Proofs about time arithmetic. *)
From Coq Require Import List Arith ZArith Bool Lia.
From Verif Require Import DateTables DateModel TmModel TmSpec.
Import ListNotations.
Open Scope Z_scope.

Lemma NPD : NANOS_PER_DAY = day. Proof. reflexivity. Qed.
Lemma I32 : INVALID_32 = - 2 ^ 31. Proof. reflexivity. Qed.
Lemma I64 : INVALID_64 = - 2 ^ 63. Proof. reflexivity. Qed.

Lemma at_row_bcast n l i x : length l = n \/ length l = 1%nat -> (i < n)%nat -> at_row l i = Some x -> nth_error (bcast n l) i = Some x.
Proof.
  intros H L A. destruct l as [|y [|z l]]; cbn [at_row bcast] in *.
  - exact A.
  - inversion A; subst. apply nth_error_repeat; auto.
  - exact A.
Qed.
Lemma at_row_some n l i : length l = n \/ length l = 1%nat -> (i < n)%nat -> exists x, at_row l i = Some x.
Proof.
  intros H L. destruct l as [|y [|z l]]; cbn [at_row].
  - cbn in H. lia.
  - eauto.
  - cbn [length] in H. destruct (nth_error (y :: z :: l) i) eqn:E; [eauto|].
    apply nth_error_None in E. cbn [length] in E. lia.
Qed.
Lemma at_row_in l i x : at_row l i = Some x -> In x l.
Proof. destruct l as [|y [|z l]]; cbn [at_row]; intros H; [destruct i; discriminate| inversion H; left; auto | eapply nth_error_In; eauto]. Qed.
Lemma at_row_map f l i x : at_row l i = Some x -> at_row (map f l) i = Some (f x).
Proof. destruct l as [|y [|z l]]; intros H; [destruct i; discriminate| inversion H; reflexivity|]. exact (map_nth_error f i (y :: z :: l) H). Qed.
Lemma bcast_length {X} n (l : list X) : length l = n \/ length l = 1%nat -> length (bcast n l) = n.
Proof. destruct l as [|y [|z l]]; cbn [bcast]; intros H; [cbn in *; lia| apply repeat_length| cbn [length] in *; lia]. Qed.
Lemma nth_combine {A B} : forall (l : list A) (m : list B) i x y,
  nth_error l i = Some x -> nth_error m i = Some y -> nth_error (combine l m) i = Some (x, y).
Proof. induction l; intros [|b m] [|i] x y H1 H2; cbn in *; try discriminate; [congruence|eauto]. Qed.
Lemma rows_max n a b : (1 <= n)%nat -> rows n a b -> Nat.max (length a) (length b) = n.
Proof. unfold rows. lia. Qed.
Lemma zip_length op n a b : (1 <= n)%nat -> rows n a b -> length (zip op a b) = n.
Proof.
  intros N R. unfold zip. cbn zeta. rewrite map_length, (rows_max n), combine_length by auto.
  rewrite !bcast_length; unfold rows in R; lia.
Qed.
Lemma zip_at op n a b i x y : rows n a b -> (i < n)%nat -> at_row a i = Some x -> at_row b i = Some y ->
  nth_error (zip op a b) i = Some (op x y).
Proof.
  intros R L A B. unfold zip. cbn zeta. rewrite (rows_max n) by (auto; lia).
  apply (map_nth_error (fun p => op (fst p) (snd p)) i (combine (bcast n a) (bcast n b)) (d := (x, y))).
  apply nth_combine; apply at_row_bcast; unfold rows in R; auto; lia.
Qed.
Lemma putmask_length {A} : forall (d : list A) m v, length (putmask_val d m v) = length d.
Proof. induction d; intros [|b m] v; cbn; auto. Qed.
Lemma putmask_at {A} : forall (d : list A) m v i x b, nth_error d i = Some x -> nth_error m i = Some b ->
  nth_error (putmask_val d m v) i = Some (if b then v else x).
Proof. induction d; intros [|c m] v [|i] x b H1 H2; cbn in *; try discriminate; [inversion H1; inversion H2; reflexivity|eauto]. Qed.

(** one row of an operation followed by the masks *)
Lemma rows_map n f g a b : rows n a b -> rows n (map f a) (map g b).
Proof. unfold rows. now rewrite !map_length. Qed.
Lemma nth_bcast_map {X} (g : option Z -> X) n l i x : length l = n \/ length l = 1%nat -> (i < n)%nat -> at_row l i = Some x ->
  nth_error (bcast n (map g l)) i = Some (g x).
Proof.
  intros H L A. destruct l as [|y [|z l]].
  - destruct i; discriminate.
  - cbn [at_row map bcast] in *. inversion A; subst. apply nth_error_repeat; auto.
  - exact (map_nth_error g i (y :: z :: l) A).
Qed.
Lemma mask_row op f g h1 h2 fill inv n a b : (2 <= n)%nat -> length a = n -> length b = n \/ length b = 1%nat ->
  let r := apply_mask a (zip op (map f a) (map g b)) (map h1 a) (map h2 b) fill inv in
  length r = n /\ forall i x y, (i < n)%nat -> at_row a i = Some x -> at_row b i = Some y ->
    nth_error r i = Some (if h1 x || h2 y then fill else op (f x) (g y)).
Proof.
  intros N La Lb. cbn zeta.
  assert (R : rows n (map f a) (map g b)) by (apply rows_map; left; auto).
  assert (Z : length (zip op (map f a) (map g b)) = n) by (apply zip_length; auto; lia).
  assert (E : apply_mask a (zip op (map f a) (map g b)) (map h1 a) (map h2 b) fill inv =
    putmask_val (putmask_val (zip op (map f a) (map g b)) (map h1 a) fill) (bcast n (map h2 b)) fill).
  { unfold apply_mask. rewrite Z. destruct a as [|p [|q a]]; auto. cbn in La. lia. }
  rewrite E. split; [now rewrite !putmask_length|].
  intros i x y L A B.
  assert (A' : nth_error a i = Some x) by (destruct a as [|p [|q a]]; cbn in La; [lia|lia|exact A]).
  rewrite (putmask_at _ _ fill i (if h1 x then fill else op (f x) (g y)) (h2 y)).
  - destruct (h1 x), (h2 y); reflexivity.
  - apply putmask_at; [|now apply map_nth_error].
    apply (zip_at op n); auto; now apply at_row_map.
  - apply nth_bcast_map; auto.
Qed.

Lemma forall_rows n a b (P : option Z -> Prop) r : rows n a b -> length r = n ->
  (forall i x y, (i < n)%nat -> at_row a i = Some x -> at_row b i = Some y -> exists w, nth_error r i = Some w /\ P w) -> Forall P r.
Proof.
  intros R L H. apply Forall_forall. intros w W. apply In_nth_error in W as [i W].
  assert (I : (i < n)%nat) by (rewrite <- L; apply nth_error_Some; congruence).
  destruct (at_row_some n a i) as [x A]; [unfold rows in R; lia|auto|].
  destruct (at_row_some n b i) as [y B]; [unfold rows in R; lia|auto|].
  destruct (H i x y I A B) as [w' [E Q]]. congruence.
Qed.
(** rowwise from one-row facts *)
Lemma rowwise_intro f n ka a kb b k r : (1 <= n)%nat -> rows n a b -> length r = n ->
  (forall i x y, (i < n)%nat -> at_row a i = Some x -> at_row b i = Some y ->
     exists w, nth_error r i = Some w /\ meaning k w = both f (meaning ka x) (meaning kb y) /\ stored k w) ->
  rowwise f n ka a kb b k r.
Proof.
  intros N R L H. split; [exact L|]. split.
  - apply (forall_rows n a b); auto. intros i x y I A B. destruct (H i x y I A B) as [w [E [_ S]]]. eauto.
  - intros i x y I A B. destruct (H i x y I A B) as [w [E [M _]]]. eauto.
Qed.

Definition sc (big : Z) (x : option Z) : option Z :=
  match x with Some d => Some (if d =? INVALID_32 then big else d * NANOS_PER_DAY) | None => None end.
Definition i64 (x : option Z) : option Z := match x with Some z => Some z | None => Some INVALID_64 end.
Lemma scale_map big l : scale big l = map (sc big) l. Proof. reflexivity. Qed.
Lemma i64_map l : to_int64 l = map i64 l. Proof. reflexivity. Qed.
Lemma map_same (l : cells) : l = map (fun x => x) l. Proof. now rewrite map_id. Qed.

Ltac consts := unfold sc in *; rewrite ?NPD in *; unfold sc, i64, isnan, num_is, stored, meaning, fits, both, calc, day, INVALID_32, INVALID_64 in *; cbn [orb andb] in *.
Ltac dz := repeat match goal with
  | H : context [?a =? ?b] |- _ => destruct (Z.eqb_spec a b)
  | |- context [?a =? ?b] => destruct (Z.eqb_spec a b)
  end.
Lemma stored_in k l i x : Forall (stored k) l -> at_row l i = Some x -> stored k x.
Proof. intros F A. apply at_row_in in A. rewrite Forall_forall in F; auto. Qed.
Lemma valid_in k l i x : all_valid k l -> at_row l i = Some x -> meaning k x <> None.
Proof. intros F A. apply at_row_in in A. unfold all_valid in F. rewrite Forall_forall in F; auto. Qed.
