(** Vocabulary for the statements about where and item assignment (WhereProps.v). *)
From Coq Require Import List Arith ZArith Bool.
From Verif Require Import LosslessModel WhereModel.
Import ListNotations.
Open Scope Z_scope.

(** the element an operand gives for row [i]: one element serves all rows *)
Definition row_at {X} (l : list X) (i : nat) : option X := match l with [a] => Some a | _ => nth_error l i end.
Definition operand_at (o : operand) (i : nat) : option value :=
  match o with OArr _ l => row_at l i | OInt z => Some (Some (z * one)) end.
(** an array of numbers of its type, of one element or as many as there are rows *)
Definition operand_ok (n : nat) (o : operand) : Prop :=
  match o with OArr d l => (length l = 1%nat \/ length l = n) /\ Forall (holds_value d) l | OInt z => - 2 ^ 63 < z < 2 ^ 64 - 1 end.
(** x where the condition is true, else y *)
Definition chosen {X} (cond : list bool) (x y : nat -> option X) (i : nat) : option X :=
  match nth_error cond i with Some true => x i | Some false => y i | None => None end.
(** the value assigned to position [i]: that of its last occurrence among the positions *)
Fixpoint last_put {X} (idx : list nat) (vals : list X) (i : nat) : option X :=
  match idx, vals with
  | j :: idx, v :: vals => match last_put idx vals i with Some w => Some w | None => if (j =? i)%nat then Some v else None end
  | _, _ => None
  end.
(** what is assigned to the positions, one after the other *)
Definition rows_of (o : operand) (n : nat) : list value :=
  match o with OArr _ [a] => repeat a n | OArr _ l => l | OInt z => repeat (Some (z * one)) n end.
