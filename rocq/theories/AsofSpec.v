(** Specification of as-of matching, independent of the model's helpers.

    [right] is the right 'on' column; [cand j] says which right rows may be matched (all of them,
    or those with the left row's 'by' key). *)
From Coq Require Import List Arith ZArith Bool.
Import ListNotations.
Open Scope Z_scope.

(** on column sorted (among the candidate rows) *)
Definition sorted_on (cand : nat -> Prop) (l : list Z) : Prop :=
  forall i j x y, cand i -> cand j -> (i < j)%nat -> nth_error l i = Some x -> nth_error l j = Some y -> x <= y.
Definition anyrow : nat -> Prop := fun _ => True.
(** non-null int64 values *)
Definition int64s (l : list Z) : Prop := Forall (fun x => - 2 ^ 63 < x < 2 ^ 63) l.

Definition tolerated (tol : option Z) (distance : Z) : Prop :=
  match tol with None => True | Some t => distance <= t end.

Section Match.
Variables (cand : nat -> Prop) (right : list Z) (tol : option Z) (exact : bool).
Definition precedes (y x : Z) : Prop := if exact then y <= x else y < x.
Definition follows (y x : Z) : Prop := if exact then x <= y else x < y.

(** row [j] (with value [y]) is the last candidate not after [x] / the first not before [x] *)
Definition last_before (x : Z) (j : nat) (y : Z) : Prop :=
  cand j /\ nth_error right j = Some y /\ precedes y x /\
  forall k z, cand k -> nth_error right k = Some z -> (j < k)%nat -> ~ precedes z x.
Definition first_after (x : Z) (j : nat) (y : Z) : Prop :=
  cand j /\ nth_error right j = Some y /\ follows y x /\
  forall k z, cand k -> nth_error right k = Some z -> (k < j)%nat -> ~ follows z x.

(** the match of a left value [x] is [r] ([None]: no match) *)
Definition backward_match (x : Z) (r : option nat) : Prop :=
  match r with
  | Some j => exists y, last_before x j y /\ tolerated tol (x - y)
  | None => (forall k z, cand k -> nth_error right k = Some z -> ~ precedes z x) \/
            (exists j y, last_before x j y /\ ~ tolerated tol (x - y))
  end.
Definition forward_match (x : Z) (r : option nat) : Prop :=
  match r with
  | Some j => exists y, first_after x j y /\ tolerated tol (y - x)
  | None => (forall k z, cand k -> nth_error right k = Some z -> ~ follows z x) \/
            (exists j y, first_after x j y /\ ~ tolerated tol (y - x))
  end.
(** the closer of the two, the backward one on ties *)
Definition nearest_match (x : Z) (r : option nat) : Prop :=
  exists b f, backward_match x b /\ forward_match x f /\
    match b, f with
    | None, _ => r = f
    | Some _, None => r = b
    | Some j, Some k => forall y z, nth_error right j = Some y -> nth_error right k = Some z ->
                          (x - y <= z - x -> r = b) /\ (z - x < x - y -> r = f)
    end.
End Match.

(** no difference of a value of [left] and one of [right] leaves int64 *)
Definition no_wrap (left right : list Z) : Prop :=
  forall x y, In x left -> In y right -> - 2 ^ 63 <= x - y < 2 ^ 63.
(** [P] relates each left value to the index found for it *)
Definition every_row (left : list Z) (out : list (option nat)) (P : Z -> option nat -> Prop) : Prop :=
  length out = length left /\ forall i x r, nth_error left i = Some x -> nth_error out i = Some r -> P x r.
Definition unsorted (l : list Z) : Prop := ~ sorted_on anyrow l.
