(** Vocabulary for the statements about time arithmetic (C165-C168): what an element means in nanoseconds. *)
From Coq Require Import List ZArith Bool.
From Verif Require Import TmModel.
Import ListNotations.
Open Scope Z_scope.

Definition day : Z := 86400 * 10 ^ 9.
(** the point in time or the span that an element shows, in nanoseconds (points: since 1970 UTC); None: invalid *)
Definition meaning (k : kind) (x : option Z) : option Z :=
  match k, x with
  | _, None => None
  | KDate, Some d => if (d =? 0) || (d =? - 2 ^ 31) then None else Some (d * day)
  | KDateSpan, Some d => if d =? - 2 ^ 31 then None else Some (d * day)
  | KNano, Some n => if (n =? 0) || (n =? - 2 ^ 63) then None else Some n
  | KTimeSpan, Some n => Some n
  end.
(** valid results that an array of the class can hold exactly *)
Definition fits (k : kind) (z : Z) : Prop :=
  match k with
  | KDate => z <> 0 /\ - 2 ^ 31 * day < z < 2 ^ 31 * day
  | KDateSpan => - 2 ^ 31 * day < z < 2 ^ 31 * day
  | KNano => z <> 0 /\ - 2 ^ 63 < z < 2 ^ 63
  | KTimeSpan => - 2 ^ 53 <= z <= 2 ^ 53
  end.
(** what an element can be *)
Definition stored (k : kind) (x : option Z) : Prop :=
  match k, x with
  | (KDate | KDateSpan), Some z => - 2 ^ 31 <= z < 2 ^ 31
  | KNano, Some z => - 2 ^ 63 <= z < 2 ^ 63
  | KTimeSpan, Some z => - 2 ^ 53 <= z <= 2 ^ 53
  | KTimeSpan, None => True
  | _, None => False
  end.
(** classes: point + span, span + point and span + span; point - point, point - span and span - span *)
Definition add_kind (ka kb : kind) : option kind :=
  match ka, kb with
  | KDate, KDateSpan | KDateSpan, KDate => Some KDate
  | KDate, KTimeSpan | KTimeSpan, KDate => Some KNano
  | KNano, (KDateSpan | KTimeSpan) | (KDateSpan | KTimeSpan), KNano => Some KNano
  | KDateSpan, KDateSpan => Some KDateSpan
  | KDateSpan, KTimeSpan | KTimeSpan, KDateSpan | KTimeSpan, KTimeSpan => Some KTimeSpan
  | (KDate | KNano), (KDate | KNano) => None
  end.
Definition sub_kind (ka kb : kind) : option kind :=
  match ka, kb with
  | KDate, KDate => Some KDateSpan
  | KDate, KNano | KNano, KDate | KNano, KNano => Some KTimeSpan
  | KDate, KDateSpan => Some KDate
  | KDate, KTimeSpan => Some KNano
  | KNano, (KDateSpan | KTimeSpan) => Some KNano
  | KDateSpan, KDateSpan => Some KDateSpan
  | KDateSpan, KTimeSpan | KTimeSpan, KDateSpan | KTimeSpan, KTimeSpan => Some KTimeSpan
  | (KDateSpan | KTimeSpan), (KDate | KNano) => None
  end.
Definition both (f : Z -> Z -> Z) (x y : option Z) : option Z := match x, y with Some u, Some v => Some (f u v) | _, _ => None end.
(** the element of row i; an array of length 1 stands for all rows *)
Definition at_row (l : cells) (i : nat) : option (option Z) := match l with [x] => Some x | _ => nth_error l i end.
(** arrays of n rows; one of them may have length 1 *)
Definition rows (n : nat) (a b : cells) : Prop :=
  (length a = n /\ (length b = n \/ length b = 1%nat)) \/ (length a = 1%nat /\ length b = n).
Definition all_valid (k : kind) (l : cells) : Prop := Forall (fun x => meaning k x <> None) l.
(** row i of [r] shows [f] of row i of a and of b, and is invalid if one of them is *)
Definition rowwise (f : Z -> Z -> Z) (n : nat) (ka : kind) (a : cells) (kb : kind) (b : cells) (k : kind) (r : cells) : Prop :=
  length r = n /\ Forall (stored k) r /\
  forall i x y, (i < n)%nat -> at_row a i = Some x -> at_row b i = Some y ->
    exists w, nth_error r i = Some w /\ meaning k w = both f (meaning ka x) (meaning kb y).
(** every valid result can be held *)
Definition all_fit (f : Z -> Z -> Z) (n : nat) (ka : kind) (a : cells) (kb : kind) (b : cells) (k : kind) : Prop :=
  forall i x y z, (i < n)%nat -> at_row a i = Some x -> at_row b i = Some y -> both f (meaning ka x) (meaning kb y) = Some z -> fits k z.
(** the cases of + and - without the defects shown by the refuted theorems *)
Definition add_covered (n : nat) (ka : kind) (a : cells) (kb : kind) (b : cells) : Prop :=
  match ka, kb with
  | KTimeSpan, (KDate | KNano) => length b = n
  | KTimeSpan, KDateSpan => length b = n \/ all_valid kb b
  | KTimeSpan, KTimeSpan => True
  | KDateSpan, (KNano | KTimeSpan) => length a = n /\ all_valid ka a /\ all_valid kb b
  | _, _ => length a = n
  end.
Definition sub_covered (n : nat) (ka : kind) (a : cells) (kb : kind) (b : cells) : Prop :=
  match ka, kb with
  | KTimeSpan, KDateSpan => False
  | KTimeSpan, _ | KDate, KDate | KNano, KNano => True
  | KDate, KNano => ~ In (Some (- 2 ^ 31)) a
  | KNano, KDate => ~ In (Some (- 2 ^ 31)) b
  | KDateSpan, KTimeSpan => length a = n /\ all_valid ka a /\ all_valid kb b
  | _, _ => length a = n
  end.
