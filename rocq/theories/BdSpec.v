(** Vocabulary for the totals of two-way tables with bad rows and columns
    (C223, C224). *)
From Coq Require Import List Arith Bool Permutation.
From Verif Require Import FlattenModel.
Import ListNotations.

Section Bd.
  Context {V : Type}.
  (** an element of the array: the number of its row group and of its column
      group (from 1; 0: filtered), its value *)
  Record elt := mkE { e_row : nat; e_col : nat; e_val : V }.
  (** the values of the elements with a property *)
  Definition vals (p : elt -> bool) (data : list elt) : list V := map e_val (filter p data).
  (** functions such as a sum or a largest value: the order does not matter, and
      parts may be reduced first *)
  Definition regroups (f : list V -> V) : Prop :=
    (forall parts, f (concat parts) = f (map f parts)) /\ (forall l l', Permutation l l' -> f l = f l').
End Bd.

(** the bad rows (or columns) as given: numbers from 0, in a list or in a numpy
    array, or names *)
Inductive slots := Numbers (in_array : bool) (l : list nat) | Names (l : list name).
(** whether they mean group [code], given the names of the groups *)
Definition means (cats : list name) (s : slots) (code : nat) : Prop :=
  exists i, code = S i /\ match s with
                          | Numbers _ l => In i l
                          | Names l => exists n, nth_error cats i = Some n /\ In n l
                          end.
(** they are groups *)
Definition known (cats : list name) (s : slots) : Prop :=
  match s with Numbers _ l => forall i, In i l -> i < length cats | Names l => forall n, In n l -> In n cats end.
Definition bad (cats : list name) (s : option slots) (code : nat) : Prop := match s with Some s => means cats s code | None => False end.
Definition okay (cats : list name) (s : option slots) : Prop := match s with Some s => known cats s | None => True end.

(** [v] is the function of the values of exactly the items of [l] with [P], in
    their order *)
Definition reduces {A V} (f : list V -> V) (val : A -> V) (l : list A) (P : A -> Prop) (v : V) : Prop :=
  exists p, (forall a, In a l -> (p a = true <-> P a)) /\ v = f (map val (filter p l)).
(** group [code] has a row (column) of the table; [sf]: the filtered are shown too *)
Definition in_table (sf : bool) (cats : list name) (code : nat) : Prop := code <= length cats /\ (sf = true \/ 1 <= code).
(** the number of the first group shown *)
Definition first_code (sf : bool) : nat := if sf then 0 else 1.
(** filter= as a list: all True without one *)
Definition passes (flt : option (list bool)) (n : nat) : list bool := match flt with Some g => g | None => repeat true n end.
