(** Independent vocabulary for the statements about whole-table operations. *)
From Coq Require Import List Arith Bool.
From Verif Require Import FlattenModel.
Import ListNotations.

(** the value of column [n] in row [i] *)
Definition cell_of {V} (t : list (name * list V)) (n : name) (i : nat) : option V :=
  match dget n t with Some c => nth_error c i | None => None end.

(** the rows holding the same key as row [i] *)
Definition seen_before {B} (keys : list B) (i : nat) : Prop :=
  exists j, j < i /\ nth_error keys j = nth_error keys i.
Definition seen_after {B} (keys : list B) (i : nat) : Prop :=
  exists j, i < j < length keys /\ nth_error keys j = nth_error keys i.

(** all combinations of one value from each list, the first list varying fastest *)
Fixpoint combinations {V} (ls : list (list V)) : list (list V) :=
  match ls with
  | [] => [[]]
  | l :: r => flat_map (fun rest => map (fun x => x :: rest) l) (combinations r)
  end.

(** a list of names without repetitions, in the order of first occurrence *)
Fixpoint first_seen (l : list name) : list name :=
  match l with
  | [] => []
  | n :: r => n :: filter (fun m => if name_dec m n then false else true) (first_seen r)
  end.
(** the first / the last table having a column [n] *)
Fixpoint first_having {V} (ts : list (list (name * list V))) (n : name) : option (list V) :=
  match ts with
  | [] => None
  | t :: r => match dget n t with Some c => Some c | None => first_having r n end
  end.
Definition last_having {V} (ts : list (list (name * list V))) (n : name) : option (list V) := first_having (rev ts) n.

(** what dataset [d] (its number of rows and columns) contributes to the stacked column [n] *)
Definition piece {V} (inv : name -> V) (n : name) (rows : nat) (t : list (name * list V)) : list V :=
  match dget n t with Some c => c | None => repeat (inv n) rows end.

(** [t'] consists of the rows [rs] of [t], in that order, in the columns [ns] *)
Definition taken {V} (t' t : list (name * list V)) (rs : list nat) (ns : list name) : Prop :=
  map fst t' = ns /\
  forall n q, In n ns -> cell_of t' n q = match nth_error rs q with Some i => cell_of t n i | None => None end.
(** strictly increasing row numbers *)
Definition in_order (rs : list nat) : Prop := forall a b x y, nth_error rs a = Some x -> nth_error rs b = Some y -> a < b -> x < y.
