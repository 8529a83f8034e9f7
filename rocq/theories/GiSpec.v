(** Vocabulary for the properties of iterating over groups, picking one group, and the columns a
    grouped call works on (C186-C191). *)
From Coq Require Import List Arith ZArith Bool Sorted.
From Verif Require Import FlattenModel GroupModel GroupingModel.
Import ListNotations.

Section Keys.
Context {K : Type}.
(** [keys]: the key of every row, [None] for a row that is in no group *)
Definition has_key (keys : list (option K)) (i : nat) (k : K) : Prop := nth_error keys i = Some (Some k).
(** [rows] are exactly the rows with key [k], in increasing order *)
Definition rows_having (keys : list (option K)) (k : K) (rows : list nat) : Prop :=
  StronglySorted lt rows /\ forall i, In i rows <-> has_key keys i k.
(** some row has the key *)
Definition used (keys : list (option K)) (k : K) : Prop := exists i, has_key keys i k.
(** the first / last row with the key *)
Definition first_row (keys : list (option K)) (k : K) (r : nat) : Prop :=
  has_key keys r k /\ forall i, has_key keys i k -> r <= i.
Definition last_row (keys : list (option K)) (k : K) (r : nat) : Prop :=
  has_key keys r k /\ forall i, has_key keys i k -> i <= r.
(** the keys of the rows passing a filter *)
Definition only (f : list bool) (keys : list (option K)) : list (option K) :=
  map (fun p => if snd p : bool then fst p else None) (combine keys f).
End Keys.

(** a call in the history of a grouping that had no filter *)
Definition without_filter (o : gop) : Prop :=
  match o with Pack flt _ => flt = None | Igroup => True | Apply flt => flt = None end.

Section Tables.
Context {V : Type}.
Definition table := list (name * list V).
(** [t'] has the columns of [t] and shows its rows [rows], in this order *)
Definition shows_rows (t : table) (rows : list nat) (t' : table) : Prop :=
  map fst t' = map fst t /\
  forall j c c', nth_error t j = Some c -> nth_error t' j = Some c' ->
    map Some (snd c') = map (fun r => nth_error (snd c) r) rows.
(** every column has [n] rows *)
Definition of_length (n : nat) (t : table) : Prop := forall c, In c t -> length (snd c) = n.
End Tables.

(** the header a column would like to have: the name of the array, or col_0, col_1, ... *)
Definition wanted (names : list (option name)) : list name :=
  map (fun p => match snd p with Some nm => nm | None => col_i (fst p) end) (combine (seq 0 (length names)) names).
(** [a] is [b] followed by at least one decimal digit and nothing else *)
Definition numbered (a b : name) : Prop :=
  exists ds, a = b ++ ds /\ ds <> [] /\ Forall (fun c => 48 <= c <= 57) ds.
(** wanted more than once *)
Definition repeated (hs : list name) (nm : name) : Prop := 2 <= count_occ name_dec hs nm.

(** a total order of the keys *)
Definition total_order {K} (leb : K -> K -> bool) : Prop :=
  (forall a b, leb a b = true \/ leb b a = true) /\
  (forall a b c, leb a b = true -> leb b c = true -> leb a c = true) /\
  (forall a b, leb a b = true -> leb b a = true -> a = b).
Definition in_order {K} (leb : K -> K -> bool) (l : list K) : Prop := StronglySorted (fun a b => leb a b = true) l.
