(* Model of Dataset.gbrows (rt_dataset.py:6394-6459). *)
From Coq Require Import List Bool Arith.
Import ListNotations.

Section Rows.
Variable V : Type.

(* A column: whether it is computable (rt_dataset.py computable / noncomputable), and its values. *)
Definition column := (bool * list V)%type.

(* rt_dataset.py:6445-6448: rowlist *)
Definition rowlist (strings : bool) (ds : list column) : list (list V) :=
  map snd (filter (fun c => if strings then negb (fst c) else fst c) ds).

(* rt_dataset.py:6451 hstack, without the conversion to a common dtype *)
Definition row_values (strings : bool) (ds : list column) : list V := concat (rowlist strings ds).

(* rt_dataset.py:6454-6455: tile(arange(nrows), len(rowlist)), the codes of the Categorical of base 0 *)
Definition row_codes (nrows : nat) (strings : bool) (ds : list column) : list nat :=
  concat (repeat (seq 0 nrows) (List.length (rowlist strings ds))).

(* What a groupby hands to a reducing function for the category g: the values at the places with
   its code, in order (the grouping itself is the subject of other properties). *)
Definition members (g : nat) (codes : list nat) (vals : list V) : list V :=
  map snd (filter (fun cv => Nat.eqb (fst cv) g) (combine codes vals)).

(* rt_dataset.py:6458-6459: ds.groupby("RowNum"), reduced: one result for each of the categories
   arange(nrows).  Not modelled: Datasets without a column of the kind asked for, for which
   hstack has nothing to stack. *)
Definition gbrows {R} (f : list V -> R) (nrows : nat) (strings : bool) (ds : list column) : list R :=
  map (fun g => f (members g (row_codes nrows strings ds) (row_values strings ds))) (seq 0 nrows).
End Rows.
