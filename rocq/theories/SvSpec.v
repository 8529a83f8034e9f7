(* What a user sees of a Dataset and of a Categorical, before saving and after
   loading. *)
From Coq Require Import List ZArith Bool Permutation Sorted.
From Verif Require Import FlattenModel.
Import ListNotations.
Local Open Scope Z_scope.

(* A Dataset: columns, labels, the keys of its sorted view ([] = no view) and
   the direction, footers: for each line a value for some columns. *)
Record ds := mkDs { d_cols : list (name * list Z); d_labels : list name; d_keys : list name; d_asc : bool;
                    d_foots : list (name * list (name * Z)) }.
Definition fine (d : ds) : Prop :=
  NoDup (map fst (d_cols d)) /\ NoDup (d_labels d) /\
  incl (d_labels d) (map fst (d_cols d)) /\ incl (d_keys d) (map fst (d_cols d)).

(* Row i does not come after row j by the keys. *)
Fixpoint not_after (keys : list (list Z)) (i j : nat) : bool :=
  match keys with
  | [] => true
  | k :: r => if nth i k 0 <? nth j k 0 then true
              else if nth j k 0 <? nth i k 0 then false else not_after r i j
  end.
(* [idx] lists every row number once, in the order of the keys. *)
Definition sorts (keys : list (list Z)) (rows : nat) (idx : list Z) : Prop :=
  Permutation idx (map Z.of_nat (seq 0 rows)) /\
  StronglySorted (fun i j => not_after keys (Z.to_nat i) (Z.to_nat j) = true) idx.

(* A Categorical.  Category columns have a class with its settings ([M]) and
   values; or there is a mapping with both directions. *)
Section Cat.
  Context {M V : Type}.
  Inductive cats := Keys (cols : list (name * (M * list V))) | Mapping (codes : list (name * Z)) (names : list (Z * name)).
  Record cat := mkCat { c_codes : list Z; c_cats : cats; c_base : Z; c_ordered : bool; c_sort : bool;
                        c_invalid : option name; c_filtered : option name }.
  Fixpoint zget {X} (k : Z) (d : list (Z * X)) : option X :=
    match d with [] => None | (k', v) :: r => if k' =? k then Some v else zget k r end.
  (* what stands in a row: the categories of its code (None: filtered) or the
     name of its code (None: a code without a name) *)
  Inductive seen := Cats (l : option (list (option (M * V)))) | Name (n : option name).
  Definition shown (c : cat) (code : Z) : seen :=
    match c_cats c with
    | Keys cols => Cats (if code <? c_base c then None
                         else Some (map (fun p => match nth_error (snd (snd p)) (Z.to_nat (code - c_base c)) with
                                                  | Some v => Some (fst (snd p), v) | None => None end) cols))
    | Mapping _ names => Name (zget code names)
    end.
  (* the code that a name stands for, in comparisons *)
  Definition code_of (c : cat) (n : name) : option Z :=
    match c_cats c with Mapping codes _ => dget n codes | _ => None end.
End Cat.
Arguments cats : clear implicits. Arguments cat : clear implicits.
