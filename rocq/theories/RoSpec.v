(* What one expects of masks, of choosing rows by their labels, of going through
   the rows, of totals of rows and columns, and of outliers. *)
From Coq Require Import List ZArith Bool.
From Verif Require Import FlattenModel.
Import ListNotations.

(* ** Arrays of bools in memory, and the arguments of the mask functions: an
   array or a single bool *)
Definition heap := list (list bool).
Inductive arg := Ref (i : nat) | Scal (b : bool).
Definition array (h : heap) (i : nat) : list bool := nth i h [].
Definition bit (h : heap) (i : nat) (a : arg) : bool :=
  match a with Ref r => nth i (array h r) false | Scal b => b end.
(* the arrays among the arguments are there and have length [n] *)
Definition of_length (h : heap) (n : nat) (a : arg) : Prop :=
  match a with Ref r => r < length h /\ length (array h r) = n | Scal _ => True end.

(* ** Tables.  A column holds numbers, or strings stored as bytes or unicode *)
Definition text := list nat.
Inductive col := CNum (l : list Z) | CTxt (bytes : bool) (l : list text).
Inductive value := VNum (z : Z) | VTxt (t : text).
Definition table := list (name * col).
Definition clen (c : col) : nat := match c with CNum l => length l | CTxt _ l => length l end.
Definition even (n : nat) (d : table) : Prop := forall m c, In (m, c) d -> clen c = n.
Definition cell (c : col) (i : nat) : value :=
  match c with CNum l => VNum (nth i l 0%Z) | CTxt _ l => VTxt (nth i l []) end.
(* the table with only the rows listed *)
Definition take_col (rows : list nat) (c : col) : col :=
  match c with
  | CNum l => CNum (map (fun i => nth i l 0%Z) rows)
  | CTxt b l => CTxt b (map (fun i => nth i l []) rows)
  end.
Definition take_rows (rows : list nat) (d : table) : table := map (fun p => (fst p, take_col rows (snd p))) d.
(* [r] are the rows, from the first to the last, for which [P] holds *)
Definition rows_where (n : nat) (P : nat -> Prop) (r : list nat) : Prop :=
  exists p : nat -> bool, r = filter p (seq 0 n) /\ forall i, i < n -> (p i = true <-> P i).
(* text [p] occurs in [t] *)
Definition occurs (p t : text) : Prop := exists a b, t = a ++ p ++ b.

(* ** Sums *)
Definition zsum (l : list Z) : Z := fold_right Z.add 0%Z l.
Definition row_of (cols : list (list Z)) (i : nat) : list Z := map (fun c => nth i c 0%Z) cols.

(* ** Outliers: [p] is the first position of the largest (smallest) number *)
Definition is_extreme (le : Z -> Z -> Prop) (l : list (option Z)) (p : nat) (v : Z) : Prop :=
  nth_error l p = Some (Some v) /\
  (forall q w, nth_error l q = Some (Some w) -> le w v) /\
  (forall q w, q < p -> nth_error l q = Some (Some w) -> w <> v).
(* a value and a column of the same kind *)
Definition comparable (v : value) (c : col) : Prop :=
  match v, c with VNum _, CNum _ => True | VTxt _, CTxt _ _ => True | _, _ => False end.
