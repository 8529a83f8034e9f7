(** Vocabulary for the statements about Structs (StProps.v). *)
From Coq Require Import List Arith ZArith Bool.
From Verif Require Import FlattenModel DsModel StModel.
Import ListNotations.

Section Spec.
Context {X D : Type}.
(** the item at a path of names, through Structs *)
Fixpoint get (p : list name) (i : item X D) : option (item X D) :=
  match p with
  | [] => Some i
  | n :: q => match i with ISt its => match dget n its with Some j => get q j | None => None end | _ => None end
  end.
(** what is found at a path: the elements of an array or the scalar, the Dataset, the names of the items of a Struct *)
Definition elems_at (p : list name) (i : item X D) : list X :=
  match get p i with Some (IArr _ l) => l | Some (IScal x) => [x] | _ => [] end.
Definition datasets_at (p : list name) (i : item X D) : list D := match get p i with Some (IDs d) => [d] | _ => [] end.
Definition names_at (p : list name) (i : item X D) : list name := match get p i with Some (ISt its) => map fst its | _ => [] end.
(** no name twice in a Struct, at any depth *)
Definition well_formed (i : item X D) : Prop := forall p, NoDup (names_at p i).
(** what the Structs have at one path is of one type *)
Definition agree (ls : list (item X D)) : Prop :=
  forall p i j x y, In i ls -> In j ls -> get p i = Some x -> get p j = Some y -> bucket_of x = bucket_of y.
(** each name once, in the order of first appearance *)
Fixpoint firsts (l : list name) : list name :=
  match l with [] => [] | k :: r => k :: filter (fun m => if name_dec m k then false else true) (firsts r) end.
End Spec.

(** two Structs with the same names in the same order, arrays of the same bytes, scalars that are equal *)
Inductive same {S I} (scal_eq : S -> S -> bool) : val S I -> val S I -> Prop :=
| same_arr i j a : same scal_eq (VArr i a) (VArr j a)
| same_scal x y : scal_eq x y = true -> same scal_eq (VScal x) (VScal y)
| same_st a b : map fst a = map fst b -> Forall2 (fun p q => same scal_eq (snd p) (snd q)) a b -> same scal_eq (VSt a) (VSt b).
(** the arrays of a value *)
Fixpoint arrays {S I} (v : val S I) : list (list Z) :=
  match v with
  | VArr _ a => [a]
  | VScal _ => []
  | VSt its => (fix go (l : list (name * val S I)) : list (list Z) := match l with [] => [] | (_, w) :: r => arrays w ++ go r end) its
  end.
(** no scalar of [v] stands beside a Struct of [w] of the same name, as far as names agree *)
Inductive comparable {S I} : val S I -> val S I -> Prop :=
| comp_arr i a w : comparable (VArr i a) w
| comp_arr' v j b : comparable v (VArr j b)
| comp_scal x y : comparable (VScal x) (VScal y)
| comp_st a b : (forall n v w, In (n, v) a -> In (n, w) b -> comparable v w) -> comparable (VSt a) (VSt b).

(** two objects of the same shape and with related elements, in any order of the names; arrays are not empty *)
Inductive matches {X S} (op : X -> X -> bool) (sop : S -> S -> option bool) (xop : X -> S -> bool) : obj X S -> obj X S -> Prop :=
| match_arr a b : a <> [] -> Forall2 (fun x y => op x y = true) a b -> matches op sop xop (OArray a) (OArray b)
| match_arr_scal a y : a <> [] -> Forall (fun x => xop x y = true) a -> matches op sop xop (OArray a) (OScal y)
| match_scal x y : sop x y = Some true -> matches op sop xop (OScal x) (OScal y)
| match_st a b : (forall n, In n (map fst a) <-> In n (map fst b)) ->
    (forall n v w, dget n a = Some v -> dget n b = Some w -> matches op sop xop v w) -> matches op sop xop (OSt a) (OSt b).
(** no name twice in a Struct, at any depth *)
Inductive distinct {X S} : obj X S -> Prop :=
| dis_arr a : distinct (OArray a)
| dis_scal x : distinct (OScal x)
| dis_st its : NoDup (map fst its) -> (forall n v, In (n, v) its -> distinct v) -> distinct (OSt its).
(** the category a code (from 1) stands for *)
Definition name_of (names : list name) (c : Z) : option name := nth_error names (Z.to_nat c - 1).
(** no array is empty *)
Inductive no_empty {X S} : obj X S -> Prop :=
| ne_arr a : a <> [] -> no_empty (OArray a)
| ne_scal x : no_empty (OScal x)
| ne_st its : (forall n v, In (n, v) its -> no_empty v) -> no_empty (OSt its).
