(** Vocabulary for the statements about the conversion to and from pyarrow (ArrowProps.v). *)
From Coq Require Import List Arith ZArith Bool.
From Verif Require Import LosslessModel ArrowModel.
Import ListNotations.
Open Scope Z_scope.

(** what an integer array shows: its invalid value stands for nothing *)
Definition shown (t : dt) (z : Z) : option Z := if z =? sentinel t then None else Some z.
(** the values fit the type *)
Definition fits (t : dt) (x : option Z) : Prop := match x with Some z => min_of t <= z <= max_of t | None => True end.

(** the category of a row with key [z]; None: filtered *)
Definition cat_value {C} (c : cat C) (z : Z) : option C :=
  if z <? c_base c then None else nth_error (c_cats c) (Z.to_nat (z - c_base c)).
(** the value of a row of an arrow dictionary array *)
Definition dict_value {C} (cats : list C) (i : option Z) : option C :=
  match i with Some i => nth_error cats (Z.to_nat i) | None => None end.
(** a Categorical of base index 1 or 0 whose key is in range *)
Definition cat_ok {C} (c : cat C) : Prop :=
  is_int (c_type c) = true /\ is_signed (c_type c) = true /\ Z.of_nat (length (c_cats c)) <= max_of (c_type c) /\
  ((c_base c = 1 /\ Forall (fun z => 0 <= z <= Z.of_nat (length (c_cats c))) (c_key c)) \/
   (c_base c = 0 /\ Forall (fun z => 0 <= z < Z.of_nat (length (c_cats c)) \/ z = sentinel (c_type c)) (c_key c))).
(** what a mapped Categorical shows for a code; rt_grouping.py:3977-3979: a code without a name is shown as a
    number, here None *)
Definition name_of (m : list (text * Z)) (z : Z) : option text :=
  match find (fun p => snd p =? z) m with Some p => Some (fst p) | None => None end.

(** the indices of an arrow dictionary array lie in the dictionary and in their type *)
Definition idx_ok (t : dt) (idx : list (option Z)) (count : Z) : Prop :=
  Forall (fun x => match x with Some i => 0 <= i < count /\ i <= max_of t | None => True end) idx.

(** a string that does not end in NUL *)
Definition no_end_nul (s : text) : Prop := last s 1%nat <> O.
(** distinct codes; distinct names, none empty or ending in NUL *)
Definition map_ok (c : ecat) : Prop :=
  NoDup (map fst (e_map c)) /\ NoDup (map snd (e_map c)) /\ Forall (fun s => s <> [] /\ no_end_nul s) (map fst (e_map c)) /\
  Z.of_nat (length (e_map c) + length (e_codes c)) < 2 ^ 64.
