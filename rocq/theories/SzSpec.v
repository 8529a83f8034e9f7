(** Vocabulary for the sizes of Structs and for searches in nested Structs (C229, C230). *)
From Coq Require Import List ZArith Bool.
From Verif Require Import FlattenModel.
Import ListNotations.

(** Structs in memory.  Arrays are known by the array that owns the memory. *)
Inductive cell :=
| Nothing                                              (* None, a float, a str, .. *)
| Int                                                  (* an integer *)
| Arr (owner : nat) (owner_bytes own_bytes : Z)        (* an array, or a view of one *)
| Cat (owner : nat) (bytes : Z) (cats : list (nat * Z)) (* a Categorical: its codes, its category arrays *)
| Sub (s : nat).                                       (* a Struct *)
Definition memory := list (list cell).
Definition items (m : memory) (s : nat) : list cell := nth s m [].
Definition closed (m : memory) : Prop := forall s t, In (Sub t) (items m s) -> t < length m.
(** [t] is in [s], or in a Struct in [s], and so on *)
Inductive inside (m : memory) (s : nat) : nat -> Prop :=
| in_here : forall t, In (Sub t) (items m s) -> inside m s t
| in_sub : forall t u, inside m s t -> In (Sub u) (items m t) -> inside m s u.

(** the memory of a column, and its bytes: for a Categorical with those of its categories *)
Definition column (c : cell) : list (nat * Z) :=
  match c with
  | Arr o b _ => [(o, b)]
  | Cat o b cats => [(o, (b + fold_right Z.add 0 (map snd cats))%Z)]
  | _ => []
  end.
Definition columns (m : memory) (structs : list nat) : list (nat * Z) := flat_map (fun s => flat_map column (items m s)) structs.
Definition total (l : list Z) : Z := fold_right Z.add 0%Z l.
Definition is_int (c : cell) : bool := match c with Int => true | _ => false end.
Definition ints (m : memory) (structs : list nat) : Z := Z.of_nat (length (flat_map (fun s => filter is_int (items m s)) structs)).
(** no two columns of the same memory are counted with different sizes *)
Definition consistent (l : list (nat * Z)) : Prop := forall o b b', In (o, b) l -> In (o, b') l -> b = b'.

(** Structs as trees; leaves are the truth values of their elements *)
Inductive tree := Leaf (l : list bool) | Node (dataset : bool) (l : list (name * tree)).
(** the path k1.k2. .. .kn leads to a key [kn] *)
Inductive at_key : tree -> list name -> Prop :=
| ak_here : forall d l k t, In (k, t) l -> at_key (Node d l) [k]
| ak_down : forall l k d' l' p, In (k, Node d' l') l -> at_key (Node d' l') p -> at_key (Node false l) (k :: p).
(** an element of the tree *)
Inductive element : tree -> bool -> Prop :=
| el_leaf : forall l b, In b l -> element (Leaf l) b
| el_node : forall d l k t b, In (k, t) l -> element t b -> element (Node d l) b.
(** the keys of every Struct are distinct *)
Inductive distinct : tree -> Prop :=
| di_leaf : forall l, distinct (Leaf l)
| di_node : forall d l, NoDup (map fst l) -> (forall k t, In (k, t) l -> distinct t) -> distinct (Node d l).
