(** * The sizes of Structs; searches in nested Structs.

    Modelled: [Struct.total_sizes] (riptable/rt_struct.py:5183-5326) with
    [Categorical._total_size] (rt_categorical.py:2597-2605), [Struct.key_search]
    (5328-5365), [Struct.any] and [Struct.all] (3994-4062).

    Not modelled: how Python finds the owner of an array (.base); the logging of
    other objects. *)
From Coq Require Import List ZArith Bool.
From Verif Require Import FlattenModel SzSpec.
Import ListNotations.
Local Open Scope Z_scope.

(** 5220-5235: pending objects, seen objects (Structs and arrays are different
    objects), the two totals *)
Record sizes := mkS { z_pending : list nat; z_structs : list nat; z_arrays : list nat; z_physical : Z; z_logical : Z }.
Definition memb (x : nat) (l : list nat) : bool := existsb (Nat.eqb x) l.
(** 5243-5252, 5253-5294: a column of [size] bytes in the memory of [o] *)
Definition count (o : nat) (size : Z) (z : sizes) : sizes :=
  let l := z_logical z + size in
  if memb o (z_arrays z) then mkS (z_pending z) (z_structs z) (z_arrays z) (z_physical z) l
  else mkS (z_pending z) (z_structs z) (o :: z_arrays z) (z_physical z + size) l.
(** rt_categorical.py:2602-2605 *)
Definition total_size (bytes : Z) (cats : list (nat * Z)) : Z := fold_left (fun a p => a + snd p) cats bytes.
(** 5241-5324: one item *)
Definition visit (z : sizes) (c : cell) : sizes :=
  match c with
  | Nothing => z
  | Int => mkS (z_pending z) (z_structs z) (z_arrays z) (z_physical z + 4) (z_logical z + 4)
  | Arr o b _ => count o b z
  | Cat o b cats => count o (total_size b cats) z
  | Sub s => if memb s (z_structs z) then z
             else mkS (s :: z_pending z) (s :: z_structs z) (z_arrays z) (z_physical z) (z_logical z)
  end.
(** 5238-5240; None: not finished after [fuel] Structs *)
Fixpoint loop (m : memory) (fuel : nat) (z : sizes) : option sizes :=
  match z_pending z with
  | [] => Some z
  | s :: rest =>
      match fuel with
      | O => None
      | S f => loop m f (fold_left visit (items m s) (mkS rest (z_structs z) (z_arrays z) (z_physical z) (z_logical z)))
      end
  end.
(** 5183-5326: at most every Struct in memory and, once more, the first *)
Definition total_sizes (m : memory) (s : nat) : option (Z * Z) :=
  match loop m (S (length m)) (mkS [s] [] [] 0 0) with Some z => Some (z_physical z, z_logical z) | None => None end.

(** ** Searches *)
(** 5352-5365; [hit]: the expression is found in the key, with or without case.  A
    path k1.k2.k3 is the list of its keys; values that are not Structs give nothing. *)
Fixpoint key_search (hit : name -> bool) (recursive : bool) (path : list name) (t : tree) : list (list name) :=
  match t with
  | Leaf _ => []
  | Node dataset l =>
      map (fun k => path ++ [k]) (filter hit (map fst l)) ++
      (if recursive && negb dataset then
         (fix go (l : list (name * tree)) : list (list name) :=
            match l with
            | [] => []
            | (k, v) :: r => key_search hit recursive (path ++ [k]) v ++ go r
            end) l
       else [])
  end.
(** 4014-4031 and 4046-4062 *)
Fixpoint any (t : tree) : bool :=
  match t with
  | Leaf l => existsb (fun b => b) l
  | Node _ l => (fix go (l : list (name * tree)) : bool := match l with [] => false | (_, v) :: r => if any v then true else go r end) l
  end.
Fixpoint all (t : tree) : bool :=
  match t with
  | Leaf l => forallb (fun b => b) l
  | Node _ l => (fix go (l : list (name * tree)) : bool := match l with [] => true | (_, v) :: r => if all v then go r else false end) l
  end.
