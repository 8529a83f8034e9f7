(** Model of where (riptable/rt_numpy.py:2917-3140) with get_common_dtype (321-429) for numbers and Categoricals,
    and of item assignment to numeric arrays (riptable/rt_fastarray.py:1243-1304).

    Numbers and their conversion are those of LosslessModel: None is the invalid value.  Left out:
    strings, Booleans, python floats (np.min_scalar_type makes them float16), conditions of two dimensions. *)
From Coq Require Import List Arith ZArith Bool.
From Verif Require Import FlattenModel GroupModel GroupingModel LosslessModel.
Import ListNotations.
Open Scope Z_scope.

(** ---------- where, numbers ---------- *)
(** an array of a type, or a python integer *)
Inductive operand := OArr (d : dt) (l : list value) | OInt (z : Z).

(** rt_numpy.py:280-317 [get_dtype], 222-276 [min_scalar_type]; None: the object type *)
Definition opd_type (o : operand) : option dt :=
  match o with OArr d _ => Some d | OInt z => min_scalar_type z false false end.
(** rt_numpy.py:360-374 *)
Definition common_dtype (x y : operand) : option dt :=
  match opd_type x, opd_type y with
  | Some a, Some b => Some (if dt_dec a b then a else result_type a b)
  | _, _ => None
  end.
(** FastArray(z): the type numpy gives a python integer, and the number in it *)
Definition scal_type (z : Z) : dt := if z <=? max_of I64 then I64 else U64.
Definition raw_value (d : dt) (z : Z) : value := if z =? sentinel d then None else Some (z * one).
(** rt_numpy.py:3080-3131 [_possibly_convert]: a number becomes an array of one element *)
Definition conv (junk : Z -> Z) (c : dt) (o : operand) : list value :=
  match o with
  | OArr d l => if dt_dec d c then l else map (cast junk d c) l
  | OInt z => [if dt_dec (scal_type z) c then raw_value c z else cast junk (scal_type z) c (raw_value (scal_type z) z)]
  end.

(** arrays of one element stand for all rows *)
Definition spread {X} (n : nat) (l : list X) : list X := match l with [a] => repeat a n | _ => l end.
Definition fits_len {X} (n : nat) (l : list X) : bool := (length l =? 1)%nat || (length l =? n)%nat.
(** rc.Where and np.where (contract): the element of x where the condition holds, else of y; other lengths are
    refused.  rt_numpy.py:3043-3049: np.where is called with arrays that are not empty *)
Definition pick_where {X} (cond : list bool) (x y : list X) : option (list X) :=
  match cond with
  | [] => Some []
  | _ => let n := if (length cond =? 1)%nat then Nat.max (length x) (length y) else length cond in
         if (length x =? 0)%nat || (length y =? 0)%nat then None
         else if fits_len n x && fits_len n y
              then Some (map (fun p => if fst p : bool then fst (snd p) else snd (snd p)) (combine (spread n cond) (combine (spread n x) (spread n y))))
              else None
  end.
(** rt_numpy.py:3051-3140 for a condition that has not exactly one element *)
Definition where_num (junk : Z -> Z) (cond : list bool) (x y : operand) : option (dt * list value) :=
  match common_dtype x y with
  | None => None
  | Some c => option_map (pair c) (pick_where cond (conv junk c x) (conv junk c y))
  end.
(** rt_numpy.py:3060-3062: a condition of one element, two arrays: np.where, which converts as numpy does *)
Definition where_one (junk : Z -> Z) (b : bool) (d1 : dt) (x : list value) (d2 : dt) (y : list value) : option (dt * list value) :=
  let c := if dt_dec d1 d2 then d1 else result_type d1 d2 in
  option_map (pair c) (pick_where [b] (if dt_dec d1 c then x else map (np_cast junk d1 c) x) (if dt_dec d2 c then y else map (np_cast junk d2 c) y)).

(** ---------- where, Categoricals ---------- *)
(** rt_numpy.py:3024-3027, array categories: the Categoricals are stacked (merge_cats), their codes chosen from, and
    a Categorical of base index 1, the default, is made (rt_categorical.py:1681-1682), for codes and
    categories; rt_grouping.py:565-628 refuses codes that are out of range *)
Definition where_cat {B} (junk base : nat) (crc : list B -> Z) (grp : list B -> list B * list nat) (cond : list bool)
    (cx : list nat) (ux : list B) (cy : list nat) (uy : list B) : option (list nat * list B) :=
  let z := merge_cats junk base crc grp [cx; cy] [ux; uy] in
  match pick_where cond (firstn (length cx) (fst z)) (skipn (length cx) (fst z)) with
  | None => None
  | Some codes => if forallb (fun c => (c <=? length (snd z))%nat) codes then Some (codes, snd z) else None
  end.
(** the same for mapped Categoricals: z._categories is the list of names (rt_categorical.py:514-515), and the codes are
    taken for numbers of names, from 1 *)
Definition where_mapped (cond : list bool) (cx : list Z) (mx : mapping) (cy : list Z) (my : mapping) : option (list Z * list name) :=
  let z := hstack_mapped [cx; cy] [mx; my] in
  match pick_where cond (firstn (length cx) (fst z)) (skipn (length cx) (fst z)) with
  | None => None
  | Some codes => if forallb (fun c => (0 <=? c) && (c <=? Z.of_nat (length (snd z)))) codes then Some (codes, map snd (snd z)) else None
  end.

(** ---------- assignment ---------- *)
(** the positions of True *)
Definition where_true (m : list bool) : list nat :=
  map fst (filter (fun p => snd p) (combine (seq 0 (length m)) m)).
Fixpoint put {X} (l : list X) (i : nat) (v : X) : list X :=
  match l, i with
  | [], _ => []
  | _ :: r, O => v :: r
  | x :: r, S i => x :: put r i v
  end.
(** numpy's assignment at positions, one after the other; rc.SetItem for a mask does the same (contract).  None: an
    exception is raised *)
Definition assign {X} (l : list X) (idx : list nat) (vals : list X) : option (list X) :=
  if forallb (fun i => (i <? length l)%nat) idx && fits_len (length idx) vals
  then Some (fold_left (fun l p => put l (fst p) (snd p)) (combine idx (spread (length idx) vals)) l)
  else None.
(** rt_fastarray.py:1262-1301: the value, a python integer or an array, is first converted to the type of the
    array *)
Definition setitem_num (junk : Z -> Z) (d : dt) (l : list value) (idx : list nat) (v : operand) : option (list value) :=
  assign l idx (conv junk d v).
Definition setitem_mask (junk : Z -> Z) (d : dt) (l : list value) (m : list bool) (v : operand) : option (list value) :=
  if (length m =? length l)%nat then setitem_num junk d l (where_true m) v else None.
