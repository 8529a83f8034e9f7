(** Model of stacking Structs (riptable/rt_hstack.py:273-384, reached from Struct.hstack, riptable/rt_struct.py:1558-1578, and
    from hstack, riptable/rt_numpy.py:5614-5656), of stacking a dictionary of arrays (riptable/rt_hstack.py:165-207), of
    Struct.equals (riptable/rt_struct.py:3848-3907) and of the comparison operators of Struct (riptable/rt_struct.py:873-934). *)
From Coq Require Import List Arith ZArith Bool.
From Verif Require Import FlattenModel DsModel GroupingModel.
Import ListNotations.

(** ---------- Struct.hstack ---------- *)
Section Stack.
(** elements of arrays, and Datasets *)
Context {X D : Type}.
(** an item: an array of class [k] (0: numpy array or FastArray, others: Categorical, Date, ...), a scalar, a Dataset, a
    Struct.  Arrays of two dimensions and items of other types (which raise, rt_hstack.py:332-333) are left out. *)
Inductive item := IArr (k : nat) (l : list X) | IScal (x : X) | IDs (d : D) | ISt (its : list (name * item)).
(** the name of the type, rt_hstack.py:321-333 *)
Inductive bucket := BArr (k : nat) | BDs | BSt.
Definition bucket_dec : forall a b : bucket, {a = b} + {a <> b}.
Proof. decide equality. apply Nat.eq_dec. Defined.
Definition bucket_of (i : item) : bucket := match i with IArr k _ => BArr k | IScal _ => BArr 0 | IDs _ => BDs | ISt _ => BSt end.
(** rt_hstack.py:321-322 *)
Definition normal (i : item) : item := match i with IScal x => IArr 0 [x] | _ => i end.

(** Dataset.hstack (C57) *)
Variable ds_stack : list D -> option D.

(** rt_hstack.py:296, 344-349: a dictionary of lists for each type, both in order of first use *)
Definition buckets := list (bucket * list (name * list item)).
Fixpoint badd (b : bucket) (k : name) (i : item) (m : buckets) : buckets :=
  match m with
  | [] => [(b, [(k, [i])])]
  | (b', d) :: r => if bucket_dec b' b
                    then (b', dset k ((match dget k d with Some l => l | None => [] end) ++ [i]) d) :: r
                    else (b', d) :: badd b k i r
  end.
(** rt_hstack.py:310-349; the warnings are left out *)
Definition collect (ls : list (list (name * item))) : buckets :=
  fold_left (fun m p => badd (bucket_of (snd p)) (fst p) (normal (snd p)) m) (concat ls) [].
(** rt_hstack.py:304-313 *)
Definition all_keys (ls : list (list (name * item))) : list name :=
  fold_left (fun ks k => if mem k ks then ks else ks ++ [k]) (map fst (concat ls)) [].

Definition elems (i : item) : list X := match i with IArr _ l => l | IScal x => [x] | _ => [] end.
Definition datasets (i : item) : list D := match i with IDs d => [d] | _ => [] end.
Definition items_of (i : item) : list (name * item) := match i with ISt its => its | _ => [] end.

(** one raises, all raises *)
Fixpoint all_or_none {Y} (l : list (name * option Y)) : option (list (name * Y)) :=
  match l with
  | [] => Some []
  | (k, Some y) :: r => option_map (cons (k, y)) (all_or_none r)
  | (_, None) :: _ => None
  end.
(** rt_hstack.py:355-384.  What the first loop (355-373) stores is stored again by the second (376-378), which goes over
    all types.  [fuel] bounds the depth of the Structs. *)
Fixpoint hstack_f (fuel : nat) (ls : list (list (name * item))) : option (list (name * item)) :=
  match ls with
  | [] => None
  | [s] => Some s
  | _ =>
      let stack (b : bucket) (l : list item) : option item :=
        match l with
        | [i] => Some i
        | _ => match b with
               | BArr k => Some (IArr k (concat (map elems l)))
               | BDs => option_map IDs (ds_stack (concat (map datasets l)))
               | BSt => match fuel with O => None | S f => option_map ISt (hstack_f f (map items_of l)) end
               end
        end in
      match all_or_none (flat_map (fun bd => map (fun e => (fst e, stack (fst bd) (snd e))) (snd bd)) (collect ls)) with
      | None => None
      | Some entries =>
          let final := fold_left (fun d p => dset (fst p) (snd p) d) entries [] in
          Some (flat_map (fun k => match dget k final with Some i => [(k, i)] | None => [] end) (all_keys ls))
      end
  end.
Fixpoint depth (i : item) : nat :=
  match i with
  | ISt its => S ((fix go (l : list (name * item)) : nat := match l with [] => O | (_, j) :: r => Nat.max (depth j) (go r) end) its)
  | _ => O
  end.
Definition hstack_struct (ls : list (list (name * item))) : option (list (name * item)) :=
  hstack_f (list_max (map (fun s => depth (ISt s)) ls)) ls.
End Stack.
Arguments item : clear implicits.

(** ---------- hstack_any of a dictionary ---------- *)
(** rt_hstack.py:200-204: the numbers of the arrays, from 1, in an integer type of [bits] bits *)
Definition source_codes (bits : Z) (lens : list nat) : list Z :=
  concat (map (fun p => repeat (store_bits bits (Z.of_nat (S (fst p)))) (snd p)) (combine (seq 0 (length lens)) lens)).
(** rt_hstack.py:165-207: the stacked array (1-D arrays of one type) and the codes and categories of the Categorical; the
    constructor refuses codes that are out of range (rt_grouping.py:565-628) *)
Definition hstack_dict {X} (d : list (name * list X)) : option (list X * (list Z * list name)) :=
  match d with
  | [] => None
  | _ => let arr := concat (map snd d) in
         let codes := source_codes (int_dtype_from_len (Z.of_nat (length arr))) (map (fun p => length (snd p)) d) in
         if forallb (fun c => (0 <=? c)%Z && (c <=? Z.of_nat (length d))%Z) codes then Some (arr, (codes, map fst d)) else None
  end.

(** ---------- Struct.equals ---------- *)
Section Equals.
(** scalars; everything about an array but its bytes: class, type, shape, categories *)
Context {S I : Type}.
Inductive val := VArr (info : I) (raw : list Z) | VScal (x : S) | VSt (its : list (name * val)).
Variable crc : list Z -> Z.
(** python's == of two scalars *)
Variable scal_eq : S -> S -> bool.
Inductive answer := Yes | No | Raises.
(** rt_struct.py:3848-3907, both Structs; Datasets inside are left out.  A scalar has no method equals, and a Struct
    compared with a scalar raises (rt_struct.py:914-915) *)
Fixpoint equals_val (v w : val) : answer :=
  match v, w with
  | VArr _ a, VArr _ b => if (crc b =? crc a)%Z then Yes else No
  | VArr _ _, _ | _, VArr _ _ => No
  | VScal x, VScal y => if scal_eq x y then Yes else No
  | VScal _, VSt _ | VSt _, VScal _ => Raises
  | VSt a, VSt b =>
      if length a =? length b
      then (fix go (a b : list (name * val)) : answer :=
              match a, b with
              | (n, v) :: a', (m, w) :: b' =>
                  if name_dec n m then match equals_val v w with Yes => go a' b' | r => r end else No
              | _, _ => Yes
              end) a b
      else No
  end.
Definition struct_equals (a b : list (name * val)) : answer := equals_val (VSt a) (VSt b).
End Equals.
Arguments val : clear implicits.

(** ---------- comparison operators ---------- *)
Section Compare.
(** elements of arrays; scalars *)
Context {X S : Type}.
Inductive obj := OArray (l : list X) | OScal (x : S) | OSt (its : list (name * obj)).
(** the operator on elements; of two scalars (None: NotImplemented, as for an int with a float); of an array's element with a
    scalar *)
Variables (op : X -> X -> bool) (sop : S -> S -> option bool) (xop : X -> S -> bool).
(** bool(res), and when that raises res.all(), rt_struct.py:898-906: the truth value of an empty array is False (numpy before 2.2) *)
Definition as_bool (l : list bool) : bool := match l with [] => false | _ => forallb (fun b => b) l end.
(** rt_struct.py:873-915.  None: raises.  Arrays of different lengths raise; an array compared with a Struct is taken to
    raise *)
Fixpoint compare_obj (v w : obj) : option (list (name * bool) + bool) :=
  match v, w with
  | OArray a, OArray b => if length a =? length b then Some (inr (as_bool (map (fun p => op (fst p) (snd p)) (combine a b)))) else None
  | OArray a, OScal y => Some (inr (as_bool (map (fun x => xop x y) a)))
  | OScal x, OScal y => option_map inr (sop x y)
  | OSt a, OSt b =>
      option_map (fun l => inl (l ++ flat_map (fun p => if mem (fst p) (map fst a) then [] else [(fst p, false)]) b))
        ((fix go (a : list (name * obj)) : option (list (name * bool)) :=
            match a with
            | [] => Some []
            | (n, v) :: a' =>
                match (match dget n b with
                       | None => Some false
                       | Some w => option_map (fun r => match r with inr t => t | inl l => forallb snd l end) (compare_obj v w)
                       end), go a' with
                | Some t, Some r => Some ((n, t) :: r)
                | _, _ => None
                end
            end) a)
  | _, _ => None
  end.
Definition struct_compare (a b : list (name * obj)) : option (list (name * bool)) :=
  match compare_obj (OSt a) (OSt b) with Some (inl l) => Some l | _ => None end.
End Compare.
Arguments obj : clear implicits.
