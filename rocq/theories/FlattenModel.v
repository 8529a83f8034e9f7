(** Model of Struct.flatten / flatten_undo, riptable/rt_struct.py:2116-2406.

    Names are lists of character codes.  [A]: arrays (and scalars), [M]: the metadata string of an
    array subclass such as Categorical, [C]: the metadata string of a container (class and labels).
    Simplifications: building and parsing the JSON strings, and the reconstruction of an array from
    its own metadata (_load_from_sds_meta_data) and of a container from its items
    (_load_from_sds_meta_data_nested), are taken to be faithful; they are class specific and not
    part of this model. *)
From Coq Require Import List Arith Bool Lia.
Import ListNotations.

Definition name := list nat.
Definition name_dec : forall a b : name, {a = b} + {a <> b} := list_eq_dec Nat.eq_dec.
(** Python dict: insertion ordered, assignment to an existing key keeps its position *)
Fixpoint dset {X} (k : name) (v : X) (d : list (name * X)) : list (name * X) :=
  match d with
  | [] => [(k, v)]
  | (k', v') :: r => if name_dec k' k then (k', v) :: r else (k', v') :: dset k v r
  end.
Fixpoint dget {X} (k : name) (d : list (name * X)) : option X :=
  match d with [] => None | (k', v) :: r => if name_dec k' k then Some v else dget k r end.
Definition dset_all {X} (l : list (name * X)) (d : list (name * X)) : list (name * X) :=
  fold_left (fun d p => dset (fst p) (snd p) d) l d.
(** str.startswith *)
Fixpoint startswith (p s : name) : bool :=
  match p, s with
  | [], _ => true
  | x :: p', y :: s' => (x =? y) && startswith p' s'
  | _, _ => false
  end.
Definition bang : nat := 33.
(** "_root" *)
Definition root_name : name := [95; 114; 111; 111; 116].

(** "col_" + str(i), rt_categorical.py:3703 *)
Fixpoint digits (d : Decimal.uint) : name :=
  match d with
  | Decimal.Nil => []
  | Decimal.D0 r => 48 :: digits r | Decimal.D1 r => 49 :: digits r | Decimal.D2 r => 50 :: digits r
  | Decimal.D3 r => 51 :: digits r | Decimal.D4 r => 52 :: digits r | Decimal.D5 r => 53 :: digits r
  | Decimal.D6 r => 54 :: digits r | Decimal.D7 r => 55 :: digits r | Decimal.D8 r => 56 :: digits r
  | Decimal.D9 r => 57 :: digits r
  end.
Definition col_i (i : nat) : name := [99; 111; 108; 95] ++ digits (Nat.to_uint i).

Section Flatten.
Context {A M C : Type}.
(** an item of a Struct: array, scalar, array subclass with its extra arrays, nested Struct *)
Inductive item :=
| Arr (a : A)
| Scal (a : A)
| Spec (m : M) (a : A) (cols : list A)
| Sub (c : C) (its : list (name * item)).
Definition struct := (C * list (name * item))%type.

Inductive metaval := MC (c : C) | MM (m : M).
(** the values of a flattened Struct: arrays, and the JSON text of nested containers *)
Inductive value := VA (a : A) | VM (md : list (name * metaval)).
(** rt_enum SDSFlag: Nested, Scalar, Meta; [FPlain] has none of them *)
Inductive flag := FPlain | FScalar | FMeta | FNested.

Variable sep : name.
(** the names of the extra arrays of an array subclass; [col_i] for Categorical *)
Variable col_tag : nat -> name.

(** lines 2193-2200 [make_nested_meta] *)
Definition make_nested_meta (c : C) (metas : list (name * M)) : list (name * metaval) :=
  dset_all (map (fun p => (fst p, MM (snd p))) metas) [(root_name, MC c)].

(** lines 2116-2167 [_serialize_item] (first three cases) and 2206-2231: what one item adds to the
    flattened dict, to the flags and to the metadata.  Python evaluates the nested flatten before
    adding; the keys it assigns are the ones listed here, in this order. *)
Fixpoint flat_item (nm : name) (it : item) : list (name * value) * list flag * list (name * M) :=
  match it with
  | Arr a => ([(nm, VA a)], [FPlain], [])
  | Scal a => ([(nm, VA a)], [FScalar], [])
  | Spec m a cols =>
      ((nm, VA a) :: map (fun p => (nm ++ bang :: col_tag (fst p), VA (snd p))) (combine (seq 0 (length cols)) cols),
       FMeta :: map (fun _ => FPlain) cols, [(nm, m)])
  | Sub c its =>
      let '(d, fl, md) :=
        (fix go (l : list (name * item)) (acc : list (name * value) * list flag * list (name * M)) :=
           match l with
           | [] => acc
           | (n, x) :: r =>
               let '(d, fl, md) := acc in let '(d1, fl1, md1) := flat_item n x in
               go r (dset_all d1 d, fl ++ fl1, dset_all md1 md)
           end) its ([], [], []) in
      ((nm ++ sep, VM (make_nested_meta c md)) :: map (fun p => ((nm ++ sep) ++ fst p, snd p)) d, FNested :: fl, [])
  end.
Definition flat_items := fix go (l : list (name * item)) (acc : list (name * value) * list flag * list (name * M)) :=
  match l with
  | [] => acc
  | (n, x) :: r =>
      let '(d, fl, md) := acc in let '(d1, fl1, md1) := flat_item n x in
      go r (dset_all d1 d, fl ++ fl1, dset_all md1 md)
  end.
(** lines 2233-2242: the flattened Struct, its arrayflags and its metastring *)
Definition flat_struct := (list (name * value) * list flag * list (name * metaval))%type.
Definition flatten (s : struct) : flat_struct :=
  let '(d, fl, md) := flat_items (snd s) ([], [], []) in (d, fl, make_nested_meta (fst s) md).

(** lines 2383-2390: the extra arrays of an array subclass *)
Fixpoint take_cols (p : name) (obj : list (name * value * flag)) : list value * list (name * value * flag) :=
  match obj with
  | (n, v, f) :: r => if startswith p n then let '(cs, rest) := take_cols p r in (v :: cs, rest) else ([], obj)
  | [] => ([], [])
  end.
Fixpoint arrays (l : list value) : option (list A) :=
  match l with
  | [] => Some []
  | VA a :: r => match arrays r with Some s => Some (a :: s) | None => None end
  | VM _ :: _ => None
  end.
(** lines 2305-2314 [build_class_nested] *)
Definition build_class (md : list (name * metaval)) (its : list (name * item)) : option struct :=
  match dget root_name md with Some (MC c) => Some (c, its) | _ => None end.

(** lines 2300-2406 [_flatten_undo]; the position in obj_array is the list of the entries left.
    [top]: startpos = 0.  [None]: an exception (a value of the wrong kind). *)
Fixpoint undo (fuel : nat) (top : bool) (start : name) (md : list (name * metaval)) (obj : list (name * value * flag)) (acc : list (name * item))
  : option (struct * list (name * value * flag)) :=
  match fuel with
  | 0 => None
  | S fu =>
    match obj with
    | [] => match build_class md acc with Some s => Some (s, []) | None => None end
    | (nm, v, f) :: r =>
        if negb top && negb (startswith start nm) then match build_class md acc with Some s => Some (s, obj) | None => None end
        else
          let pure := skipn (length start) nm in
          match f, v with
          | FNested, VM md' =>
              (* purename[:-seplen] *)
              let pure' := firstn (match length sep with 0 => 0 | k => length pure - k end) pure in
              match undo fu false nm md' r [] with
              | Some ((c, its), rest) => undo fu top start md rest (dset pure' (Sub c its) acc)
              | None => None
              end
          | FMeta, VA a =>
              match dget pure md with
              | Some (MM m) =>
                  let '(cs, rest) := take_cols (nm ++ [bang]) r in
                  match arrays cs with
                  | Some cols => undo fu top start md rest (dset pure (Spec m a cols) acc)
                  | None => None
                  end
              | Some (MC _) => None
              | None => undo fu top start md r (dset pure (Arr a) acc)
              end
          | FScalar, VA a => undo fu top start md r (dset pure (Scal a) acc)
          | FPlain, VA a => undo fu top start md r (dset pure (Arr a) acc)
          | _, _ => None
          end
    end
  end.
(** lines 2247-2296 [flatten_undo] *)
Definition flatten_undo (fs : flat_struct) : option struct :=
  let '(d, fl, md) := fs in
  let obj := map (fun p => (fst (fst p), snd (fst p), snd p)) (combine d fl) in
  match undo (S (length obj)) true [] md obj [] with Some (s, _) => Some s | None => None end.
End Flatten.
Arguments item : clear implicits. Arguments struct : clear implicits. Arguments value : clear implicits.
Arguments metaval : clear implicits. Arguments flat_struct : clear implicits.
