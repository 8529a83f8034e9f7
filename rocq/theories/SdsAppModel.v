(** Model of loading a .sds file that was saved to several times with append=name: the second half of
    _read_sds in riptable/rt_sds.py.

    [A]: the contents of a column.  The C++ library returns the sections in an order that depends on
    its threads; each comes with its offset in the file, and one of them with the names of all
    sections in the order in which they were appended. *)
From Coq Require Import List Arith Bool ZArith.
From Verif Require Import FlattenModel DsModel.
Import ListNotations.

Section App.
Context {A : Type}.
(** one section: its offset in the file, whether it is a Dataset, its length (len: rows of a Dataset,
    items of a Struct) and its items *)
Record part := { p_off : Z; p_ds : bool; p_len : nat; p_cols : list (name * A) }.
(** what is returned: one Dataset, a Struct of the sections, or an object array of the sections *)
Inductive loaded := LDataset (cols : list (name * A)) | LStruct (parts : list (name * part)) | LArray (parts : list part).

(** rt_sds.py:3691-3693: result[np.lexsort([offsets])], a stable sort by offset *)
Fixpoint insert (p : part) (l : list part) : list part :=
  match l with
  | [] => [p]
  | q :: r => if (p_off p <=? p_off q)%Z then p :: l else q :: insert p r
  end.
Fixpoint by_offset (l : list part) : list part :=
  match l with
  | [] => []
  | p :: r => insert p (by_offset r)
  end.

(** rt_sds.py:3717-3732: the columns of all sections in one dictionary; a name that is taken gets the
    running counter, and the attempt is given up when that is taken as well *)
Fixpoint add_cols (cols : list (name * A)) (st : list (name * A) * nat) : option (list (name * A) * nat) :=
  match cols with
  | [] => Some st
  | (k, v) :: r =>
      let '(d, c) := st in
      if mem k (map fst d) then
        let k' := k ++ 95 :: digits (Nat.to_uint c) in
        if mem k' (map fst d) then None else add_cols r (dset k' v d, S c)
      else add_cols r (dset k v d, c)
  end.
Fixpoint merge_parts (ps : list part) (st : list (name * A) * nat) : option (list (name * A)) :=
  match ps with
  | [] => Some (fst st)
  | p :: r => match add_cols (p_cols p) st with Some st' => merge_parts r st' | None => None end
  end.
(** rt_sds.py:3700-3714: all sections are Datasets and have the same number of rows *)
Definition mergeable (ps : list part) : bool :=
  match ps with
  | [] => false
  | p :: _ => forallb (fun q => p_ds q) ps && forallb (fun q => p_len q =? p_len p) ps
  end.
(** rt_sds.py:3676-3742 *)
Definition load_sections (sections : list name) (parts : list part) : loaded :=
  let result := by_offset parts in
  let st := dset_all (combine sections result) [] in
  let fallback := if length st =? length result then LStruct st else LArray result in
  if mergeable result
  then match merge_parts result ([], 0) with Some d => LDataset d | None => fallback end
  else fallback.
End App.
Arguments part : clear implicits.
Arguments loaded : clear implicits.
