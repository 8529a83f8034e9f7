(** * Tables of several columns; columns popped; the truth of Structs.

    Modelled: [accum_cols] (riptable/rt_accumtable.py:1326-1657); [Struct.col_pop]
    (rt_struct.py:3645-3697) with [_extract_indexing] (752-801), [_mask_get_item] (609-706),
    [Struct.__getitem__] (804-834), [col_remove] (3620-3638) and [_deleteitem] (457-470);
    [Struct.any] and [Struct.all] (3994-4062).

    Not modelled: the aggregation (parameters), trim for remove_blanks; for col_pop, Datasets with names twice in
    the list, sorted Datasets; for any and all, iterators. *)
From Coq Require Import List ZArith Bool.
From Verif Require Import FlattenModel CpSpec.
Import ListNotations.

(** ** accum_cols *)
(** a list, or one thing for all values *)
Inductive each (T : Type) := OneForAll (t : T) | Each (l : list T).
Arguments OneForAll {T}. Arguments Each {T}.
Section Accum.
Context {A F Filter X Y : Type}.
Variables (agg : F -> A -> Filter -> option (X * Y)) (ratio : F -> A -> A -> Filter -> option (X * Y)) (percent : F -> A -> Filter -> option (X * Y)).
(** 1633: val[1] in "pP", the substrings *)
Definition in_pP (s : name) : bool :=
  existsb (fun x => if name_dec x s then true else false) [[]; [112]; [80]; [112; 80]]%nat.
(** 1629-1642 *)
Definition curr_data (f : F) (filt : Filter) (v : value A) : option (X * Y) :=
  match v with
  | Plain a => agg f a filt
  | Named a s => if in_pP s then percent f a filt else None
  | Ratio a b => ratio f a b filt
  end.
(** 1628, 1643-1652: the columns and the footer row Total *)
Fixpoint add_cols (vals : list (value A)) (names : list name) (filts : list Filter) (funcs : list F) (cols : list (name * X)) (foot : list (name * Y)) : option (list (name * X) * list (name * Y)) :=
  match vals, names, filts, funcs with
  | v :: vals, n :: names, filt :: filts, f :: funcs =>
      match curr_data f filt v with
      | Some (x, y) => add_cols vals names filts funcs (dset n x cols) (dset n y foot)
      | None => None
      end
  | _, _, _, _ => Some (cols, foot)
  end.
(** f"col{n}", 1614 *)
Definition col_name (n : nat) : name := [99; 111; 108]%nat ++ digits (Nat.to_uint n).
Definition spread {T} (e : each T) (n : nat) : list T := match e with OneForAll t => repeat t n | Each l => l end.
Definition nothing {T} (l : list T) : bool := match l with [] => true | _ => false end.
(** 1606-1657; [labels]: the columns of the categories; [filts]: None is the filter that is
    always True, [all_true]; None: an exception (1655-1657: no results) *)
Definition accum_cols (labels : list (name * X)) (all_true : Filter) (vals : list (value A)) (names : option (list name)) (filts : option (each Filter)) (funcs : each F) : option (list (name * X) * list (name * Y)) :=
  let names := match names with Some l => l | None => map col_name (seq 0 (length vals)) end in
  let filts := match filts with Some e => spread e (length vals) | None => repeat all_true (length vals) end in
  let funcs := spread funcs (length vals) in
  if nothing vals || nothing names || nothing filts || nothing funcs then None else add_cols vals names filts funcs labels [].
End Accum.

(** ** col_pop *)
Section Pop.
Context {V : Type}.
Definition struct := list (name * V).
(** a name, a number, names, numbers, True and False, [:], another slice (by the names that it selects) *)
Inductive colspec := Name (n : name) | Num (z : Z) | Names (l : list name) | Nums (l : list Z) | Bools (l : list bool) | Everything | Slice (sel : list name -> list name).
(** a str; a list; a numpy array; None *)
Inductive col_idx := Str (n : name) | Lst (l : list name) | Arr (l : list name) | NoneIdx.
(** l[z] of Python *)
Definition pyget {T} (l : list T) (z : Z) : option T :=
  if (z <? - Z.of_nat (length l))%Z || (Z.of_nat (length l) <=? z)%Z then None
  else nth_error l (Z.to_nat (if (z <? 0)%Z then z + Z.of_nat (length l) else z)).
Fixpoint pyget_all {T} (l : list T) (zs : list Z) : option (list T) :=
  match zs with
  | [] => Some []
  | z :: r => match pyget l z, pyget_all l r with Some x, Some t => Some (x :: t) | _, _ => None end
  end.
(** 789-799 with 619-706; None: IndexError *)
Definition extract (s : colspec) (keys : list name) : option col_idx :=
  match s with
  | Name n => Some (Str n)
  | Num z => option_map Str (pyget keys z)
  | Names [] | Nums [] | Bools [] => None
  | Names l => Some (Lst l)
  | Nums l => option_map Arr (pyget_all keys l)
  | Bools l => if (length l =? length keys)%nat then Some (Arr (map snd (filter fst (combine l keys)))) else None
  | Everything => Some NoneIdx
  | Slice sel => Some (Arr (sel keys))
  end.
Inductive popped := One (v : V) | Sub (d : struct) | IndexError | TypeError | AttributeError.
Definition isin (l : list name) (n : name) : bool := existsb (fun x => if name_dec x n then true else false) l.
(** 831-834: the columns in the order of the list; None: IndexError *)
Fixpoint pick (l : list name) (st : struct) : option struct :=
  match l with
  | [] => Some []
  | k :: r => match dget k st, pick r st with Some v, Some d => Some ((k, v) :: d) | _, _ => None end
  end.
Fixpoint unique (l : list name) : bool := match l with [] => true | k :: r => negb (isin r k) && unique r end.
(** 457-470 *)
Fixpoint delete (n : name) (st : struct) : struct :=
  match st with [] => [] | (k, v) :: r => if name_dec k n then r else (k, v) :: delete n r end.
(** 3684-3697; the result and the Struct afterwards *)
Definition col_pop (locked : bool) (s : colspec) (st : struct) : popped * struct :=
  match extract s (map fst st) with
  | None => (IndexError, st)
  | Some c =>
      let c := match c with NoneIdx => Lst (map fst st) | _ => c end in
      let names := match c with Str n => [n] | Lst l | Arr l => l | NoneIdx => [] end in
      if negb (forallb (isin (map fst st)) names) then (IndexError, st)
      else
        let new := match c with
                   | Lst l => if unique l then match pick l st with Some d => Sub d | None => IndexError end else IndexError
                   | Str n => match dget n st with Some v => One v | None => IndexError end
                   | _ => TypeError
                   end in
        match new with
        | One _ | Sub _ => if locked then (AttributeError, st) else (new, fold_left (fun d n => delete n d) names st)
        | _ => (new, st)
        end
  end.
End Pop.
Arguments struct : clear implicits.
Arguments popped : clear implicits.

(** ** any and all *)
(** 3994-4031 *)
Fixpoint any (i : item) : bool :=
  match i with
  | SubStruct l => (fix go l := match l with [] => false | (_, x) :: r => if any x then true else go r end) l
  | Array l => existsb (fun b => b) l
  | Iterable l => existsb (fun b => b) l
  | Dict l => existsb fst l
  | Scalar b => b
  end.
(** 4033-4062 *)
Fixpoint all (i : item) : bool :=
  match i with
  | SubStruct l => (fix go l := match l with [] => true | (_, x) :: r => if negb (all x) then false else go r end) l
  | Array l => forallb (fun b => b) l
  | Iterable l => forallb (fun b => b) l
  | Dict l => forallb fst l
  | Scalar b => b
  end.
