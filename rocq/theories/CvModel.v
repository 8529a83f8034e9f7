(** * Columns of strings to Categoricals, Categoricals to arrays of categories and back.

    Modelled: [Struct.make_categoricals] (riptable/rt_struct.py:1779-1832),
    [Struct.make_struct_from_categories] (1835-1881) with the names of
    [Struct._init_from_dict] and [col_set_value] (354-373, 307-332, 2605-2652),
    [Struct.make_matlab_categoricals] (1916-1996) with [col_rename] (3421-3498,
    rt_itemcontainer.py:409-440).

    Not modelled: warnings, locked Structs, Structs that are inside two others or
    inside themselves, sort lists, integer types too small for the categories. *)
From Coq Require Import List ZArith Bool.
From Verif Require Import FlattenModel CatModel CatSpec CvSpec.
Import ListNotations.

Inductive exn := EType | EValue | EIndex.

Section Cv.
Context {T : Type} (o : ord T).
(** Categorical(col): sorted distinct strings; codes from 1 *)
Definition categorical (l : list T) : item T :=
  let u := usort o l in Cats (map (fun x => (1 + position o u x)%Z) l) u.
(** 1824-1832 for all columns, the nested call *)
Fixpoint convert (t : item T) : item T :=
  match t with
  | Strs l => categorical l
  | Sub l => Sub ((fix go (l : list (name * item T)) : list (name * item T) :=
                     match l with [] => [] | (k, v) :: r => (k, convert v) :: go r end) l)
  | t => t
  end.
(** 1824-1832: one column after the other; a name that is no column raises IndexError,
    the earlier columns are converted by then *)
Fixpoint convert_cols (cols : list name) (st : struct T) : option exn * struct T :=
  match cols with
  | [] => (None, st)
  | c :: r =>
      match dget c st with
      | None => (Some EIndex, st)
      | Some v => convert_cols r (dset c (convert v) st)
      end
  end.
(** 1779-1832; [dtype_ok]: dtype is None or a numpy dtype; [attr]: the names of the
    attributes and methods every Struct has: getattr finds them too (1818-1822) *)
Definition make_categoricals (attr : name -> bool) (dtype_ok : bool) (cols : option (list name)) (st : struct T) : option exn * struct T :=
  if negb dtype_ok then (Some EType, st)
  else match cols with
       | None => convert_cols (map fst st) st
       | Some l => if forallb (fun c => match dget c st with Some _ => true | None => attr c end) l then convert_cols l st
                   else (Some EValue, st)
       end.

(** ** Names *)
Definition up (c : nat) : nat := if (97 <=? c)%nat && (c <=? 122)%nat then c - 32 else c.
Definition low (c : nat) : nat := if (65 <=? c)%nat && (c <=? 90)%nat then c + 32 else c.
(** str.capitalize, ASCII *)
Definition capitalize (n : name) : name := match n with [] => [] | c :: r => up c :: map low r end.
(** 255-270: [bad]: the keywords and the names in [attr] *)
Definition valid (bad : name -> bool) (n : name) : bool :=
  match n with [] => false | c :: _ => negb (c =? 95)%nat && negb (bad n) end.
(** 2621-2652: the name a column gets *)
Definition col_name (bad : name -> bool) (n : name) : name :=
  match n with [] => [] | c :: _ => if bad n && (97 <=? c)%nat && (c <=? 122)%nat then capitalize n else n end.

(** ** make_struct_from_categories *)
(** 1866-1879; a Categorical with several keys raises, which the loop ignores *)
Definition cat_entries (prefix : option name) (keep : bool) (st : struct T) : list (name * list T) :=
  let plen := match prefix with None => 0 | Some p => if keep then 0 else length p end in
  let chosen := match prefix with None => st | Some p => filter (fun c => startswith p (fst c)) st end in
  fold_left (fun d c => match snd c with Cats _ cats => dset (skipn plen (fst c)) cats d | _ => d end) chosen [].
(** 1880 with 354-373: None: ValueError for a name that starts with _, IndexError for an empty name *)
Definition make_struct (bad : name -> bool) (prefix : option name) (keep : bool) (st : struct T) : option (list (name * list T)) :=
  let d := cat_entries prefix keep st in
  if forallb (fun e => match fst e with [] => false | c :: _ => negb (c =? 95)%nat end) d
  then Some (fold_left (fun s e => dset (col_name bad (fst e)) (snd e) s) d []) else None.

(** ** make_matlab_categoricals *)
(** 3479-3486 and rt_itemcontainer.py:417-439; None: ValueError *)
Definition col_rename (bad : name -> bool) (old new : name) (st : struct T) : option (struct T) :=
  if name_dec old new then Some st
  else if negb (valid bad new) then None
  else match dget old st, dget new st with
       | Some _, None => Some (map (fun c => if name_dec (fst c) old then (new, snd c) else c) st)
       | _, _ => None
       end.
Definition col_remove (k : name) (st : struct T) : struct T := filter (fun c => if name_dec (fst c) k then false else true) st.
(** Categorical(pArray, strNames, base_index=1, from_matlab=True); None: raises *)
Context (mk : item T -> list T -> option (item T)) (strip : T -> T).
(** 1945-1991: one name of xtra; false: TypeError *)
Definition matlab_step (bad attr : name -> bool) (trailing keep : bool) (prefix : name) (e : name * list T) (st : struct T) : bool * struct T :=
  let p := prefix ++ fst e in
  match dget p st with
  | None => (negb (attr p), st)
  | Some (Cats _ _) | Some (Multi _ _) => (true, st)
  | Some col =>
      match mk col (if trailing then map strip (snd e) else snd e) with
      | None => (false, st)
      | Some c =>
          if keep then (true, dset p c st)
          else
            let st1 := col_remove (fst e) st in
            match col_rename bad p (fst e) st1 with
            | Some st2 => (true, dset (fst e) c st2)
            | None =>
                match col_rename bad p (capitalize (fst e)) st1 with
                | Some st2 => (true, dset (capitalize (fst e)) c st2)
                | None => (false, st1)
                end
            end
      end
  end.
(** 1916-1996 *)
Fixpoint make_matlab (bad attr : name -> bool) (trailing keep : bool) (prefix : name) (xtra : list (name * list T)) (st : struct T) : bool * struct T :=
  match xtra with
  | [] => (true, st)
  | e :: r => match matlab_step bad attr trailing keep prefix e st with
              | (true, st') => make_matlab bad attr trailing keep prefix r st'
              | (false, st') => (false, st')
              end
  end.
End Cv.
