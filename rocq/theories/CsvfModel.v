(* Model of the csv loader (rt_csv.py) and of the numpy directories (rt_io.py).
   Not modelled: the text of the csv file (the lists of fields that csv.reader
   yields are the input, skip_rows is a drop of leading lines before it), version
   4 of the loader (pandas), converters that raise or that are themselves strings, and
   the dtype numpy chooses.  `stored` is the name under which a Dataset keeps a
   column: names that are keywords or attributes of Datasets are capitalized
   (rt_struct.py:2605-2650 col_set_value), others are kept. *)
From Coq Require Import List String Ascii Bool Arith.
Import ListNotations.

(* Python dict assignment: an existing key keeps its place. *)
Fixpoint dset {A} (k : string) (v : A) (d : list (string * A)) : list (string * A) :=
  match d with
  | [] => [(k, v)]
  | (k', v') :: r => if String.eqb k k' then (k', v) :: r else (k', v') :: dset k v r
  end.

(* dict(zip(names, values)) *)
Definition mkdict {A} (l : list (string * A)) : list (string * A) :=
  fold_left (fun d kv => dset (fst kv) (snd kv) d) l [].

(* rt_struct.py:316 and rt_dataset.py:656: a leading underscore *)
Definition hidden (s : string) : bool := String.prefix "_" s.

(* rt_dataset.py:643-687 _init_from_dict and _check_add_dimensions, with
   Struct.AllNames and WarnOnInvalidNames at their default False: a name with a
   leading underscore raises in _validate_names (rt_struct.py:307-332), and the
   columns must have one length.  None is the ValueError. *)
Definition dataset_of {V} (stored : string -> string) (d : list (string * list V))
  : option (list (string * list V)) :=
  if existsb (fun kv => hidden (fst kv)) d then None else
  let cols := fold_left (fun c kv => dset (stored (fst kv)) (snd kv) c) d [] in
  match cols with
  | [] => Some []
  | (_, c) :: r =>
      if forallb (fun kv => Nat.eqb (List.length (snd kv)) (List.length c)) r
      then Some cols else None
  end.

Section CSV.
Variable V : Type.
(* converters.get(name, identity), as one function *)
Variable conv : string -> string -> V.
(* str.isidentifier *)
Variable is_ident : string -> bool.
Variable stored : string -> string.

Fixpoint all_some {A} (l : list (option A)) : option (list A) :=
  match l with
  | [] => Some []
  | None :: _ => None
  | Some a :: r => match all_some r with Some r' => Some (a :: r') | None => None end
  end.

(* [_conv(_e[_i]) for _e in rawd]; None is the IndexError *)
Definition col_at (rows : list (list string)) (i : nat) (n : string) : option (list V) :=
  all_some (map (fun r => match nth_error r i with Some f => Some (conv n f) | None => None end) rows).

Fixpoint cols_from (rows : list (list string)) (i : nat) (names : list string)
  : option (list (list V)) :=
  match names with
  | [] => Some []
  | n :: ns =>
      match col_at rows i n, cols_from rows (S i) ns with
      | Some c, Some cs => Some (c :: cs)
      | _, _ => None
      end
  end.

(* rt_csv.py:101-111 _load_rows_to_dict_conv_by_col (version 0) *)
Definition load_by_col (names : list string) (rows : list (list string)) :=
  match cols_from rows 0 names with
  | Some cs => dataset_of stored (mkdict (combine names cs))
  | None => None
  end.

(* rt_csv.py:119-120: zip(_r, convs, rawd), appending to each list *)
Fixpoint push (names : list string) (r : list string) (cols : list (list V)) : list (list V) :=
  match cols, names, r with
  | c :: cs, n :: ns, f :: fs => (c ++ [conv n f]) :: push ns fs cs
  | _, _, _ => cols
  end.

(* rt_csv.py:114-122 _load_rows_to_dict_conv_by_row (version 1) *)
Definition load_by_row (names : list string) (rows : list (list string)) :=
  let rawd := fold_left (fun cols r => push names r cols) rows (map (fun _ => []) names) in
  dataset_of stored (mkdict (combine names rawd)).

(* [_c(_v) for _v, _c in zip(_r, convs)] *)
Fixpoint conv_row (names : list string) (r : list string) : list V :=
  match names, r with
  | n :: ns, f :: fs => conv n f :: conv_row ns fs
  | _, _ => []
  end.

(* rt_dataset.py:7569-7570: one element on each column *)
Fixpoint push_row (r : list V) (cols : list (list V)) : list (list V) :=
  match r, cols with
  | v :: vs, c :: cs => (c ++ [v]) :: push_row vs cs
  | _, _ => cols
  end.

(* rt_dataset.py:7537-7571 Dataset.from_rows *)
Definition from_rows (rows : list (list V)) (names : list string) :=
  match names with
  | [] => Some []
  | _ =>
      if forallb (fun r => Nat.eqb (List.length r) (List.length names)) rows
      then dataset_of stored (mkdict (combine names
             (fold_left (fun cols r => push_row r cols) rows (map (fun _ => []) names))))
      else None
  end.

(* rt_csv.py:137-144 _load_rows_to_rows_and_cols (version 3) *)
Definition load_rows_cols (names : list string) (rows : list (list string)) :=
  from_rows (map (conv_row names) rows) names.

Definition tag (k : string) (d : list (string * V)) : option V :=
  option_map snd (find (fun kv => String.eqb k (fst kv)) d).
Definition tags (k : string) (ds : list (list (string * V))) : list V :=
  flat_map (fun d => match tag k d with Some v => [v] | None => [] end) ds.
(* Counter()[k] *)
Definition tag_count (k : string) (ds : list (list (string * V))) : nat :=
  List.length (filter (fun d => match tag k d with Some _ => true | None => false end) ds).

(* rt_dataset.py:7478-7534 Dataset.from_tagged_rows and rt_csv.py:133: the keys of the
   rows must all be found equally often.  Simplified: the columns are put in the
   order of `names` at once (from_tagged_rows sorts them by name, col_move_to_front
   then puts them in that order, rt_itemcontainer.py:469-488). *)
Definition from_tagged_rows (names : list string) (rows : list (list (string * V))) :=
  let keys := filter (fun k => negb (Nat.eqb (tag_count k rows) 0)) (nodup string_dec names) in
  match keys with
  | [] => Some []
  | k0 :: _ =>
      if forallb (fun k => Nat.eqb (tag_count k rows) (tag_count k0 rows)) keys
      then dataset_of stored (map (fun k => (k, tags k rows)) keys) else None
  end.

(* rt_csv.py:125-134 _load_rows_to_tagged_rows (version 2); col_move_to_front raises
   for more names than there are columns (rt_itemcontainer.py:461-464). *)
Definition load_tagged (names : list string) (rows : list (list string)) :=
  match from_tagged_rows names (map (fun r => mkdict (combine names (conv_row names r))) rows) with
  | Some ds => if Nat.ltb (List.length ds) (List.length names) then None else Some ds
  | None => None
  end.

(* rt_csv.py:79-98 load_csv_as_dataset: the names are the first row when none are
   given, and they must be identifiers; `rows` is what csv.reader yields. *)
Definition load_csv (version : nat) (column_names : list string) (rows : list (list string))
  : option (list (string * list V)) :=
  let go names body :=
    if forallb is_ident names then
      match version with
      | 0 => load_by_col names body
      | 1 => load_by_row names body
      | 2 => load_tagged names body
      | 3 => load_rows_cols names body
      | _ => None
      end
    else None in
  match column_names with
  | [] => match rows with [] => None | h :: body => go h body end
  | _ => go column_names rows
  end.
End CSV.

(* ---- directories of numpy files ---- *)

(* str.endswith(".npy") *)
Fixpoint ends_npy (s : string) : bool :=
  String.eqb s ".npy" || match s with EmptyString => false | String _ t => ends_npy t end.

(* np.save: the extension is added to a name that does not end in it *)
Definition npy_file (s : string) : string := if ends_npy s then s else (s ++ ".npy")%string.

(* s.replace(".npy", ""): k characters are still to be dropped *)
Fixpoint strip_npy (k : nat) (s : string) : string :=
  match s with
  | EmptyString => EmptyString
  | String c t =>
      match k with
      | S k' => strip_npy k' t
      | 0 => if String.prefix ".npy" s then strip_npy 3 t else String c (strip_npy 0 t)
      end
  end.

(* The directories below outdir: name of the directory -> its files. *)
Definition disk V := list (string * list (string * list V)).

Definition on_disk {V} (d : disk V) (name : string) : option (list (string * list V)) :=
  option_map snd (find (fun kv => String.eqb name (fst kv)) d).

(* rt_io.py:12-36 write_dset_to_np: os.makedirs raises on a directory that exists
   (None); each column goes to a file of its own name.  Simplified: column names
   with a path separator are not treated. *)
Definition write_np {V} (d : disk V) (name : string) (ds : list (string * list V)) : option (disk V) :=
  match on_disk d name with
  | Some _ => None
  | None => Some (d ++ [(name, fold_left (fun fs kv => dset (npy_file (fst kv)) (snd kv) fs) ds [])])
  end.

(* rt_io.py:39-71 read_dset_from_np: `listing` is os.listdir, which gives the files
   in any order. *)
Definition read_np {V} (stored : string -> string) (listing : list (string * list V) -> list (string * list V))
    (d : disk V) (name : string) : option (list (string * list V)) :=
  match on_disk d name with
  | None => None
  | Some fs => dataset_of stored (fold_left (fun c kv => dset (strip_npy 0 (fst kv)) (snd kv) c) (listing fs) [])
  end.
