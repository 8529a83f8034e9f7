(** Model of saving containers to .sds files and loading them back: riptable/rt_sds.py (save_sds,
    save_struct, _sds_from_tree, _write_to_sds, _escape_filename, _rebuild_rootfile, load_sds,
    _load_sds, _build_schema, _sds_load_from_schema, _include_extra_sds_files, _order_from_meta,
    _read_sds, sds_flatten) and Struct._build_sds_meta_data / _load_from_sds_meta_data of
    riptable/rt_struct.py.

    Names are lists of character codes.  [A]: the contents of an array (or scalar), [M]: the metadata
    string of an array subclass such as Categorical, [L]: the label names of a container.
    Simplifications: the bytes of a .sds file are not modelled; rc.CompressFile and
    rc.MultiDecompressFiles are taken to return from a file what the last write to it stored (the
    trusted contract of the C++ library).  Rebuilding an array subclass from its metadata, its array
    and its extra arrays is taken to be faithful when it is given those arrays; what it is given is
    modelled.  Sort indexes and footers, shared memory, the include, folders, filter and info
    arguments and files whose extension is not in lower case are left out. *)
From Coq Require Import List Arith Bool Lia.
From Verif Require Import FlattenModel DsModel.
Import ListNotations.

(** ".sds", rt_enum SDS_EXTENSION *)
Definition ext : name := [46; 115; 100; 115].
(** rt_enum.py:942 INVALID_FILE_CHARS: backslash : < > ! | * ? *)
Definition invalid_chars : list nat := [92; 58; 60; 62; 33; 124; 42; 63].
(** the characters of a name before and after the last "!", name.rfind("!") *)
Fixpoint after_last (s : name) : option name :=
  match s with
  | [] => None
  | c :: r => match after_last r with
              | Some x => Some x
              | None => if c =? bang then Some r else None
              end
  end.
(** rt_sds.py:3778-3779 [dname]: what follows the last "!", or the whole name *)
Definition leaf_name (s : name) : name := match after_last s with Some x => x | None => s end.
(** rt_sds.py:3559-3585 [_escape_filename] raises when the leaf holds an invalid character *)
Definition escapes (s : name) : bool := existsb (fun c => existsb (Nat.eqb c) invalid_chars) (leaf_name s).
(** str.endswith *)
Definition endswith (s e : name) : bool := startswith (rev e) (rev s).
(** rt_sds.py:2436-2437: the extension is added unless the name already ends with it.  Files are
    known here by their name without the extension. *)
Definition stem (s : name) : name := if endswith s ext then firstn (length s - length ext) s else s.

(** itemname[:itemname.find("!")], rt_struct.py:1694-1695; find gives -1 when there is no "!" *)
Fixpoint find_bang (s : name) : option name :=
  match s with
  | [] => None
  | c :: r => if c =? bang then Some [] else option_map (cons c) (find_bang r)
  end.
Definition before_bang (s : name) : name := match find_bang s with Some x => x | None => removelast s end.

(** rt_sds.py:3443-3456: a file name is cut at every "!" *)
Fixpoint split_bang (s : name) : list name :=
  match s with
  | [] => [[]]
  | c :: r => if c =? bang then [] :: split_bang r
              else match split_bang r with
                   | h :: t => (c :: h) :: t
                   | [] => [[c]]
                   end
  end.

(** the directory tree of file names; rt_sds.py:3411-3458 *)
Inductive schema := Node (kids : list (name * schema)).
Definition kids_of (s : schema) : list (name * schema) := match s with Node k => k end.
(** schema_p.setdefault along one file name *)
Fixpoint sins (p : list name) (kids : list (name * schema)) : list (name * schema) :=
  match p with
  | [] => kids
  | n :: q => dset n (Node (sins q (match dget n kids with Some s => kids_of s | None => [] end))) kids
  end.
(** rt_sds.py:3411-3458 [_build_schema] *)
Definition build_schema (stems : list name) : list (name * schema) :=
  fold_left (fun s f => sins (split_bang f) s) stems [].
(** del schema[k] *)
Definition ddrop {X} (k : name) (d : list (name * X)) : list (name * X) :=
  filter (fun p => if name_dec (fst p) k then false else true) d.

Section Sds.
Context {A M L : Type}.
(** the labels of a new container *)
Variable no_labels : L.

(** an item of a container: array, scalar, array subclass with its extra arrays, Struct
    ([ds = false]) or Dataset ([ds = true]), and the value None that marks an item not loaded yet *)
Inductive item :=
| Arr (a : A)
| Scal (a : A)
| Spec (m : M) (a : A) (cols : list A)
| Sub (ds : bool) (lab : L) (its : list (name * item))
| Nothing.

(** rt_enum SDSFlag: OriginalContainer with nothing, Scalar or Nested; [FExtra] is not
    OriginalContainer *)
Inductive flag := FArray | FScalar | FNested | FExtra.
(** rt_enum SDSFileType *)
Inductive ftype := TStruct | TDataset | TArray.
(** the parts of a .sds file: its type, the labels and the item metadata (JSON), and for each stored
    array its name, its flags and its contents (None for a nested container) *)
Record file := { f_type : ftype; f_labels : L; f_metas : list (name * M); f_cells : list (name * flag * option A) }.

(** rt_struct.py:1205-1290: the cell of an item and what its extra arrays add at the end *)
Definition cell_of (p : name * item) : name * flag * option A :=
  match snd p with
  | Arr a => (fst p, FArray, Some a)
  | Scal a => (fst p, FScalar, Some a)
  | Spec _ a _ => (fst p, FArray, Some a)
  | Sub _ _ _ => (fst p, FNested, None)
  | Nothing => (fst p, FScalar, None)
  end.
(** rt_categorical.py:3703: the names of the extra arrays are name!col_0, name!col_1, ... *)
Definition extra_cells (p : name * item) : list (name * flag * option A) :=
  match snd p with
  | Spec _ _ cols => map (fun ic => (fst p ++ bang :: col_i (fst ic), FExtra, Some (snd ic))) (combine (seq 0 (length cols)) cols)
  | _ => []
  end.
Definition meta_of (p : name * item) : list (name * M) :=
  match snd p with Spec m _ _ => [(fst p, m)] | _ => [] end.
(** rt_struct.py:1159-1316 [_build_sds_meta_data] *)
Definition file_of (t : ftype) (lab : L) (its : list (name * item)) : file :=
  {| f_type := t; f_labels := lab; f_metas := flat_map meta_of its;
     f_cells := map cell_of its ++ flat_map extra_cells its |}.

(** rt_struct.py:1648-1699: the dictionaries of the items and of the extra arrays *)
Definition spec_add (k : name) (x : option A) (sp : list (name * list (option A))) :=
  dset k ((match dget k sp with Some l => l | None => [] end) ++ [x]) sp.
Definition read_cell (st : list (name * item) * list (name * list (option A))) (c : name * flag * option A) :=
  let '(data, sp) := st in
  match c with
  | (k, FNested, _) => (dset k Nothing data, sp)
  | (k, FArray, Some a) => (dset k (Arr a) data, sp)
  | (k, FScalar, Some a) => (dset k (Scal a) data, sp)
  | (_, FArray, None) | (_, FScalar, None) => (data, sp)
  | (k, FExtra, x) => (data, spec_add (before_bang k) x sp)
  end.
Fixpoint all_some {X} (l : list (option X)) : option (list X) :=
  match l with
  | [] => Some []
  | Some x :: r => option_map (cons x) (all_some r)
  | None :: _ => None
  end.
(** rt_struct.py:1701-1722: an array subclass is rebuilt from its array and the extra arrays found
    under its name; None: an exception is raised *)
Definition read_meta (sp : list (name * list (option A))) (data : option (list (name * item))) (km : name * M) :=
  match data with
  | None => None
  | Some d =>
      match dget (fst km) d with
      | None => Some d
      | Some (Arr a) =>
          match all_some (match dget (fst km) sp with Some l => l | None => [] end) with
          | Some cols => Some (dset (fst km) (Spec (snd km) a cols) d)
          | None => None
          end
      | Some _ => None
      end
  end.
(** rt_struct.py:1589-1740 [_load_from_sds_meta_data]: the items of the container *)
Definition read_items (f : file) : option (list (name * item)) :=
  let '(data, sp) := fold_left read_cell (f_cells f) ([], []) in
  fold_left (read_meta sp) (f_metas f) (Some data).
Definition is_ds (t : ftype) : bool := match t with TDataset => true | _ => false end.
(** rt_sds.py:3589-3742 [_read_sds] for a file with one section, and 674-681 [_sds_load_single] *)
Definition read_file (f : file) : option item :=
  match read_items f with
  | None => None
  | Some data =>
      match f_type f with
      | TArray => match data with (_, it) :: _ => Some it | [] => None end
      | t => Some (Sub (is_ds t) (f_labels f) data)
      end
  end.

(** a directory: the files in the order in which it is listed *)
Definition dir := list (name * file).

(** ---------- saving ---------- *)
Definition is_box (it : item) : bool := match it with Sub _ _ _ => true | _ => false end.
(** rt_struct.py:2433-2440 *)
Definition has_nested (its : list (name * item)) : bool := existsb (fun p => is_box (snd p)) its.
Definition type_of (ds : bool) : ftype := if ds then TDataset else TStruct.
(** rt_sds.py:3866-3869 *)
Definition under (pre : option name) (k : name) : name :=
  match pre with None => k | Some p => p ++ bang :: k end.
(** rt_sds.py:3833-3875 [_sds_from_tree] without a shared name: the files written, in order, each
    with the name passed to _write_to_sds *)
Fixpoint tree_writes (pre : option name) (it : item) : list (name * file) :=
  match it with
  | Sub ds lab its =>
      (fix kids (l : list (name * item)) : list (name * file) :=
         match l with
         | [] => []
         | (k, v) :: r => (if is_box v then tree_writes (Some (under pre k)) v else []) ++ kids r
         end) its
      ++ match pre with
         | Some n => if (length its =? 0) || existsb (fun p => negb (is_box (snd p))) its
                     then [(n, file_of (type_of ds) lab its)] else []
         | None => []
         end
  | _ => []
  end.
(** rt_sds.py:3495-3512: the root file first, then the tree *)
Definition struct_writes (lab : L) (its : list (name * item)) : list (name * file) :=
  (root_name, file_of TStruct lab its) :: tree_writes None (Sub false lab its).
(** rt_sds.py:3750-3829 [_write_to_sds]: one write; None: the name is refused *)
Definition write (d : dir) (w : name * file) : option dir :=
  if escapes (fst w) then None else Some (dset (stem (fst w)) (snd w) d).
(** the directory after a list of writes and whether all of them were done *)
Fixpoint writes (l : list (name * file)) (d : dir) : dir * bool :=
  match l with
  | [] => (d, true)
  | w :: r => match write d w with
              | Some d' => writes r d'
              | None => (d, false)
              end
  end.

(** the file system below one path: the file path.sds and the directory path *)
Record fs := { at_file : option file; at_dir : option dir }.
(** rt_sds.py:719-937 [save_sds] with overwrite=True and without name, for a path without extension
    whose directory holds no _root.sds; the result tells whether the save succeeded.  A Dataset
    or an array never has nested containers. *)
Definition save_sds (nm : name) (it : item) (s : fs) : fs * bool :=
  match it with
  | Sub true lab its => ({| at_file := Some (file_of TDataset lab its); at_dir := at_dir s |}, true)
  | Sub false lab its =>
      if has_nested its
      then let '(d, ok) := writes (struct_writes lab its) (match at_dir s with Some d => d | None => [] end) in
           ({| at_file := at_file s; at_dir := Some d |}, ok)
      else ({| at_file := Some (file_of TStruct lab its); at_dir := at_dir s |}, true)
  | Arr _ | Spec _ _ _ => ({| at_file := Some (file_of TArray no_labels [(nm, it)]); at_dir := at_dir s |}, true)
  | _ => (s, false)
  end.

(** rt_sds.py:2497-2551 [_rebuild_rootfile]: a new nested item in the root file *)
Definition rebuild_root (d : dir) (k : name) : dir :=
  match dget root_name d with
  | None => d
  | Some f =>
      if mem k (map (fun c => fst (fst c)) (f_cells f)) then d
      else dset root_name {| f_type := f_type f; f_labels := f_labels f; f_metas := f_metas f;
                             f_cells := f_cells f ++ [(k, FNested, None)] |} d
  end.
(** save_sds(dir/k, item) for an item without nested containers in a directory of saved files.
    rt_sds.py:897-915: a Dataset is added to the root file; 931-934: an array is not; 3545-3554: for a
    Struct the path looked at is dir/k.sds/k, whose directory is not one, so nothing is added. *)
Definition save_in (d : dir) (k : name) (it : item) : dir :=
  match it with
  | Sub true lab its => rebuild_root (dset (stem k) (file_of TDataset lab its) d) (stem k)
  | Sub false lab its => dset (stem k) (file_of TStruct lab its) d
  | Arr _ | Spec _ _ _ => dset (stem k) (file_of TArray no_labels [(stem k, it)]) d
  | _ => d
  end.

(** ---------- loading ---------- *)
(** assignment of an item to a Dataset (Dataset._check_addtype); None: an exception is raised *)
Variable ds_put : list (name * item) -> name -> item -> option (list (name * item)).
(** data[k] = v on a container *)
Definition put (ds : bool) (data : list (name * item)) (k : name) (v : item) : option (list (name * item)) :=
  if ds then ds_put data k v else Some (dset k v data).
(** isinstance(data, np.ndarray) *)
Definition is_array (it : item) : bool := match it with Arr _ | Spec _ _ _ => true | _ => false end.
Definition has (d : dir) (s : name) : bool := mem s (map fst d).

(** rt_sds.py:3268-3373 [_sds_load_from_schema] without multiload: every file is read when it is met.
    This is the branch taken for shared memory and for an include list. *)
Fixpoint direct (d : dir) (pre : option name) (k : name) (s : schema) : option item :=
  let fn := under pre k in
  match (if has d fn then match dget fn d with Some f => read_file f | None => None end
         else Some (Sub false no_labels [])) with
  | None => None
  | Some it =>
      if is_array it then Some it
      else match it with
           | Sub ds lab data =>
               option_map (Sub ds lab)
                 ((fix each (l : list (name * schema)) (data : list (name * item)) : option (list (name * item)) :=
                     match l with
                     | [] => Some data
                     | (k', s') :: r =>
                         match direct d (Some fn) k' s' with
                         | Some v => match put ds data k' v with Some data' => each r data' | None => None end
                         | None => None
                         end
                     end) (kids_of s) data)
           | _ => match kids_of s with [] => Some it | _ => None end
           end
  end.

(** first pass of the multi-file load: the files, in the order in which they are met *)
Fixpoint collect (d : dir) (pre : option name) (k : name) (s : schema) : list name :=
  let fn := under pre k in
  (if has d fn then [fn] else [])
  ++ (fix each (l : list (name * schema)) : list name :=
        match l with [] => [] | (k', s') :: r => collect d (Some fn) k' s' ++ each r end) (kids_of s).
(** second pass: the contents are taken from the loaded list at a running index; the index after
    the call, and None when an exception was raised *)
Fixpoint build (d : dir) (multi : list file) (pre : option name) (k : name) (s : schema) (idx : nat) : option item * nat :=
  let fn := under pre k in
  match (if has d fn
         then match nth_error multi idx with
              | Some f => match read_file f with Some it => (Some it, S idx) | None => (None, idx) end
              | None => (None, idx)
              end
         else (Some (Sub false no_labels []), idx)) with
  | (None, i) => (None, i)
  | (Some it, i) =>
      if is_array it then (Some it, i)
      else match it with
           | Sub ds lab data =>
               let '(r, j) :=
                 (fix each (l : list (name * schema)) (data : list (name * item)) (i : nat) : option (list (name * item)) * nat :=
                    match l with
                    | [] => (Some data, i)
                    | (k', s') :: r =>
                        match build d multi (Some fn) k' s' i with
                        | (Some v, i') => match put ds data k' v with Some data' => each r data' i' | None => (None, i') end
                        | (None, i') => (None, i')
                        end
                    end) (kids_of s) data i in
               (option_map (Sub ds lab) r, j)
           | _ => match kids_of s with [] => (Some it, i) | _ => (None, i) end
           end
  end.

(** rt_sds.py:3163-3188: the items of the root container that are not loaded yet *)
Definition pending (data : list (name * item)) (k : name) : bool :=
  match dget k data with None | Some Nothing => true | _ => false end.
(** rt_sds.py:3204-3242: the second pass over the root items; an exception leads to one more attempt
    (the except branch), with the index where it is *)
Fixpoint fill (bld : name -> schema -> nat -> option item * nat) (ds : bool)
    (kids : list (name * schema)) (data : list (name * item)) (idx : nat) : option (list (name * item)) :=
  match kids with
  | [] => Some data
  | (k, s) :: r =>
      if pending data k then
        let '(v, i) := bld k s idx in
        match match v with Some it => put ds data k it | None => None end with
        | Some data' => fill bld ds r data' i
        | None =>
            let '(v', i') := bld k s i in
            match match v' with Some it => put ds data k it | None => None end with
            | Some data' => fill bld ds r data' i'
            | None => None
            end
        end
      else fill bld ds r data idx
  end.

(** rt_sds.py:3377-3408 [_order_from_meta]; files written by this library have no item_names *)
Definition order_from_meta (f : file) (data : list (name * item)) : option (list name) :=
  let order := map (fun c => fst (fst c)) (filter (fun c => match snd (fst c) with FExtra => false | _ => true end) (f_cells f)) in
  if length order =? length data then Some order else None.

(** rt_sds.py:2974-3264 [_load_sds] of a directory; [all]: include_all_sds *)
Definition load_dir (all : bool) (d : dir) : option item :=
  let schema0 := build_schema (map fst d) in
  match dget root_name d with
  | None =>
      let multi := flat_map (fun ks => collect d None (fst ks) (snd ks)) schema0 in
      match all_some (map (fun n => dget n d) multi) with
      | None => None
      | Some m => option_map (Sub false no_labels) (fill (build d m None) false schema0 [] 0)
      end
  | Some f =>
      match read_items f with
      | None => None
      | Some data =>
          let ds := is_ds (f_type f) in
          let schema1 := ddrop root_name schema0 in
          let final := order_from_meta f data in
          let extra := match final with Some o => filter (fun k => negb (mem k o)) (names schema1) | None => [] end in
          (** rt_sds.py:2731-2799 [_include_extra_sds_files] *)
          let schema2 := if all then schema1 else filter (fun ks => negb (mem (fst ks) extra)) schema1 in
          let final' := option_map (fun o => if all then o ++ extra else o) final in
          let multi := flat_map (fun ks => if pending data (fst ks) then collect d None (fst ks) (snd ks) else []) schema2 in
          match all_some (map (fun n => dget n d) multi) with
          | None => None
          | Some m =>
              match fill (build d m None) ds schema2 data 0 with
              | None => None
              | Some data' =>
                  match final' with
                  | None => Some (Sub ds (f_labels f) data')
                  | Some o =>
                      (** rt_sds.py:3245-3252: items without data are left out, the others are put in the saved
                          order in a new container *)
                      Some (Sub ds no_labels
                              (flat_map (fun k => match dget k data' with
                                                  | None | Some Nothing => []
                                                  | Some v => [(k, v)]
                                                  end) o))
                  end
              end
          end
      end
  end.
(** rt_sds.py:1664-1851 [_load_sds_internal] and 2918-2975 for a path without extension: the directory is
    looked at first, then the file; a failed load is tried again with the extension *)
Definition load_sds (all : bool) (s : fs) : option item :=
  let from_file := match at_file s with Some f => read_file f | None => None end in
  match at_dir s with
  | Some d => match load_dir all d with Some it => Some it | None => from_file end
  | None => from_file
  end.

(** ---------- sds_flatten ---------- *)
(** one base directory: its .sds files and its subdirectories (which hold .sds files only) *)
Record base := { b_files : dir; b_dirs : list (name * dir) }.
(** rt_sds.py:425-497 [sds_flatten], one subdirectory: refused when a moved file would collide; the
    root file gets the name of the directory, whatever was there *)
Definition flatten_one (b : dir * list (name * dir)) (sub : name * dir) : dir * list (name * dir) :=
  let '(files, kept) := b in
  let others := ddrop root_name (snd sub) in
  let moved := map (fun nf => (fst sub ++ bang :: fst nf, snd nf)) others in
  if existsb (fun nf => mem (fst nf) (map fst files)) moved
  then (files, kept ++ [sub])
  else let files' := files ++ moved in
       (match dget root_name (snd sub) with
        | Some f => dset (fst sub) f files'
        | None => files'
        end, kept).
Definition sds_flatten (b : base) : base :=
  let '(files, kept) := fold_left flatten_one (b_dirs b) (b_files b, []) in
  {| b_files := files; b_dirs := kept |}.
End Sds.
Arguments item : clear implicits.
Arguments file : clear implicits.
Arguments dir : clear implicits.
Arguments fs : clear implicits.
Arguments base : clear implicits.
