(** Model of loading several .sds files as one Dataset (stack=True), rt_sds.py:1127-1593, with merge_cats and hstack_groupings on
    stacked arrays (rt_grouping.py:136-414) and the cutoffs of the PDataset (rt_pdataset.py:106-128).

    Simplifications: every file is a saved Dataset; an array is a list of cells, so element types need no conversion; the
    categories of a Categorical are one list (of tuples for several keys); enum Categoricals are left out; all files can be read. *)
From Coq Require Import List Arith ZArith Bool.
From Verif Require Import FlattenModel DsModel GroupingModel PdsModel.
Import ListNotations.

Section Ms.
Context {V B M : Type}.
(** checksum of categories; grouping of the stacked categories; what indexing an empty array gives *)
Variable crc : list B -> Z.
Variable grp : list B -> list B * list nat.
Variable junk : nat.

(** a cell of a stacked array: a number, a code, a category, or the invalid with which the loader fills rows of files without the column *)
Inductive cell := CV (v : V) | CC (c : nat) | CU (b : B) | CGap.
(** a column of a file: an array with its class data (such as DateTimeNano and its zone), or a Categorical *)
Inductive column := Plain (m : option M) (l : list V) | Cat (base : nat) (codes : list nat) (cats : list B).
Record file := mkF { f_rows : nat; f_cols : list (name * column) }.

(** rt_categorical.py:3703, rt_struct.py: the arrays of a file; true: the array of a column (SDSFlag.OriginalContainer), false: categories *)
Definition cat_item (n : name) : name := n ++ bang :: col_i 0.
Definition items (f : file) : list (name * (bool * list cell)) :=
  flat_map (fun p => match snd p with
                     | Plain _ l => [(fst p, (true, map CV l))]
                     | Cat _ codes cats => [(fst p, (true, map CC codes)); (cat_item (fst p), (false, map CU cats))]
                     end) (f_cols f).
(** rt_sds.py:1391-1399: item_meta; the class data or the base index of each column that is not a plain array *)
Definition metas (n : name) (fs : list file) : list (M + nat) :=
  flat_map (fun f => flat_map (fun p => if name_dec (fst p) n then
      match snd p with Plain (Some m) _ => [inl m] | Plain None _ => [] | Cat b _ _ => [inr b] end else []) (f_cols f)) fs.

(** rc.MultiStackFiles, by contract: one array for each name, in the order in which the names first occur; files without the column
    contribute invalids, files without the categories nothing; the cutoffs are where the files end *)
Fixpoint first_names (l : list (name * bool)) (seen : list name) : list (name * bool) :=
  match l with
  | [] => []
  | (n, o) :: r => if mem n seen then first_names r seen else (n, o) :: first_names r (n :: seen)
  end.
Definition part (n : name) (orig : bool) (f : file) : list cell :=
  match dget n (items f) with Some (_, l) => l | None => if orig then repeat CGap (f_rows f) else [] end.
Definition multi_stack (fs : list file) : list (name * bool * (list cell * list nat)) :=
  map (fun k => let ps := map (part (fst k) (snd k)) fs in (k, (concat ps, cumsum (map (@length cell) ps))))
    (first_names (flat_map (fun f => map (fun p => (fst p, fst (snd p))) (items f)) fs) []).

(** rt_grouping.py:190-203 and 383-407: slices between the cutoffs *)
Fixpoint slices {X} (start : nat) (cutoffs : list nat) (l : list X) : list (list X) :=
  match cutoffs with [] => [] | c :: r => firstn (c - start) (skipn start l) :: slices c r l end.
(** [itemname[: itemname.find("!")]]; without a "!" find gives -1: all but the last character *)
Fixpoint before_bang (n : name) : option name :=
  match n with [] => None | c :: r => if c =? bang then Some [] else match before_bang r with Some p => Some (c :: p) | None => None end end.
Definition spec_name (n : name) : name := match before_bang n with Some p => p | None => removelast n end.
Definition is_gap (x : cell) : bool := match x with CGap => true | _ => false end.
Definition gap_at (l : list cell) (i : nat) : bool := match nth_error l i with Some x => is_gap x | None => false end.
(** rt_sds.py:1259-1270: invalid at the end of a later file or at the start *)
Definition has_gap (cutoffs : list nat) (idx : list cell) : bool :=
  (1 <? length cutoffs) &&
  (existsb (fun c => gap_at idx (if c =? 0 then length idx - 1 else c - 1)) (tl cutoffs) || gap_at idx 0).
Definition fill_gaps (cutoffs : list nat) (idx : list cell) : list cell :=
  if has_gap cutoffs idx then map (fun x => if is_gap x then CC 0 else x) idx else idx.
Definition code_of (x : cell) : nat := match x with CC c => c | _ => junk end.
Definition cats_of (l : list cell) : list B := flat_map (fun x => match x with CU b => [b] | _ => [] end) l.

(** a column of the result *)
Inductive outcol := OPlain (m : option M) (l : list cell) | OCat (base : nat) (codes : list nat) (cats : list B).
(** rt_sds.py:1253-1322 [_multistack_categoricals]; [None]: raises *)
Definition stack_cat (ms : list (M + nat)) (idx : list cell) (cutoffs : list nat) (listcats : list (list cell * list nat)) : option outcol :=
  match listcats, ms with
  | [(u, ucuts)], inr b :: _ =>
      if forallb (fun m => match m with inr b' => b' =? b | inl _ => false end) ms then
        let codes := map code_of (fill_gaps cutoffs idx) in
        let z := merge_cats junk b crc grp (slices 0 cutoffs codes) (slices 0 ucuts (cats_of u)) in
        Some (OCat b (fst z) (snd z))
      else None
  | _, _ => None
  end.
(** rt_sds.py:1374-1449 [_multistack_items] for one column *)
Definition build (fs : list file) (st : list (name * bool * (list cell * list nat))) (n : name) (a : list cell * list nat) : option outcol :=
  match metas n fs with
  | [] => Some (OPlain None (fst a))
  | inl m :: _ => Some (OPlain (Some m) (fst a))
  | ms => stack_cat ms (fst a) (snd a)
            (flat_map (fun k : name * bool * (list cell * list nat) => if snd (fst k) then [] else if name_dec (spec_name (fst (fst k))) n then [snd k] else []) st)
  end.
Fixpoint build_all (fs : list file) (st todo : list (name * bool * (list cell * list nat))) : option (list (name * outcol)) :=
  match todo with
  | [] => Some []
  | (n, orig, a) :: r =>
      if (orig : bool) then match build fs st n a, build_all fs st r with Some c, Some t => Some ((n, c) :: t) | _, _ => None end
      else build_all fs st r
  end.
(** rt_sds.py:1537-1593, 1454-1508, rt_pdataset.py:116-117: the columns and the cutoffs of the first column; [None]: raises *)
Definition load_stacked (fs : list file) : option (list (name * outcol) * list nat) :=
  match fs with
  | [] => None
  | _ => let st := multi_stack fs in
         match build_all fs st st, filter (fun k : name * bool * (list cell * list nat) => snd (fst k)) st with
         | Some cols, k :: _ => Some (cols, snd (snd k))
         | _, _ => None
         end
  end.
End Ms.
Arguments cell : clear implicits.
Arguments column : clear implicits.
Arguments file : clear implicits.
Arguments outcol : clear implicits.

(** ** filter= *)
Inductive sel := SBool (m : list bool) | SInts (l : list Z).
(** numpy: zeros(n) with mask[filter] = True; negative numbers count from the end; [None]: out of bounds (IndexError) *)
Definition set_true (m : list bool) (i : Z) : option (list bool) :=
  let n := Z.of_nat (length m) in
  if ((- n <=? i) && (i <? n))%Z then
    let j := Z.to_nat (if (i <? 0)%Z then i + n else i) in Some (firstn j m ++ true :: skipn (S j) m)
  else None.
Fixpoint set_all (m : list bool) (l : list Z) : option (list bool) :=
  match l with [] => Some m | i :: r => match set_true m i with Some m' => set_all m' r | None => None end end.
(** rt_sds.py:1512-1533 [_convert_to_mask]; [None]: raises (zeros of a negative length, or out of bounds) *)
Definition convert_to_mask (s : sel) : option (list bool) :=
  match s with
  | SBool m => Some m
  | SInts [] => Some []
  | SInts (i :: r) => let mx := fold_left Z.max r i in
                      if (mx + 1 <? 0)%Z then None else set_all (repeat false (Z.to_nat (mx + 1))) (i :: r)
  end.
(** the reader with mask=, by contract: the rows whose entry is true; rows beyond the mask are dropped *)
Definition masked_rows {X} (m : list bool) (l : list X) : list X := map snd (filter (fun p => fst p) (combine m l)).
Definition load_filtered {X} (s : sel) (l : list X) : option (list X) :=
  match convert_to_mask s with Some m => Some (masked_rows m l) | None => None end.

(** ** Lists of paths *)
Inductive path_kind := IsDir | IsFile | IsMissing.
Section Lists.
Context {P R : Type}.
Variable kind_of : P -> path_kind.
(** loading a directory, and building the Dataset from the arrays of one file *)
Variable load_dir : P -> R.
Variable load_file : P -> R.
(** the file was appended to: one file alone is stacked and given back as it is (rt_sds.py:2294-2313) *)
Variable appended : P -> bool.
(** rt_sds.py:1127-1166; [None]: mustexist *)
Fixpoint dir_from_list (mustexist : bool) (ps : list P) : option (list (option P) * list P) :=
  match ps with
  | [] => Some ([], [])
  | p :: r =>
      match kind_of p with
      | IsMissing => if mustexist then None else dir_from_list mustexist r
      | IsDir => match dir_from_list mustexist r with Some (names, single) => Some (Some p :: names, single) | None => None end
      | IsFile => match dir_from_list mustexist r with Some (names, single) => Some (None :: names, p :: single) | None => None end
      end
  end.
(** rt_sds.py:1222-1247: the placeholders are replaced by the files in turn; the reader gives one result per file, by contract *)
Fixpoint place (names : list (option P)) (single : list P) : option (list R) :=
  match names with
  | [] => Some []
  | Some d :: r => match place r single with Some t => Some (load_dir d :: t) | None => None end
  | None :: r => match single with
                 | s :: single' => match place r single' with Some t => Some (load_file s :: t) | None => None end
                 | [] => None
                 end
  end.
Inductive loaded := OneResult (r : R) | Results (l : list R) | Raised.
(** rt_sds.py:1769-1782 and 1170-1249 *)
Definition load_list (mustexist : bool) (ps : list P) : loaded :=
  match dir_from_list mustexist ps with
  | None => Raised
  | Some (names, single) =>
      match single with
      | [s] => if appended s then OneResult (load_file s) else match place names single with Some l => Results l | None => Raised end
      | _ => match place names single with Some l => Results l | None => Raised end
      end
  end.
End Lists.
