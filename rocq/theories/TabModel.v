(** Model of the Dataset container: construction, adding, replacing and deleting columns, row
    selection, assignment to cells, putmask, labels and copies (riptable/rt_dataset.py:310-997,
    1234-1373, 1541-1626; riptable/rt_struct.py:394-563, 752-801; riptable/rt_itemcontainer.py:173-306,
    590-678).

    Arrays live in a memory of blocks.  An array value is a handle: a block and the positions of
    its rows in that block, so that numpy views (slices) share storage with their base and fancy
    indexing allocates.  A column is an item [value, attributes]; the attribute object is a
    reference into a second memory and holds the label position.
    Simplifications: one element type [V], no 2-D columns, no column names starting with an
    underscore (they are plain attributes, C10), the special names "True"/"False"/"None" of
    __setitem__ are not modelled, sort lists are in C10/C60. *)
From Coq Require Import List Arith Bool ZArith.
From Verif Require Import FlattenModel MergeModel DsModel.
Import ListNotations.

Inductive exn := EType | EValue | EIndex | EAttr | ENotImpl.

(** what Python's attribute machinery says about a name that is not a column *)
Inductive akind := ANone | AMethod | AProperty.
(** [kind n]: the class attribute called [n]; [restricted n]: membership in
    [get_restricted_names] (rt_struct.py:272-304: keywords and class attributes);
    [rename n]: the name under which [col_set_value] stores an invalid name (rt_struct.py:2621-2637:
    capitalised when it starts with a lower case letter, else unchanged) *)
Record pyclass := PyClass { kind : name -> akind; restricted : name -> bool; rename : name -> name }.

(** an array: the block and the position of every row in it *)
Record array := Arr { base : nat; pos : list nat }.
Definition alen (a : array) : nat := length (pos a).

Section Tab.
Context {V : Type}.
(** what reading outside a block gives *)
Variable junk : V.
(** the invalid value: what fancy indexing gives for a position outside the array *)
Variable inv : V.

Record world := World { mem : list (list V); attrs : list (option nat) }.
Definition block (w : world) (b : nat) : list V := nth b (mem w) [].
Definition read (w : world) (a : array) : list V := map (fun p => nth p (block w (base a)) junk) (pos a).
(** a new array with the given elements *)
Definition alloc (w : world) (l : list V) : world * array :=
  (World (mem w ++ [l]) (attrs w), Arr (length (mem w)) (seq 0 (length l))).
(** [a[rows] = vals], one value per row; a repeated row keeps the last value *)
Definition store (w : world) (a : array) (rows : list nat) (vals : list V) : world :=
  World (upd (base a) (scatter (map (fun r => nth r (pos a) 0) rows) vals (block w (base a))) (mem w)) (attrs w).

(** a column: the array and the reference to its attribute object *)
Record item := Item { arr : array; attr : option nat }.
(** [nrows] = [_nrows], [ncols] = [_ncols], [items] = [_all_items], [locked] = [_locked] *)
Record dataset := Ds { nrows : option nat; ncols : Z; items : list (name * item); locked : bool }.
Definition keys (d : dataset) : list name := map fst (items d).
Definition has (d : dataset) (n : name) : bool := DsModel.mem n (keys d).
(** rt_dataset.py:1532-1538 [__len__] *)
Definition len (d : dataset) : nat := match nrows d with Some n => n | None => 0 end.
(** the columns as a user sees them *)
Definition columns (w : world) (d : dataset) : list (name * list V) :=
  map (fun p => (fst p, read w (arr (snd p)))) (items d).

Variable c : pyclass.

(** ** Values that can be assigned to a column *)
(** an ndarray; a list of scalars; a scalar (or string); a list of [n] Python objects that cannot
    be an array element (rt_dataset.py:473); a set *)
Inductive value := VArr (a : array) | VList (l : list V) | VScalar (x : V) | VObjects (n : nat) | VSet.

(** [v.repeat(n)] on a one-element array *)
Definition repeat1 (l : list V) (n : nat) : list V := match l with x :: _ => repeat x n | [] => [] end.

(** rt_dataset.py:673-687 [_check_add_dimensions]; returns the new [_nrows] *)
Definition check_add_dimensions (nr : option nat) (k : nat) : option nat * option exn :=
  match nr with
  | None => (Some k, None)
  | Some n => (nr, if n =? k then None else Some EValue)
  end.

(** rt_dataset.py:550-620 [_check_addtype] *)
Definition check_addtype (w : world) (nr : option nat) (v : value) : world * option nat * (array + exn) :=
  (* 614-620 for an array that already exists, and 487-489 *)
  let finish (w : world) (nr : option nat) (a : array) :=
    let '(w, a) := match nr with
                   | Some n => if (alen a =? 1) && (1 <? n) then alloc w (repeat1 (read w a) n) else (w, a)
                   | None => (w, a)
                   end in
    match check_add_dimensions nr (alen a) with
    | (nr, None) => (w, nr, inl a)
    | (nr, Some e) => (w, nr, inr e)
    end in
  match v with
  | VArr a => finish w nr a
  | VSet => (w, nr, inr EType)                                    (* 572-573 *)
  | VList l =>
      (* 581-583 *)
      let n := match nr with Some n => n | None => length l end in
      (* 606-609 *)
      let l := if (length l =? 1) && negb (n =? 1) then repeat1 l n else l in
      (* 611-612 *)
      if length l =? n then let '(w, a) := alloc w l in finish w (Some n) a
      else (w, Some n, inr EValue)
  | VScalar x =>
      (* 584-588, 591-604 *)
      let n := match nr with Some n => n | None => 1 end in
      let '(w, a) := alloc w (repeat x n) in finish w (Some n) a
  | VObjects k =>
      let n := match nr with Some n => n | None => k end in
      if (k =? n) || (k =? 1) then (w, Some n, inr EType) else (w, Some n, inr EValue)
  end.

(** rt_struct.py:215-269 [is_valid_colname] for names that do not start with an underscore *)
Definition valid_colname (n : name) : bool := match n with [] => false | _ => negb (restricted c n) end.
(** rt_struct.py:2605-2652 [col_set_value]; an existing item keeps its attributes
    (rt_itemcontainer.py:304-309) *)
Definition stored_name (n : name) : name := if valid_colname n then n else rename c n.
Definition item_set (n : name) (a : array) (its : list (name * item)) : list (name * item) :=
  let at_ := match dget n its with Some it => attr it | None => None end in
  dset n (Item a at_) its.
Definition col_set_value (n : name) (a : array) (d : dataset) : dataset :=
  Ds (nrows d) (ncols d) (item_set (stored_name n) a (items d)) (locked d).
Definition with_nrows (d : dataset) (nr : option nat) : dataset := Ds nr (ncols d) (items d) (locked d).

(** a value stored without any check: a list or scalar is kept as the Python object, recorded
    here as an array of its elements *)
Definition raw (w : world) (v : value) : world * array :=
  match v with
  | VArr a => (w, a)
  | VList l => alloc w l
  | VScalar x => alloc w [x]
  | VObjects n => alloc w (repeat junk n)
  | VSet => alloc w []
  end.

(** rt_struct.py:520-563 [__setattr__] with [_replaceitem] (437-446) and [_addnewitem] (449-454) *)
Definition setattr (w : world) (d : dataset) (n : name) (v : value) : world * dataset * option exn :=
  if locked d then (w, d, Some EAttr)
  else if has d n then
    match check_addtype w (nrows d) v with
    | (w, nr, inl a) => (w, col_set_value n a (with_nrows d nr), None)
    | (w, nr, inr e) => (w, with_nrows d nr, Some e)
    end
  else match kind c n with
  | AMethod => (w, d, None)                                  (* 550-553: a warning, nothing assigned *)
  | ANone =>
      match check_addtype w (nrows d) v with
      | (w, nr, inl a) =>
          let d := col_set_value n a (with_nrows d nr) in
          (w, Ds (nrows d) (ncols d + 1) (items d) (locked d), None)
      | (w, nr, inr e) => (w, with_nrows d nr, Some e)
      end
  | AProperty => let '(w, a) := raw w v in (w, col_set_value n a d, None)   (* 556-563 *)
  end.

(** rt_dataset.py:1234-1317 [__setitem__] with one column name and no rows *)
Definition setitem (w : world) (d : dataset) (n : name) (v : value) : world * dataset * option exn :=
  if has d n then setattr w d n v
  else if valid_colname n then setattr w d n v
  else (w, d, Some EIndex).

(** rt_struct.py:457-470, 507-517 [__delattr__] / [__delitem__] *)
Fixpoint ddel {X} (n : name) (l : list (name * X)) : list (name * X) :=
  match l with [] => [] | (m, x) :: r => if name_dec m n then r else (m, x) :: ddel n r end.
Definition delattr (d : dataset) (n : name) : dataset * option exn :=
  if locked d then (d, Some EAttr)
  else if has d n then
    let nc := (ncols d - 1)%Z in
    (Ds (if (nc <=? 0)%Z then None else nrows d) nc (ddel n (items d)) (locked d), None)
  else (d, Some EIndex).

(** ** Construction *)
(** rt_dataset.py:510-539 [_possibly_convert] while [_nrows] is None *)
Definition possibly_convert (w : world) (v : value) : world * (array + exn) :=
  match v with
  | VArr a => (w, inl a)
  | VList l => let '(w, a) := alloc w l in (w, inl a)
  | VScalar x => let '(w, a) := alloc w [x] in (w, inl a)
  | VObjects n => (w, inr EType)
  | VSet => (w, inr EType)
  end.
(** rt_dataset.py:643-667 [_init_from_dict] *)
Fixpoint add_all (w : world) (l : list (name * value)) (its : list (name * item)) : world * (list (name * item) + exn) :=
  match l with
  | [] => (w, inl its)
  | (n, v) :: r =>
      match possibly_convert w v with
      | (w, inl a) => add_all w r (item_set (stored_name n) a its)
      | (w, inr e) => (w, inr e)
      end
  end.
Fixpoint check_all (nr : option nat) (its : list (name * item)) : option nat * option exn :=
  match its with
  | [] => (nr, None)
  | (_, it) :: r =>
      match check_add_dimensions nr (alen (arr it)) with
      | (nr, None) => check_all nr r
      | (nr, Some e) => (nr, Some e)
      end
  end.
Definition construct (w : world) (l : list (name * value)) : world * (dataset + exn) :=
  match add_all w l [] with
  | (w, inr e) => (w, inr e)
  | (w, inl its) =>
      match check_all None its with
      | (nr, None) => (w, inl (Ds nr (Z.of_nat (length its)) its false))   (* rt_struct.py:205-212 *)
      | (_, Some e) => (w, inr e)
      end
  end.

(** ** Row selection *)
Inductive rows := RAll | RSlice (lo hi : nat) | RMask (m : list bool) | RInts (idx : list Z).
(** the row a fancy index stands for: a negative one counts from the end; [None] outside the
    array (rt_numpy.py:4166 mbget, C68) *)
Definition resolve (n : nat) (i : Z) : option nat :=
  let j := if (i <? 0)%Z then (Z.of_nat n + i)%Z else i in
  if (0 <=? j)%Z && (j <? Z.of_nat n)%Z then Some (Z.to_nat j) else None.
(** [arr[idx]] with integers: a new array *)
Definition take (w : world) (a : array) (idx : list Z) : world * array :=
  alloc w (map (fun i => match resolve (alen a) i with Some r => nth r (read w a) junk | None => inv end) idx).
Definition mask_idx (m : list bool) : list Z := map Z.of_nat (bool_to_fancy m).

(** rt_itemcontainer.py:173-184 [copy_inplace], 204-225 [copy_apply] on all columns *)
Fixpoint take_all (w : world) (its : list (name * item)) (idx : list Z) : world * list (name * item) :=
  match its with
  | [] => (w, [])
  | (n, it) :: r =>
      let '(w, a) := take w (arr it) idx in
      let '(w, r) := take_all w r idx in
      (w, (n, Item a (attr it)) :: r)
  end.

(** the selector as integer positions, rt_dataset.py:954-981.  The mask must have as many
    entries as the dataset has rows. *)
Definition selector (d : dataset) (r : list bool + list Z) : list Z + exn :=
  match r with
  | inl m => match nrows d with
             | Some n => if length m =? n then inl (mask_idx m) else inr EValue
             | None => inr EValue
             end
  | inr idx => inl idx
  end.
(** rt_dataset.py:983-989 [filter(inplace=True)] *)
Definition filter_inplace (w : world) (d : dataset) (r : list bool + list Z) : world * dataset * option exn :=
  match selector d r with
  | inr e => (w, d, Some e)
  | inl idx =>
      let '(w, its) := take_all w (items d) idx in
      (w, Ds (Some (length idx)) (ncols d) its (locked d), None)
  end.
(** rt_dataset.py:383-389 [_init_from_itemcontainer] *)
Definition of_items (its : list (name * item)) : dataset :=
  Ds (match its with [] => None | (_, it) :: _ => Some (alen (arr it)) end) (Z.of_nat (length its)) its false.

(** ** Labels, rt_itemcontainer.py:336-341, 590-678 *)
Definition label_of (w : world) (it : item) : option nat :=
  match attr it with Some l => nth l (attrs w) None | None => None end.
(** [_tagged_get_names]: names by increasing label position; a later column wins a position *)
Definition label_get_names (w : world) (d : dataset) : list name :=
  let tagged := map (fun p => (label_of w (snd p), fst p)) (items d) in
  let top := fold_left (fun m p => match fst p with Some k => Nat.max m (S k) | None => m end) tagged 0 in
  flat_map (fun k =>
      match find (fun p => match fst p with Some j => j =? k | None => false end) (rev tagged) with
      | Some p => [snd p] | None => []
      end) (seq 0 top).
(** [_tagged_remove] *)
Definition label_remove (w : world) (d : dataset) : world :=
  fold_left (fun w p => match attr (snd p) with
                        | Some l => World (mem w) (upd l None (attrs w))
                        | None => w end) (items d) w.
(** [_set_attribute] *)
Definition set_label (w : world) (d : dataset) (n : name) (k : nat) : world * dataset :=
  match dget n (items d) with
  | Some it =>
      match attr it with
      | Some l => (World (mem w) (upd l (Some k) (attrs w)), d)
      | None => (World (mem w) (attrs w ++ [Some k]),
                 Ds (nrows d) (ncols d) (dset n (Item (arr it) (Some (length (attrs w)))) (items d)) (locked d))
      end
  | None => (w, d)
  end.
Fixpoint set_labels (w : world) (d : dataset) (l : list name) (k : nat) : world * dataset :=
  match l with
  | [] => (w, d)
  | n :: r => let '(w, d) := set_label w d n k in set_labels w d r (S k)
  end.
(** [_tagged_set_names] *)
Definition label_set_names (w : world) (d : dataset) (l : list name) : world * dataset :=
  set_labels (label_remove w d) d l 0.

(** ** Copies and row selection, rt_dataset.py:735-799 *)
(** [_copy_attributes] for labels, rt_dataset.py:722 *)
Definition copy_attributes (w : world) (from to : dataset) : world * dataset :=
  label_set_names w to (label_get_names w from).
(** [ds.copy(deep=False)]: the items are new, arrays and attribute objects are shared
    (rt_itemcontainer.py:187-201) *)
Definition copy_shallow (w : world) (d : dataset) : world * dataset :=
  copy_attributes w d (of_items (items d)).
(** the columns of [ds.copy()], rt_dataset.py:790-797: arrays and attribute objects are copied *)
Fixpoint deep_items (w : world) (its : list (name * item)) : world * list (name * item) :=
  match its with
  | [] => (w, [])
  | (n, it) :: r =>
      let '(w, a) := alloc w (read w (arr it)) in
      let '(w, at_) := match attr it with
                       | Some l => (World (mem w) (attrs w ++ [nth l (attrs w) None]), Some (length (attrs w)))
                       | None => (w, None)
                       end in
      let '(w, r) := deep_items w r in
      (w, (n, Item a at_) :: r)
  end.
Definition copy_deep (w : world) (d : dataset) : world * dataset :=
  let '(w, its) := deep_items w (items d) in copy_attributes w d (of_items its).

(** a slice of an array is a view *)
Definition view (a : array) (lo hi : nat) : array := Arr (base a) (firstn (hi - lo) (skipn lo (pos a))).
Definition view_items (its : list (name * item)) (lo hi : nat) : list (name * item) :=
  map (fun p => (fst p, Item (view (arr (snd p)) lo hi) (attr (snd p)))) its.
(** [ds[rows, :]], rt_dataset.py:1425-1469 and rt_struct.py:609-801 *)
Definition getrows (w : world) (d : dataset) (r : rows) : world * (dataset + exn) :=
  match nrows d with
  | None => (w, inr EIndex)                                   (* rt_struct.py:622-625 *)
  | Some n =>
      match r with
      | RAll => let '(w, d') := copy_shallow w d in (w, inl d')
      | RSlice lo hi => let '(w, d') := copy_attributes w d (of_items (view_items (items d) lo hi)) in (w, inl d')
      | RMask m =>
          (* the boolean index of every column must have its length *)
          if (length m =? n) || (match items d with [] => true | _ => false end)
          then let '(w, its) := take_all w (items d) (mask_idx m) in
               let '(w, d') := copy_attributes w d (of_items its) in (w, inl d')
          else (w, inr EIndex)
      | RInts idx => let '(w, its) := take_all w (items d) idx in
                     let '(w, d') := copy_attributes w d (of_items its) in (w, inl d')
      end
  end.
(** rt_dataset.py:983-997 [filter()] *)
Definition filter_copy (w : world) (d : dataset) (r : list bool + list Z) : world * (dataset + exn) :=
  match selector d r with
  | inr e => (w, inr e)
  | inl idx => getrows w d (RInts idx)
  end.

(** ** Assignment to cells *)
(** the positions [arr[row_idx]] addresses in an array of [n] rows; [None]: IndexError *)
Fixpoint resolve_all (n : nat) (idx : list Z) : option (list nat) :=
  match idx with
  | [] => Some []
  | i :: r => match resolve n i, resolve_all n r with Some j, Some l => Some (j :: l) | _, _ => None end
  end.
Definition row_positions (n : nat) (r : rows) : option (list nat) :=
  match r with
  | RAll => Some (seq 0 n)
  | RSlice lo hi => Some (firstn (hi - lo) (skipn lo (seq 0 n)))
  | RMask m => if length m =? n then Some (bool_to_fancy m) else None
  | RInts idx => resolve_all n idx
  end.
(** [arr[rows] = x] and [arr[rows] = array]: one value per selected row, or one for all *)
Definition assign (w : world) (a : array) (r : rows) (vals : list V) : world * option exn :=
  match row_positions (alen a) r with
  | None => (w, Some EIndex)
  | Some ps =>
      if length vals =? length ps then (store w a ps vals, None)
      else match vals with
           | [x] => (store w a ps (repeat x (length ps)), None)
           | _ => (w, Some EValue)
           end
  end.

(** rt_dataset.py:1259-1260, 1338 [apply(setitem_mask, row_idx, value, cols=col_idx)] *)
Fixpoint assign_scalar (w : world) (d : dataset) (r : rows) (cols : list name) (x : V) : world * option exn :=
  match cols with
  | [] => (w, None)
  | n :: rest =>
      match dget n (items d) with
      | None => (w, Some EIndex)
      | Some it => match assign w (arr it) r [x] with
                   | (w, None) => assign_scalar w d r rest x
                   | (w, Some e) => (w, Some e)
                   end
      end
  end.
(** rt_dataset.py:1349-1354: [for i, c in enumerate(col_idx): getattr(self, c)[row_idx] = value[i]] *)
Fixpoint assign_columns (w : world) (d : dataset) (r : rows) (cols : list name) (src : list array) : world * option exn :=
  match cols with
  | [] => (w, None)
  | n :: rest =>
      match dget n (items d), src with
      | Some it, a :: src =>
          match assign w (arr it) r (read w a) with
          | (w, None) => assign_columns w d r rest src
          | (w, Some e) => (w, Some e)
          end
      | _, _ => (w, Some EIndex)
      end
  end.
Definition arrays (d : dataset) : list array := map (fun p => arr (snd p)) (items d).
(** [ds[rows, cols] = dataset] and [ds[rows, cols] = scalar] for two or more existing columns and
    more than one row (rt_dataset.py:1333-1354) *)
Definition set_cells (w : world) (d : dataset) (r : rows) (cols : list name) (src : dataset) : world * option exn :=
  assign_columns w d r cols (arrays src).

(** rt_dataset.py:1363-1364: [for i, c in enumerate(col_idx): setattr(self, c, value[i])], whole columns *)
Fixpoint set_columns (w : world) (d : dataset) (cols : list name) (src : list array) : world * dataset * option exn :=
  match cols with
  | [] => (w, d, None)
  | n :: rest =>
      match src with
      | a :: src =>
          match setattr w d n (VArr a) with
          | (w, d, None) => set_columns w d rest src
          | (w, d, Some e) => (w, d, Some e)
          end
      | [] => (w, d, Some EIndex)
      end
  end.

(** rt_numpy.py putmask (C++): [a[i] = vals[i]] for every row [i] of the mask *)
Definition put1 (w : world) (a : array) (m : list bool) (src : array) : world :=
  store w a (bool_to_fancy m) (compress m (read w src)).
Fixpoint put_all (w : world) (m : list bool) (dst src : list array) : world :=
  match dst, src with
  | a :: dst, b :: src => put_all (put1 w a m b) m dst src
  | _, _ => w
  end.
(** rt_dataset.py:1596-1612 [putmask] with a Dataset, 1614-1623 with an array *)
Definition putmask_ds (w : world) (d : dataset) (m : list bool) (src : dataset) : world * option exn :=
  match nrows d with
  | Some n =>
      if length m =? n then
        if (n =? len src) && (ncols d =? ncols src)%Z
        then (put_all w m (arrays d) (arrays src), None)
        else (w, Some EValue)
      else (w, Some EValue)
  | None => (w, Some EValue)
  end.
Definition putmask_arr (w : world) (d : dataset) (m : list bool) (a : array) : world * option exn :=
  match nrows d with
  | Some n =>
      if length m =? n then
        if alen a =? n then (put_all w m (arrays d) (repeat a (length (items d))), None) else (w, Some EValue)
      else (w, Some EValue)
  | None => (w, Some EValue)
  end.

(** ** Histories *)
Inductive op :=
| OSetAttr (n : name) (v : value)      (** ds.n = v *)
| OSetItem (n : name) (v : value)      (** ds['n'] = v *)
| ODel (n : name)                      (** del ds.n *)
| OFilter (r : list bool + list Z)     (** ds.filter(r, inplace=True) *)
| OSetColumns (cols : list name) (src : list array)  (** ds[cols] = dataset *)
| OCells (r : rows) (cols : list name) (src : list array)  (** ds[rows, cols] = dataset *)
| OScalar (r : rows) (cols : list name) (x : V)      (** ds[rows, cols] = x *)
| OPut (m : list bool) (a : array)     (** ds.putmask(m, a) *)
| OLabels (l : list name)              (** ds.label_set_names(l) *)
| OLock | OUnlock
| OArray (l : list V).                  (** a new array is made elsewhere in the program *)
Definition exec (w : world) (d : dataset) (o : op) : world * dataset * option exn :=
  match o with
  | OSetAttr n v => setattr w d n v
  | OSetItem n v => setitem w d n v
  | ODel n => let '(d, e) := delattr d n in (w, d, e)
  | OFilter r => filter_inplace w d r
  | OSetColumns cols src =>
      (* every column must exist, else the branch for new columns raises *)
      if forallb (has d) cols then set_columns w d cols src else (w, d, Some EIndex)
  | OCells r cols src => let '(w, e) := assign_columns w d r cols src in (w, d, e)
  | OScalar r cols x => let '(w, e) := assign_scalar w d r cols x in (w, d, e)
  | OPut m a => let '(w, e) := putmask_arr w d m a in (w, d, e)
  | OLabels l => let '(w, d) := label_set_names w d l in (w, d, None)
  | OLock => (w, Ds (nrows d) (ncols d) (items d) true, None)
  | OUnlock => (w, Ds (nrows d) (ncols d) (items d) false, None)
  | OArray l => (fst (alloc w l), d, None)
  end.
(** a session: exceptions are caught and the session goes on *)
Fixpoint run (w : world) (d : dataset) (l : list op) : world * dataset :=
  match l with
  | [] => (w, d)
  | o :: r => let '(w, d, _) := exec w d o in run w d r
  end.
End Tab.
Arguments world : clear implicits.
Arguments op : clear implicits.
Arguments value : clear implicits.
