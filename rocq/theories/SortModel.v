(** Model of sorting datasets: the sort cache (riptable/rt_sort_cache.py:30-100), Dataset.sort_view,
    sort_copy, sort_inplace, sorts_off and display order (riptable/rt_dataset.py:3973-4137,
    5340-5365, 5755-5791; rt_struct.py:4806-4815), and the operations that touch the list of sort
    keys: renaming, deleting, replacing columns, copies and slices, loading from a file
    (rt_struct.py:174-176, 457-479, 1599-1630, 3370-3498, 3786-3795; rt_dataset.py:695-719).

    Simplifications: a column is a dtype tag and its raw elements; labels, footers, locks and the
    validity of names are left out; the dataset's unique id is its position in the list of all
    datasets (GetTSC is taken to be unique). *)
From Coq Require Import List Arith Bool ZArith.
From Verif Require Import FlattenModel MergeModel DsModel.
Import ListNotations.

Record col := mkCol { c_type : nat; c_bits : list Z }.
(** _sort_ascending: a bool, a FastArray or (after a copy) a Python list *)
Inductive asc := AscAll (b : bool) | AscArr (l : list bool) | AscList (l : list bool).
Definition same_type (a b : asc) : bool :=
  match a, b with
  | AscAll _, AscAll _ | AscArr _, AscArr _ | AscList _, AscList _ => true
  | _, _ => false
  end.

Section Sort.
(** crc64: of the raw elements, without the dtype *)
Variable crc : list Z -> nat.
(** rt_numpy.py:2658-2673 (C++ LexSort32): the last key counts most *)
Variable lexsort : list col -> asc -> list nat.

(** ** rt_sort_cache.py *)
Record entry := mkE { e_crcs : list nat; e_idx : list nat; e_rows : nat; e_asc : asc }.
Definition cache_t := list (nat * entry).
Fixpoint cget (uid : nat) (c : cache_t) : option entry :=
  match c with [] => None | (u, e) :: r => if u =? uid then Some e else cget uid r end.
(** [del cls._cache[uid]] *)
Definition invalidate (uid : nat) (c : cache_t) : cache_t := filter (fun p => negb (fst p =? uid)) c.
(** [cls._cache[uid] = e] *)
Definition cput (uid : nat) (e : entry) (c : cache_t) : cache_t := (uid, e) :: invalidate uid c.
(** 30-37 *)
Definition store_sort (uid : nat) (sortlist : list col) (sortidx : list nat) (a : asc) (c : cache_t) : cache_t :=
  cput uid (mkE (map (fun v => crc (c_bits v)) sortlist) sortidx (length sortidx) a) c.
(** [any(old != new for old, new in zip(..))] *)
Definition any_differ {X} (eqb : X -> X -> bool) (a b : list X) : bool :=
  existsb (fun p => negb (eqb (fst p) (snd p))) (combine a b).
Definition same_list (a b : list bool) : bool := negb (negb (length a =? length b) || any_differ Bool.eqb a b).
(** 48-72 *)
Definition cached (c : cache_t) (uid nrows : nat) (crcvals : list nat) (a : asc) : option (list nat) :=
  match cget uid c with
  | None => None
  | Some e =>
      if negb (same_type (e_asc e) a) || negb (length (e_crcs e) =? length crcvals) || negb (e_rows e =? nrows)
         || any_differ Nat.eqb (e_crcs e) crcvals
      then None
      else match e_asc e, a with
           | AscAll x, AscAll y => if Bool.eqb x y then Some (e_idx e) else None
           | AscArr x, AscArr y => if same_list x y then Some (e_idx e) else None
           | AscList x, AscList y => if same_list x y then Some (e_idx e) else None
           | _, _ => None
           end
  end.
(** 40-90 *)
Definition get_sorted_row_index (c : cache_t) (uid nrows : nat) (sortdict : option (list (name * col))) (a : asc)
  : cache_t * option (list nat) :=
  match sortdict with
  | Some (x :: r) =>
      let sortlist := map snd (x :: r) in
      let crcvals := map (fun v => crc (c_bits v)) sortlist in
      match cached c uid nrows crcvals a with
      | Some i => (c, Some i)
      | None => let i := lexsort (rev sortlist) a in (cput uid (mkE crcvals i nrows a) c, Some i)
      end
  | _ => (c, None)
  end.

(** ** Datasets.  _col_sortlist is a Python list, held by reference: its location in [w_heap] *)
Record dsr := mkDs { s_items : list (name * col); s_nrows : nat; s_list : option nat; s_asc : asc; s_disp : bool }.
Record world := mkW { w_heap : list (list name); w_ds : list dsr; w_cache : cache_t }.
Inductive out := RDone | RError | RIdx (i : option (list nat)).

(** rt_dataset.py:3973-3982 *)
Definition sorts_off (x : dsr) : dsr := mkDs (s_items x) (s_nrows x) None (AscAll true) false.
(** rt_struct.py:473-479 *)
Definition update_sort (h : list (list name)) (n : name) (x : dsr) : dsr :=
  match s_list x with
  | Some loc => if mem n (nth loc h []) then mkDs (s_items x) (s_nrows x) None (s_asc x) (s_disp x) else x
  | None => x
  end.
(** rt_dataset.py:3985-4000 *)
Definition row_sort_info (h : list (list name)) (x : dsr) : dsr * option (list (name * col)) :=
  match s_list x with
  | None => (x, None)
  | Some loc =>
      let l := nth loc h [] in
      if forallb (fun n => mem n (names (s_items x))) l
      then (x, Some (dset_all (map (fun n => (n, match dget n (s_items x) with Some c => c | None => mkCol 0 [] end)) l) []))
      else (mkDs (s_items x) (s_nrows x) None (AscAll true) (s_disp x), None)
  end.

(** the argument [by]: a name or a list object *)
Inductive by_arg := ByName (n : name) | ByList (loc : nat).
(** rt_dataset.py:4060-4082: the keys and the direction(s); [None]: ValueError.  [given] is
    FastArray(ascending), one element for a bool; an empty one is not boolean. *)
Definition parse_by (h : list (list name)) (by_ : by_arg) : list name * nat :=
  match by_ with ByName n => ([n], length n) | ByList loc => (nth loc h [], length (nth loc h [])) end.
Definition parse_sort (h : list (list name)) (x : dsr) (by_ : by_arg) (given : list bool) : option (list name * asc) :=
  let '(bylist, len_by) := parse_by h by_ in
  if forallb (fun n => mem n (names (s_items x))) bylist then
    match given with
    | [] => None
    | [b] => Some (bylist, AscAll b)
    | _ => if length given =? len_by then Some (bylist, AscArr (rev given)) else None
    end
  else None.
(** rt_dataset.py:4003-4013 *)
Definition sort_lexsort (x : dsr) (bylist : list name) (a : asc) : list nat :=
  lexsort (rev (map (fun n => match dget n (s_items x) with Some c => c | None => mkCol 0 [] end) bylist)) a.
(** [v[sort_rows]] *)
Definition take_rows (idx : list nat) (c : col) : col := mkCol (c_type c) (map (fun i => nth i (c_bits c) 0%Z) idx).

Inductive op :=
| NewList (l : list name)                                (** the user makes a list *)
| EditList (loc : nat) (l : list name)                   (** and changes it *)
| NewDs (items : list (name * col)) (nrows : nat)
| SortView (d : nat) (by_ : by_arg) (given : list bool)
| SortsOff (d : nat)
| SortInplace (d : nat) (by_ : by_arg) (given : list bool)
| SortCopy (d : nat) (by_ : by_arg) (given : list bool)
| Rename (d : nat) (old new : name)
| AddPrefix (d : nat) (p : name)
| StrReplace (d : nat) (f : name -> name)                (** f: name.replace(old, new, max) *)
| DelCol (d : nat) (n : name)
| SetCol (d : nat) (n : name) (c : col)
| EditCol (d : nat) (n : name) (bits : list Z)           (** in place, through the array *)
| Copy (d : nat) (rows : option (list nat)) (cols : list name)
| Load (items : list (name * col)) (nrows : nat) (keys : list name) (idx : list nat)
| Str (d : nat)                                          (** str(ds) *)
| Repr (d : nat)                                         (** repr(ds) *)
| SortedRows (d : nat)                                   (** get_sorted_col_data: the row order used *)
| Invalidate (d : nat)                                   (** __del__ *)
| InvalidateAll.

Definition put_ds (w : world) (d : nat) (x : dsr) : world := mkW (w_heap w) (upd d x (w_ds w)) (w_cache w).
Definition new_ds (w : world) (x : dsr) : world := mkW (w_heap w) (w_ds w ++ [x]) (w_cache w).
(** get_row_sort_info followed by get_sorted_row_index *)
Definition sorted_index (w : world) (d : nat) (x : dsr) : world * option (list nat) :=
  let '(x', sd) := row_sort_info (w_heap w) x in
  let '(c', i) := get_sorted_row_index (w_cache w) d (s_nrows x') sd (s_asc x') in
  (mkW (w_heap w) (upd d x' (w_ds w)) c', i).
(** rt_struct.py:4808-4815 *)
Definition display_index (w : world) (d : nat) (x : dsr) : world * option (list nat) :=
  if s_disp x then sorted_index w d x else (w, None).
(** rt_dataset.py:701-719; [None]: AttributeError (712, unless some column is called
    "sort_ascending").  Copies may share arrays with the source: an edit of a shared array is one
    [EditCol] for each dataset that has it. *)
Definition copy_attributes (h : list (list name)) (x ds : dsr) : option (list (list name) * dsr) :=
  match s_list x with
  | None => Some (h, ds)
  | Some loc =>
      let present n := mem n (names (s_items ds)) in
      match s_asc x with
      | AscAll _ =>
          match filter present (nth loc h []) with
          | [] => Some (h, mkDs (s_items ds) (s_nrows ds) (s_list ds) (s_asc ds) (s_disp x))
          | _ => None
          end
      | AscArr l | AscList l =>
          match filter (fun p => present (fst p)) (combine (nth loc h []) l) with
          | [] => Some (h, mkDs (s_items ds) (s_nrows ds) (s_list ds) (s_asc ds) (s_disp x))
          | ps => Some (h ++ [map fst ps], mkDs (s_items ds) (s_nrows ds) (Some (length h)) (AscList (map snd ps)) (s_disp x))
          end
      end
  end.
(** rt_struct.py:3790-3795: [for i, name in self._col_sortlist] unpacks the characters of each
    name; the assignment to [self._col_sortlist[i]] then has a character as index *)
Fixpoint replace_sorts (f : name -> name) (l : list name) : bool :=
  match l with
  | [] => true
  | [_; b] :: r => if name_dec (f [b]) [b] then replace_sorts f r else false
  | _ => false
  end.

Definition on_ds (w : world) (d : nat) (k : dsr -> world * out) : world * out :=
  match nth_error (w_ds w) d with Some x => k x | None => (w, RError) end.

Definition step (w : world) (o : op) : world * out :=
  match o with
  | NewList l => (mkW (w_heap w ++ [l]) (w_ds w) (w_cache w), RDone)
  | EditList loc l => (mkW (upd loc l (w_heap w)) (w_ds w) (w_cache w), RDone)
  | NewDs items nrows => (new_ds w (mkDs items nrows None (AscAll true) false), RDone)
  | SortView d by_ given => on_ds w d (fun x =>
      match parse_sort (w_heap w) x by_ given with
      | None => (w, RError)
      | Some (bylist, a) =>
          (* 4132-4134 *)
          let '(h, loc) := match by_ with ByName n => (w_heap w ++ [[n]], length (w_heap w)) | ByList loc => (w_heap w, loc) end in
          (put_ds (mkW h (w_ds w) (w_cache w)) d (mkDs (s_items x) (s_nrows x) (Some loc) a true), RDone)
      end)
  | SortsOff d => on_ds w d (fun x => (put_ds w d (sorts_off x), RDone))
  | SortInplace d by_ given => on_ds w d (fun x =>
      match parse_sort (w_heap w) x by_ given with
      | None => (w, RError)
      | Some (bylist, a) =>
          (* 4086-4088, 4094, 4106-4109 *)
          let x := if s_disp x then sorts_off x else x in
          let sort_rows := sort_lexsort x bylist a in
          let x' := mkDs (map (fun p => (fst p, take_rows sort_rows (snd p))) (s_items x)) (s_nrows x) (s_list x) (s_asc x) (s_disp x) in
          (put_ds w d (fold_left (fun x n => update_sort (w_heap w) n x) (names (s_items x)) x'), RDone)
      end)
  | SortCopy d by_ given => on_ds w d (fun x =>
      match parse_sort (w_heap w) x by_ given with
      | None => (w, RError)
      | Some (bylist, a) =>
          (* 4112-4119 *)
          let sort_rows := sort_lexsort x bylist a in
          (new_ds w (mkDs (map (fun p => (fst p, take_rows sort_rows (snd p))) (s_items x)) (s_nrows x) None (AscAll true) false), RDone)
      end)
  | Rename d old new => on_ds w d (fun x =>
      if name_dec old new then (w, RDone)
      else if mem old (names (s_items x)) && negb (mem new (names (s_items x))) then
        let items := map (fun p => (if name_dec (fst p) old then new else fst p, snd p)) (s_items x) in
        (* rt_struct.py:3495-3498: the list object is changed in place *)
        let h := match s_list x with
                 | Some loc => upd loc (map (fun n => if name_dec n old then new else n) (nth loc (w_heap w) [])) (w_heap w)
                 | None => w_heap w
                 end in
        (put_ds (mkW h (w_ds w) (w_cache w)) d (mkDs items (s_nrows x) (s_list x) (s_asc x) (s_disp x)), RDone)
      else (w, RError))
  | AddPrefix d p => on_ds w d (fun x =>
      let items := map (fun q => ((p ++ fst q : name), snd q)) (s_items x) in
      (* rt_struct.py:3376-3378: a new list *)
      let '(h, l) := match s_list x with
                     | Some loc => (w_heap w ++ [map (fun n => p ++ n) (nth loc (w_heap w) [])], Some (length (w_heap w)))
                     | None => (w_heap w, None)
                     end in
      (put_ds (mkW h (w_ds w) (w_cache w)) d (mkDs items (s_nrows x) l (s_asc x) (s_disp x)), RDone))
  | StrReplace d f => on_ds w d (fun x =>
      (* a replacement that makes two names equal is refused (rt_itemcontainer.py:547-576) *)
      let ns := map f (names (s_items x)) in
      if negb (length (nodup name_dec ns) =? length ns) then (w, RError)
      else
        let x' := mkDs (combine ns (map snd (s_items x))) (s_nrows x) (s_list x) (s_asc x) (s_disp x) in
        let changed := existsb (fun n => if name_dec (f n) n then false else true) (names (s_items x)) in
        match s_list x with
        | Some loc => (put_ds w d x', if changed && negb (replace_sorts f (nth loc (w_heap w) [])) then RError else RDone)
        | None => (put_ds w d x', RDone)
        end)
  | DelCol d n => on_ds w d (fun x =>
      if mem n (names (s_items x)) then
        (put_ds w d (update_sort (w_heap w) n (mkDs (filter (fun p => if name_dec (fst p) n then false else true) (s_items x)) (s_nrows x) (s_list x) (s_asc x) (s_disp x))), RDone)
      else (w, RError))
  | SetCol d n c => on_ds w d (fun x =>
      (* rt_dataset.py:673-687: the length must agree *)
      if length (c_bits c) =? s_nrows x then
        (put_ds w d (update_sort (w_heap w) n (mkDs (dset n c (s_items x)) (s_nrows x) (s_list x) (s_asc x) (s_disp x))), RDone)
      else (w, RError))
  | EditCol d n bits => on_ds w d (fun x =>
      match dget n (s_items x) with
      | Some c => if length bits =? length (c_bits c)
                  then (put_ds w d (mkDs (dset n (mkCol (c_type c) bits) (s_items x)) (s_nrows x) (s_list x) (s_asc x) (s_disp x)), RDone)
                  else (w, RError)
      | None => (w, RError)
      end)
  | Copy d rows cols => on_ds w d (fun x =>
      let sel := filter (fun p => mem (fst p) cols) (s_items x) in
      let items := match rows with Some r => map (fun p => (fst p, take_rows r (snd p))) sel | None => sel end in
      let nrows := match rows with Some r => length r | None => s_nrows x end in
      match copy_attributes (w_heap w) x (mkDs items nrows None (AscAll true) false) with
      | Some (h, ds) => (new_ds (mkW h (w_ds w) (w_cache w)) ds, RDone)
      | None => (w, RError)
      end)
  | Load items nrows keys idx =>
      (* rt_struct.py:1623-1629: the direction is not in the file *)
      let sortlist := map (fun n => match dget n items with Some c => c | None => mkCol 0 [] end) keys in
      (mkW (w_heap w ++ [keys]) (w_ds w ++ [mkDs items nrows (Some (length (w_heap w))) (AscAll true) false])
           (store_sort (length (w_ds w)) sortlist idx (AscAll true) (w_cache w)), RDone)
  | Str d => on_ds w d (fun x => let '(w', i) := display_index w d x in (w', RIdx i))
  | Repr d => on_ds w d (fun x =>
      let '(w', i) := display_index w d x in
      (match nth_error (w_ds w') d with Some x' => put_ds w' d (sorts_off x') | None => w' end, RIdx i))
  | SortedRows d => on_ds w d (fun x => let '(w', i) := sorted_index w d x in (w', RIdx i))
  | Invalidate d => (mkW (w_heap w) (w_ds w) (invalidate d (w_cache w)), RDone)
  | InvalidateAll => (mkW (w_heap w) (w_ds w) [], RDone)
  end.
Definition run (ops : list op) (w : world) : world := fold_left (fun w o => fst (step w o)) ops w.
Definition init : world := mkW [] [] [].
End Sort.
