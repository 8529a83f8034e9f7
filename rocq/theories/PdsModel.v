(** Model of PDataset (riptable/rt_pdataset.py): a Dataset stacked from partitions, with the row number
    at which each partition ends, and the names of the partitions.

    Simplifications: built from a list of datasets (the file loader gives the same fields); partition
    numbers are not negative; partition names and file names are ASCII byte strings. *)
From Coq Require Import List Arith Bool.
From Verif Require Import FlattenModel DsModel.
Import ListNotations.

Section Pds.
Context {V : Type}.
Variable inv : name -> V.

(** [p_names]: the dictionary name -> number; [p_pcat]: the codes and labels made by pcat, once made *)
Record pds := mkP { p_cols : table V; p_nrows : nat; p_cutoffs : list nat; p_rows : list nat;
                    p_names : list (name * nat); p_pcat : option (list nat * list name) }.

(** cumsum, rt_pdataset.py:256 *)
Fixpoint cumsum_from (acc : nat) (l : list nat) : list nat :=
  match l with [] => [] | x :: r => (acc + x) :: cumsum_from (acc + x) r end.
Definition cumsum (l : list nat) : list nat := cumsum_from 0 l.
(** rt_pdataset.py:124-128: [prows[1:] -= pcutoffs[:-1]] *)
Definition prows_of (cutoffs : list nat) : list nat :=
  match cutoffs with
  | [] => []
  | c :: r => c :: map (fun p => fst p - snd p) (combine r cutoffs)
  end.
(** rt_struct.py:2474-2476 *)
Definition shape0 (d : @dset_ V) : nat := match d_nrows d with Some n => n | None => 0 end.
(** [{p: i for i, p in enumerate(pnames)}] *)
Definition enumerate_names (pnames : list name) : list (name * nat) :=
  dset_all (combine pnames (seq 0 (length pnames))) [].
(** rt_pdataset.py:61-96, 106-141, 240-277; [pnames]: given, or made from the file names.  [None]: an empty list (TypeError). *)
Definition from_list (dlist : list (@dset_ V)) (pnames : list name) : option pds :=
  match dlist with
  | [] => None
  | _ =>
      let cutoffs := cumsum (map shape0 dlist) in
      let ds := hstack_datasets inv dlist in
      Some (mkP (d_cols ds) (shape0 ds) cutoffs (prows_of cutoffs) (enumerate_names pnames) None)
  end.

(** rt_pdataset.py:392-409 *)
Definition pcount (p : pds) : nat := length (p_rows p).
Definition pnames (p : pds) : list name := names (p_names p).
(** rt_pdataset.py:628-648; [None]: IndexError *)
Definition pslice (p : pds) (index : nat) : option (nat * nat) :=
  match index with
  | 0 => match nth_error (p_cutoffs p) 0 with Some c => Some (0, c) | None => None end
  | S i => match nth_error (p_cutoffs p) i, nth_error (p_cutoffs p) (S i) with
           | Some a, Some b => Some (a, b)
           | _, _ => None
           end
  end.
(** [col[slice(a, b)]] *)
Definition take_slice {X} (s : nat * nat) (c : list X) : list X := firstn (snd s - fst s) (skipn (fst s) c).
(** rt_pdataset.py:651-671: a Dataset of the rows of the slice *)
Definition partition (p : pds) (index : nat) : option (table V) :=
  match pslice p index with
  | Some s => Some (map (fun q => (fst q, take_slice s (snd q))) (p_cols p))
  | None => None
  end.
(** rt_pdataset.py:674-700, for a string: a column, or else the partition of that name *)
Inductive item := IColumn (c : list V) | IPartition (t : table V) | IKeyError.
Definition getitem (p : pds) (n : name) : item :=
  match dget n (p_cols p) with
  | Some c => IColumn c
  | None => match dget n (p_names p) with
            | Some i => match partition p i with Some t => IPartition t | None => IKeyError end
            | None => IKeyError
            end
  end.
(** rt_pdataset.py:453-471; the dictionary display, later equal names replacing earlier ones *)
Definition pdict (p : pds) : list (name * option (nat * nat)) :=
  dset_all (map (fun q => (fst q, pslice p (snd q))) (combine (pnames p) (seq 0 (length (pnames p))))) [].
(** rt_pdataset.py:512-524; [idx] starts uninitialised: [junk].  [idx[slice(a, b)] = v] *)
Definition fill_slice (s : nat * nat) (v : nat) (idx : list nat) : list nat :=
  map (fun q => if (fst s <=? fst q) && (fst q <? snd s) then v else snd q) (combine (seq 0 (length idx)) idx).
Definition pcat_codes (p : pds) (junk : nat -> nat) : list nat :=
  fold_left (fun idx i => match pslice p i with Some s => fill_slice s (i + 1) idx | None => idx end)
    (seq 0 (pcount p)) (map junk (seq 0 (p_nrows p))).
Definition pcat (p : pds) (junk : nat -> nat) : pds * (list nat * list name) :=
  match p_pcat p with
  | Some c => (p, c)
  | None => let c := (pcat_codes p junk, pnames p) in
            (mkP (p_cols p) (p_nrows p) (p_cutoffs p) (p_rows p) (p_names p) (Some c), c)
  end.
(** the value a categorical of base index 1 shows *)
Definition shown (c : list nat * list name) (row : nat) : option name :=
  match nth_error (fst c) row with
  | Some (S k) => nth_error (snd c) k
  | _ => None
  end.
(** rt_pdataset.py:415-450; [None]: ValueError *)
Definition set_pnames (p : pds) (new : list name) : option pds :=
  if length new =? length (p_names p) then
    let newpnames := enumerate_names new in
    if length newpnames =? length (p_names p)
    then Some (mkP (p_cols p) (p_nrows p) (p_cutoffs p) (p_rows p) newpnames (p_pcat p))
    else None
  else None.
(** rt_pdataset.py:527-563: the partition labels of the displayed rows.  searchsorted(side="right"): the number of
    cutoffs not above the row (the cutoffs ascend) *)
Definition searchsorted_right (cutoffs : list nat) (x : nat) : nat := length (filter (fun c => c <=? x) cutoffs).
Definition row_label (p : pds) (row : nat) : option name := nth_error (pnames p) (searchsorted_right (p_cutoffs p) row).
(** rt_pdataset.py:604-610 *)
Definition piter (p : pds) : list (option name * option (table V)) :=
  map (fun i => (nth_error (pnames p) i, partition p i)) (seq 0 (pcount p)).
End Pds.
Arguments mkP {V}.
Arguments p_cols {V}. Arguments p_nrows {V}. Arguments p_cutoffs {V}. Arguments p_rows {V}. Arguments p_names {V}. Arguments p_pcat {V}.

(** ** Partition names from file names, rt_pdataset.py:145-239, 281-286 *)
Definition auto_pnames (pcount : nat) : list name := map (fun i => 112 :: digits (Nat.to_uint i)) (seq 0 pcount).
(** an array of byte strings: every row padded with zeros *)
Definition pad (w : nat) (s : name) : name := s ++ repeat 0 (w - length s).
Definition width_of (l : list name) : nat := fold_left Nat.max (map (@length nat) l) 1.
(** rt_pdataset.py:184, 193, 203, 209: [char >= 48 and char <= 58] *)
Definition numeric (c : nat) : bool := (48 <=? c) && (c <=? 58).
(** rt_pdataset.py:160-168 *)
Definition match_mask (rows : list name) (j : nat) : bool :=
  existsb (fun r => negb (nth j (hd [] rows) 0 =? nth j r 0)) (tl rows).
(** [for i in range(lo, hi): if f i: break]: the last value of i ([dflt] if the range is empty) *)
Fixpoint for_break (f : nat -> bool) (n lo dflt : nat) : nat :=
  match n with
  | 0 => dflt
  | S n => if f lo then lo else for_break f n (S lo) lo
  end.
(** rt_pdataset.py:181-188 *)
Fixpoint expand_start (row : name) (start : nat) : nat :=
  match start with
  | 0 => 0
  | S s => if numeric (nth s row 0) then expand_start row s else start
  end.
(** rt_pdataset.py:191-197; [n]: the places left *)
Fixpoint expand_end (row : name) (n end_ : nat) : nat :=
  match n with
  | 0 => end_
  | S n => if numeric (nth end_ row 0) then expand_end row n (S end_) else end_
  end.
(** the bytes of a fixed-width string: trailing zeros do not count *)
Fixpoint strip0 (s : name) : name :=
  match s with
  | [] => []
  | c :: r => match strip0 r with
              | [] => if c =? 0 then [] else [c]
              | r' => c :: r'
              end
  end.
(** rt_pdataset.py:200-212 *)
Definition cut_name (start end_ : nat) (row : name) : name := rev (strip0 (firstn (end_ - start) (skipn start row))).
(** str.isdigit, of ASCII *)
Definition is_digit (c : nat) : bool := (48 <=? c) && (c <=? 57).
(** rt_pdataset.py:220-234: first digit, and first non-digit after it *)
Definition single_pname (rf : name) : option name :=
  let fix first (l : name) (i : nat) := match l with [] => None | c :: r => if is_digit c then Some i else first r (S i) end in
  let fix stop (l : name) (i : nat) := match l with [] => None | c :: r => if is_digit c then stop r (S i) else Some i end in
  match first rf 0 with
  | None => None
  | Some start =>
      let stop := match stop (skipn start rf) start with Some i => i | None => start + 1 end in
      Some (rev (firstn (stop - start) (skipn start rf)))
  end.
(** rt_pdataset.py:158-216: several files; [None]: no names found *)
Definition several_pnames (filenames : list name) : option (list name) :=
  let rfilenames := map (@rev nat) filenames in
  let str_len := width_of rfilenames in
  let str_numba := map (pad str_len) rfilenames in
  let row0 := hd [] str_numba in
  let start := for_break (match_mask str_numba) str_len 0 0 in
  let end_ := for_break (fun i => negb (match_mask str_numba i)) (str_len - (start + 1)) (start + 1) start in
  let start := expand_start row0 start in
  let end_ := expand_end row0 (str_len - end_) end_ in
  if (start <? end_) && numeric (nth start row0 0) && numeric (nth (end_ - 1) row0 0) then
    let pnames := map (cut_name start end_) str_numba in
    if length (nodup name_dec pnames) =? length filenames then Some pnames else None
  else None.
(** rt_pdataset.py:145-239 *)
Definition filenames_to_pnames (filenames : list name) : list name :=
  let found := match filenames with
               | [] => None
               | [f] => match single_pname (rev f) with Some n => Some [n] | None => None end
               | _ => several_pnames filenames
               end in
  match found with Some l => l | None => auto_pnames (length filenames) end.
