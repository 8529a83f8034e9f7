(** Model of how the results of grouped calculations are put together: the key columns
    (rt_groupbykeys.py, class GroupByKeys), the result dataset (rt_grouping.py:2204-2330, 2428-2500,
    3277-3490, 3514-3550), apply_reduce (rt_grouping.py:2521-2941, rt_groupbyops.py:360-460), apply
    (rt_grouping.py:2944-3227) and the expansion back to the original rows (transform,
    rt_groupbyops.py:331-363).

    Simplifications: the cells of key columns, data columns and results are of one type [V] with
    one invalid value; the C++ reductions are given by their contract (a function of the elements
    of the bin, in row order); dtypes, array names and array subclasses are left out. *)
From Coq Require Import List Arith Bool ZArith.
From Verif Require Import FlattenModel GroupModel GroupingModel DsModel.
Import ListNotations.

Section Agg.
Context {V : Type}.
(** the invalid value *)
Variable inv : V.
(** rt_numpy.py:2658-2673 (C++ LexSort32): the last key counts most *)
Variable lexsort : list (list V) -> list nat.
(** rt_groupbykeys.py:232-240 _get_filter_bin_name: 'Filtered' for strings, else the invalid *)
Variable binname : list V -> V.

Definition cols := list (name * list V).
(** FastArray.__getitem__ with an integer array, rt_fastarray.py:1307-1335 *)
Definition fancy (v : list V) (idx : list nat) : list V := map (fun i => mbget inv v (Z.of_nat i)) idx.

(** ** rt_groupbykeys.py.  [k_gb]: _gbkeys, [k_isort]: _isortrows, [k_disp]: _sort_display,
    [k_pre]: _pre_sorted, [k_sorted]: _sort_applied, [k_filt]: _filter_applied, [k_n]: _unique_count *)
Record keychain := mkK { k_gb : cols; k_isort : option (list nat); k_disp : bool; k_pre : bool;
                         k_sorted : bool; k_filt : bool; k_n : nat }.
(** 58-83, prebinned=True as in both uses (rt_groupby.py:283, rt_categorical.py:5155) *)
Definition new_keychain (gd : cols) (sort_display pre_sorted : bool) : keychain :=
  mkK gd None sort_display pre_sorted false false (match gd with (_, v) :: _ => length v | [] => 0 end).
(** 85-93 *)
Definition sort_gb_data (c : keychain) : bool := k_disp c && negb (k_pre c).
(** 354-358 *)
Definition make_isortrows (c : keychain) : list nat := lexsort (rev (map snd (k_gb c))).
(** 96-103 *)
Definition isortrows (c : keychain) : keychain * list nat :=
  match k_isort c with
  | Some i => (c, i)
  | None => let i := make_isortrows c in
            (mkK (k_gb c) (Some i) (k_disp c) (k_pre c) (k_sorted c) (k_filt c) (k_n c), i)
  end.
(** 217-229 *)
Definition trim_keys (d : cols) : cols := map (fun p => (fst p, skipn 1 (snd p))) d.
(** 155-179 *)
Definition keys (sort : option bool) (showfilter : bool) (c : keychain) : keychain * cols :=
  let c1 := match sort with
            | Some b => mkK (k_gb c) (k_isort c) b (k_pre c) (k_sorted c) (k_filt c) (k_n c)
            | None => c
            end in
  let c2 := if sort_gb_data c1 && negb (k_sorted c1)
            then let '(c', i) := isortrows c1 in
                 mkK (map (fun p => (fst p, fancy (snd p) i)) (k_gb c')) (k_isort c') (k_disp c') (k_pre c') true (k_filt c') (k_n c')
            else c1 in
  (c2, if negb showfilter && k_filt c2 then trim_keys (k_gb c2) else k_gb c2).
(** 106-111 *)
Definition gbkeys (c : keychain) : keychain * cols := keys None false c.
(** 123-129 *)
Definition insert_filter_bin (c : keychain) : keychain :=
  if k_filt c then c
  else let '(c1, d) := gbkeys c in
       mkK (map (fun p => (fst p, binname (snd p) :: snd p)) d) (k_isort c1) (k_disp c1) (k_pre c1) (k_sorted c1) true (k_n c1).
(** 114-120 *)
Definition gbkeys_filtered (c : keychain) : keychain * cols := keys None true (insert_filter_bin c).
(** 296-313; [None]: ValueError *)
Definition get_bin_from_index (i : Z) (c : keychain) : keychain * option (list V) :=
  if ((0 <=? i) && (i <? Z.of_nat (k_n c)))%Z
  then let '(c1, d) := gbkeys c in (c1, Some (map (fun p => nth (Z.to_nat i) (snd p) inv) d))
  else (c, None).
(** 255-282: the matching rows; [None]: ValueError.  Both uses of gbkeys see the same columns. *)
Variable veqb : V -> V -> bool.
Definition row_matches (d : cols) (tup : list V) (r : nat) : bool :=
  forallb (fun p => veqb (nth r (snd (fst p)) inv) (snd p)) (combine d tup).
Definition get_index_from_tuple (tup : list V) (c : keychain) : keychain * option Z :=
  let '(c1, d) := gbkeys c in
  if length tup =? length d then
    let rows := match d with (_, v) :: _ => length v | [] => 0 end in
    (c1, Some (match filter (row_matches d tup) (seq 0 rows) with [r] => Z.of_nat r | _ => (-1)%Z end))
  else (c1, None).
(** 361-370; [None]: ValueError *)
Definition unsort (c : keychain) : keychain * option unit :=
  if negb (k_pre c) && k_sorted c then (c, None)
  else (mkK (k_gb c) (k_isort c) false (k_pre c) (k_sorted c) (k_filt c) (k_n c), Some tt).

(** one use of the key object *)
Inductive kop := KKeys (sort : option bool) (showfilter : bool) | KFiltered | KIsort | KBin (i : Z) | KIndex (tup : list V).
Inductive kout := OCols (d : cols) | OIdx (i : list nat) | OBin (t : option (list V)) | OIndex (i : option Z).
Definition kstep (c : keychain) (o : kop) : keychain * kout :=
  match o with
  | KKeys s f => let '(c1, d) := keys s f c in (c1, OCols d)
  | KFiltered => let '(c1, d) := gbkeys_filtered c in (c1, OCols d)
  | KIsort => let '(c1, i) := isortrows c in (c1, OIdx i)
  | KBin i => let '(c1, t) := get_bin_from_index i c in (c1, OBin t)
  | KIndex t => let '(c1, i) := get_index_from_tuple t c in (c1, OIndex i)
  end.
Fixpoint kouts (c : keychain) (ops : list kop) : list kout :=
  match ops with
  | [] => []
  | o :: r => let '(c1, x) := kstep c o in x :: kouts c1 r
  end.
Definition kfinal (c : keychain) (ops : list kop) : keychain := fold_left (fun c o => fst (kstep c o)) ops c.

(** ** The object that calculates: a GroupBy or a Categorical with its Grouping.
    [o_ikey]: grouping.ikey (codes from 1, 0: filtered), [o_n]: unique_count, [o_base]:
    grouping.base_index ([None] for an enum), [o_ordered]: grouping.Ordered, [o_sd]: _sort_display
    (only a GroupBy has it), [o_flag]: _transform *)
Record gobj := mkO { o_ikey : list nat; o_n : nat; o_base : option nat; o_ordered : bool;
                     o_sd : option bool; o_flag : bool; o_kc : keychain }.
Definition with_kc (c : keychain) (o : gobj) : gobj :=
  mkO (o_ikey o) (o_n o) (o_base o) (o_ordered o) (o_sd o) (o_flag o) c.
Definition with_flag (b : bool) (o : gobj) : gobj :=
  mkO (o_ikey o) (o_n o) (o_base o) (o_ordered o) (o_sd o) b (o_kc o).

(** the elements of one bin, in row order *)
Definition in_bin (ikey : list nat) (x : list V) (b : nat) : list V :=
  map snd (filter (fun p => fst p =? b) (combine ikey x)).
(** C++ GroupByAll32 / GroupByAllPack32 (rt_grouping.py:3433-3454) over the bins [base .. n], and
    3461-3468: bin 0 is dropped unless the filtered bin is wanted *)
Definition calc_col (f : list V -> V) (ikey : list nat) (n base : nat) (x : list V) : list V :=
  skipn base (map (fun b => if b <? base then inv else f (in_bin ikey x b)) (seq 0 (S n))).
(** 2428-2500, return_all=False: the group keys and the columns that cannot be computed are left out *)
Definition calculate_dict (usable : name -> bool) (keynames : list name) (origdict : cols) : cols :=
  filter (fun p => negb (mem (fst p) keynames) && usable (fst p)) origdict.

(** TypeRegister.Dataset(d): [None] when the lengths differ *)
Definition make_ds (d : cols) : option cols :=
  match d with
  | [] => Some []
  | (_, v) :: r => if forallb (fun p => length (snd p) =? length v) r then Some d else None
  end.
(** ds[k] = v: [None] when the length is wrong (rt_dataset.py:721-756) *)
Definition set_col (k : name) (v : list V) (ds : option cols) : option cols :=
  match ds with
  | None => None
  | Some [] => Some [(k, v)]
  | Some ((k0, v0) :: r) => if length v =? length v0 then Some (dset k v ((k0, v0) :: r)) else None
  end.
Definition set_cols (l : cols) (ds : option cols) : option cols := fold_left (fun ds p => set_col (fst p) (snd p) ds) l ds.

(** 2213-2263 _finalize_dataset, with gbkeys given.  The labels are the names of [gb]. *)
Definition finalize_dataset (accumdict : cols) (c : keychain) (gb : cols) (transform showfilter addkeys : bool)
  : keychain * option cols :=
  let '(c1, d1) :=
    if sort_gb_data c && negb transform then
      let '(c1, i) := isortrows c in
      let i' := if showfilter then 0 :: map S i else i in
      (c1, map (fun p => if mem (fst p) (names gb) then p else (fst p, fancy (snd p) i')) accumdict)
    else (c, accumdict) in
  let ds := make_ds d1 in
  (c1, if addkeys && negb transform then set_cols gb ds else ds).

(** 2266-2330 _return_dataset for a reducing function, showkeys=True, return_all=False *)
Definition return_dataset (origdict accumdict : cols) (c : keychain) (transform showfilter : bool) : keychain * option cols :=
  let '(c1, gb) := if showfilter then gbkeys_filtered c else gbkeys c in
  let newdict := fold_left (fun d p => match dget (fst p) accumdict with
                                       | Some v => dset (fst p) v d
                                       | None => match dget (fst p) gb with Some v => dset (fst p) v d | None => d end
                                       end) origdict [] in
  finalize_dataset newdict c1 gb transform showfilter true.

(** C++ ReverseShuffle: where each number stands *)
Fixpoint position (j : nat) (l : list nat) : nat :=
  match l with [] => 0 | x :: r => if x =? j then 0 else S (position j r) end.
Definition reverse_shuffle (l : list nat) : list nat := map (fun j => position j l) (seq 0 (length l)).
(** the invalid of an integer index *)
Definition inv_index : Z := (- 2 ^ 63)%Z.

(** rt_groupbyops.py:331-363 _possibly_transform; [transform]: the keyword argument.  The last
    component: the object after the call. *)
Definition is_base_1 (b : option nat) : bool := match b with Some 1 => true | _ => false end.
Definition possibly_transform (o : gobj) (ds : option cols) (label_keys : list name) (transform showfilter : bool)
  : gobj * option cols :=
  match ds with
  | None => (o, None)
  | Some d =>
      if o_flag o || transform then
        let ikey := map (fun k => if negb showfilter && is_base_1 (o_base o) then (Z.of_nat k - 1)%Z else Z.of_nat k) (o_ikey o) in
        let '(o1, ikey1) :=
          match o_sd o with
          | Some true => if o_ordered o
                         then let '(c1, i) := isortrows (o_kc o) in
                              (with_kc c1 o, map (mbget inv_index (map Z.of_nat (reverse_shuffle i))) ikey)
                         else (o, ikey)
          | _ => (o, ikey)
          end in
        (with_flag false o1,
         Some (map (fun p => (fst p, map (mbget inv (snd p)) ikey1)) (filter (fun p => negb (mem (fst p) label_keys)) d)))
      else (o, Some d)
  end.

(** rt_grouping.py:3277-3490 with rt_groupby.py:322-347 (totals=False) or rt_categorical.py:5060-5080.
    [anynames]: the names of the grouping columns; [usable]: the columns that can be computed. *)
Definition calculate (usable : name -> bool) (f : list V -> V) (origdict : cols) (flt : option (list bool))
           (transform showfilter : bool) (o : gobj) : gobj * option cols :=
  let base := if showfilter then 0 else 1 in
  let ikey := passing flt (o_ikey o) in
  let npdict := calculate_dict usable (names (k_gb (o_kc o))) origdict in
  let accumdict := map (fun p => (fst p, calc_col f ikey (o_n o) base (snd p))) npdict in
  let '(c1, ds) := return_dataset origdict accumdict (o_kc o) transform showfilter in
  let '(c2, lk) := gbkeys c1 in
  possibly_transform (with_kc c2 o) ds (names lk) transform showfilter.

(** rt_grouping.py:3514-3550 count (transform=False); [num]: the cell that holds a count *)
Definition count_name : name := [67; 111; 117; 110; 116].
Definition count_ds (num : nat -> V) (flt : option (list bool)) (showfilter : bool) (o : gobj) : gobj * option cols :=
  let base := if showfilter then 0 else 1 in
  let ikey := passing flt (o_ikey o) in
  let countcol := skipn base (map (fun b => num (length (filter (Nat.eqb b) ikey))) (seq 0 (S (o_n o)))) in
  let '(c1, gb) := if showfilter then gbkeys_filtered (o_kc o) else gbkeys (o_kc o) in
  let '(c2, ds) := finalize_dataset [(count_name, countcol)] c1 gb false showfilter true in
  (with_kc c2 o, ds).

(** rt_grouping.py:2725-2790, 2936-2941: a user function that returns a scalar, one column at a time;
    a bin without rows gets the invalid *)
Definition reduce_col (f : list V -> V) (ikey : list nat) (n base : nat) (x : list V) : list V :=
  skipn base (map (fun b => match in_bin ikey x b with [] => inv | l => f l end) (seq 0 (S n))).
(** rt_groupbyops.py:434-460 apply_reduce *)
Definition apply_reduce (usable : name -> bool) (f : list V -> V) (origdict : cols) (flt : option (list bool))
           (transform showfilter : bool) (o : gobj) : gobj * option cols :=
  let base := if showfilter then 0 else 1 in
  let ikey := passing flt (o_ikey o) in
  let npdict := calculate_dict usable (names (k_gb (o_kc o))) origdict in
  match npdict with
  | [] => (o, None)
  | _ =>
      let return_ds := set_cols (map (fun p => (fst p, reduce_col f ikey (o_n o) base (snd p))) npdict) (Some []) in
      let '(c1, gb) := gbkeys (o_kc o) in
      match return_ds with
      | None => (with_kc c1 o, None)
      | Some d =>
          let '(c2, ds) := finalize_dataset d c1 gb false showfilter true in
          if transform then
            let '(c3, lk) := gbkeys c2 in
            possibly_transform (with_kc c3 o) ds (names lk) true showfilter
          else (with_kc c2 o, ds)
      end
  end.

(** rt_grouping.py:2944-3227 apply, one data column [c]: a user function of the rows of a group that
    returns any number of rows; with rt_groupbyops.py:529-548.  Bins without rows are skipped.  As
    many result rows as calls means a reduction (3180-3193), otherwise the rows are put back where
    the groups came from (3194-3214: result[iGroup, :] = result.copy(), an error unless there is one
    result row per row).  Not modelled: the original key columns that are attached in that case. *)
Definition apply_user (f : list V -> list V) (c : name) (x : list V) (flt : option (list bool)) (o : gobj) : gobj * option cols :=
  let ikey := passing flt (o_ikey o) in
  let n := o_n o in
  let nonempty := fun b => 0 <? length (in_bin ikey x b) in
  let bins := filter nonempty (seq 1 n) in
  let result := concat (map (fun b => f (in_bin ikey x b)) bins) in
  match bins with
  | [] => (o, None)
  | _ =>
      let '(c1, ds) :=
        if length result =? length bins then
          let '(c1, gb) := gbkeys (o_kc o) in
          if length bins <? n then
            let keep := map nonempty (seq 1 n) in
            match set_cols (map (fun p => (fst p, map fst (filter snd (combine (snd p) keep)))) gb) (Some [(c, result)]) with
            | Some d => finalize_dataset d c1 gb false false false
            | None => (c1, None)
            end
          else finalize_dataset [(c, result)] c1 gb false false true
        else
          let full := repeat inv (length (in_bin ikey x 0)) ++ result in
          (o_kc o, if length full =? length ikey
                   then Some [(c, map (fun r => nth (position r (igroup ikey n)) full inv) (seq 0 (length ikey)))]
                   else None) in
      let '(c2, lk) := gbkeys c1 in
      possibly_transform (with_kc c2 o) ds (names lk) false false
  end.

(** one use of the calculating object; [CTransform]: the property transform, which only sets the
    flag (rt_groupby.py:657-670, rt_categorical.py:5046-5057) *)
Inductive cop :=
| CCalc (usable : name -> bool) (f : list V -> V) (origdict : cols) (flt : option (list bool)) (transform showfilter : bool)
| CCount (num : nat -> V) (flt : option (list bool)) (showfilter : bool)
| CApply (usable : name -> bool) (f : list V -> V) (origdict : cols) (flt : option (list bool)) (transform showfilter : bool)
| CUser (f : list V -> list V) (c : name) (x : list V) (flt : option (list bool))
| CTransform
| CKeys.
Definition cstep (o : gobj) (x : cop) : gobj * option cols :=
  match x with
  | CCalc us f d flt t s => calculate us f d flt t s o
  | CCount num flt s => count_ds num flt s o
  | CApply us f d flt t s => apply_reduce us f d flt t s o
  | CUser f c x flt => apply_user f c x flt o
  | CTransform => (with_flag true o, None)
  | CKeys => let '(c1, d) := gbkeys (o_kc o) in (with_kc c1 o, Some d)
  end.
Definition cfinal (o : gobj) (ops : list cop) : gobj := fold_left (fun o x => fst (cstep o x)) ops o.
End Agg.
