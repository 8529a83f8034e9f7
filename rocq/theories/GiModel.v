(** Model of iterating over the groups of a GroupBy or Categorical (rt_groupbyops.py:101-328), of
    GroupBy.get_group / as_categorical / [] (rt_groupby.py:210-295, 419-432, 673-695, 722-773) and of
    the columns a grouped call works on (rt_groupbyops.py:577-856).

    [us]: the distinct keys in the order of the group numbers (grouping.gbkeys, rows of the key
    columns as tuples), [ikey]: the group number of every row, 0 for rows in no group.  Packing is
    the model of GroupingModel.v ([gstep], [pack_of]). *)
From Coq Require Import List Arith ZArith Bool.
From Verif Require Import FlattenModel GroupModel GroupingModel GiSpec.
Import ListNotations.

Section Iterate.
Context {K V : Type}.
Variable eqb : K -> K -> bool.
(** rt_grouping.py:1625-1641, 2357-2410: self.grouping.pack_by_group(), then iGroup, iFirstGroup and
    nCountGroup *)
Definition packed (ikey : list nat) (n : nat) (s : gstate) : packing :=
  match g_pack (pack_by_group ikey n None false s) with Some p => p | None => mkPacking [] [] [] end.
(** rt_groupbyops.py:172-174 and rt_grouping.py:3497-3503 [as_filter] *)
Definition fancy (p : packing) (g : nat) : list nat :=
  slice (p_igroup p) (nth g (p_ifirst p) 0) (nth g (p_ncount p) 0).
(** rt_groupbyops.py:153-176 [iter_groups]: the pairs yielded *)
Definition iter_groups (us : list K) (ikey : list nat) (s : gstate) : list (K * list nat) :=
  let p := packed ikey (length us) s in
  combine us (map (fun i => fancy p (i + 1)) (seq 0 (length us))).

(** Python dict over keys: d[k] = v and d.get(k) *)
Fixpoint kset {X} (k : K) (v : X) (d : list (K * X)) : list (K * X) :=
  match d with
  | [] => [(k, v)]
  | (k', v') :: r => if eqb k k' then (k', v) :: r else (k', v') :: kset k v r
  end.
Fixpoint kget {X} (k : K) (d : list (K * X)) : option X :=
  match d with [] => None | (k', v) :: r => if eqb k k' then Some v else kget k r end.
(** rt_groupbyops.py:108-125 [groups]: dict(zip(col, fancy_idx)) *)
Definition groups (us : list K) (ikey : list nat) (s : gstate) : list (K * list nat) :=
  let p := packed ikey (length us) s in
  fold_left (fun d q => kset (fst q) (snd q) d)
            (combine us (map (fun i => fancy p (i + 1)) (seq 0 (length us)))) [].

(** rt_groupbyops.py:214-234 [get_groupings], as a step of the packing *)
Definition get_groupings (ikey : list nat) (n : nat) (flt : option (list bool)) (s : gstate) : gstate :=
  gstep ikey n s (Pack flt true).

(** *** dataset[rows, :] and views of it *)
(** the invalid of the column type; the row numbers used are always in range *)
Variable inv : V.
Definition take (rows : list nat) (t : table) : @table V :=
  map (fun c => (fst c, map (fun r => nth r (snd c) inv) rows)) t.
(** rt_groupbyops.py:161-178 [_iter_internal] with a dataset *)
Definition iter_dataset (us : list K) (ikey : list nat) (s : gstate) (t : table) : list (K * table) :=
  map (fun q => (fst q, take (snd q) t)) (iter_groups us ikey s).
(** the Dataset object [cds]: its columns and _nrows *)
Record obj := mkObj { o_cols : @table V; o_nrows : nat }.
(** rt_groupbyops.py:203-211: one turn of the loop overwrites the columns of the one object [cds]
    by views of the contiguous columns, and yields it *)
Definition turn (p : packing) (full : table) (i : nat) : obj :=
  let start := nth i (skipn 1 (p_ifirst p)) 0 in
  let glen := nth i (skipn 1 (p_ncount p)) 0 in
  mkObj (map (fun c => (fst c, slice (snd c) start glen)) full) glen.
(** rt_groupbyops.py:181-211, GroupBy.__iter__: what the loop sees at every yield, and the contents of
    the object [cds] at the end *)
Definition loop (us : list K) (ikey : list nat) (s : gstate) (t : table) : list (K * obj) * obj :=
  let p := packed ikey (length us) s in
  let full := take (p_igroup p) t in
  fold_left (fun st q => let cds := turn p full (fst q) in (fst st ++ [(snd q, cds)], cds))
            (combine (seq 0 (length us)) us) ([], mkObj full (length (p_igroup p))).
(** "for key, ds in gb": the Dataset as it is inside the loop body *)
Definition seen_in_loop us ikey s t := fst (loop us ikey s t).
(** "list(gb)": all entries are the same object, read after the loop *)
Definition collected us ikey s t : list (K * obj) :=
  map (fun q => (fst q, snd (loop us ikey s t))) (fst (loop us ikey s t)).

(** *** the first and last row of every group, rt_groupbyops.py:237-328 *)
(** INVALID_DICT of int32 *)
Definition inv32 : Z := (-2147483648)%Z.
(** 260-261 *)
Definition first_fancy (us : list K) (ikey : list nat) (s : gstate) : list Z :=
  let p := packed ikey (length us) s in
  map (fun x => mbget inv32 (map Z.of_nat (p_igroup p)) (Z.of_nat x)) (skipn 1 (p_ifirst p)).
(** 287-288 *)
Definition last_fancy (us : list K) (ikey : list nat) (s : gstate) : list Z :=
  let p := packed ikey (length us) s in
  map (fun x => mbget inv32 (map Z.of_nat (p_igroup p)) (Z.of_nat (fst x) + Z.of_nat (snd x) - 1)%Z)
      (combine (skipn 1 (p_ifirst p)) (skipn 1 (p_ncount p))).
(** numpy: result[fancy] = True on [n] False; negative numbers count from the end, numbers out of
    range raise ([None]) *)
Definition mark (n : nat) (idx : list Z) : option (list bool) :=
  let fix_neg i := if (i <? 0)%Z then (i + Z.of_nat n)%Z else i in
  if forallb (fun i => (- Z.of_nat n <=? i) && (i <? Z.of_nat n))%Z idx
  then Some (map (fun r => existsb (fun i => (fix_neg i =? Z.of_nat r)%Z) idx) (seq 0 n))
  else None.
(** 292-308, 312-328 *)
Definition first_bool us ikey s : option (list bool) :=
  mark (length (p_igroup (packed ikey (length us) s))) (first_fancy us ikey s).
Definition last_bool us ikey s : option (list bool) :=
  mark (length (p_igroup (packed ikey (length us) s))) (last_fancy us ikey s).

(** *** one group *)
(** rt_groupbykeys.py:155-179, 354-358: lexsort of the distinct keys; [leb] is their order *)
Variable leb : K -> K -> bool.
Fixpoint kinsert (k : K) (l : list K) : list K :=
  match l with [] => [k] | x :: r => if leb k x then k :: l else x :: kinsert k r end.
Definition ksort (l : list K) : list K := fold_right kinsert [] l.
(** rt_groupby.py:251-286: GroupBy.gbkeys, the keychain is made of grouping.uniquedict *)
Definition gbkeys (sort_display : bool) (us : list K) : list K := if sort_display then ksort us else us.
(** rt_groupby.py:419-429 [as_categorical]: what the Categorical shows in every row *)
Definition as_categorical (sort_display : bool) (us : list K) (ikey : list nat) : list (option K) :=
  map (fun c => match c with 0 => None | S j => nth_error (gbkeys sort_display us) j end) ikey.
(** rt_groupby.py:673-695 [get_group]: the rows of the Dataset returned, [None]: raises.
    from_category is the position among the categories plus 1 (C182); a category that is missing
    raises for one key column and is -1 for several. *)
Definition get_group (sort_display multi : bool) (us : list K) (ikey : list nat) (k : K) : option (list nat) :=
  let rows (b : Z) := filter (fun i => (Z.of_nat (nth i ikey 0%nat) =? b)%Z) (seq 0 (length ikey)) in
  match index_of eqb k (gbkeys sort_display us) with
  | Some j => Some (rows (Z.of_nat j + 1)%Z)
  | None => if multi then Some (rows (-1)%Z) else None
  end.
End Iterate.

(** ** Header names, rt_groupbyops.py:577-618 *)
Definition decimal (n : nat) : name := digits (Nat.to_uint n).
(** 580-589, 595: the names of the arrays, "col_" + str(i) without a name *)
Definition headers (names : list (option name)) : list name :=
  map (fun p => match snd p with Some nm => nm | None => col_i (fst p) end) (combine (seq 0 (length names)) names).
(** 608-610: the loop ends after at most len(headers) turns ([bump_free] in GiProofs2.v) *)
Fixpoint bump (fuel : nat) (hs : list name) (nm : name) (counter : nat) : nat :=
  match fuel with
  | 0 => counter
  | S fu => if in_dec name_dec (nm ++ decimal counter) hs then bump fu hs nm (counter + 1) else counter
  end.
(** 601-616 *)
Fixpoint final_headers (hs l : list name) (unique_dict : list (name * nat)) : list name :=
  match l with
  | [] => []
  | nm :: r => match dget nm unique_dict with
               | Some c => let counter := bump (length hs + 1) hs nm c in
                           (nm ++ decimal counter) :: final_headers hs r (dset nm (counter + 1) unique_dict)
               | None => nm :: final_headers hs r (dset nm 1 unique_dict)
               end
  end.
Definition get_header_names (names : list (option name)) : list name :=
  final_headers (headers names) (headers names) [].

(** ** The columns of a grouped call *)
Section Args.
Context {A : Type}.
(** the first argument of gb.sum(...): nothing, arrays with their names, or a dict / Dataset *)
Inductive arg := NoArg | Arrays (l : list (option name * A)) | Columns (d : list (name * A)).
(** rt_groupbyops.py:795-797: dict(zip(headers, first_arg)) *)
Definition zip_dict (l : list (option name * A)) : list (name * A) :=
  dset_all (combine (get_header_names (map fst l)) (map snd l)) [].
(** rt_groupbyops.py:722-773 *)
Definition given (a : arg) : option (list (name * A)) :=
  match a with NoArg => None | Arrays l => Some (zip_dict l) | Columns d => Some d end.
(** rt_groupbyops.py:799-854; [dataset]: the Dataset of a GroupBy, [None] for a Categorical.  [None]:
    raises.  Not modelled: tuples of arrays, additional arguments, calls of apply with scalars. *)
Definition prepare (dataset : option (list (name * A))) (a : arg) : option (list (name * A)) :=
  match dataset, given a with
  | Some d, Some ds => Some (dset_all ds d)
  | Some d, None => Some d
  | None, r => r
  end.

(** rt_groupby.py:764-766 *)
Definition with_keys (index keynames : list name) : list name :=
  fold_left (fun idx item => if in_dec name_dec item idx then idx else idx ++ [item]) keynames index.
(** dataset[list], [None]: raises *)
Fixpoint select (ns : list name) (d acc : list (name * A)) : option (list (name * A)) :=
  match ns with
  | [] => Some acc
  | n :: r => match dget n d with Some c => select r d (dset n c acc) | None => None end
  end.
(** rt_groupby.py:722-769: the Dataset of gb[names]; the grouping is copied unchanged (749) *)
Definition gb_getitem (keynames index : list name) (d : list (name * A)) : option (list (name * A)) :=
  select (with_keys index keynames) d [].
End Args.
