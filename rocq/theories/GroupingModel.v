(** Model of the key and category algebra of rt_grouping.py and rt_numpy.py: composite keys
    (cat2keys), stacking (merge_cats, hstack_groupings), the index dtype, regroup, shrink,
    take_groups / extract_groups, the packing state of a Grouping and the user function driver.

    Codes are base 1 unless said otherwise: 0 is the filtered bin, [S k] is category number [k].
    The C++ primitives used here (MBGet, CombineAccum1Filter, CombineAccum2Filter, groupbyhash,
    groupbylex, BinCount with pack, IsMember32) are given by their documented contract. *)
From Coq Require Import List Arith ZArith Bool Lia.
From Verif Require Import GroupModel FlattenModel.
Import ListNotations.

(** rt_utils.py:631-733 [mbget], also what FastArray.__getitem__ does with an integer array:
    negative indices count from the end, an index out of range gives the invalid of the type. *)
Definition mbget {X} (inv : X) (a : list X) (i : Z) : X :=
  let n := Z.of_nat (length a) in
  if ((0 <=? i) && (i <? n))%Z then nth (Z.to_nat i) a inv
  else if ((- n <=? i) && (i <? 0))%Z then nth (Z.to_nat (i + n)) a inv
  else inv.

(** FastArray.tile(n) and FastArray.repeat(n) *)
Definition tile {X} (n : nat) (l : list X) : list X := concat (repeat l n).
Definition rep {X} (n : nat) (l : list X) : list X := flat_map (fun x => repeat x n) l.

(** what a row shows: [None] is a filtered row (rt_categorical.py:6227-6244 [_expand_array]) *)
Definition shown {X} (us : list X) (code : nat) : option X :=
  match code with 0 => None | S k => nth_error us k end.

(** ** cat2keys *)

(** rt_numpy.py:1574-1597 [combine2keys] = CombineAccum2Filter: the bin of a row is its pair of
    codes in a matrix with [n1 + 1] entries per value of the second key (the layout that
    rt_numpy.py:1736 relies on); rows failing the filter get bin 0. *)
Definition combine2keys (n1 : nat) (k1 k2 : list nat) (flt : option (list bool)) : list nat :=
  let bins := map (fun p => snd p * S n1 + fst p) (combine k1 k2) in
  match flt with
  | None => bins
  | Some f => map (fun p => if snd p : bool then fst p else 0) (combine bins f)
  end.

Section Keys.
(** [V]: column entries; [astype_s v]: v.astype('S'); [cat_s a v]: a + sep + v; [inv_s]: 'Inv' *)
Context {V : Type}.
Variables (astype_s : V -> V) (cat_s : V -> V -> V) (inv_s : V).
Definition cols := list (name * list V).

(** rt_grouping.py:3230-3269 [Grouping.onedict] (sep = "_", character 95).  Hypothesis of the
    code: at least one key column. *)
Definition onedict_col (invalid : bool) (v : list V) : list V := if invalid then inv_s :: v else v.
Fixpoint onedict_go (invalid : bool) (nm : name) (arr : list V) (d : cols) : name * list V :=
  match d with
  | [] => (nm, arr)
  | (k, v) :: r =>
      onedict_go invalid ((match nm with [] => nm | _ => nm ++ [95] end) ++ k)
        (map (fun p => cat_s (fst p) (astype_s (snd p))) (combine arr (onedict_col invalid v))) r
  end.
Definition onedict (invalid : bool) (d : cols) : name * list V :=
  match d with
  | [] => ([], [])
  | (k, v) :: r => onedict_go invalid k (map astype_s (onedict_col invalid v)) r
  end.

(** rt_numpy.py:1745-1753: [while k in gdict: k = origk + str(counter); counter += 1].  The loop
    is bounded by the number of names in the dictionary (see [fresh_name_fresh]). *)
Fixpoint fresh_from (fuel : nat) (names : list name) (origk k : name) (counter : nat) : name :=
  match fuel with
  | 0 => k
  | S fu => if in_dec name_dec k names
            then fresh_from fu names origk (origk ++ digits (Nat.to_uint counter)) (S counter)
            else k
  end.
Definition fresh_name (names : list name) (k : name) : name :=
  fresh_from (S (length names)) names k k 1.

(** rt_numpy.py:1743-1754: the second key's columns, repeated, under fresh names *)
Fixpoint add_cols (numrows : nat) (gdict : cols) (d : cols) : cols :=
  match d with
  | [] => gdict
  | (k, v) :: r => add_cols numrows (gdict ++ [(fresh_name (map fst gdict) k, rep numrows v)]) r
  end.

(** rt_numpy.py:1601-1763 [cat2keys], after both keys have been made categoricals.  [n1], [n2]:
    the unique counts, [k1], [k2]: the codes, [d1], [d2]: the unique columns by name.  The result
    is the new code of every row and the new unique columns. *)
Definition cat2keys (n1 : nat) (k1 : list nat) (d1 : cols) (n2 : nat) (k2 : list nat) (d2 : cols)
    (flt : option (list bool)) (invalid fuse : bool) : list nat * cols :=
  let zero := existsb (Nat.eqb 0) k1 || existsb (Nat.eqb 0) k2 in
  let inv := invalid || zero in
  if inv then
    let '(rn, ra) := onedict true d1 in
    let '(cn, ca) := onedict true d2 in
    let cn := if name_dec rn cn then cn ++ [49] else cn in
    (map S (combine2keys n1 k1 k2 flt), [(rn, tile (S n2) ra); (cn, rep (S n1) ca)])
  else
    let ikey := map (fun p => (snd p - 1) * n1 + fst p) (combine k1 k2) in
    if fuse then
      let '(rn, ra) := onedict false d1 in
      let '(cn, ca) := onedict false d2 in
      let cn := if name_dec rn cn then cn ++ [49] else cn in
      (ikey, [(rn, tile n2 ra); (cn, rep n1 ca)])
    else (ikey, add_cols n1 (map (fun p => (fst p, tile n2 (snd p))) d1) d2).
End Keys.

(** ** Index dtype *)

(** rt_enum.py:666-680 [int_dtype_from_len]: the width in bits of the signed type *)
Definition int_dtype_from_len (n : Z) : Z :=
  if (n <? 100)%Z then 8%Z else if (n <? 30000)%Z then 16%Z
  else if (n <? 2000000000)%Z then 32%Z else 64%Z.
(** two's complement storage of an integer in [bits] bits: what astype / assignment does *)
Definition store_bits (bits z : Z) : Z :=
  ((z + 2 ^ (bits - 1)) mod 2 ^ bits - 2 ^ (bits - 1))%Z.
(** rt_grouping.py:1009-1043 [possibly_recast]; [req]: the width of the requested dtype *)
Definition recast_bits (unique_count : Z) (req : option Z) : Z :=
  let newd := int_dtype_from_len unique_count in
  match req with
  | Some r => if (newd <=? r)%Z then r else newd
  | None => newd
  end.
Definition possibly_recast (arr : list Z) (unique_count : Z) (req : option Z) : list Z :=
  map (store_bits (recast_bits unique_count req)) arr.

(** ** Stacking *)
Section Stack.
Context {B : Type}.
(** rt_grouping.py:381-407: renumbering the codes of one categorical.  [uslice]: the new numbers of
    its categories; [junk]: what indexing an empty array gives. *)
Definition fix_codes (junk : nat) (base : nat) (uslice old : list nat) : list nat :=
  if base =? 1 then
    map (fun p => if snd p =? 0 then 0 else fst p)
      (combine (map (fun o => mbget junk uslice (Z.of_nat o - 1)) old) old)
  else map (fun o => mbget junk uslice (Z.of_nat o)) old.
(** rt_grouping.py:383-407: the loop over the cutoffs *)
Fixpoint fix_all (junk base : nat) (uikey : list nat) (ulens : list nat) (iks : list (list nat)) : list nat :=
  match ulens, iks with
  | n :: ulens', old :: iks' =>
      fix_codes junk base (firstn n uikey) old ++ fix_all junk base (skipn n uikey) ulens' iks'
  | _, _ => []
  end.
(** rt_grouping.py:277-414 [hstack_groupings] of at least two groupings.  [grp]: groupbyhash /
    groupbylex of the stacked categories: the distinct categories and the base 1 number of every
    stacked category. *)
Definition hstack_groupings (junk base : nat) (grp : list B -> list B * list nat)
    (iks : list (list nat)) (uss : list (list B)) : list nat * list B :=
  let '(newu, uk) := grp (concat uss) in
  let uikey := if base =? 0 then map (fun k => k - 1) uk else uk in
  (fix_all junk base uikey (map (@length B) uss) iks, newu).

(** rt_utils.py:1139-1169 [crc_match]: the arrays have one shape and one CRC *)
Definition crc_match (crc : list B -> Z) (uss : list (list B)) : bool :=
  match uss with
  | [] => false
  | u :: r => forallb (fun v => (length v =? length u) && (crc v =? crc u)%Z) r
  end.
(** rt_grouping.py:136-274 [merge_cats] of array categories.  Multikey categories are modelled as
    one list of tuples, so the check column by column is one check. *)
Definition merge_cats (junk base : nat) (crc : list B -> Z) (grp : list B -> list B * list nat)
    (iks : list (list nat)) (uss : list (list B)) : list nat * list B :=
  match uss with
  | [u] => (concat iks, u)
  | u :: _ => if crc_match crc uss then (concat iks, u) else hstack_groupings junk base grp iks uss
  | [] => (concat iks, [])
  end.
End Stack.

(** ** Mapped categoricals *)
(** a mapping: the (code, name) pairs of GroupingEnum, rt_grouping.py:3810-4030 *)
Definition mapping := list (Z * name).
(** rt_grouping.py:3977-3979 [_from_code]: [None] stands for the text "!<code>" *)
Fixpoint map_get (m : mapping) (c : Z) : option name :=
  match m with [] => None | (c', s) :: r => if (c' =? c)%Z then Some s else map_get r c end.
(** dict(zip(names, codes)): assignment by name, the last code wins, rt_hstack.py:691 *)
Fixpoint by_name (m : mapping) (s : name) (c : Z) : mapping :=
  match m with
  | [] => [(c, s)]
  | (c', s') :: r => if name_dec s' s then (c, s') :: r else (c', s') :: by_name r s c
  end.
Definition dict_by_name (m : mapping) : mapping :=
  fold_left (fun d p => by_name d (snd p) (fst p)) m [].
(** rt_grouping.py:249-251: unique(codes, return_index=True, sorted=False); names[uidx]: the first
    pair of every code *)
Fixpoint first_codes (seen : list Z) (m : mapping) : mapping :=
  match m with
  | [] => []
  | (c, s) :: r => if in_dec Z.eq_dec c seen then first_codes seen r else (c, s) :: first_codes (c :: seen) r
  end.
(** the reverse dictionary of GroupingEnum(_trusted), rt_grouping.py:3839: {code: name}; as the codes of
    [dict_by_name (first_codes ..)] are distinct it has the same pairs *)
Definition same_mapping (a b : mapping) : bool :=
  if list_eq_dec Z.eq_dec (map fst a) (map fst b)
  then if list_eq_dec name_dec (map snd a) (map snd b) then true else false
  else false.
(** rt_hstack.py:665-694 and rt_grouping.py:245-251: codes are stacked unchanged, mappings merged.
    The CRC comparison of codes and names is modelled as equality. *)
Definition hstack_mapped (codes : list (list Z)) (ms : list mapping) : list Z * mapping :=
  match ms with
  | [] => (concat codes, [])
  | m :: r => if forallb (same_mapping m) r then (concat codes, dict_by_name m)
              else (concat codes, dict_by_name (first_codes [] (concat ms)))
  end.

(** ** Regroup *)
(** combine_accum1_filter, rt_numpy.py:1512-1545 (CombineAccum1Filter): the codes that still occur
    are renumbered 1, 2, .. in order of first appearance among the rows that pass; iFirstKey are
    the rows of first appearance. *)
Definition passing (flt : option (list bool)) (ikey : list nat) : list nat :=
  match flt with
  | None => ikey
  | Some f => map (fun p => if snd p : bool then fst p else 0) (combine ikey f)
  end.
Definition accum1_keys (ks : list nat) : list nat :=
  uniques Nat.eqb (map (fun k => if k =? 0 then None else Some k) ks).
Definition accum1 (ikey : list nat) (flt : option (list bool)) : list nat * list nat * nat :=
  let ks := passing flt ikey in
  let us := accum1_keys ks in
  (map (fun k => match index_of Nat.eqb k us with
                 | Some j => if k =? 0 then 0 else S j | None => 0 end) ks,
   map (fun u => match index_of Nat.eqb u ks with Some r => r | None => 0 end) us,
   length us).
(** sorting of integers (argsort, sort, lexsort of one key): insertion sort *)
Fixpoint insert (x : nat) (l : list nat) : list nat :=
  match l with [] => [x] | y :: r => if x <=? y then x :: l else y :: insert x r end.
Definition isort (l : list nat) : list nat := fold_right insert [] l.
(** lexsort(lexsort(keys)) on distinct keys is the rank of every key *)
Definition rank (l : list nat) (x : nat) : nat := length (filter (fun y => y <? x) l).

Section Regroup.
Context {B : Type}.
Variable inv : B.
(** rt_grouping.py:2049-2201 [regroup] of a grouping with unique columns ([_grouping_unique_dict],
    as every Categorical has).  [n]: unique_count, [ikey]: its codes, [us]: its categories.  The
    result: codes, categories.  [self._unique_count] is taken to be set. *)
Definition regroup (n : nat) (ikey : list nat) (us : list B) (flt : option (list bool))
    : list nat * list B :=
  let '(knew, ifirst, nnew) := accum1 ikey flt in
  let sortkey := map (fun r => nth r ikey 0) ifirst in
  if n =? nnew then
    (match flt with
     | None => if forallb (fun k => 0 <? k) knew
               then map (fun k => mbget 0 sortkey (Z.of_nat k - 1)) knew
               else map (fun k => mbget 0 (0 :: sortkey) (Z.of_nat k)) knew
     | Some _ => map (fun k => mbget 0 (0 :: sortkey) (Z.of_nat k)) knew
     end, us)
  else
    let ifkremap := 0 :: map (fun s => S (rank sortkey s)) sortkey in
    (map (fun k => mbget 0 ifkremap (Z.of_nat k)) knew,
     map (fun s => mbget inv us (Z.of_nat s)) (isort (map (fun s => s - 1) sortkey))).
(** the same for a grouping that still holds its row arrays ([_grouping_dict], the groupings that
    GroupBy makes from arrays): line 2106 indexes the row array with the category numbers, and the
    categories are then read at iFirstKey of that (rt_grouping.py:1706-1733). [isort .. ifirst]
    stands for [ifirstkey_fix]: the first rows in the order of the new codes. *)
Definition regroup_rows (n : nat) (ikey : list nat) (rows : list B) (flt : option (list bool))
    : list nat * list B :=
  let '(knew, ifirst, nnew) := accum1 ikey flt in
  let sortkey := map (fun r => nth r ikey 0) ifirst in
  let ifirst_fix := map (fun s => match index_of Nat.eqb s sortkey with
                                  | Some j => nth j ifirst 0 | None => 0 end) (isort sortkey) in
  if n =? nnew then
    (fst (regroup n ikey rows flt), map (fun r => mbget inv rows (Z.of_nat r)) ifirst_fix)
  else
    let cut := map (fun s => mbget inv rows (Z.of_nat s)) (isort (map (fun s => s - 1) sortkey)) in
    (fst (regroup n ikey rows flt), map (fun r => mbget inv cut (Z.of_nat r)) ifirst_fix).
End Regroup.

(** ** Shrink *)
Section Shrink.
Context {B : Type}.
Variable eqb : B -> B -> bool.
(** ismember(oldcats, newcats): position of each old category in the new ones; [miss] is the
    invalid integer that rc.IsMember32 leaves for a category that is absent *)
Definition ismember_idx (miss : Z) (old new : list B) : list Z :=
  map (fun o => match o with Some j => Z.of_nat j | None => miss end) (lookup eqb old new).
(** rt_grouping.py:1920-2046 [shrink] of a base 1 grouping (not mapped); [misc]: the value that takes the
    other rows.  Multikey categories are tuples. *)
Definition shrink (miss : Z) (ikey : list nat) (old new : list B) (misc : option B) : list Z * list B :=
  let found := map (fun o => match o with Some _ => true | None => false end) (lookup eqb old new) in
  let idx := map (fun i => (i + 1)%Z) (ismember_idx miss old new) in
  match misc with
  | Some mv =>
      let maxvalue := (fold_right Z.max (hd 0%Z idx) idx + 1)%Z in
      let idx := map (fun p => if snd p : bool then fst p else maxvalue) (combine idx found) in
      let idx := 0%Z :: idx ++ [maxvalue] in
      (map (fun k => if k =? 0 then 0%Z else mbget 0%Z idx (Z.of_nat k)) ikey, new ++ [mv])
  | None =>
      let idx := map (fun p => if snd p : bool then fst p else 0%Z) (combine idx found) in
      (map (fun k => mbget 0%Z (0%Z :: idx) (Z.of_nat k)) ikey, new)
  end.
End Shrink.
(** what a row shows when its code is any integer (a code out of range shows nothing) *)
Definition shown_z {X} (us : list X) (code : Z) : option X :=
  if (code <=? 0)%Z then None else nth_error us (Z.to_nat (code - 1)).

(** ** take_groups / extract_groups, rt_grouping.py:3640-3807 *)
Section Take.
Context {X : Type}.
(** out[lo : lo + len(v)] = v *)
Definition put_slice (out : list X) (lo : nat) (v : list X) : list X :=
  firstn lo out ++ v ++ skipn (lo + length v) out.
(** the loop body: copy the group's block, advance *)
Definition copy_group (data : list X) (cnt fst' : list nat) (st : list X * nat) (g : nat) : list X * nat :=
  let len := nth g cnt 0 in
  (put_slice (Datatypes.fst st) (snd st) (slice data (nth g fst' 0) len), snd st + len).
(** [uninit]: np.empty of the computed length *)
Definition take_groups (data : list X) (indices cnt fst' : list nat) (uninit : list X) : list X :=
  fst (fold_left (copy_group data cnt fst') indices (uninit, 0)).
Definition take_len (indices cnt : list nat) : nat := list_sum (map (fun g => nth g cnt 0) indices).
Definition extract_groups (cond : list bool) (data : list X) (cnt fst' : list nat) (uninit : list X) : list X :=
  fst (fold_left (fun st g => if nth g cond false then copy_group data cnt fst' st g else st)
         (seq 0 (length cond)) (uninit, 0)).
Definition extract_len (cond : list bool) (cnt : list nat) : nat :=
  list_sum (map (fun p => if snd p : bool then fst p else 0) (combine cnt cond)).
End Take.

(** ** The packing state of a Grouping, rt_grouping.py:2357-2430, 1487-1514, 1625-1703 *)
Record packing := mkPacking { p_igroup : list nat; p_ifirst : list nat; p_ncount : list nat }.
Definition pack_of (ikey : list nat) (n : nat) : packing :=
  mkPacking (igroup ikey n) (ifirstgroup ikey n) (ncountgroup ikey n).
Record gstate := mkG { g_packed : bool; g_withfilter : bool; g_pack : option packing }.
Definition g_init := mkG false false None.
(** calls that touch the packing *)
Inductive gop :=
| Pack (flt : option (list bool)) (mustrepack : bool)   (* pack_by_group *)
| Igroup                                                (* the igroup / ifirstgroup property *)
| Apply (flt : option (list bool)).                     (* apply_helper, rt_grouping.py:2635-2636 *)
Definition pack_by_group (ikey : list nat) (n : nat) (flt : option (list bool)) (must : bool) (s : gstate) : gstate :=
  match flt with
  | None => if g_packed s && (negb (g_withfilter s) || negb must) then s
            else mkG true false (Some (pack_of ikey n))
  | Some f => mkG true true (Some (pack_of (passing (Some f) ikey) n))
  end.
Definition gstep (ikey : list nat) (n : nat) (s : gstate) (o : gop) : gstate :=
  match o with
  | Pack flt must => pack_by_group ikey n flt must s
  | Igroup => pack_by_group ikey n None false s
  | Apply flt => pack_by_group ikey n flt false (mkG false (g_withfilter s) (g_pack s))
  end.

(** ** User functions: apply_helper, rt_grouping.py:2521-2941 (scalar results, tups = 0, no
    preallocated outputs) *)
Section Apply.
(** [X]: column entries, [V]: results, [D]: dtypes.  [cast d v]: storing [v] in an array of dtype
    [d]; [invalid d]: INVALID_DICT[d.num]. *)
Context {X V D : Type}.
Variables (dtype_of : V -> D) (cast : D -> V -> V) (invalid : D -> V) (x0 : X).

(** arr[self.iGroup] *)
Definition packed_col (p : packing) (data : list X) : list X := map (fun r => nth r data x0) (p_igroup p).
(** lines 2754-2785: the result of the user function for every group, [None] for an empty one *)
Definition group_results (p : packing) (f : list X -> V) (data : list X) : list (option V) :=
  let arr := packed_col p data in
  map (fun q => let '(first, count) := q in
                if 0 <? count then Some (f (slice arr first count)) else None)
      (combine (p_ifirst p) (p_ncount p)).
Fixpoint first_some (l : list (option V)) : option V :=
  match l with [] => None | Some v :: _ => Some v | None :: r => first_some r end.
(** one column; [dt] is the local variable [dtype], which survives to the next column.  [None] as
    result: return_arr is None, AttributeError. *)
Definition reduce_col (p : packing) (f : list X -> V) (dt : option D) (data : list X)
    : option (D * list V) :=
  let rs := group_results p f data in
  match (match dt with Some d => Some d | None => option_map dtype_of (first_some rs) end) with
  | Some d => Some (d, map (fun o => match o with Some v => cast d v | None => invalid d end) rs)
  | None => None
  end.
Fixpoint reduce_cols (p : packing) (f : list X -> V) (dt : option D) (ds : list (list X))
    : option (list (list V)) :=
  match ds with
  | [] => Some []
  | data :: r =>
      match reduce_col p f dt data with
      | Some (d, out) => option_map (cons (skipn 1 out)) (reduce_cols p f (Some d) r)
      | None => None
      end
  end.
(** apply_reduce of all columns: pack with the filter, base_bin 1 (showfilter = False) *)
Definition apply_reduce (ikey : list nat) (n : nat) (flt : option (list bool)) (f : list X -> V)
    (dt : option D) (ds : list (list X)) : option (list (list V)) :=
  reduce_cols (pack_of (passing flt ikey) n) f dt ds.
End Apply.

Section NonReduce.
Context {X V : Type}.
Variables (x0 : X).
(** rc.ReverseShuffle: the position of every row in iGroup *)
Definition reverse_shuffle (ig : list nat) : list nat :=
  map (fun r => match index_of Nat.eqb r ig with Some j => j | None => 0 end) (seq 0 (length ig)).
(** lines 2890-2931: every non-empty group's block receives the user function's array; [None] when
    a length is wrong (ValueError).  Simplification: all results have one dtype. *)
Fixpoint nonreduce_go (arr : list X) (f : list X -> list V) (gs : list (nat * nat)) (out : list V) : option (list V) :=
  match gs with
  | [] => Some out
  | (first, count) :: r =>
      if 0 <? count then
        let res := f (slice arr first count) in
        if length res =? count then nonreduce_go arr f r (put_slice out first res) else None
      else nonreduce_go arr f r out
  end.
Definition apply_nonreduce (ikey : list nat) (n : nat) (flt : option (list bool)) (f : list X -> list V)
    (data : list X) (v0 : V) (uninit : list V) : option (list V) :=
  let p := pack_of (passing flt ikey) n in
  let arr := map (fun r => nth r data x0) (p_igroup p) in
  option_map (fun out => map (fun j => nth j out v0) (reverse_shuffle (p_igroup p)))
    (nonreduce_go arr f (combine (p_ifirst p) (p_ncount p)) uninit).
End NonReduce.

(** ** Grouping.count, rt_grouping.py:3514-3550 *)
(** transform=True, showfilter=False, base index 1: every row gets the count of its group *)
Definition count_col (ikey : list nat) (n : nat) (flt : option (list bool)) : list nat :=
  skipn 1 (ncountgroup (passing flt ikey) n).
Definition count_transform (inv : nat) (ikey : list nat) (n : nat) (flt : option (list bool)) : list nat :=
  map (fun k => mbget inv (count_col ikey n flt) (Z.of_nat k - 1)) ikey.
