(** Model of the join-index computation of merge2 / merge_indices, riptable/rt_merge.py.

    Row numbers and group numbers are [nat]; [None] in an index array is the invalid index (the
    smallest value of the signed index type; it is out of range of every array, see
    rt_enum.py:666-680 [int_dtype_from_len]).  Array arithmetic keeps invalids invalid and
    fancy-indexing with an invalid yields an invalid (riptide_cpp, trusted).

    Uninitialised arrays ([empty]) have arbitrary contents [junk]; a parallel loop is run in the
    order [sched its], any interleaving of its iterations (Sched.v). *)
From Coq Require Import List Arith Bool Lia.
From Verif Require Import Sched GroupModel MergeSpec.
Import ListNotations.

(** ** array helpers *)
(** [arr[mask]] *)
Fixpoint compress {X} (mask : list bool) (arr : list X) : list X :=
  match mask, arr with
  | b :: m, x :: r => if b then x :: compress m r else compress m r
  | _, _ => []
  end.
(** [bool_to_fancy(mask)] *)
Definition bool_to_fancy (mask : list bool) : list nat := compress mask (seq 0 (length mask)).
(** [arr[i] = v] *)
Definition upd {X} (i : nat) (v : X) (arr : list X) : list X :=
  if i <? length arr then firstn i arr ++ v :: skipn (S i) arr else arr.
(** [arr[idx] = vals] *)
Fixpoint scatter {X} (idx : list nat) (vals : list X) (arr : list X) : list X :=
  match idx, vals with
  | i :: is, v :: vs => scatter is vs (upd i v arr)
  | _, _ => arr
  end.
Fixpoint cumsum_from (s : nat) (l : list nat) : list nat :=
  match l with [] => [] | x :: r => (s + x) :: cumsum_from (s + x) r end.
Definition cumsum (l : list nat) : list nat := cumsum_from 0 l.
Definition is_some {X} (o : option X) : bool := match o with Some _ => true | None => false end.
(** the values of an index array under a mask selecting only valid ones *)
Fixpoint somes {X} (l : list (option X)) : list X :=
  match l with [] => [] | Some x :: r => x :: somes r | None :: r => somes r end.

Section Merge.
Context {B : Type}.
Variable eqb : B -> B -> bool.
Variable sched : list (list (store (option nat))) -> list (store (option nat)).
Variable junk : mem (option nat).

(** a Grouping: its unique keys and the group number of every row (base 1) *)
Record keygroup := mkKG { kg_us : list B; kg_ikey : list nat }.
Definition unique_count (g : keygroup) : nat := length (kg_us g).
Definition kg_ncount (g : keygroup) : list nat := ncountgroup (kg_ikey g) (unique_count g).
Definition kg_igroup (g : keygroup) : list nat := igroup (kg_ikey g) (unique_count g).
Definition kg_ifirst (g : keygroup) : list nat := ifirstgroup (kg_ikey g) (unique_count g).

(** rt_merge.py:488-499 [_get_keep_ifirstlastkey] via rt_grouping.py:1557-1594 (ifirstkey,
    ilastkey): first / last row of every non-null group.  Simplification: a group without rows
    would give the invalid index, here 0; _get_or_create_keygroup (line 2019) only returns
    groupings in which every group has rows. *)
Definition pick (k : keep1) (rows : list nat) : nat :=
  match k with KFirst => nth 0 rows 0 | KLast => last rows 0 end.
Definition ifirstlast (g : keygroup) (k : keep1) : list nat :=
  map (fun i => pick k (group_rows (kg_ikey g) (S i))) (seq 0 (unique_count g)).
(** rt_merge.py:502-558 [_get_keep_ifirstlastkey_with_null] (base index 1) *)
Definition ifirstlast_null (g : keygroup) (k : keep1) : list nat :=
  if 0 <? nth 0 (kg_ncount g) 0
  then (match k with KFirst => nth 0 (kg_igroup g) 0
                   | KLast => nth (nth 0 (kg_ncount g) 0 - 1) (kg_igroup g) 0 end) :: ifirstlast g k
  else ifirstlast g k.
(** rt_merge.py:561-572 [_get_keep_ikey] *)
Definition keep_ikey (g : keygroup) (k : keep) : list nat :=
  match k with
  | None => kg_ikey g
  | Some k1 => map (fun r => nth r (kg_ikey g) 0) (ifirstlast g k1)
  end.

(** ** kernels *)
(** a parallel loop writing an [empty] array of length [n] *)
Definition par (its : list (list (store (option nat)))) (n : nat) : list (option nat) :=
  map (run_stores (sched its) junk) (seq 0 n).

(** rt_merge.py:668-731 [_fancy_index_fetch_keymap] *)
Definition fetch_keymap (keymap : list (option nat)) (left_ikey : list nat) : list (option nat) :=
  par (map (fun i => let raw := nth i left_ikey 0 in
                     [(i, if (raw =? 0) || (length keymap <? raw) then None
                          else match nth (raw - 1) keymap None with None => None | Some v => Some (v + 1) end)])
           (seq 0 (length left_ikey))) (length left_ikey).

(** rt_merge.py:611-665 [_build_right_fancyindex_impl].  It is compiled with parallel=False, so
    the prange is a sequential loop. *)
Definition right_impl (keyids : list (option nat)) (ifirst igrp : list nat) (cum : list nat) (outlen : nat)
  : list (store (option nat)) :=
  concat (map (fun i =>
    let off := if i =? 0 then 0 else nth (i - 1) cum 0 in
    if off <? outlen then
      match nth i keyids None with
      | None => [(off, None)]
      | Some kid =>
          if (kid =? 0) || (length ifirst <=? kid) then [(off, None)]
          else map (fun j => (off + j, Some (nth (nth kid ifirst 0 + j) igrp 0))) (seq 0 (nth i cum 0 - off))
      end
    else []) (seq 0 (length keyids))).

(** rt_merge.py:933-975 [_fused_arange_repeat], 887-930 [_partial_repeat] *)
Definition partial_repeat (arr : nat -> nat) (cum : list nat) : list (option nat) :=
  par (map (fun i => let off := if i =? 0 then 0 else nth (i - 1) cum 0 in
                     map (fun j => (off + j, Some (arr i))) (seq 0 (nth i cum 0 - off)))
           (seq 0 (length cum))) (last cum 0).
Definition arange_repeat (cum : list nat) : list (option nat) := partial_repeat (fun i => i) cum.

(** ** rt_merge.py:734-884 [_build_right_fancyindex] *)
Definition build_right (keymap : list (option nat)) (lg rg : keygroup) (inner : bool) (kl kr : keep) : list (option nat) :=
  let left_ikey := match kl with None => kg_ikey lg | Some k => map (fun r => nth r (kg_ikey lg) 0) (ifirstlast_null lg k) end in
  match left_ikey with
  | [] => []
  | _ =>
    if length (kg_ikey rg) =? 0 then (if inner then [] else repeat None (length left_ikey))
    else
      let keyids := fetch_keymap keymap left_ikey in
      match kr with
      | Some k =>
          if inner then map (fun kid => Some (nth (kid - 1) (ifirstlast rg k) 0)) (somes keyids)
          else map (fun o => match o with None => None | Some kid => Some (nth (kid - 1) (ifirstlast rg k) 0) end) keyids
      | None =>
          let counts := map (fun o => match o with Some kid => nth kid (kg_ncount rg) 0 | None => if inner then 0 else 1 end) keyids in
          let cum := cumsum counts in
          let outlen := last cum 0 in
          map (run_stores (right_impl keyids (kg_ifirst rg) (kg_igroup rg) cum outlen) junk) (seq 0 outlen)
      end
  end.

(** ** rt_merge.py:978-1211 [_build_left_fancyindex]; [None]: all left rows in order *)
Definition build_left (r2l : list (option nat)) (lg rg : keygroup) (inner : bool) (kl kr : keep) : option (list (option nat)) :=
  let exists_ := map is_some r2l in
  if length (kg_ikey rg) =? 0 then
    (if inner then Some []
     else match kl with None => None | Some k => Some (map Some (ifirstlast_null lg k)) end)
  else if length (kg_ikey lg) =? 0 then Some []
  else
    let right_unique := unique_count rg =? length (kg_ikey rg) in
    if is_some kr || right_unique then
      if inner then
        let lex := false :: scatter (somes r2l) (repeat true (length (somes r2l))) (repeat false (unique_count lg)) in
        match kl with
        | None => Some (map Some (bool_to_fancy (map (fun g => nth g lex false) (kg_ikey lg))))
        | Some k => Some (map Some (compress (tl lex) (ifirstlast lg k)))
        end
      else match kl with None => None | Some k => Some (map Some (ifirstlast_null lg k)) end
    else
      let d := if inner then 0 else 1 in
      let mult := d :: scatter (somes r2l) (compress exists_ (tl (kg_ncount rg))) (repeat d (unique_count lg)) in
      let repeats := map (fun g => nth g mult 0) (keep_ikey lg kl) in
      let cum := cumsum repeats in
      match kl with
      | None => Some (arange_repeat cum)
      | Some k => Some (partial_repeat (fun i => nth i (ifirstlast lg k) 0) cum)
      end.

(** ** rt_merge.py:1214-1241 [JoinIndices] *)
Record join_indices := mkJI { left_index : option (list (option nat)); right_index : option (list (option nat)); right_only : option nat }.

(** rt_merge.py:1220-1234: an absent index means that the columns are used as they are *)
Definition resolve (n : nat) (o : option (list (option nat))) : list (option nat) :=
  match o with None => map Some (seq 0 n) | Some l => l end.

(** rt_merge.py:1357-1385, 1427-1447: ismember of the unique keys, and its inverse.  With an empty
    side the arrays are sized by rows and all-invalid; they are then not used. *)
Definition right_to_left (lg rg : keygroup) : list (option nat) :=
  if (length (kg_ikey lg) =? 0) || (length (kg_ikey rg) =? 0) then repeat None (length (kg_ikey rg))
  else lookup eqb (kg_us rg) (kg_us lg).
Definition left_to_right (lg rg : keygroup) : list (option nat) :=
  let r2l := right_to_left lg rg in
  scatter (somes r2l) (map Some (bool_to_fancy (map is_some r2l))) (repeat None (S (unique_count lg))).

(** rt_merge.py:1336-1402 [left_or_inner_join] *)
Definition left_or_inner (lg rg : keygroup) (inner : bool) (kl kr : keep) : join_indices :=
  mkJI (build_left (right_to_left lg rg) lg rg inner kl kr)
       (Some (build_right (left_to_right lg rg) lg rg inner kl kr)) None.

(** rt_grouping.py:3717-3807 [Grouping.extract_groups] *)
Definition extract_groups (cond : list bool) (data ncount ifirst : list nat) : list nat :=
  concat (map (fun g => if nth g cond false then slice data (nth g ifirst 0) (nth g ncount 0) else []) (seq 0 (length cond))).

(** [arr.sort()] on row numbers; the invalid index is the smallest value *)
Definition row_le (x y : option nat) : bool :=
  match x, y with None, _ => true | Some _, None => false | Some a, Some b => a <=? b end.
Fixpoint insert_row (x : option nat) (l : list (option nat)) : list (option nat) :=
  match l with [] => [x] | y :: r => if row_le x y then x :: l else y :: insert_row x r end.
Definition sort_rows (l : list (option nat)) : list (option nat) := fold_right insert_row [] l.

(** rt_merge.py:1404-1576 [outer_join]; [rgb] is right_groupby_keygroup (multi-key merges) *)
Definition right_only_rows (lg rg : keygroup) (rgb : option keygroup) (kr : keep) : list (option nat) :=
  let r2l := right_to_left lg rg in
  let mask := (0 <? nth 0 (kg_ncount rg) 0) :: map (fun o => negb (is_some o)) r2l in
  sort_rows
  match kr with
  | None => map Some (extract_groups mask (kg_igroup rg) (kg_ncount rg) (kg_ifirst rg))
  | Some k =>
      let by_key :=
        let m := if 0 <? nth 0 (kg_ncount rg) 0 then mask else tl mask in
        map Some (compress m (ifirstlast_null rg k)) in
      match rgb with
      | Some gg =>
          if 0 <? nth 0 (kg_ncount rg) 0 then
            let invalid_rows := firstn (nth 0 (kg_ncount rg) 0) (kg_igroup rg) in
            let groups := nodup Nat.eq_dec (map (fun r => nth r (kg_ikey gg) 0) invalid_rows) in
            (* line 1475: the group number (0 = null) indexes the array of
               _get_keep_ifirstlastkey_with_null; past its end is the invalid index *)
            map (nth_error (ifirstlast_null gg k)) groups ++ map Some (compress (tl mask) (ifirstlast rg k))
          else by_key
      | None => by_key
      end
  end.
(** rt_merge.py:1515-1573: append the right-only rows *)
Definition extend (idx : option (list (option nat))) (nrows : nat) (ext : list (option nat)) : option (list (option nat)) :=
  match ext with
  | [] => idx
  | _ => Some ((match idx with None => map Some (seq 0 nrows) | Some l => l end) ++ ext)
  end.
Definition outer_join (lg rg : keygroup) (rgb : option keygroup) (kl kr : keep) : join_indices :=
  let ro := right_only_rows lg rg rgb kr in
  let j := left_or_inner lg rg false kl kr in
  mkJI (extend (left_index j) (length (kg_ikey lg)) (map (fun _ => None) ro))
       (extend (right_index j) (length (kg_ikey rg)) ro) (Some (length ro)).

(** rt_merge.py:1579-1625 *)
Definition create_indices (lg rg : keygroup) (rgb : option keygroup) (h : how) (kl kr : keep) : join_indices :=
  let right_join :=
    let j := left_or_inner rg lg false kr kl in mkJI (right_index j) (left_index j) None in
  match h with
  | HLeft => left_or_inner lg rg false kl kr
  | HInner => left_or_inner lg rg true kl kr
  | HRight => right_join
  | HOuter =>
      if length (kg_ikey rg) =? 0 then
        let j := left_or_inner lg rg false kl kr in mkJI (left_index j) (right_index j) (Some 0)
      else if length (kg_ikey lg) =? 0 then
        mkJI (left_index right_join) (right_index right_join)
             (Some (match right_index right_join with None => 0 | Some l => length l end))
      else outer_join lg rg rgb kl kr
  end.

(** rt_merge.py:2183-2192 *)
Definition merge_indices_keep_ok (h : how) (kl : keep) : bool :=
  match h, kl with HOuter, Some _ => false | _, _ => true end.

(** rt_merge.py:1767-1845 [_validate_groupings]: true = passes; ncountkey are the sizes of the
    non-null groups *)
Inductive validate := V11 | V1m | Vm1 | Vmm.
Definition unique_ok (g : keygroup) : bool := fold_right Nat.max 0 (tl (kg_ncount g)) <=? 1.
Definition validate_groupings (lg rg : keygroup) (v : validate) (kl kr : keep) : bool :=
  let req_l := match v with V11 | V1m => negb (is_some kl) | _ => false end in
  let req_r := match v with V11 | Vm1 => negb (is_some kr) | _ => false end in
  (negb req_l || unique_ok lg) && (negb req_r || unique_ok rg).
End Merge.

(** What Grouping objects returned by rt_merge.py:1934-2077 [_get_or_create_keygroup] satisfy:
    they group the keys, and every unique key occurs in some row (line 2019 regroups otherwise). *)
Definition groups_keys {B} (keys : list (option B)) (g : keygroup) : Prop :=
  grouping_of keys (kg_us g) (kg_ikey g) /\ (forall b, In b (kg_us g) -> In (Some b) keys).
(** the two index arrays list the given (left row, right row) pairs *)
Definition indices_are {B} (lkeys rkeys : list (option B)) (j : join_indices) (rows : list row) : Prop :=
  resolve (length lkeys) (left_index j) = map fst rows /\ resolve (length rkeys) (right_index j) = map snd rows.

(** ** rt_merge.py:1848-1872, 1934-2077: from key columns to the keys that are grouped.
    [null] is the validity test of the column's type; [None] marks filtered rows.
    For a single Categorical column ([cat]) filtered rows are always in the null group. *)
Definition key_options {B} (null : B -> bool) (force cat : bool) (raw : list B) : list (option B) :=
  if force || cat then map (fun b => if null b then None else Some b) raw else map Some raw.

(** multi-key: one [isvalid] mask per column ([None] for string columns) *)
Definition join_mask (masks : list (option (list bool))) : option (list bool) :=
  fold_left (fun acc m => match m with
                          | None => acc
                          | Some v => match acc with None => Some v | Some a => Some (map (fun p => fst p && snd p) (combine a v)) end
                          end) masks None.
(** lines 2056-2067 *)
Definition groupby_mask (masks : list (option (list bool))) : option (list bool) :=
  fold_left (fun acc m => match m with
                          | None => None
                          | Some v => match acc with None => Some v | Some a => Some (map (fun p => fst p || snd p) (combine a v)) end
                          end) masks None.
