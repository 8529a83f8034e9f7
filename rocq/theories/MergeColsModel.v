(** Model of merge2, riptable/rt_merge.py:2293-2870: column naming, key preparation and column
    assembly around the join indices of MergeModel.v.

    A Dataset is the list of its (name, column) pairs.  Cell values have an arbitrary type [V] with
    a decidable equality, a null test and an invalid value. *)
From Coq Require Import List Arith Bool Lia String.
From Verif Require Import Sched GroupModel MergeSpec MergeModel.
Import ListNotations.
Local Open Scope list_scope.

Definition smem (c : string) (l : list string) : bool := existsb (String.eqb c) l.

(** ** rt_merge.py:382-485 [_construct_colname_mapping]; [None] = ValueError.
    Python sets are lists here; only membership in them is used.  Simplification: the set of
    shared key names is listed in the order of [left_on] (a set iterates in arbitrary order, which
    only affects the order of the output columns). *)
(** lines 441-461 [create_suffixed_remapped_cols] *)
Definition remap_cols (on_set only overlap : list string) (suffix : option string) : option (list string) :=
  match suffix with
  | None => Some only
  | Some s =>
      if String.eqb s ""%string then Some only
      else
        let renamed := map (fun c => (c ++ s)%string) overlap in
        if existsb (fun c => smem c on_set) renamed then None
        else if existsb (fun c => smem c only) renamed then None
        else Some (map (fun c => if smem c overlap then (c ++ s)%string else c) only)
  end.
Definition opt_eqb (x y : option string) : bool :=
  match x, y with None, None => true | Some a, Some b => String.eqb a b | _, _ => false end.
Record colmap := mkCM { cm_left : list (string * string); cm_right : list (string * string); cm_keys : list string }.
Definition construct_colname_mapping (left_on right_on : list string) (suffixes : suffix_pair) (cl cr : list string) : option colmap :=
  let inter := nodup string_dec (filter (fun c => smem c right_on) left_on) in
  let lo := filter (fun c => negb (smem c inter)) cl in
  let ro := filter (fun c => negb (smem c inter)) cr in
  let overlap := filter (fun c => smem c ro) lo in
  let clash := match overlap with
               | [] => false
               | _ => match suffixes with None => true | Some (a, b) => opt_eqb a b end
               end in
  if clash then None
  else
    let ls := match suffixes with None => Some ""%string | Some (a, _) => a end in
    let rs := match suffixes with None => Some ""%string | Some (_, b) => b end in
    match remap_cols left_on lo overlap ls, remap_cols right_on ro overlap rs with
    | Some nl, Some nr =>
        if existsb (fun c => smem c nr) nl then None
        else Some (mkCM (combine lo nl) (combine ro nr) inter)
    | _, _ => None
    end.

(** equality of key tuples *)
Fixpoint tuple_eqb {V} (veqb : V -> V -> bool) (x y : list V) : bool :=
  match x, y with
  | [], [] => true
  | a :: r, b :: s => veqb a b && tuple_eqb veqb r s
  | _, _ => false
  end.

Section Merge2.
Context {V : Type}.
Variable veqb : V -> V -> bool.
Variable null : V -> bool.
Variable inv : V.
Variable sched : list (list (store (option nat))) -> list (store (option nat)).
Variable junk : mem (option nat).
(** Grouping of key tuples (riptide_cpp, see GroupModel.v) *)
Variable group : list (option (list V)) -> @keygroup (list V).

(** rt_utils.py:631-733 [mbget] with an index array made by the join code: an invalid index gives
    the invalid value *)
Definition mbget (c : list V) (idx : list (option nat)) : list V :=
  map (fun o => match o with Some i => nth i c inv | None => inv end) idx.

(** ** column assembly, rt_merge.py:2728-2833; copy=True *)
Definition key_column (h : how) (j : join_indices) (lc rc : list V) : list V :=
  let ro := match right_only j with Some n => n | None => 0 end in
  match h with
  | HOuter =>
      if 0 <? ro then
        let left_data := match left_index j with None => lc | Some li => mbget lc (firstn (List.length li - ro) li) end in
        let right_data := match right_index j with None => [] (* unreachable *) | Some ri => mbget rc (skipn (List.length ri - ro) ri) end in
        left_data ++ right_data
      else match left_index j, right_index j with
           | None, _ => lc
           | Some _, None => rc
           | Some li, Some _ => mbget lc li
           end
  | _ => match left_index j, right_index j with
         | None, _ => lc
         | Some _, None => rc
         | Some li, Some ri => match h with HRight => mbget rc ri | _ => mbget lc li end
         end
  end%list.
Definition side_column (idx : option (list (option nat))) (c : list V) : list V :=
  match idx with None => c | Some i => mbget c i end.
Definition assemble (h : how) (j : join_indices) (left right : @dataset V) (cm : colmap) : @dataset V :=
  (map (fun f => (f, key_column h j (getcol left f) (getcol right f))) (cm_keys cm)
   ++ map (fun p => (snd p, side_column (left_index j) (getcol left (fst p)))) (cm_left cm)
   ++ map (fun p => (snd p, side_column (right_index j) (getcol right (fst p)))) (cm_right cm))%list.
(** rt_merge.py:2857-2861: category numbers 1 = left_only, 2 = right_only, 3 = both *)
Definition indicator_codes (j : join_indices) (n : nat) : list nat :=
  let good idx r := match idx with None => true | Some l => is_some (nth r l None) end in
  map (fun r => (if good (left_index j) r then 1 else 0) + (if good (right_index j) r then 2 else 0)) (seq 0 n).

(** ** keys, rt_merge.py:2212-2252 and 1934-2077 (key columns that are not Categoricals). *)
Definition has_null (t : list V) : bool := existsb null t.
Definition join_keys (ds : @dataset V) (on : list string) (force : bool) : list (option (list V)) :=
  key_options has_null force false (tuples inv ds on (nrows ds)).
(** lines 2056-2076: grouping for the null keys of a multi-column outer merge; a row takes part
    unless the mask excludes it.  [strcol]: the column holds strings, which have no mask. *)
Variable strcol : string -> bool.
Definition groupby_keys (ds : @dataset V) (on : list string) : list (option (list V)) :=
  let masks := map (fun c => if strcol c then None else Some (map (fun v => negb (null v)) (getcol ds c))) on in
  let ts := tuples inv ds on (nrows ds) in
  match groupby_mask masks with
  | None => List.map (@Some _) ts
  | Some m => map (fun p : bool * list V => if fst p then Some (snd p) else None) (combine m ts)
  end.

Definition is_left (h : how) : bool := match h with HLeft => true | _ => false end.
Definition is_right (h : how) : bool := match h with HRight => true | _ => false end.
Definition is_outer (h : how) : bool := match h with HOuter => true | _ => false end.

(** rt_merge.py:2592-2631, 2635-2645, 2080-2289 and 2728-2870.  [None] = ValueError.  Lines
    2627-2630 build a ValueError for key lists of different lengths but do not raise it; zip then
    drops the surplus keys.  [_extract_on_columns] rejects empty key lists (1758-1764).  The check
    of key dtypes (2214-2234) and copy=False are not modelled.  The indicator column holds category
    numbers, so it is returned beside the other columns. *)
Definition result := (@dataset V * option (string * list nat))%type.
Definition out_rows (j : join_indices) : nat :=
  match left_index j, right_index j with Some l, _ | None, Some l => List.length l | None, None => 0 end.
Definition merge2 (left right : @dataset V) (left_on right_on : list string) (h : how) (suffixes : suffix_pair)
    (cl cr : list string) (v : option validate) (kl kr : keep) (indicator : option string) (require_match : bool) : option result :=
  if match left_on, right_on with [], _ | _, [] => true | _, _ => false end then None
  else if negb (forallb (fun c => smem c (names left)) (left_on ++ cl)%list
             && forallb (fun c => smem c (names right)) (right_on ++ cr)%list) then None
  else match construct_colname_mapping left_on right_on suffixes cl cr with
  | None => None
  | Some cm =>
      let on := combine left_on right_on in
      if negb (merge_indices_keep_ok h kl) then None
      else
        let lg := group (join_keys left (map fst on) (negb (is_left h))) in
        let rg := group (join_keys right (map snd on) (negb (is_right h))) in
        let rgb := if is_outer h && (1 <? List.length on) then Some (group (groupby_keys right (map snd on))) else None in
        if match v with None => true | Some w => validate_groupings lg rg w kl kr end
        then
          let j := create_indices (tuple_eqb veqb) sched junk lg rg rgb h kl kr in
          if require_match && match right_index j with Some ri => negb (forallb is_some ri) | None => false end then None
          else
            let out := assemble h j left right cm in
            match indicator with
            | None => Some (out, None)
            | Some ind => if smem ind (names out) then None else Some (out, Some (ind, indicator_codes j (out_rows j)))
            end
        else None
  end.

(** rt_merge.py:3229-3569 [merge_lookup] *)
Definition merge_lookup (left right : @dataset V) (left_on right_on : list string) (require_match : bool) (suffixes : suffix_pair)
    (cl cr : list string) (k : keep) : option result :=
  merge2 left right left_on right_on HLeft suffixes cl cr (match k with None => Some Vm1 | Some _ => None end) None k None require_match.
End Merge2.
