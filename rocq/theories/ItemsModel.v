(** Model of the column container: riptable/rt_itemcontainer.py and the column methods of
    riptable/rt_struct.py.

    A Python dict keyed by column names is an association list in insertion order, its
    operations below keep keys unique exactly like a dict does.  An entry is the pair
    [value, attribute object] stored by [ItemContainer.item_set_value].  Values and attribute
    objects are abstract.  A call returns the new state together with the exception it raised,
    if any, because Python exceptions do not roll the state back.
    Simplifications: names are 8-bit character strings; warnings are dropped; FastArray
    [set_name] bookkeeping is dropped; [Struct._check_addtype] (rt_struct.py:410-414) is the
    identity, the Dataset override is modelled in RowsModel.v. *)
From Coq Require Import String Ascii List Arith Bool.
Import ListNotations.
Open Scope list_scope.

Inductive exc := EValue | EIndex | EAttr | EKey | EType | EFuel.

(** ** Python dict *)
Section Dict.
Context {E : Type}.
Definition dict := list (string * E).

Definition keys (d : dict) : list string := map fst d.
Definition entries (d : dict) : list E := map snd d.

(** [d.get(k)] *)
Fixpoint dget (k : string) (d : dict) : option E :=
  match d with
  | [] => None
  | (k', e) :: r => if String.eqb k k' then Some e else dget k r
  end.

(** [k in d] *)
Definition dmem (k : string) (d : dict) : bool := existsb (String.eqb k) (keys d).

(** [d[k] = e]: an existing key keeps its position, a new one goes last *)
Fixpoint dset (k : string) (e : E) (d : dict) : dict :=
  match d with
  | [] => [(k, e)]
  | (k', e') :: r => if String.eqb k k' then (k', e) :: r else (k', e') :: dset k e r
  end.

(** [del d[k]] (k present) *)
Fixpoint ddel (k : string) (d : dict) : dict :=
  match d with
  | [] => []
  | (k', e') :: r => if String.eqb k k' then r else (k', e') :: ddel k r
  end.
End Dict.
Arguments dict E : clear implicits.

(** [x in lst] for a list of names *)
Definition smem (x : string) (l : list string) : bool := existsb (String.eqb x) l.

(** ** Python str helpers *)
(** [str.islower] of one ASCII character, and the two case maps used by [str.capitalize] *)
Definition a_lower (c : ascii) : bool := (97 <=? nat_of_ascii c) && (nat_of_ascii c <=? 122).
Definition a_upper (c : ascii) : bool := (65 <=? nat_of_ascii c) && (nat_of_ascii c <=? 90).
Definition to_upper (c : ascii) : ascii := if a_lower c then ascii_of_nat (nat_of_ascii c - 32) else c.
Definition to_lower (c : ascii) : ascii := if a_upper c then ascii_of_nat (nat_of_ascii c + 32) else c.
Fixpoint smap (f : ascii -> ascii) (s : string) : string :=
  match s with EmptyString => EmptyString | String c r => String (f c) (smap f r) end.
(** [name.capitalize()] *)
Definition capitalize (s : string) : string :=
  match s with EmptyString => EmptyString | String c r => String (to_upper c) (smap to_lower r) end.

(** [s.replace(old, new, cnt)]; [skip] characters belong to a match already replaced. *)
Fixpoint sreplace_go (old new : string) (s : string) (skip cnt : nat) : string :=
  match s with
  | EmptyString =>
      match old, cnt, skip with
      | EmptyString, S _, O => new
      | _, _, _ => EmptyString
      end
  | String c r =>
      match skip with
      | S k => sreplace_go old new r k cnt
      | O =>
          match cnt with
          | O => s
          | S cnt' =>
              if String.prefix old s then
                match old with
                | EmptyString => (new ++ String c (sreplace_go old new r 0 cnt'))%string
                | String _ o => (new ++ sreplace_go old new r (String.length o) cnt')%string
                end
              else String c (sreplace_go old new r 0 cnt)
          end
      end
  end.
(** [max = None] stands for the default -1: no limit *)
Definition sreplace (old new : string) (max : option nat) (s : string) : string :=
  sreplace_go old new s 0 (match max with Some m => m | None => S (S (String.length s)) end).

Section Container.
Context {V A : Type}.
Definition entry : Type := (V * option A)%type.
Definition container : Type := dict entry.

(** rt_itemcontainer.py:304-309 [item_set_value] (attr defaults to None) *)
Definition item_set_value (k : string) (v : V) (d : container) : container :=
  match dget k d with
  | None => dset k (v, None) d
  | Some (_, a) => dset k (v, a) d
  end.

(** rt_itemcontainer.py:287-293 [item_get_value] *)
Definition item_get_value (k : string) (d : container) : option V := option_map fst (dget k d).

(** rt_itemcontainer.py:336-366 [item_set_attribute]: [upd] is the setattr on the attribute
    object, which is created when missing.  KeyError when the item is missing. *)
Definition item_set_attribute (k : string) (upd : option A -> A) (d : container) : container * option exc :=
  match dget k d with
  | Some (v, a) => (dset k (v, Some (upd a)) d, None)
  | None => (d, Some EKey)
  end.

(** rt_itemcontainer.py:384-406 [item_replace_all] with check_exists=True *)
Definition item_replace_all (newdict : dict V) (d : container) : container * option exc :=
  if existsb (fun k => negb (dmem k d)) (keys newdict) then (d, Some EValue)
  else if existsb (fun k => negb (dmem k newdict)) (keys d) then (d, Some EValue)
  else (fold_left (fun acc kv => match dget (fst kv) acc with
                                 | Some (_, a) => dset (fst kv) (snd kv, a) acc
                                 | None => acc end) newdict d, None).

(** rt_itemcontainer.py:409-440 [item_rename]; the loop rebuilds the dict entry by entry *)
Definition item_rename (old new : string) (d : container) : container * option exc :=
  if String.eqb old new then (d, None)
  else if negb (dmem old d) then (d, Some EValue)
  else if dmem new d then (d, Some EValue)
  else (fold_left (fun acc kv => dset (if String.eqb (fst kv) old then new else fst kv) (snd kv) acc) d [], None).

(** rt_itemcontainer.py:460-464, the length check of [_get_move_cols] for a list of names *)
Definition too_many (cols : list string) (d : container) : bool := length d <? length cols.

(** rt_itemcontainer.py:469-488 [item_move_to_front] *)
Definition item_move_to_front (cols : list string) (d : container) : container * option exc :=
  if too_many cols d then (d, Some EValue)
  else
    let front := fold_left (fun acc cn => match dget cn d with
                                          | Some e => dset cn e acc
                                          | None => acc end) cols [] in
    (fold_left (fun acc kv => if dmem (fst kv) acc then acc else dset (fst kv) (snd kv) acc) d front, None).

(** rt_itemcontainer.py:491-506 [item_move_to_back]: [d[cn] = d.pop(cn)] one after the other *)
Definition item_move_to_back (cols : list string) (d : container) : container * option exc :=
  if too_many cols d then (d, Some EValue)
  else (fold_left (fun acc cn => match dget cn acc with
                                 | Some e => dset cn e (ddel cn acc)
                                 | None => acc end) cols d, None).

(** the rebuilding loop shared by add_prefix, add_suffix and str_replace *)
Definition rebuild (f : string -> string) (d : container) : container :=
  fold_left (fun acc kv => dset (f (fst kv)) (snd kv) acc) d [].

(** rt_itemcontainer.py:509-519, 522-532 *)
Definition item_add_prefix (p : string) (d : container) : container := rebuild (fun k => (p ++ k)%string) d.
Definition item_add_suffix (s : string) (d : container) : container := rebuild (fun k => (k ++ s)%string) d.

(** rt_itemcontainer.py:547-576 [item_str_replace]; returns also the [replaced] flag *)
Definition item_str_replace (old new : string) (max : option nat) (d : container) : container * (bool + exc) :=
  let rep := sreplace old new max in
  if existsb (fun k => negb (String.eqb (rep k) k) && dmem (rep k) d) (keys d) then (d, inr EValue)
  else if existsb (fun k => negb (String.eqb (rep k) k)) (keys d) then (rebuild rep d, inl true)
  else (d, inl false).

(** ** Struct *)
(** [items] = [_all_items], [ncols] = [_ncols], [sortl] = [_col_sortlist], [locked] = [_locked] *)
Record struct := mkS { items : container; ncols : nat; sortl : option (list string); locked : bool }.

Definition with_items (st : struct) (d : container) : struct := mkS d (ncols st) (sortl st) (locked st).
Definition with_ncols (st : struct) (n : nat) : struct := mkS (items st) n (sortl st) (locked st).
Definition with_sortl (st : struct) (l : option (list string)) : struct := mkS (items st) (ncols st) l (locked st).

(** What Python's attribute machinery says about a name that is not a column.
    [attr_kind]: [None] no attribute of that name on the object or its class, [Some true] a
    callable (method), [Some false] another attribute (property, class constant).
    [restricted]: membership in [get_restricted_names] (rt_struct.py:272-310): Python keywords
    and class attribute names. *)
Variable attr_kind : string -> option bool.
Variable restricted : string -> bool.

(** rt_struct.py:215-269 [is_valid_colname] with the defaults AllNames = False,
    AllowAnyName = True (rt_struct.py:152-155) *)
Definition valid_colname (n : string) : bool :=
  match n with
  | EmptyString => false
  | String c _ => negb (Ascii.eqb c "_") && negb (restricted n)
  end.

(** rt_struct.py:473-479 [_update_sort] *)
Definition update_sort (n : string) (st : struct) : struct :=
  match sortl st with
  | Some l => if smem n l then with_sortl st None else st
  | None => st
  end.

(** rt_struct.py:2605-2652 [col_set_value] with WarnOnInvalidNames = False: an invalid name
    that starts with a lower case letter is capitalised (2628-2634), any other name is used
    as it is.  [name[0]] of the empty name raises IndexError (2628). *)
Definition col_set_value (n : string) (v : V) (st : struct) : struct * option exc :=
  match n with
  | EmptyString => (st, Some EIndex)
  | String c _ =>
      let n' := if negb (valid_colname n) && a_lower c then capitalize n else n in
      (update_sort n' (with_items st (item_set_value n' v (items st))), None)
  end.

(** rt_struct.py:437-446 [_replaceitem] *)
Definition replaceitem (n : string) (v : V) (st : struct) : struct * option exc :=
  col_set_value n v (update_sort n st).

(** rt_struct.py:449-454 [_addnewitem] *)
Definition addnewitem (n : string) (v : V) (st : struct) : struct * option exc :=
  match col_set_value n v st with
  | (st', None) => (with_ncols st' (S (ncols st')), None)
  | r => r
  end.

Definition starts_underscore (n : string) : bool :=
  match n with String c _ => Ascii.eqb c "_" | EmptyString => false end.

(** rt_struct.py:520-563 [__setattr__] *)
Definition setattr (n : string) (v : V) (st : struct) : struct * option exc :=
  if starts_underscore n then (st, None)              (* plain attribute, not a column *)
  else if locked st then (st, Some EAttr)
  else if dmem n (items st) then replaceitem n v st
  else match attr_kind n with
       | Some true => (st, None)                      (* warns, returns without assigning *)
       | None => addnewitem n v st
       | Some false => replaceitem n v st
       end.

(** rt_struct.py:837-861 [__setitem__] with one column name *)
Definition setitem (n : string) (v : V) (st : struct) : struct * option exc :=
  if valid_colname n then setattr n v st else (st, Some EIndex).

(** rt_struct.py:457-470 [_deleteitem] (the [_nrows] reset is in TabModel.v) *)
Definition deleteitem (n : string) (st : struct) : struct * option exc :=
  if dmem n (items st)
  then (update_sort n (with_ncols (with_items st (ddel n (items st))) (ncols st - 1)), None)
  else (st, Some EIndex).

(** rt_struct.py:507-517 [__delattr__], [__delitem__] *)
Definition delattr (n : string) (st : struct) : struct * option exc :=
  if locked st then (st, Some EAttr) else deleteitem n st.

(** [OrderedDict.fromkeys(l)] *)
Fixpoint fromkeys (l : list string) : list string :=
  match l with
  | [] => []
  | x :: r => x :: filter (fun y => negb (String.eqb x y)) (fromkeys r)
  end.

(** rt_struct.py:3627-3639 [col_remove(items=cols)] with on_missing="warn": missing names are
    dropped (2785-2797), the rest deduplicated (2806) and deleted one by one *)
Definition col_remove (cols : list string) (st : struct) : struct * option exc :=
  if locked st then (st, Some EAttr)
  else (fold_left (fun s n => fst (deleteitem n s))
          (fromkeys (filter (fun n => dmem n (items st)) cols)) st, None).

(** rt_struct.py:3421-3498 [col_rename] *)
Definition col_rename (old new : string) (st : struct) : struct * option exc :=
  if String.eqb old new then (st, None)
  else if locked st then (st, Some EAttr)
  else if negb (valid_colname new) then (st, Some EValue)
  else match item_rename old new (items st) with
       | (d, Some e) => (with_items st d, Some e)
       | (d, None) =>
           (with_sortl (with_items st d)
              (option_map (map (fun c => if String.eqb c old then new else c)) (sortl st)), None)
       end.

(** rt_struct.py:3158-3242 [col_move_to_front], [col_move_to_back] *)
Definition col_move_to_front (cols : list string) (st : struct) : struct * option exc :=
  if locked st then (st, Some EAttr)
  else let '(d, e) := item_move_to_front cols (items st) in (with_items st d, e).
Definition col_move_to_back (cols : list string) (st : struct) : struct * option exc :=
  if locked st then (st, Some EAttr)
  else let '(d, e) := item_move_to_back cols (items st) in (with_items st d, e).

(** rt_struct.py:3371-3378, 3411-3418 (no lock check) *)
Definition col_add_prefix (p : string) (st : struct) : struct * option exc :=
  (with_sortl (with_items st (item_add_prefix p (items st)))
     (option_map (map (fun s => (p ++ s)%string)) (sortl st)), None).
Definition col_add_suffix (x : string) (st : struct) : struct * option exc :=
  (with_sortl (with_items st (item_add_suffix x (items st)))
     (option_map (map (fun s => (s ++ x)%string)) (sortl st)), None).

(** rt_struct.py:3792-3795: [for i, name in self._col_sortlist] unpacks each name into two
    characters: any name not of length 2 raises ValueError; a two-character name whose second
    character is changed by the replacement raises TypeError (list index is a str). *)
Fixpoint sortlist_loop (rep : string -> string) (l : list string) : option exc :=
  match l with
  | [] => None
  | String _ (String c EmptyString) :: r =>
      if String.eqb (rep (String c EmptyString)) (String c EmptyString) then sortlist_loop rep r
      else Some EType
  | _ :: _ => Some EValue
  end.

(** rt_struct.py:3732-3795 [col_str_replace] (neither a lock check nor an [_ncols] update) *)
Definition col_str_replace (old new : string) (max : option nat) (st : struct) : struct * option exc :=
  match item_str_replace old new max (items st) with
  | (_, inr e) => (st, Some e)
  | (d, inl false) => (with_items st d, None)
  | (d, inl true) =>
      match sortl st with
      | None => (with_items st d, None)
      | Some l => (with_items st d, sortlist_loop (sreplace old new max) l)
      end
  end.

(** rt_struct.py:2700 [col_set_attribute] *)
Definition col_set_attribute (k : string) (upd : option A -> A) (st : struct) : struct * option exc :=
  let '(d, e) := item_set_attribute k upd (items st) in (with_items st d, e).

(** rt_dataset.py:4133 records the sort columns; rt_struct.py never adds to the list.
    [_sort_values] only accepts existing columns (rt_dataset.py:4067-4069). *)
Definition set_sortlist (l : list string) (st : struct) : struct * option exc :=
  if forallb (fun c => dmem c (items st)) l then (with_sortl st (Some l), None) else (st, Some EValue).

(** ** col_swap and col_map *)

(** [set(a) == set(b)] *)
Definition seteq (a b : list string) : bool :=
  forallb (fun x => smem x b) a && forallb (fun x => smem x a) b.
Definition names_eqb (a b : list string) : bool := if list_eq_dec string_dec a b then true else false.
Fixpoint nodupb (l : list string) : bool :=
  match l with [] => true | x :: r => negb (smem x r) && nodupb r end.

(** rt_struct.py:3128 [temp = {_k: getattr(self, _k) for _k in from_cols}] *)
Fixpoint swap_temp (from : list string) (st : struct) : option (dict V) :=
  match from with
  | [] => Some []
  | k :: r => match item_get_value k (items st), swap_temp r st with
              | Some v, Some t => Some ((k, v) :: t)
              | _, _ => None
              end
  end.

(** sequencing: stop at the first exception *)
Definition bind (r : struct * option exc) (f : struct -> struct * option exc) : struct * option exc :=
  match r with (st, None) => f st | _ => r end.

(** rt_struct.py:3129-3130 *)
Fixpoint swap_assign (temp : dict V) (tos froms : list string) (st : struct) : struct * option exc :=
  match tos, froms with
  | k1 :: tos', k2 :: froms' =>
      match dget k2 temp with
      | Some v => bind (setattr k1 v st) (swap_assign temp tos' froms')
      | None => (st, Some EKey)
      end
  | _, _ => (st, None)
  end.

(** rt_struct.py:3118-3130 [col_swap] for two lists *)
Definition col_swap (froms tos : list string) (st : struct) : struct * option exc :=
  if locked st then (st, Some EAttr)
  else if names_eqb froms tos then (st, None)
  else if negb ((length froms =? length tos) && nodupb froms && seteq froms tos) then (st, Some EValue)
  else match swap_temp froms st with
       | None => (st, Some EAttr)
       | Some temp => swap_assign temp tos froms st
       end.

(** rt_struct.py:3329-3338 [_get_seq]; [seqd] in insertion order.  [inr EKey] is the KeyError
    of [map[_from]]. The fuel bounds the number of iterations; see [get_seq_fuel] in the proofs. *)
Fixpoint get_seq (fuel : nat) (m : dict string) (protected : list string) (from : string) (seqd : dict string)
  : (dict string * bool) + exc :=
  if dmem from seqd then inl (seqd, true)
  else match fuel with
       | O => inr EFuel
       | S fuel' =>
           match dget from m with
           | None => inr EKey
           | Some to =>
               let seqd' := dset from to seqd in
               if negb (smem to protected) then inl (seqd', false)
               else get_seq fuel' m protected to seqd'
           end
       end.

Record plan := mkP { p_seen : list string; p_swaps : list (list string * list string);
                     p_trans : list (dict string) }.

(** rt_struct.py:3304-3315 *)
Fixpoint collect (m : dict string) (protected : list string) (todo : list string) (p : plan) : plan + exc :=
  match todo with
  | [] => inl p
  | o :: r =>
      if smem o (p_seen p) then collect m protected r p
      else if negb (smem o protected)
      then collect m protected r (mkP (p_seen p ++ [o]) (p_swaps p) (p_trans p))
      else match get_seq (S (length m)) m protected o [] with
           | inr e => inr e
           | inl (seqd, true) =>
               collect m protected r
                 (mkP (p_seen p ++ keys seqd) (p_swaps p ++ [(keys seqd, entries seqd)]) (p_trans p))
           | inl (seqd, false) =>
               collect m protected r (mkP (p_seen p) (p_swaps p) (p_trans p ++ [seqd]))
           end
  end.

(** rt_struct.py:3316 [transitions.sort(key=len, reverse=True)]: stable, longest first *)
Fixpoint insert_len (x : dict string) (l : list (dict string)) : list (dict string) :=
  match l with
  | [] => [x]
  | y :: r => if length y <=? length x then x :: l else y :: insert_len x r
  end.
Fixpoint sort_len (l : list (dict string)) : list (dict string) :=
  match l with [] => [] | x :: r => insert_len x (sort_len r) end.

(** rt_struct.py:3317-3323 *)
Fixpoint take_trans (ts : list (dict string)) (seen : list string) (ren : dict string)
  : list string * dict string :=
  match ts with
  | [] => (seen, ren)
  | t :: r =>
      if existsb (fun k => smem k seen) (keys t) then take_trans r seen ren
      else take_trans r (seen ++ keys (rev t))
             (fold_left (fun acc kv => dset (fst kv) (snd kv) acc) (rev t) ren)
  end.

(** size of a Python set given as a list with possible repetitions *)
Definition setsize (l : list string) : nat := length (fromkeys l).

(** rt_struct.py:3296-3326 [_safe_reordering_of_renames] *)
Definition safe_reorder (m : dict string) (protected : list string)
  : (dict string * list (list string * list string)) + exc :=
  match collect m protected (keys m) (mkP [] [] []) with
  | inr e => inr e
  | inl p =>
      let '(seen, ren) := take_trans (sort_len (p_trans p)) (p_seen p) [] in
      if negb (setsize seen =? length m) then inr EValue
      else inl (ren, p_swaps p)
  end.

(** rt_struct.py:3288-3289 / 3290-3291 *)
Fixpoint do_renames (ren : dict string) (st : struct) : struct * option exc :=
  match ren with
  | [] => (st, None)
  | (o, n) :: r => bind (col_rename o n st) (do_renames r)
  end.
Fixpoint do_swaps (sw : list (list string * list string)) (st : struct) : struct * option exc :=
  match sw with
  | [] => (st, None)
  | (o, n) :: r => bind (col_swap o n st) (do_swaps r)
  end.

(** rt_struct.py:3272-3293 [col_map] (a dict of str to str) *)
Definition col_map (m : dict string) (st : struct) : struct * option exc :=
  if locked st then (st, Some EAttr)
  else if setsize (entries m) <? setsize (keys m) then (st, Some EValue)
  else if existsb (fun v => dmem v (items st)) (entries m) then
    match safe_reorder m (keys (items st)) with
    | inr e => (st, Some e)
    | inl (ren, swaps) => bind (do_renames ren st) (do_swaps swaps)
    end
  else do_renames m st.

(** ** Histories *)
Inductive op :=
| OSetAttr (n : string) (v : V) | OSetItem (n : string) (v : V) | ODel (n : string)
| ORemove (l : list string) | ORename (o n : string) | OFront (l : list string) | OBack (l : list string)
| OPrefix (p : string) | OSuffix (s : string) | OStrReplace (o n : string) (max : option nat)
| OAttr (n : string) (u : option A -> A) | OSort (l : list string) | OSwap (f t : list string)
| OMap (m : dict string) | OLock (b : bool).

Definition step (o : op) (st : struct) : struct * option exc :=
  match o with
  | OSetAttr n v => setattr n v st
  | OSetItem n v => setitem n v st
  | ODel n => delattr n st
  | ORemove l => col_remove l st
  | ORename a b => col_rename a b st
  | OFront l => col_move_to_front l st
  | OBack l => col_move_to_back l st
  | OPrefix p => col_add_prefix p st
  | OSuffix s => col_add_suffix s st
  | OStrReplace a b mx => col_str_replace a b mx st
  | OAttr n u => col_set_attribute n u st
  | OSort l => set_sortlist l st
  | OSwap f t => col_swap f t st
  | OMap m => col_map m st
  | OLock b => (mkS (items st) (ncols st) (sortl st) b, None)   (* rt_struct.py:496-504 *)
  end.

(** rt_struct.py:171-175 [_pre_init] and [_ncols = 0] *)
Definition empty_struct : struct := mkS [] 0 None false.

Definition run (ops : list op) : struct := fold_left (fun st o => fst (step o st)) ops empty_struct.
End Container.
Arguments entry V A : clear implicits.
Arguments container V A : clear implicits.
Arguments struct V A : clear implicits.
Arguments op V A : clear implicits.
