(** Model of Multiset (rt_multiset.py) and of apply_schema, info and Doc (rt_meta.py).

    [valid]: Struct.is_valid_colname (rt_struct.py:215-269), a test of the name alone.  Every exception
    is [None]. *)
From Coq Require Import List Arith Bool.
From Verif Require Import FlattenModel DsModel MuSpec.
Import ListNotations.

Section Multiset.
Context {V : Type}.
Notation ds := (ds V).
Notation tree := (tree V).
Variable valid : name -> bool.
Variable delim : name.

(** _nrows of a Dataset (rt_dataset.py:643-680: None while it has no column) and shape[0]
    (rt_struct.py:2444-2476) *)
Definition shape0 (t : table V) : nat := match nrows_of t with Some n => n | None => 0 end.
(** ds[list of names] (rt_struct.py:633-655, rt_dataset.py:1459-1469, rt_itemcontainer.py:187-201): an
    empty list raises IndexError, an unknown name KeyError *)
Fixpoint pick_go (ns : list name) (t acc : table V) : option (table V) :=
  match ns with
  | [] => Some acc
  | n :: r => match dget n t with Some c => pick_go r t (dset n c acc) | None => None end
  end.
Definition pick (ns : list name) (t : table V) : option (table V) :=
  match ns with [] => None | _ => pick_go ns t [] end.
(** rt_struct.py:3421-3499 [col_rename], rt_itemcontainer.py:409-440 [item_rename] *)
Definition rename (old new : name) (t : table V) : option (table V) :=
  if name_dec old new then Some t
  else if negb (valid new) then None
  else if negb (mem old (names t)) then None
  else if mem new (names t) then None
  else Some (map (fun c => if name_dec (fst c) old then (new, snd c) else c) t).
(** Dataset.concat_columns([a, b], do_copy=False), the model of DsModel.v *)
Definition concat2 (a b : table V) : option (table V) :=
  match concat_columns [(shape0 a, a); (shape0 b, b)] false DupRaise MisWarn with
  | CcOk t _ => Some t
  | _ => None
  end.
Definition not_in (ls : list name) (t : table V) : list name := filter (fun n => negb (mem n ls)) (names t).
(** label_get_names after label_set_names (rt_itemcontainer.py:615-637): the columns that exist *)
Definition set_labels (ls : list name) (t : table V) : ds := mkDs (filter (fun l => mem l (names t)) ls) t.

(** rt_multiset.py:657-697 [flatten], horizontal: one round of the loop; the state is
    (label_col_names, dsr) *)
Fixpoint rename_all (nm : name) (cs : list name) (t : table V) : option (table V) :=
  match cs with
  | [] => Some t
  | c :: r => match rename c (nm ++ delim ++ c) t with Some t' => rename_all nm r t' | None => None end
  end.
Definition h_step (st : option (list name * table V)) (nm : name) (elem : ds) : option (list name * table V) :=
  (* 665-671 *)
  let labs := match st with None => labels elem | Some s => fst s end in
  if list_eq_dec name_dec labs (labels elem) then
    (* 672 *)
    let vals := not_in labs (cols elem) in
    (* 674-675: Dataset() without columns if there are no labels *)
    match match st with None => match labs with [] => Some [] | _ => pick labs (cols elem) end | Some s => Some (snd s) end with
    | None => None
    | Some dsr =>
        (* 676-678 *)
        match pick vals (cols elem) with
        | None => None
        | Some v => match concat2 dsr v with
                    | None => None
                    | Some t => match rename_all nm vals t with Some t' => Some (labs, t') | None => None end
                    end
        end
    end
  else None.
Section Loop.
Context {S : Type}.
Variable flat : tree -> option ds.
Variable step : option S -> name -> bool -> ds -> option S.
(** 658-664: the flag tells that the element comes from a Multiset *)
Fixpoint loop (l : list (name * tree)) (st : option S) : option (option S) :=
  match l with
  | [] => Some st
  | (n, t) :: r =>
      match flat t with
      | None => None
      | Some d => match step st n (match t with Leaf _ => false | Node _ => true end) d with
                  | Some s => loop r (Some s)
                  | None => None
                  end
      end
  end.
End Loop.
(** a Dataset is taken as it is; 696: without members dsr is unbound *)
Fixpoint flatten_h (t : tree) : option ds :=
  match t with
  | Leaf d => Some d
  | Node l => match loop flatten_h (fun st n _ d => h_step st n d) l None with
              | Some (Some (labs, dsr)) => Some (set_labels labs dsr)
              | _ => None
              end
  end.

(** vertical: the state is (label_col_names, col_names, dsr).  [of_name], [decode]: a string as an
    element of the column of names and back (bytes.decode) *)
Variable of_name : name -> V.
Variable decode : V -> name.
Variable inv : name -> V.
Variable col : name.
(** rt_itemcontainer.py:469-488 [item_move_to_front] for names that exist *)
Definition move_front (ls : list name) (t : table V) : table V :=
  let front := flat_map (fun l => match dget l t with Some c => [(l, c)] | None => [] end) ls in
  front ++ filter (fun c => negb (mem (fst c) (names front))) t.
(** Dataset.concat_rows([a, b]), the model of DsModel.v *)
Definition concat_rows2 (a b : table V) : table V :=
  d_cols (hstack_datasets inv [mkD (nrows_of a) a; mkD (nrows_of b) b]).
Definition v_step (st : option (list name * list name * table V)) (nm : name) (from_ms : bool) (elem : ds)
  : option (list name * list name * table V) :=
  let labs := match st with None => labels elem | Some s => fst (fst s) end in
  if list_eq_dec name_dec labs (labels elem) then
    (* 668, 680-682 *)
    let in_cols := not_in (col :: labs) (cols elem) in
    let col_names := match st with None => in_cols | Some s => snd (fst s) end in
    if list_eq_dec name_dec col_names in_cols then
      let vals := not_in labs (cols elem) in
      (* 683 *)
      match match labs with [] => Some [] | _ => pick labs (cols elem) end with
      | None => None
      | Some inds =>
          match (if from_ms then
                   (* 690 *)
                   match dget col (cols elem) with
                   | Some c => Some (inds, dset col (map (fun cn => of_name (nm ++ delim ++ decode cn)) c) (cols elem))
                   | None => None
                   end
                 else
                   (* 685-687 *)
                   if mem col (names (cols elem)) then None
                   else if negb (valid col) then None
                   else Some (dset col (repeat (of_name nm) (shape0 (cols elem))) inds, cols elem)) with
          | None => None
          | Some (inds, ecols) =>
              match pick vals ecols with
              | None => None
              | Some v => match concat2 inds v with
                          | None => None
                          | Some t =>
                              (* 692-694 *)
                              let dsr := match st with None => t | Some s => concat_rows2 (snd s) t end in
                              Some (labs, col_names, move_front labs dsr)
                          end
              end
          end
      end
    else None
  else None.
Fixpoint flatten_v (t : tree) : option ds :=
  match t with
  | Leaf d => Some d
  | Node l => match loop flatten_v v_step l None with
              | Some (Some (labs, _, dsr)) => Some (set_labels labs dsr)
              | _ => None
              end
  end.

(** ** the header of the display, rt_multiset.py:286-434 *)
(** an entry of allArrays: a column or, for a single member that is a Multiset, one of its members *)
Inductive shown := Col_ (c : list V) | Member (t : tree).
(** ColHeader(name, span, group): the upper and the lower line, and allArrays *)
Record header := mkHeader { upper : list (name * nat * nat); lower : list (name * nat * nat); arrays : list shown }.
(** 286-306 [_depth_first]: returnlist *)
Fixpoint depth_first (t : tree) : list (table V) :=
  match t with
  | Leaf d => [cols d]
  | Node l => flat_map (fun p => depth_first (snd p)) l
  end.
(** 347-349: del returnlist[i][k] for the keys; KeyError *)
Fixpoint del_keys (ks : list name) (t : table V) : option (table V) :=
  match ks with
  | [] => Some t
  | k :: r => if mem k (names t) then del_keys r (filter (fun c => if name_dec (fst c) k then false else true) t) else None
  end.
Definition all_some {X Y} (f : X -> option Y) : list X -> option (list Y) :=
  fix go l :=
  match l with
  | [] => Some []
  | x :: r => match f x, go r with Some y, Some ys => Some (y :: ys) | _, _ => None end
  end.
(** 395-404: the same column of the later members, taken out of their dictionaries; a missing
    dictionary is an IndexError *)
Fixpoint inner (k : name) (ns : list name) (dicts : list (table V)) : option (list (name * list V) * list (table V)) :=
  match ns, dicts with
  | [], _ => Some ([], dicts)
  | n :: ns, d :: dicts =>
      match inner k ns dicts with
      | None => None
      | Some (found, dicts') =>
          match dget k d with
          | Some c => Some ((n, c) :: found, filter (fun c => if name_dec (fst c) k then false else true) d :: dicts')
          | None => Some (found, d :: dicts')
          end
      end
  | _ :: _, [] => None
  end.
(** 387-409: the columns of one member; the groups found, and what is left of the later dictionaries *)
Fixpoint outer_one (n : name) (its : table V) (ns : list name) (dicts : list (table V))
  : option (list (name * list (name * list V)) * list (table V)) :=
  match its with
  | [] => Some ([], dicts)
  | (k, v) :: r =>
      match inner k ns dicts with
      | None => None
      | Some (found, dicts') =>
          match outer_one n r ns dicts' with
          | None => None
          | Some (gs, d'') => Some ((k, (n, v) :: found) :: gs, d'')
          end
      end
  end.
(** 384 *)
Fixpoint outer (ns : list name) (dicts : list (table V)) : option (list (name * list (name * list V))) :=
  match ns, dicts with
  | [], _ => Some []
  | n :: ns, d :: dicts =>
      match outer_one n d ns dicts with
      | None => None
      | Some (gs, dicts') => match outer ns dicts' with Some gs' => Some (gs ++ gs') | None => None end
      end
  | _ :: _, [] => None
  end.
(** 391, 400, 407-409: the headers of the groups; the color group counts them *)
Fixpoint headers (g : nat) (gs : list (name * list (name * list V))) : header :=
  match gs with
  | [] => mkHeader [] [] []
  | (k, l) :: r =>
      let h := headers (S g) r in
      mkHeader ((k, length l, g) :: upper h) (map (fun p => (fst p, 1, g)) l ++ lower h) (map (fun p => Col_ (snd p)) l ++ arrays h)
  end.
(** 309-434 [_build_col_headers]; [gbkeys]: the names in _gbkeys, None if there are none *)
Definition build_col_headers (ms : list (name * tree)) (gbkeys : option (list name)) : option header :=
  match ms with
  | [] => None
  | [(op, t)] =>
      (* 316-336 *)
      let its := match t with
                 | Leaf d => map (fun c => (fst c, Col_ (snd c))) (cols d)
                 | Node l => map (fun p => (fst p, Member (snd p))) l
                 end in
      let its := match gbkeys with
                 | None => its
                 | Some ks => filter (fun c => negb (mem (fst c) ks)) its
                 end in
      Some (mkHeader (map (fun c => (fst c, 1, 0)) its) (map (fun _ => (op, 1, 0)) its) (map snd its))
  | _ =>
      let dicts := depth_first (Node ms) in
      (* 343-355: count is the number of columns before the keys are deleted *)
      let count := list_sum (map (@length _) dicts) in
      match all_some (del_keys (match gbkeys with Some ks => ks | None => [] end)) dicts with
      | None => None
      | Some dicts' => if count =? 0 then None
                       else match outer (map fst ms) dicts' with Some gs => Some (headers 0 gs) | None => None end
      end
  end.

(** ** reading, rt_multiset.py:102-175, 557-628 *)
(** _nrows of a member: of a Multiset, as its constructor sets it (117-133; None without members).
    The constructor refuses ([None] here) two different row numbers, the first not 0 *)
Fixpoint req_rows (ns : list (option nat)) (req : option nat) : option (option nat) :=
  match ns with
  | [] => Some req
  | v :: r =>
      match req with
      | Some (S k) => match v with Some m => if m =? S k then req_rows r req else None | None => None end
      | _ => req_rows r v
      end
  end.
Fixpoint nrows_tree (t : tree) : option nat :=
  match t with
  | Leaf d => nrows_of (cols d)
  | Node l => match req_rows (map (fun p => nrows_tree (snd p)) l) (Some 0) with
              | Some r => match l with [] => None | _ => r end
              | None => None
              end
  end.
Definition make (l : list (name * tree)) : option tree :=
  match req_rows (map (fun p => nrows_tree (snd p)) l) (Some 0) with Some _ => Some (Node l) | None => None end.
(** 588-612 [ms[col]]: the member of that name, else the column of every member that has it *)
Fixpoint get_col (c : name) (t : tree) : option tree :=
  match t with
  | Leaf d => match dget c (cols d) with Some v => Some (Leaf (mkDs [] [(c, v)])) | None => None end
  | Node l =>
      match dget c l with
      | Some m => Some m
      | None =>
          match flat_map (fun p => match get_col c (snd p) with Some m => [(fst p, m)] | None => [] end) l with
          | [] => None
          | ms => make ms
          end
      end
  end.
(** arr[rows] for a list of row numbers in range; [None]: IndexError *)
Definition take (rows : list nat) (c : list V) : option (list V) := all_some (nth_error c) rows.
Definition take_rows (rows : list nat) (t : table V) : option (table V) :=
  all_some (fun c => match take rows (snd c) with Some v => Some (fst c, v) | None => None end) t.
(** 239-272 [_copy] with the rows and columns of [ms[rows, [cols]]] (628): each Dataset's _copy; the labels
    that are left stay (rt_dataset.py:722) *)
Definition copy_ds (rows : option (list nat)) (cs : option (list name)) (d : ds) : option ds :=
  match match cs with None => Some (cols d) | Some ns => pick_go ns (cols d) [] end with
  | None => None
  | Some t =>
      match match rows with None => Some t | Some rs => take_rows rs t end with
      | None => None
      | Some t' => Some (set_labels (labels d) t')
      end
  end.
Fixpoint copy_tree (rows : option (list nat)) (cs : option (list name)) (t : tree) : option tree :=
  match t with
  | Leaf d => match copy_ds rows cs d with Some d' => Some (Leaf d') | None => None end
  | Node l => match all_some (fun p => match copy_tree rows cs (snd p) with Some m => Some (fst p, m) | None => None end) l with
              | Some l' => make l'
              | None => None
              end
  end.
(** 148-175 [multiget] with a list of names, for members that are Datasets *)
Definition multiget (ns : list name) (l : list (name * ds)) : option (list (name * ds)) :=
  match ns with
  | [] => None
  | _ =>
      all_some (fun p => match copy_ds None (Some (filter (fun c => mem c (names (cols (snd p)))) ns)) (snd p) with
                         | Some d => Some (fst p, d)
                         | None => None
                         end)
        (filter (fun p => match filter (fun c => mem c (names (cols (snd p)))) ns with [] => false | _ => true end) l)
  end.
(** 274-284 [copy]: _copy without rows and columns (261-266), into a new Multiset, whose _gbkeys is None
    (112) *)
Record mset := mkMs { ms_members : list (name * tree); ms_gbkeys : option (list name) }.
Definition copy (m : mset) : mset := mkMs (fold_left (fun d p => dset (fst p) (snd p) d) (ms_members m) []) None.
End Multiset.

(** ** a Multiset as it changes, rt_multiset.py:102-232 and rt_struct.py:394-563 *)
Section History.
(** a member, as an object with an identity, and its _nrows now *)
Context {M : Type}.
Variable valid : name -> bool.
Record state := mkState { st_items : list (name * (M * option nat)); st_nrows : option nat; st_locked : bool }.
Inductive op :=
| New (l : list (name * (M * option nat)))               (* Multiset({...}) *)
| SetItem (n : name) (v : M * option nat)                (* ms[n] = v *)
| SetItems (ns : list name) (vs : list (M * option nat)) (* ms[[...]] = [...], more than one name *)
| SetAttr (n : name) (v : M * option nat)                (* ms.n = v, for a name that is a valid column name *)
| Del (n : name)                                         (* del ms.n *)
| Lock | Unlock
| Member_ (n : name) (k : nat).                          (* ms.n.filter(..., inplace=True): k rows are left *)
(** 124-127, 142, 211, 228: [self._nrows and self._nrows != value._nrows] *)
Definition clash (nrows v : option nat) : bool :=
  match nrows with Some (S k) => match v with Some m => negb (m =? S k) | None => true end | _ => false end.
(** rt_struct.py:520-563 [__setattr__]; [None]: raises *)
Definition set_attr (n : name) (v : M * option nat) (s : state) : option state :=
  if st_locked s then None
  else if clash (st_nrows s) (snd v) then None
  else Some (mkState (dset n v (st_items s)) (st_nrows s) (st_locked s)).
(** 208-221 *)
Definition set_item (n : name) (v : M * option nat) (s : state) : option state :=
  if clash (st_nrows s) (snd v) then None
  else if mem n (names (st_items s)) || valid n then
    match set_attr n v s with
    | Some s' => Some (mkState (st_items s') (snd v) (st_locked s'))
    | None => None
    end
  else None.
(** 225-231: zip; what was set before an exception stays *)
Fixpoint set_items (l : list (name * (M * option nat))) (s : state) : state * bool :=
  match l with
  | [] => (s, true)
  | (n, v) :: r =>
      match set_attr n v s with
      | Some s' => set_items r (mkState (st_items s') (snd v) (st_locked s'))
      | None => (s, false)
      end
  end.
Definition del {X} (n : name) (d : list (name * X)) : list (name * X) := filter (fun p => if name_dec (fst p) n then false else true) d.
(** the state after an operation, and whether it returned *)
Definition step (s : state) (o : op) : state * bool :=
  match o with
  | New l =>
      (* 117-133; the names of a Python dict are distinct *)
      match req_rows (map (fun p => snd (snd p)) l) (Some 0) with
      | Some r => (mkState (dset_all l []) (match l with [] => None | _ => r end) false, true)
      | None => (s, false)
      end
  | SetItem n v => match set_item n v s with Some s' => (s', true) | None => (s, false) end
  | SetItems ns vs =>
      if forallb (fun n => mem n (names (st_items s))) ns then set_items (combine ns vs) s else (s, false)
  | SetAttr n v =>
      if mem n (names (st_items s)) || valid n then
        match set_attr n v s with Some s' => (s', true) | None => (s, false) end
      else (s, false)
  | Del n =>
      (* rt_struct.py:457-470, 507-513 *)
      if st_locked s then (s, false)
      else if mem n (names (st_items s)) then
        let items := del n (st_items s) in
        (mkState items (match items with [] => None | _ => st_nrows s end) (st_locked s), true)
      else (s, false)
  | Lock => (mkState (st_items s) (st_nrows s) true, true)
  | Unlock => (mkState (st_items s) (st_nrows s) false, true)
  | Member_ n k =>
      match dget n (st_items s) with
      | Some (m, _) => (mkState (dset n (m, Some k) (st_items s)) (st_nrows s) (st_locked s), true)
      | None => (s, false)
      end
  end.
Definition run (os : list op) : state := fold_left (fun s o => fst (step s o)) os (mkState [] None false).
End History.

(** ** apply_schema, rt_meta.py:205-279 *)
Section Meta.
Context {Txt : Type}.
Variables no_description no_steward : Txt.
Notation obj := (obj Txt).
Notation schema := (schema Txt).
(** an entry of the dictionary that is returned *)
Inductive entry := Text (t : name) | Sub (l : list (name * entry)).
Variables k_type k_extra k_missing : name.
(** 260-262 *)
Definition described (a : about Txt) : about Txt :=
  mkAbout (Some (match description a with Some d => d | None => no_description end))
          (Some (match steward a with Some x => x | None => no_steward end)) (detail a).
(** 264-265 (the text is replaced by the type found) *)
Definition check_type (type : name) (stype : option name) : list (name * entry) :=
  match stype with
  | Some (x :: y) => if name_dec type (x :: y) then [] else [(k_type, Text type)]
  | _ => []
  end.
(** 267-278; the object with its new metadata and the dictionary; [None]: contents asked of an array
    raise AttributeError *)
Fixpoint apply_schema (o : obj) (s : schema) {struct o} : option (obj * list (name * entry)) :=
  match o, s with
  | Other, _ => Some (Other, [])
  | Array type _, Schema a stype cs =>
      match cs with
      | [] => Some (Array type (Some (described a)), check_type type stype)
      | _ => None
      end
  | Cont type _ items, Schema a stype cs =>
      match cs with
      | [] => Some (Cont type (Some (described a)) items, check_type type stype)
      | _ =>
          match (fix go (its : list (name * obj)) (res : list (name * entry)) : option (list (name * obj) * list (name * entry)) :=
                   match its with
                   | [] => Some ([], res)
                   | (k, x) :: r =>
                       match dget k cs with
                       | Some e =>
                           if blank e then
                             (* 270, 274: an empty dictionary counts as absent *)
                             match go r (dset k_extra (Text k) res) with Some (r', res') => Some ((k, x) :: r', res') | None => None end
                           else
                             match apply_schema x e with
                             | None => None
                             | Some (x', er) =>
                                 match go r (match er with [] => res | _ => dset k (Sub er) res end) with
                                 | Some (r', res') => Some ((k, x') :: r', res')
                                 | None => None
                                 end
                             end
                       | None => match go r (dset k_extra (Text k) res) with Some (r', res') => Some ((k, x) :: r', res') | None => None end
                       end
                   end) items (check_type type stype) with
          | None => None
          | Some (items', res) =>
              Some (Cont type (Some (described a)) items',
                    fold_left (fun res k => if mem k (map fst items) then res else dset k_missing (Text k) res) (map fst cs) res)
          end
      end
  end.
(** 303-338 [info]: description, steward and detail of the object, and of its items the name, type,
    description and steward *)
Definition type_of (o : obj) : name := match o with Array t _ => t | Cont t _ _ => t | Other => [] end.
Definition said (o : obj) : Txt * Txt :=
  match about_of o with
  | Some a => (match description a with Some d => d | None => no_description end, match steward a with Some x => x | None => no_steward end)
  | None => (no_description, no_steward)
  end.
Definition info_items (o : obj) : list (name * name * (Txt * Txt)) :=
  match o with Cont _ _ items => map (fun p => (fst p, type_of (snd p), said (snd p))) items | _ => [] end.
End Meta.
