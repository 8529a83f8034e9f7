(** Datasets with label columns, summary columns and footer rows: arithmetic between them, trim,
    AccumTable, accum_ratio, accum_ratiop and accum_cols (rt_dataset.py:2483-2604, 7787-7940;
    rt_accumtable.py), on top of the two-way tables of Acc2Model.v.

    Simplifications: cells, keys and totals are of one type [V] with one invalid (NaN), all columns but
    the labels are computable; a Dataset is a value: the tables given to an AccumTable are separate
    objects that are not changed elsewhere (what sharing does to footers is in FootModel.v); names are
    valid column names; the renaming of categories called Numer, Denom or Ratio (rt_accumtable.py:1000-1002)
    is left out. *)
From Coq Require Import List Arith Bool ZArith.
From Verif Require Import FlattenModel DsModel GroupingModel AggModel Acc2Model.
Import ListNotations.

Section Marg.
Context {V : Type}.
Variable inv : V.

(** [m_labels]: label_get_names(), [m_sums]: summary_get_names(), [m_foot]: footer_get_dict() *)
Record mds := mkM { m_cols : list (name * list V); m_labels : list name; m_sums : list name; m_foot : list (name * list (name * V)) }.
Definition nrows (d : mds) : nat := match m_cols d with (_, v) :: _ => length v | [] => 0 end.
(** the values of a footer_get_values(fill_value=np.nan) row *)
Definition footer_row (d : mds) (vals : list (name * V)) : list V :=
  map (fun c => match dget c vals with Some v => v | None => inv end) (names (m_cols d)).
(** ds.keys().index(name) *)
Fixpoint index (c : name) (l : list name) : nat :=
  match l with [] => 0 | k :: r => if name_dec k c then 0 else S (index c r) end.
Definition eq_nats (a b : list nat) : bool := if list_eq_dec Nat.eq_dec a b then true else false.
Definition isnil {A} (l : list A) : bool := match l with [] => true | _ => false end.

(** ** arithmetic between Datasets *)
(** rt_dataset.py:2562-2572 *)
Definition footers_conform (a b : mds) : bool :=
  if isnil (m_foot a) || isnil (m_foot b) then isnil (m_foot a) && isnil (m_foot b)
  else (length (m_foot a) =? length (m_foot b)) && (length (m_cols a) =? length (m_cols b)).
(** 2574-2592; [right]: left_or_right == "right" *)
Definition columns_conform (get : mds -> list name) (right : bool) (a b : mds) : bool :=
  if isnil (get a) || isnil (get b) then isnil (get a) && isnil (get b)
  else
    let ia := map (fun c => index c (names (m_cols a))) (get a) in
    let ib := map (fun c => index c (names (m_cols b))) (get b) in
    let n := length (m_cols a) in let k := length (get a) in
    eq_nats ia ib && eq_nats ia (if right then seq (n - k) k else seq 0 k).
(** 2561-2604 *)
Definition conform (a b : mds) : bool :=
  footers_conform a b && columns_conform m_labels false a b && columns_conform m_sums true a b.
Definition summary_name (i : nat) : name := [83; 117; 109; 109; 97; 114; 121] ++ digits (Nat.to_uint i).
Definition footer_name (i : nat) : name := [70; 111; 111; 116; 101; 114] ++ digits (Nat.to_uint i).
Definition zip_with (op : V -> V -> V) (u v : list V) : list V := map (fun p => op (fst p) (snd p)) (combine u v).

(** the loop of 2526-2541: (new columns, number of summary columns so far) *)
Fixpoint binop_cols (op : V -> V -> V) (conf : bool) (a b : mds) (l : list (name * list V)) (k : nat) (od : list (name * list V)) : list (name * list V) :=
  match l with
  | [] => od
  | (c, v) :: r =>
      let sm := conf && mem c (m_sums a) in
      let od_name := if sm then summary_name k else c in
      let lhs_name := if sm then nth k (m_sums b) [] else c in
      let w := if mem c (m_labels a) then v else match dget lhs_name (m_cols b) with Some u => zip_with op v u | None => v end in
      binop_cols op conf a b r (if sm then S k else k) (dset od_name w od)
  end.
(** 2483-2500 _construct_new_footers, one footer: the values [arr] of the columns that are not labels *)
Fixpoint new_footer (a : mds) (l : list name) (arr : list V) (k : nat) (acc : list (name * V)) : list (name * V) :=
  match l, arr with
  | c :: r, x :: arr => if mem c (m_sums a) then new_footer a r arr (S k) (dset (summary_name k) x acc) else new_footer a r arr k (dset c x acc)
  | _, _ => acc
  end.
(** 2512-2559 _operate_iter_input_cols; ValueError if a column of the other Dataset has another length
    (2409-2416) *)
Definition binop (op : V -> V -> V) (a b : mds) : option mds :=
  let conf := conform a b in
  let used := existsb (fun c => mem c (names (m_cols b))) (names (m_cols a)) || (conf && negb (isnil (m_sums a))) in
  if used && negb (nrows a =? nrows b) then None
  else
    let od := binop_cols op conf a b (m_cols a) 0 [] in
    let sums := if conf then map summary_name (seq 0 (length (m_sums a))) else [] in
    let nl := length (m_labels a) in
    let foot := if conf then
        map (fun p => (footer_name (fst p),
                       new_footer a (skipn nl (names (m_cols a)))
                         (zip_with op (skipn nl (footer_row a (snd (fst (snd p))))) (skipn nl (footer_row b (snd (snd (snd p)))))) 0 []))
            (combine (seq 0 (length (m_foot a))) (combine (m_foot a) (m_foot b)))
      else [] in
    Some (mkM od (m_labels a) sums foot).

(** ** trim (7787-7940) with the default arguments; [blank]: isnanorzero of a value *)
Variable blank : V -> bool.
Definition pick {A} (mask : list bool) (l : list A) : list A := map snd (filter fst (combine mask l)).
(** restriction to some of the columns (footers and tags go with the columns) *)
Definition only (cs : list name) (d : list (name * list V)) : list (name * list V) := filter (fun p => mem (fst p) cs) d.
Definition keep_cols (cs : list name) (d : mds) : mds :=
  mkM (only cs (m_cols d)) (filter (fun c => mem c cs) (m_labels d)) (filter (fun c => mem c cs) (m_sums d))
      (map (fun p => (fst p, filter (fun q => mem (fst q) cs) (snd p))) (m_foot d)).
(** the Dataset, and the mask of the rows if there is one *)
Definition trim (d : mds) : mds * option (list bool) :=
  let data := filter (fun p => negb (mem (fst p) (m_labels d))) (m_cols d) in
  let kept := filter (fun p => negb (length (filter blank (snd p)) =? length (snd p))) data in
  let cs := map fst (filter (fun p => mem (fst p) (m_labels d) || mem (fst p) (names kept)) (m_cols d)) in
  let d' := keep_cols cs d in
  match kept with
  | [] => (d', None)
  | (_, v) :: r =>
      let rowmask := fold_left (fun m p => map (fun q => fst q && blank (snd q)) (combine m (snd p))) r (map blank v) in
      if existsb (fun b => b) rowmask then
        let keep := map negb rowmask in
        (mkM (map (fun p => (fst p, pick keep (snd p))) (m_cols d')) (m_labels d') (m_sums d') (m_foot d'), Some keep)
      else (d', None)
  end.

(** ** AccumTable (rt_accumtable.py) *)
(** item_rename, rt_itemcontainer.py:409-440: [None] is ValueError *)
Definition swap (old new c : name) : name := if name_dec c old then new else c.
Definition rename_keys {X} (old new : name) (d : list (name * X)) : list (name * X) := map (fun p => (swap old new (fst p), snd p)) d.
Definition col_rename (old new : name) (d : mds) : option mds :=
  if name_dec old new then Some d
  else if negb (mem old (names (m_cols d))) || mem new (names (m_cols d)) then None
  else Some (mkM (rename_keys old new (m_cols d)) (map (swap old new) (m_labels d)) (map (swap old new) (m_sums d))
                 (map (fun p => (fst p, rename_keys old new (snd p))) (m_foot d))).
(** footer_set_values; [None]: a column is missing *)
Definition footer_set (lab : name) (vals : list (name * V)) (d : mds) : option mds :=
  if forallb (fun p => mem (fst p) (names (m_cols d))) vals then
    Some (mkM (m_cols d) (m_labels d) (m_sums d)
              (dset lab (dset_all vals (match dget lab (m_foot d) with Some o => o | None => [] end)) (m_foot d)))
  else None.
Definition footer_remove (lab : name) (d : mds) : mds :=
  mkM (m_cols d) (m_labels d) (m_sums d) (filter (fun p => if name_dec (fst p) lab then false else true) (m_foot d)).
(** 276-298 _rename_summary_row_and_col *)
Definition rename_summary (new : name) (d : mds) : option mds :=
  match (match m_sums d with [old] => col_rename old new d | _ => Some d end) with
  | None => None
  | Some d1 => match m_foot d1 with
               | [(old, nd)] => footer_set new nd (footer_remove old d1)
               | _ => Some d1
               end
  end.
(** [t_rows], [t_cols]: the keys of _rows and _cols, [t_def]: _default_inner_name *)
Record atable := mkT { t_inner : list (name * mds); t_rows : list name; t_cols : list name; t_def : option name }.
Definition empty_table : atable := mkT [] [] [] None.
Definition add_key (k : name) (l : list name) : list name := if mem k l then l else l ++ [k].
(** 220-248 __setitem__; false: ValueError (the entry has been made) *)
Definition at_set (k : name) (d : mds) (t : atable) : atable * bool :=
  match rename_summary k d with
  | Some d' => (mkT (dset k d' (t_inner t)) (add_key k (t_rows t)) (add_key k (t_cols t)) (Some k), true)
  | None => (mkT (dset k d (t_inner t)) (add_key k (t_rows t)) (add_key k (t_cols t)) (t_def t), false)
  end.
(** 251-273 __getitem__ *)
Definition at_get (k : name) (t : atable) : atable * option mds :=
  (mkT (t_inner t) (t_rows t) (t_cols t) (Some k), dget k (t_inner t)).
(** 442-581, 584-719 *)
Definition set_margins (l : list name) (t : atable) : atable := mkT (t_inner t) (t_rows t) (fold_left (fun a k => add_key k a) l []) (t_def t).
Definition set_footers (l : list name) (t : atable) : atable := mkT (t_inner t) (fold_left (fun a k => add_key k a) l []) (t_cols t) (t_def t).

(** clean[k] = v *)
Definition assign (k : name) (v : list V) (d : mds) : option mds :=
  if isnil (m_cols d) || (length v =? nrows d) then Some (mkM (dset k v (m_cols d)) (m_labels d) (m_sums d) (m_foot d)) else None.
(** summary_set_names: names that are columns; a name given twice has its last place *)
Fixpoint once_last (l : list name) : list name :=
  match l with [] => [] | k :: r => if mem k r then once_last r else k :: once_last r end.
Definition set_sums (l : list name) (d : mds) : mds :=
  mkM (m_cols d) (m_labels d) (once_last (filter (fun k => mem k (names (m_cols d))) l)) (m_foot d).
Definition apply_mask (mask : option (list bool)) (v : list V) : list V := match mask with Some m => pick m v | None => v end.
(** 426-428 *)
Fixpoint add_margins (l : list name) (inner : list (name * mds)) (mask : option (list bool)) (clean : mds) : option mds :=
  match l with
  | [] => Some clean
  | k :: r => match dget k inner with
              | None => None
              | Some d => match dget k (m_cols d) with
                          | None => None
                          | Some v => match assign k (apply_mask mask v) clean with
                                      | None => None
                                      | Some clean => add_margins r inner mask clean
                                      end
                          end
              end
  end.
(** 432-437 *)
Fixpoint add_footers (l : list name) (inner : list (name * mds)) (clean : mds) : option mds :=
  match l with
  | [] => Some clean
  | k :: r => match dget k inner with
              | None => None
              | Some d => match dget k (m_foot d) with
                          | None => None
                          | Some fd => match footer_set k (filter (fun p => mem (fst p) (names (m_cols clean))) fd) clean with
                                       | None => None
                                       | Some clean => add_footers r inner clean
                                       end
                          end
              end
  end.
Definition others (k : name) (l : list name) : list name := filter (fun c => if name_dec c k then false else true) l.
(** 301-439 gen *)
Definition gen (table_name : option name) (remove_blanks : bool) (t : atable) : atable * option mds :=
  match (match table_name with Some k => Some k | None => t_def t end) with
  | None => (t, None)
  | Some k =>
      let t1 := mkT (t_inner t) (t_rows t) (t_cols t) (Some k) in
      (t1, match dget k (t_inner t) with
           | None => None
           | Some orig =>
               let '(clean, mask) := if remove_blanks then trim orig else (orig, None) in
               match add_margins (others k (t_cols t)) (t_inner t) mask clean with
               | None => None
               | Some clean' => add_footers (others k (t_rows t)) (t_inner t) (set_sums (m_sums clean ++ others k (t_cols t)) clean')
               end
           end)
  end.

(** one use of an AccumTable *)
Inductive top := TSet (k : name) (d : mds) | TGet (k : name) | TMargins (l : list name) | TFooters (l : list name) | TGen (k : option name) (b : bool).
Definition tstep (t : atable) (o : top) : atable :=
  match o with
  | TSet k d => fst (at_set k d t)
  | TGet k => fst (at_get k t)
  | TMargins l => set_margins l t
  | TFooters l => set_footers l t
  | TGen k b => fst (gen k b t)
  end.
Definition tfinal (ops : list top) : atable := fold_left tstep ops empty_table.

(** ** accum_ratio, accum_ratiop and accum_cols on the two-way tables *)
Variable lexsort : list (list V) -> list nat.
Variable binname : list V -> V.
Variable label : list V -> name.
Variable inv_label : nat -> name.
Variable zero : V.
(** a method of the table object (nansum, min, ..): the calculation [c_f], the name [c_nm] and the
    function [c_func] of its totals *)
Record calc := mkC { c_nm : name; c_f : list V -> V; c_func : list V -> V }.
(** func(val, filter=filt): the Dataset of rt_accum2.py:918-995, its totals being the summary column and
    the footer (579, 593), its keys the labels (977) *)
Definition compute (c : calc) (val : list V) (filt : option (list bool)) (a : acc2) : acc2 * option mds :=
  let '(a1, r) := calculate2 inv lexsort binname label inv_label zero (c_f c) (OnePass (c_nm c) (c_func c)) val filt false a in
  let labels := names (snd (get_gbkeys inv lexsort binname false a1)) in
  (a1, match r with Some (d, foot) => Some (mkM d labels [c_nm c] [(c_nm c, foot)]) | None => None end).

Definition numer : name := [78; 117; 109; 101; 114].
Definition denom : name := [68; 101; 110; 111; 109].
Definition ratio : name := [82; 97; 116; 105; 111].
Definition at_set' (k : name) (d : option mds) (t : option atable) : option atable :=
  match d, t with Some d, Some t => let '(t, ok) := at_set k d t in if ok then Some t else None | _, _ => None end.
(** 1004-1013, the table; [div]: / *)
Definition ratio_table (div : V -> V -> V) (c1 c2 : calc) (val1 val2 : list V) (filt1 filt2 : option (list bool)) (a : acc2) : acc2 * option atable :=
  let '(a1, d1) := compute c1 val1 filt1 a in
  let t1 := at_set' numer d1 (Some empty_table) in
  let '(a2, d2) := compute c2 val2 filt2 a1 in
  let t2 := at_set' denom d2 t1 in
  (a2, match t2 with
       | None => None
       | Some t2 => match at_get numer t2 with
                    | (t3, Some n) => match at_get denom t3 with
                                      | (t4, Some d) => at_set' ratio (binop div n d) (Some t4)
                                      | _ => None
                                      end
                    | _ => None
                    end
       end).
(** 982-1021: filt2=None is filt1 *)
Definition accum_ratio (div : V -> V -> V) (c1 c2 : calc) (val1 val2 : list V) (filt1 filt2 : option (list bool))
           (include_numer include_denom remove_blanks : bool) (a : acc2) : acc2 * option mds :=
  let filt2 := match filt2 with None => filt1 | _ => filt2 end in
  let '(a1, t) := ratio_table div c1 c2 val1 val2 filt1 filt2 a in
  let footers := (if include_numer then [numer] else []) ++ (if include_denom then [denom] else []) in
  (a1, match t with
       | None => None
       | Some t => snd (gen (Some ratio) remove_blanks (set_footers footers (set_margins footers t)))
       end).

Definition total_ratio : name := [84; 111; 116; 97; 108; 82; 97; 116; 105; 111].
Definition total : name := [84; 111; 116; 97; 108].
Inductive norm := ByTable | ByRow | ByColumn.
(** accumr[col] = g(accumr[col], ..) *)
Definition map_col (k : name) (g : list V -> option (list V)) (d : option mds) : option mds :=
  match d with
  | None => None
  | Some d => match dget k (m_cols d) with
              | None => None
              | Some v => match g v with None => None | Some w => assign k w d end
              end
  end.
Definition set_footer_map (h : V -> V) (d : option mds) : option mds :=
  match d with
  | None => None
  | Some d => match dget total_ratio (m_foot d) with
              | None => None
              | Some fd => footer_set total_ratio (map (fun p => (fst p, h (snd p))) fd) d
              end
  end.
(** footer_get_dict()["TotalRatio"][col] *)
Definition footer_at (col : name) (d : mds) : option V :=
  match dget total_ratio (m_foot d) with None => None | Some fd => dget col fd end.
(** 1292-1323; [pct]: 100 * x / y, [hundred]: 100.0 *)
Definition normalize (pct : V -> V -> V) (hundred : V) (n : norm) (d : mds) : option mds :=
  let fixed := others total_ratio (m_labels d ++ m_sums d) in
  let keys := filter (fun k => negb (mem k fixed)) (names (m_cols d)) in
  match n with
  | ByTable =>
      match footer_at total_ratio d with
      | None => None
      | Some tot => fold_left (fun d k => map_col k (fun v => Some (map (fun x => pct x tot) v)) d) keys
                      (set_footer_map (fun x => pct x tot) (Some d))
      end
  | ByRow =>
      match footer_at total_ratio d with
      | None => None
      | Some tot => fold_left (fun d k => match d with
                                          | None => None
                                          | Some d' => map_col k (fun v => match dget total_ratio (m_cols d') with
                                                                           | Some u => Some (zip_with pct v u)
                                                                           | None => None
                                                                           end) d
                                          end) keys
                      (set_footer_map (fun x => pct x tot) (Some d))
      end
  | ByColumn =>
      set_footer_map (fun _ => hundred)
        (fold_left (fun d k => match d with
                               | None => None
                               | Some d' => match footer_at k d' with
                                            | None => None
                                            | Some tot => map_col k (fun v => Some (map (fun x => pct x tot) v)) d
                                            end
                               end) keys (Some d))
  end.
(** 1267-1323 *)
Definition accum_ratiop (pct : V -> V -> V) (hundred : V) (c : calc) (val : list V) (filt : option (list bool)) (n : norm)
           (include_total remove_blanks : bool) (a : acc2) : acc2 * option mds :=
  let '(a1, d1) := compute c val filt a in
  let t1 := at_set' total_ratio d1 (Some empty_table) in
  let '(a2, t2) := if include_total then let '(a2, d2) := compute c val filt a1 in (a2, at_set' total d2 t1) else (a1, t1) in
  (a2, match t2 with
       | None => None
       | Some t2 => match snd (gen (Some total_ratio) remove_blanks t2) with None => None | Some d => normalize pct hundred n d end
       end).

Definition not_grouped : name := [78; 111; 116; 71; 114; 111; 117; 112; 101; 100].
(** a column of accum_cols: an array, (array, 'p'), (array, array) *)
Inductive col_arg := Plain (v : list V) | Percent (v : list V) | Ratio (v w : list V).
(** 1628-1641 *)
Definition col_data (div pct : V -> V -> V) (hundred : V) (x : col_arg) (filt : option (list bool)) (c : calc) (a : acc2) : acc2 * option mds :=
  match x with
  | Plain v => compute c v filt a
  | Percent v => accum_ratiop pct hundred c v filt ByTable false false a
  | Ratio v w => accum_ratio div c c v w filt filt false true false a
  end.
(** 1643-1652; [width]: len(cat.category_dict); [foot0]: the value if there is no footer *)
Definition add_result (width : nat) (nm : name) (data : mds) (results : option mds) : option mds :=
  match dget not_grouped (m_cols data), m_foot data with
  | Some v, (_, fd) :: _ =>
      let results := match results with
                     | Some r => assign nm v r
                     | None => let cs := firstn width (names (m_cols data)) in
                               let r := keep_cols cs data in
                               assign nm v (mkM (m_cols r) (m_labels r) (m_sums r) [])
                     end in
      match results with
      | None => None
      | Some r => footer_set total [(nm, match dget not_grouped fd with Some x => x | None => zero end)] r
      end
  | _, _ => None
  end.
(** 1607-1657 without remove_blanks; None at the end: no column *)
Fixpoint accum_cols (div pct : V -> V -> V) (hundred : V) (width : nat) (l : list (col_arg * (name * (option (list bool) * calc)))) (results : option mds) (a : acc2)
  : acc2 * option mds :=
  match l with
  | [] => (a, results)
  | (x, (nm, (filt, c))) :: r =>
      let '(a1, d) := col_data div pct hundred x filt c a in
      match d with
      | None => (a1, None)
      | Some d => match add_result width nm d results with
                  | None => (a1, None)
                  | Some res => accum_cols div pct hundred width r (Some res) a1
                  end
      end
  end.
End Marg.
