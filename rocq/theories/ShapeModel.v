(** Model of Dataset operations that change the shape of the table or collapse it: pivot
    (riptable/rt_dataset.py:7987-8144), transpose (5891-5949), imatrix_make (1912-2008), reduce
    (6463-6596), any / all (3388-3554, 3795-3958) and one_hot_encode (2888-2977).

    A dataset is an ordered dictionary from names to columns.  Simplifications: cells of all columns
    are of one type [V] with one invalid; Categorical columns are given apart where they matter;
    names that are not allowed as column names are left out, so are array names and attributes
    other than those mentioned. *)
From Coq Require Import List Arith Bool.
From Verif Require Import FlattenModel GroupModel GroupingModel DsModel AggModel.
Import ListNotations.

Inductive exn := EValue | EIndex | EType.

Section Shape.
Context {V : Type}.
Variable inv : V.
(** astype("U") of one element *)
Variable str : V -> name.
Definition tbl := list (name * list V).

(** self[list of names]: [None] is IndexError for an unknown name *)
Fixpoint fetch (d : tbl) (ns : list name) : option tbl :=
  match ns with
  | [] => Some []
  | n :: r => match dget n d, fetch d r with Some c, Some l => Some ((n, c) :: l) | _, _ => None end
  end.

(** ** pivot *)
(** grouping.ikey, unique_count and uniquedict of a Categorical *)
Record grp := mkG { g_code : list nat; g_n : nat; g_dict : tbl }.
(** Dataset.cat (6082-6120), C++ grouping *)
Variable cat : tbl -> grp.
(** the "_" of line 8120 *)
Definition underscore : nat := 95.
(** 8115-8120 *)
Definition pivot_name (ccd : tbl) (i : nat) : name :=
  match ccd with
  | [] => []
  | p :: r => fold_left (fun c q => c ++ underscore :: str (nth i (snd q) inv)) r (str (nth i (snd p) inv))
  end.
(** rt_grouping.py:1557-1574 with base_index 1: the first row of the bins 1 .. n, rt_numpy.py:1767-1791
    (an invalid for a bin without rows) *)
Definition ifirst (ikey : list nat) (n : nat) : list (option nat) := map (fun b => hd_error (group_rows ikey b)) (seq 1 n).
(** val[ifirstkey] *)
Definition at_first (v : list V) (idx : list (option nat)) : list V :=
  map (fun o => match o with Some r => nth r v inv | None => inv end) idx.
(** 8101-8125 make_dataset *)
Definition pivot_dataset (idx : list (option nat)) (row_len : nat) (ccd v_newds : tbl) (v : list V) : option tbl :=
  let arr_long := at_first v idx in
  let outerloop := match ccd with (_, c) :: _ => length c | [] => 0 end in
  snd (fold_left (fun s i => let '(start, newds) := s in
         (start + row_len, set_col (pivot_name ccd i) (firstn (row_len - 1) (skipn start arr_long)) newds))
       (seq 0 outerloop) (row_len, Some v_newds)).
(** 8128-8134: a dictionary by the name of the value column *)
Fixpoint pivot_values (d : tbl) (idx : list (option nat)) (row_len : nat) (ccd crd : tbl) (vs : list name) (ms : list (name * tbl))
  : list (name * tbl) + exn :=
  match vs with
  | [] => inl ms
  | n :: r => match dget n d with
              | None => inr EIndex
              | Some v => match pivot_dataset idx row_len ccd crd v with
                          | None => inr EValue
                          | Some t => pivot_values d idx row_len ccd crd r (dset n t ms)
                          end
              end
  end.
(** 7987-8144; [labels]: the argument, or the existing labels.  The result: a dataset per value
    column (a Multiset; the Dataset itself if there is only one). *)
Definition pivot (d : tbl) (labels columns : list name) (values : option (list name)) (flt : option (list bool))
  : list (name * tbl) + exn :=
  match labels, columns with
  | [], _ | _, [] => inr EValue
  | _, _ =>
      let vs := match values with
                | Some vs => vs
                | None => filter (fun n => negb (mem n (labels ++ columns))) (map fst d)
                end in
      match vs with
      | [] => inr EValue
      | _ =>
          match fetch d labels, fetch d columns with
          | Some dl, Some dc =>
              let grows := cat dl in
              let gcols := cat dc in
              (* rt_grouping.py:84-133 combine2groups *)
              let ikey := combine2keys (g_n grows) (g_code grows) (g_code gcols) flt in
              let n := S (g_n grows) * S (g_n gcols) in
              let row_len := g_n grows + 1 in
              (* 8091-8097; nCountGroup of rt_numpy.py:1592-1594: bin 0 counts the filtered rows *)
              if existsb (fun b => 1 <? length (group_rows ikey b)) (seq 0 n) then inr EValue
              else pivot_values d (ifirst ikey n) row_len (g_dict gcols) (g_dict grows) vs []
          | _, _ => inr EIndex
          end
      end
  end.

(** ** imatrix_make and transpose *)
(** FastArray.iscomputable of the column *)
Variable computable : name -> bool.
(** a Categorical column *)
Variable is_cat : name -> bool.
(** 1970-1990 *)
Definition matrix_names (d : tbl) (labels : list name) (cats gb : bool) : list name :=
  filter (fun n => (computable n || (is_cat n && cats)) && (gb || negb (mem n labels))) (map fst d).
(** conversion of a cell to the common dtype of the matrix (rt_numpy.py:4729-4788 vstack) *)
Variable conv : V -> V.
(** 1912-2008, and rt_imatrix.py:47-58: the dataset afterwards, and the columns of the matrix *)
Definition imatrix_make (d : tbl) (labels : list name) (colnames : option (list name)) (cats gb inplace : bool)
  : (tbl * tbl) + exn :=
  let ns := match colnames with Some l => l | None => matrix_names d labels cats gb end in
  match ns with
  | [] => inr EValue
  | _ => match fetch d ns with
         | None => inr EIndex
         | Some m => let mat := map (fun p => (fst p, map conv (snd p))) m in
                     inl (if inplace then fold_left (fun ds p => dset (fst p) (snd p) ds) mat d else d, mat)
         end
  end.

(** a name as the value of a string column *)
Variable of_name : name -> V.
(** "C" + str(i), line 5936 *)
Variable cname : nat -> name.
(** 5934-5941; col_as_string (5914-5920) of a cell is [str] *)
Definition transposed_names (d : tbl) (labels : list name) (nrows : nat) : option (list name) :=
  match labels with
  | [] => Some (map cname (seq 0 nrows))
  | _ => match fetch d labels with
         | None => None
         | Some l => Some (map (pivot_name l) (seq 0 nrows))
         end
  end.
(** 5891-5949 *)
Definition transpose (d : tbl) (labels : list name) (colnames : option (list name)) (cats gb : bool) (header : name) : tbl + exn :=
  match imatrix_make d labels colnames cats gb false with
  | inr e => inr e
  | inl (_, mat) =>
      let nrows := match mat with (_, c) :: _ => length c | [] => 0 end in
      match transposed_names d labels nrows with
      | None => inr EIndex
      | Some ns =>
          let tds := Some [(header, map (fun p => of_name (fst p)) mat)] in
          match fold_left (fun ds i => set_col (nth i ns []) (map (fun p => nth i (snd p) inv) mat) ds) (seq 0 nrows) tds with
          | Some t => inl t
          | None => inr EValue
          end
      end
  end.

(** ** reduce *)
(** fill_value: absent, a value or a function *)
Inductive filler := FNone | FVal (v : V) | FFun (f : list V -> V).
Inductive fills := One (x : filler) | PerColumn (l : list (name * filler)).
(** 6507-6528 *)
Definition fill_of (fv : fills) (n : name) : filler :=
  match fv with One x => x | PerColumn l => match dget n l with Some x => x | None => FNone end end.
(** 6534-6551, axis=0 *)
Definition reduce0 (func : list V -> V) (fv : fills) (d : tbl) : list (name * V) :=
  flat_map (fun p => let '(n, v) := p in
    if computable n then [(n, func v)]
    else match fill_of fv n with FFun f => [(n, f v)] | FVal x => [(n, x)] | FNone => [] end) d.
(** 6565-6584: one row for axis=1.  A filler function is applied to the single cell. *)
Definition row_for (fv : fills) (d : tbl) (i : nat) : list V :=
  flat_map (fun p => let '(n, v) := p in
    let x := nth i v inv in
    if computable n then [x]
    else match fill_of fv n with FFun f => [f [x]] | FVal y => [y] | FNone => [] end) d.
Definition no_fill (fv : fills) : bool := match fv with One FNone => true | _ => false end.
Inductive reduced := ByCol (l : list (name * V)) | ByRow (l : list V) | Whole (v : V).
Inductive axis_arg := Axis0 | Axis1 | AxisNone.
(** 6463-6596: the dataset afterwards, and the result *)
Definition reduce (func : list V -> V) (axis : axis_arg) (fv : fills) (labels : list name) (nrows : nat) (d : tbl)
  : tbl * (reduced + exn) :=
  match axis with
  | Axis0 => (d, inl (ByCol (reduce0 func fv d)))
  | Axis1 =>
      if no_fill fv then
        match imatrix_make d labels None false false true with
        | inr e => (d, inr e)
        | inl (d', mat) => (d', inl (ByRow (map (fun i => func (map (fun p => nth i (snd p) inv) mat)) (seq 0 nrows))))
        end
      else (d, inl (ByRow (map (fun i => func (row_for fv d i)) (seq 0 nrows))))
  | AxisNone =>
      if forallb computable (map fst d) then (d, inl (Whole (func (concat (map snd d)))))
      else (d, inl (Whole (func (map snd (reduce0 func fv d)))))
  end.

(** ** any and all *)
Inductive kind := KNumber | KString | KOther.
Variable kindof : name -> kind.
(** arr != 0 for numbers, arr != "" for strings; Python's truth of an element otherwise *)
Variable truthy : V -> bool.
(** 3533-3536, 3937-3940 *)
Definition any0 (d : tbl) : list (name * bool) := map (fun p => (fst p, existsb truthy (snd p))) d.
Definition all0 (d : tbl) : list (name * bool) := map (fun p => (fst p, forallb truthy (snd p))) d.
Definition any_none (d : tbl) : bool := existsb snd (any0 d).
Definition all_none (d : tbl) : bool := forallb snd (all0 d).
(** 3537-3553, 3941-3957 *)
Definition any1 (nrows : nat) (d : tbl) : list bool :=
  fold_left (fun t p => match kindof (fst p) with
                        | KOther => t
                        | _ => map (fun q => fst q || truthy (snd q)) (combine t (snd p))
                        end) d (repeat false nrows).
Definition all1 (nrows : nat) (d : tbl) : list bool :=
  fold_left (fun t p => match kindof (fst p) with
                        | KOther => t
                        | _ => map (fun q => fst q && truthy (snd q)) (combine t (snd p))
                        end) d (repeat true nrows).

(** ** one_hot_encode, 2888-2977 *)
(** a Categorical column: its categories (as text) and the category of every row (None: Filtered) *)
Record catcol := mkCC { cc_cats : list name; cc_code : list (option nat) }.
Variable zero one : V.
(** rt_categorical.py:3138-3165 *)
Definition one_hot (c : catcol) (k : nat) : list V :=
  map (fun o => match o with Some j => if j =? k then one else zero | None => zero end) (cc_code c).
Inductive column := Plain (v : list V) | Cat (c : catcol).
Definition cds := list (name * column).
(** 2967-2975: the columns to remove and the dataset so far; [None]: AttributeError *)
Fixpoint encode (columns : list name) (rem : list name) (d : cds) : option (list name * cds) :=
  match columns with
  | [] => Some (rem, d)
  | c :: r =>
      match dget c d with
      | None => None
      | Some (Plain _) => encode r rem d
      | Some (Cat cc) =>
          encode r (rem ++ [c])
            (fold_left (fun ds k => dset (c ++ [underscore; underscore] ++ nth k (cc_cats cc) []) (Plain (one_hot cc k)) ds)
                       (seq 0 (length (cc_cats cc))) d)
      end
  end.
(** 2960-2965, 2977 *)
Definition one_hot_encode (columns : option (list name)) (exclude : list name) (d : cds) : option cds :=
  let cs := match columns with Some l => l | None => filter (fun n => negb (mem n exclude)) (map fst d) end in
  match encode cs [] d with
  | None => None
  | Some (rem, d') => Some (filter (fun p => negb (mem (fst p) rem)) d')
  end.

End Shape.
