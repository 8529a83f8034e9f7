(** Model of Dataset operations that rearrange whole tables:
    duplicated (riptable/rt_dataset.py:3557-3628), from_tagged_rows / from_rows / from_jagged_rows /
    from_jagged_dict (7478-7784), melt (6781-6855), concat_columns (6995-7138), iterrows
    (1663-1724), trim (7787-7949), and stacking datasets (riptable/rt_hstack.py:388-593).

    A dataset is an ordered dictionary from names to columns; a column is the list of its values.
    Simplifications: dtypes and their promotion, 2-D columns, and the conversion of Categorical
    columns to plain arrays are left out. *)
From Coq Require Import List Arith Bool.
From Verif Require Import FlattenModel MergeModel GroupingModel.
Import ListNotations.

Definition table (V : Type) := list (name * list V).
Definition names {X} (d : list (name * X)) : list name := map fst d.
Definition mem (n : name) (l : list name) : bool := existsb (fun m => if name_dec m n then true else false) l.

(** ** duplicated, rt_dataset.py:3557-3628 *)
Inductive keep_arg := KeepFirst | KeepLast | KeepNone.
(** [result[idx] = False] *)
Definition clear (idx : list nat) (result : list bool) : list bool :=
  fold_left (fun r i => upd i false r) idx result.
(** igroup, ifirstgroup, ncountgroup are the packed grouping of the key columns
    (rt_groupbyops.py:214-234); position 0 of the last two is the bin of filtered rows.  [None]:
    IndexError, from [result[-1]] on an array without elements. *)
Definition duplicated (keep : keep_arg) (igroup ifirstgroup ncountgroup : list nat) : option (list bool) :=
  let at_ p := nth p igroup 0 in
  (* 3603 *)
  let result := repeat true (length igroup) in
  match keep with
  | KeepFirst => Some (clear (map at_ (skipn 1 ifirstgroup)) result)
  | KeepLast =>
      match igroup with
      | [] => None
      | _ =>
          (* 3613 *)
          let lastindex := last ifirstgroup 0 + last ncountgroup 0 - 1 in
          (* 3616-3617 *)
          let ilast := map pred (skipn 2 ifirstgroup) in
          (* 3618, 3621 *)
          Some (upd lastindex false (clear (map at_ ilast) result))
      end
  | KeepNone =>
      (* 3625-3626 *)
      Some (clear (map at_ (compress (map (fun c => c =? 1) ncountgroup) ifirstgroup)) result)
  end.

(** ** from_rows, rt_dataset.py:7537-7571 *)
Section Rows.
Context {V : Type}.
(** [cols[i].append(e)] for every element of the row *)
Fixpoint append_row (cols : list (list V)) (row : list V) : list (list V) :=
  match cols, row with
  | c :: cs, e :: es => (c ++ [e]) :: append_row cs es
  | _, _ => cols
  end.
Fixpoint from_rows_loop (rows : list (list V)) (cols : list (list V)) : option (list (list V)) :=
  match rows with
  | [] => Some cols
  | row :: rest => if length row =? length cols then from_rows_loop rest (append_row cols row) else None
  end.
(** [None]: ValueError, a row of another length *)
Definition from_rows (rows : list (list V)) (column_names : list name) : option (table V) :=
  match column_names with
  | [] => Some []
  | _ => match from_rows_loop rows (map (fun _ => []) column_names) with
         | Some cols => Some (dset_all (combine column_names cols) [])
         | None => None
         end
  end.

(** ** from_tagged_rows, rt_dataset.py:7478-7534 *)
(** a row is a dictionary; [sorted]: Python's sorted() on the key strings *)
Variable sorted : list name -> list name.
(** collections.Counter *)
Definition count_keys (rows : list (list (name * V))) : list (name * nat) :=
  fold_left (fun d row => fold_left (fun d k => dset k (S (match dget k d with Some c => c | None => 0 end)) d) (names row) d) rows [].
(** 7527-7529: [retval[k].append(row[k])] *)
Definition append_tagged (ret : table V) (row : list (name * V)) : table V :=
  fold_left (fun ret p => match dget (fst p) ret with
                          | Some c => dset (fst p) (c ++ [snd p]) ret
                          | None => ret
                          end) row ret.
Inductive rows_result := RowsOk (t : table V) | RowsNotImplemented | RowsBadLength.
(** [length (nodup ..) = 1] is [len(set(keys.values())) == 1]; the constructor of Dataset refuses
    columns of unequal length (675-687) *)
Definition from_tagged_rows (rows : list (list (name * V))) : rows_result :=
  let keys := count_keys rows in
  match rows, keys with
  | [], _ => RowsOk []
  | _, [] => RowsOk []
  | _, _ =>
      if length (nodup Nat.eq_dec (map snd keys)) =? 1
      then let ret := fold_left append_tagged rows (map (fun k => (k, [])) (sorted (names keys))) in
           if length (nodup Nat.eq_dec (map (fun p => length (snd p)) ret)) =? 1
           then RowsOk ret else RowsBadLength
      else RowsNotImplemented
  end.
End Rows.

(** ** from_jagged_rows, rt_dataset.py:7574-7658 *)
(** A string element is its list of characters; the rows are arrays of byte strings or of unicode
    strings (other data is converted to byte strings first, 7606-7613).  itemsize of an array is
    given as its width in characters. *)
Record srow := mkSrow { sr_unicode : bool; sr_width : nat; sr_items : list (list nat) }.
Inductive fill_arg := FillDefault | FillStr (s : list nat) | FillBytes (s : list nat) | FillOther (s : list nat).
Inductive jagged_result := JagOk (t : list (name * list (list nat))) | JagUnbound | JagBadDtype.
(** [decimal]: str(i) *)
Section Jagged.
Variable decimal : nat -> name.
(** 7624-7636; [None]: the variable inv is not bound *)
Definition fill_inv (unicode : bool) (f : fill_arg) : option (list nat) :=
  match f with
  | FillDefault => Some []
  | FillStr s => if unicode then None else Some s
  | FillBytes s => if unicode then Some s else None
  | FillOther s => Some s
  end.
Definition list_max0 (l : list nat) : nat := fold_left Nat.max l 0.
(** 7647-7656: one column; storing cuts a string at the width of the column.  [None]: inv is read
    without being bound *)
Definition jagged_col (rows : list srow) (width : nat) (inv : option (list nat)) (i : nat) : option (list (list nat)) :=
  fold_left (fun acc r =>
    match acc with
    | None => None
    | Some col => match nth_error (sr_items r) i with
                  | Some s => Some (col ++ [firstn width s])
                  | None => match inv with Some s => Some (col ++ [firstn width s]) | None => None end
                  end
    end) rows (Some []).
(** 7641: the width of a unicode column has been divided by 4 and is a float, its text ends in
    ".0", and numpy does not understand that dtype *)
Definition from_jagged_rows (rows : list srow) (base : name) (f : fill_arg) : jagged_result :=
  let unicode := existsb sr_unicode rows in
  let ncols := list_max0 (map (fun r => length (sr_items r)) rows) in
  let width := list_max0 (map sr_width rows) in
  let inv := fill_inv unicode f in
  if (0 <? ncols) && unicode then JagBadDtype
  else fold_left (fun acc i =>
         match acc with
         | JagOk t => match jagged_col rows width inv i with
                      | Some col => JagOk (dset (base ++ decimal i) col t)
                      | None => JagUnbound
                      end
         | e => e
         end) (seq 0 ncols) (JagOk []).
End Jagged.

(** ** from_jagged_dict with stacked=True, rt_dataset.py:7720-7784 *)
Section Stacked.
Context {V : Type}.
Variable zero : V.
(** a scalar entry counts as a list of one value (7743, 7751, 7772): entries are lists here *)
Definition jdict := list (name * list (list V)).
(** 7740-7743 *)
Definition num_rows_ar (cols : list (list (list V))) (m : nat) : list nat :=
  fold_left (fun ar vals => map (fun p => fst p * length (snd p)) (combine ar vals)) cols (repeat 1 m).
(** 7757-7760: the array of the column and whether it is complete *)
Definition start_col (num_rows : nat) (vals : list (list V)) : list V * bool :=
  let type_col := concat vals in
  if length type_col =? num_rows then (type_col, true) else (repeat zero num_rows, false).
(** 7774-7780: the values written for one row; *)
Definition block (num_tiles num_repeats : nat) (val : list V) : list V :=
  concat (repeat (concat (map (fun v => repeat v num_repeats) val)) num_tiles).
(** 7768-7781 for one input row; [None]: a division by zero, int() of nan or infinity *)
Fixpoint fill_row (in_row out_row num_out num_repeats : nat) (cols : list (list (list V))) (st : list (list V * bool))
  : option (list (list V * bool)) :=
  match cols, st with
  | vals :: cols', (arr, done) :: st' =>
      if done then option_map (cons (arr, done)) (fill_row in_row out_row num_out num_repeats cols' st')
      else
        let val := nth in_row vals [] in
        if num_repeats * length val =? 0 then None
        else
          let num_tiles := num_out / (num_repeats * length val) in
          option_map (cons (put_slice arr out_row (block num_tiles num_repeats val), done))
            (fill_row in_row out_row num_out (num_repeats * length val) cols' st')
  | _, _ => Some []
  end.
Definition fill_rows (cols : list (list (list V))) (ar : list nat) (m : nat) (st : list (list V * bool)) : option (list (list V * bool)) :=
  fst (fold_left (fun acc i =>
         match acc with
         | (Some st, out) => (fill_row i out (nth i ar 0) 1 cols st, out + nth i ar 0)
         | (None, out) => (None, out)
         end) (seq 0 m) (Some st, 0)).
(** [None]: an exception (columns of unequal length, or the division above) *)
Definition from_jagged_dict_stacked (d : jdict) : option (table V) :=
  let cols := map snd d in
  (* 7720-7726: the first non-zero length *)
  let m := fold_left (fun m vals => if m =? 0 then length vals else m) cols 0 in
  (* a length seen after a non-zero one must equal it (7725).  Columns without entries followed by
     longer ones pass that check and fail later with IndexError, unless nothing is stacked; they
     are taken to fail here *)
  if negb (forallb (fun vals => length vals =? m) cols) then None
  else
    let ar := num_rows_ar cols m in
    match fill_rows cols ar m (map (start_col (list_sum ar)) cols) with
    | None => None
    | Some st => Some (combine (map fst d) (map fst st))
    end.
End Stacked.

(** ** melt, rt_dataset.py:6781-6855 *)
Section Melt.
Context {V : Type}.
(** a name as a value of the variable column *)
Variable of_name : name -> V.
(** isnanorzero *)
Variable blank : V -> bool.
(** np.tile *)
Definition tile_col (c : list V) (k : nat) : list V := concat (repeat c k).
(** [dct.pop(k)] *)
Fixpoint dpop {X} (k : name) (d : list (name * X)) : option (X * list (name * X)) :=
  match d with
  | [] => None
  | (k', v) :: r => if name_dec k' k then Some (v, r)
                    else match dpop k r with Some (x, r') => Some (x, (k', v) :: r') | None => None end
  end.
(** self[list].asdict() *)
Fixpoint select (ns : list name) (d : table V) (acc : table V) : option (table V) :=
  match ns with
  | [] => Some acc
  | n :: r => match dget n d with Some c => select r d (dset n c acc) | None => None end
  end.
(** 6842-6848 *)
Fixpoint melt_ids (ids : list name) (k : nat) (temp mdata : table V) : option (table V * table V) :=
  match ids with
  | [] => Some (temp, mdata)
  | c :: r => match dpop c temp with
              | Some (col, temp') => melt_ids r k temp' (dset c (tile_col col k) mdata)
              | None => None
              end
  end.
(** [None]: KeyError; also when there is no value column (hstack of nothing is not modelled) *)
Definition melt (d : table V) (nrows : nat) (ids : list name) (value_vars : option (list name))
                (var_name value_name : name) (trim : bool) : option (table V) :=
  match match value_vars with Some vs => select (ids ++ vs) d [] | None => Some d end with
  | None => None
  | Some temp =>
      let k := length temp - length ids in
      match melt_ids ids k temp [] with
      | None => None
      | Some ([], _) => None
      | Some (temp', mdata) =>
          (* 6850-6851 *)
          let mdata := dset var_name (concat (map (fun p => repeat (of_name (fst p)) nrows) temp')) mdata in
          let mdata := dset value_name (concat (map snd temp')) mdata in
          if trim then
            (* 6853-6854 *)
            match dget value_name mdata with
            | Some vals => Some (map (fun p => (fst p, compress (map (fun v => negb (blank v)) vals) (snd p))) mdata)
            | None => None
            end
          else Some mdata
      end
  end.
End Melt.

(** ** _hstack_dataset, rt_hstack.py:388-593 (1-D columns) *)
Section Hstack.
Context {V : Type}.
(** [inv n]: the invalid value of the column called n (after promotion to the common type) *)
Variable inv : name -> V.
(** a dataset and its _nrows: None while it has no column *)
Record dset_ := mkD { d_nrows : option nat; d_cols : table V }.
(** 422-424: the column names, in order of first appearance *)
Definition all_names (l : list dset_) : list name :=
  fold_left (fun ns d => fold_left (fun ns n => if mem n ns then ns else ns ++ [n]) (names (d_cols d)) ns) l [].
(** 562-593 *)
Definition add_gap (n : name) (inv_count : nat) (column_list : list (list V)) : nat * list (list V) :=
  if 0 <? inv_count then (0, column_list ++ [repeat (inv n) inv_count]) else (inv_count, column_list).
(** 503-525 *)
Definition stack_step (n : name) (st : nat * list (list V)) (d : dset_) : nat * list (list V) :=
  let '(inv_count, column_list) := st in
  match d_nrows d with
  | None => st
  | Some nrows =>
      match dget n (d_cols d) with
      | Some col => let '(inv_count, column_list) := add_gap n inv_count column_list in
                    (inv_count, column_list ++ [col])
      | None => (inv_count + nrows, column_list)
      end
  end.
Definition stack_col (l : list dset_) (n : name) : list V :=
  let '(inv_count, column_list) := fold_left (stack_step n) l (0, []) in
  concat (snd (add_gap n inv_count column_list)).
(** 411-416, 494-550; the constructor takes _nrows from the columns *)
Definition nrows_of (t : table V) : option nat := match t with [] => None | (_, c) :: _ => Some (length c) end.
Definition hstack_datasets (l : list dset_) : dset_ :=
  match l with
  | [] => mkD None []
  | [d] => d
  | _ => let t := map (fun n => (n, stack_col l n)) (all_names l) in mkD (nrows_of t) t
  end.
End Hstack.

(** ** concat_columns, rt_dataset.py:6995-7138 *)
Section Concat.
Context {V : Type}.
Inductive on_dup := DupRaise | DupFirst | DupLast.
Inductive on_mis := MisRaise | MisWarn | MisIgnore.
Inductive cc_result := CcOk (t : table V) (warned : bool) | CcValueError | CcKeyError | CcRuntimeError.
(** 7116-7129: dict_retval (its keys are the set [columns]) and dups; [None]: KeyError *)
Fixpoint cc_loop (od : on_dup) (om : on_mis) (items : list (name * list V)) (ret : table V) (dups : list name)
  : option (table V * list name) :=
  match items with
  | [] => Some (ret, dups)
  | (c, a) :: rest =>
      if mem c (names ret) then
        let dups := match om with MisIgnore => dups | _ => c :: dups end in
        match od with
        | DupRaise => None
        | DupFirst => cc_loop od om rest ret dups
        | DupLast => cc_loop od om rest (dset c a ret) dups
        end
      else cc_loop od om rest (dset c a ret) dups
  end.
(** [dsets]: number of rows and columns of each dataset.  Copies (do_copy) hold the same values. *)
Definition concat_columns (dsets : list (nat * table V)) (do_copy : bool) (od : on_dup) (om : on_mis) : cc_result :=
  match dsets with
  | [] => CcValueError
  | (r, d) :: rest =>
      if (length dsets =? 1) && negb do_copy then CcOk d false
      else if negb (forallb (fun p => fst p =? r) rest) then CcValueError
      else match cc_loop od om (concat (map snd dsets)) [] [] with
           | None => CcKeyError
           | Some (ret, dups) =>
               match om, dups with
               | MisRaise, _ :: _ => CcRuntimeError
               | MisWarn, _ :: _ => CcOk ret true
               | _, _ => CcOk ret false
               end
           end
  end.
End Concat.

(** ** iterrows, rt_dataset.py:1663-1724 *)
Section Iter.
Context {V : Type}.
(** The items of a Struct are mutable [value, ...] lists.  The memory is a list of their value
    cells; a Struct is an ordered dictionary from names to cell numbers. *)
Inductive cell := Col (c : list V) | Scalar (v : V).
Definition struct := list (name * nat).
Definition show (s : struct) (h : list cell) : list (name * option cell) :=
  map (fun p => (fst p, nth_error h (snd p))) s.
(** 1685: the columns, as of the first call of next() *)
Definition columns_of (s : struct) (h : list cell) : list (option (list V)) :=
  map (fun p => match nth_error h (snd p) with Some (Col c) => Some c | _ => None end) s.
(** 1686-1699: a Struct whose items are copies of the dataset's items *)
Definition temp_struct (s : struct) (h : list cell) : struct :=
  combine (map fst s) (seq (length h) (length s)).
Definition temp_heap (s : struct) (h : list cell) : list cell :=
  h ++ map (fun p => nth (snd p) h (Col [])) s.
(** 1715-1716: [temp_vals[ci][0] = full_columns[ci][rownum]] *)
Definition set_row (temp : struct) (cols : list (option (list V))) (h : list cell) (row : nat) : list cell :=
  fold_left (fun h ci =>
    match nth_error temp ci, nth_error cols ci with
    | Some (_, loc), Some (Some c) =>
        match nth_error c row with Some v => upd loc (Scalar v) h | None => h end
    | _, _ => h
    end) (seq 0 (length temp)) h.
(** the memory after [k] rows have been yielded *)
Definition iter_heap (s : struct) (h : list cell) (k : nat) : list cell :=
  fold_left (set_row (temp_struct s h) (columns_of s h)) (seq 0 k) (temp_heap s h).
(** what the consumer is given: the row numbers, each with the same Struct *)
Definition yielded (s : struct) (h : list cell) (nrows : nat) : list (nat * struct) :=
  map (fun r => (r, temp_struct s h)) (seq 0 nrows).
End Iter.

(** ** trim, rt_dataset.py:7787-7949 *)
Section Trim.
Context {V : Type}.
(** [func] as an elementwise test; [plain n]: the column is a label or not computable (7875) *)
Variable func : V -> bool.
Variable plain : name -> bool.
Definition count_true (l : list bool) : nat := length (filter (fun b => b) l).
(** 7874-7899: the names to keep and the masks collected *)
Definition trim_cols (keep columns : bool) (t : table V) : list name * list (list bool) :=
  fold_left (fun st p =>
    let '(cf, ms) := st in
    let '(n, c) := p in
    if negb (plain n) then
      let result := map func c in
      let addcol := if keep then negb (count_true result =? 0) else negb (count_true result =? length c) in
      if addcol || negb columns then (cf ++ [n], ms ++ [result]) else (cf, ms)
    else (cf ++ [n], ms)) t ([], []).
Definition zip_with (f : bool -> bool -> bool) (a b : list bool) : list bool := map (fun p => f (fst p) (snd p)) (combine a b).
(** 7902-7919 *)
Definition row_mask (keep rows : bool) (ms : list (list bool)) : option (list bool) :=
  if rows then match ms with
               | [] => None
               | m :: r => Some (fold_left (zip_with (if keep then orb else andb)) r m)
               end
  else None.
(** 7922-7934 *)
Definition apply_mask (keep : bool) (rm : option (list bool)) : option (list bool) :=
  match rm with
  | None => None
  | Some m => if keep then (if count_true m =? length m then None else Some m)
              else if count_true m =? 0 then None else Some (map negb m)
  end.
Definition trim (keep columns rows : bool) (t : table V) : table V * option (list bool) * list name :=
  let '(cf, ms) := trim_cols keep columns t in
  let am := apply_mask keep (row_mask keep rows ms) in
  let sel := filter (fun p => mem (fst p) cf) t in
  (match am with Some m => map (fun p => (fst p, compress m (snd p))) sel | None => sel end, am, cf).
End Trim.
