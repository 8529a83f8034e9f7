(** Model of Accum2, the two-way table of a calculation by a row Categorical and a column
    Categorical (rt_accum2.py), on top of the key objects of AggModel.

    Simplifications: one data column; cells, keys and results are of one type [V] with one invalid;
    the two Categoricals are different objects; badrows/badcols and the display of names that are
    not allowed as column names are left out.  The C++ reductions are given by their contract (a
    function of the elements of a bin in row order). *)
From Coq Require Import List Arith Bool ZArith.
From Verif Require Import FlattenModel GroupingModel DsModel AggModel.
Import ListNotations.

Section Acc2.
Context {V : Type}.
Variable inv : V.
Variable lexsort : list (list V) -> list nat.
Variable binname : list V -> V.
(** the text of a key: str of the (decoded) value, rt_accum2.py:418-428, or of the tuple,
    rt_groupbykeys.py:206-210 *)
Variable label : list V -> name.
(** INVALID_SHORT_NAME + str(i), rt_accum2.py:426 *)
Variable inv_label : nat -> name.
(** FILTERED_LONG_NAME *)
Definition filtered_name : name := [70; 105; 108; 116; 101; 114; 101; 100].

(** a Categorical as Accum2 uses it: grouping.ikey, unique_count, grouping.base_index, gb_keychain *)
Record axis := mkX { x_code : list nat; x_n : nat; x_base : option nat; x_kc : keychain (V := V) }.
Definition axis_kc (x : axis) (c : keychain) : axis := mkX (x_code x) (x_n x) (x_base x) c.
(** rt_accum2.py:122-183.  [a_ylab]: _get_gbkeyname (303-311), [a_flt]: _myfilter, [a_tot]: _totals *)
Record acc2 := mkA { a_row : axis; a_col : axis; a_ylab : name; a_flt : option (list bool); a_tot : bool }.
Definition set_row (a : acc2) (c : keychain) : acc2 := mkA (axis_kc (a_row a) c) (a_col a) (a_ylab a) (a_flt a) (a_tot a).
Definition set_colx (a : acc2) (c : keychain) : acc2 := mkA (a_row a) (axis_kc (a_col a) c) (a_ylab a) (a_flt a) (a_tot a).

(** rt_grouping.py:84-133 combine2groups *)
Definition ikey2 (a : acc2) : list nat := combine2keys (x_n (a_row a)) (x_code (a_row a)) (x_code (a_col a)) (a_flt a).
Definition nbins (a : acc2) : nat := S (x_n (a_row a)) * S (x_n (a_col a)).

(** 259-280 _internal_getitem of row [r]: the column key and the row key, [None] for 'Inv' *)
Definition get2 (r : nat) (a : acc2) : acc2 * option (option (list V) * option (list V)) :=
  match nth_error (ikey2 a) r with
  | None => (a, None)
  | Some m =>
      let xidx := m / S (x_n (a_row a)) in
      let yidx := m mod S (x_n (a_row a)) in
      let '(a1, xcat) := if xidx =? 0 then (a, None)
                         else let '(c, k) := get_bin_from_index inv lexsort (Z.of_nat xidx - 1) (x_kc (a_col a)) in (set_colx a c, k) in
      let '(a2, ycat) := if yidx =? 0 then (a1, None)
                         else let '(c, k) := get_bin_from_index inv lexsort (Z.of_nat yidx - 1) (x_kc (a_row a1)) in (set_row a1 c, k) in
      (a2, Some (xcat, ycat))
  end.

(** 314-332 _get_gbkeys: a single key column is renamed *)
Definition get_gbkeys (showfilter : bool) (a : acc2) : acc2 * cols (V := V) :=
  let '(c, d) := if showfilter then gbkeys_filtered inv lexsort binname (x_kc (a_row a)) else gbkeys inv lexsort (x_kc (a_row a)) in
  (set_row a c, match d with [(_, v)] => [(a_ylab a, v)] | _ => d end).

Definition slice (l : list V) (start stop : nat) : list V := firstn (stop - start) (skipn start l).
(** 418-428 *)
Definition column_name (d : cols (V := V)) (i : nat) : name :=
  match label (map (fun p => nth i (snd p) inv) d) with [] => inv_label i | l => l end.

(** 354-438 make_dataset *)
Definition make_dataset (arr : list V) (showfilter : bool) (a : acc2) : acc2 * (option (cols (V := V)) * cols (V := V)) :=
  let showfilter_base := if showfilter then 0 else 1 in
  let '(a1, gb) := get_gbkeys showfilter a in
  let '(rc, sort_rows) := isortrows lexsort (x_kc (a_row a1)) in
  let a2 := set_row a1 rc in
  let sort_idx := if showfilter && sort_gb_data rc then 0 :: map S sort_rows else sort_rows in
  let '(cc, xcategories) := gbkeys inv lexsort (x_kc (a_col a2)) in
  let offsety := k_n rc + 1 in
  let newds := if showfilter then set_col filtered_name (slice arr 0 offsety) (make_ds gb) else make_ds gb in
  let '(cc, sort_cols) := isortrows lexsort cc in
  let a3 := set_colx a2 cc in
  let newds := fold_left (fun ds i =>
    let col_idx := 1 + (if sort_gb_data cc then nth i sort_cols 0 else i) in
    let start := showfilter_base + col_idx * offsety in
    let stop := start + offsety - showfilter_base in
    let col := slice arr start stop in
    set_col (column_name xcategories i) (if sort_gb_data rc then fancy inv col sort_idx else col) ds)
    (seq 0 (k_n cc)) newds in
  (a3, (newds, gb)).

(** the table: the dataset and the footer row (footer_set_values) *)
Definition table2 := (cols (V := V) * list (name * V))%type.

(** 561-593 _add_totals *)
Definition add_totals (keycount : nat) (nm : name) (totalsX totalsY : list V) (total : V) (ds : option (cols (V := V))) : option table2 :=
  match set_col nm totalsY ds with
  | None => None
  | Some d => Some (d, dset nm total (combine (skipn keycount (names d)) totalsX))
  end.

(** 335-351 _make_imatrix: the columns of the matrix *)
Definition make_imatrix (arr : list V) (showfilter : bool) (R C : nat) : list (list V) :=
  map (fun j => slice arr (j * S R) (j * S R + S R)) (if showfilter then seq 0 (S C) else seq 1 C).
(** 766-915 _calc_onepass without badrows and badcols, 442-478 _apply_2d_operation; [func]: np.sum, np.min, .. *)
Definition resort (c : keychain) (showfilter : bool) (v : list V) : keychain * list V :=
  if sort_gb_data c then
    let '(c1, i) := isortrows lexsort c in (c1, fancy inv v (if showfilter then 0 :: map S i else i))
  else (c, v).
Definition calc_onepass (func : list V -> V) (nm : name) (arr : list V) (showfilter : bool) (ds : option (cols (V := V))) (a : acc2)
  : acc2 * option table2 :=
  let imatrix := make_imatrix arr showfilter (k_n (x_kc (a_row a))) (k_n (x_kc (a_col a))) in
  let totalsY0 := map (fun i => func (map (fun c => nth i c inv) imatrix)) (seq 0 (S (k_n (x_kc (a_row a))))) in
  let totalsY := if showfilter then totalsY0 else skipn 1 totalsY0 in
  let totalsX := map (fun c => func (if showfilter then c else skipn 1 c)) imatrix in
  let total := func totalsY in
  let '(rc, totalsY) := resort (x_kc (a_row a)) showfilter totalsY in
  let a1 := set_row a rc in
  let '(cc, totalsX) := resort (x_kc (a_col a1)) showfilter totalsX in
  let a2 := set_colx a1 cc in
  let '(rc, gb) := gbkeys inv lexsort (x_kc (a_row a2)) in
  (set_row a2 rc, add_totals (length gb) nm totalsX totalsY total ds).

(** 482-557 _accum1_pass; [pass]: the calculation over the bins (C++, or apply_reduce for a function).
    Codes above the number of bins are in no bin. *)
Definition accum1_pass (pass : list nat -> nat -> nat -> list V -> list V) (shift : bool) (x : axis) (data : list V)
           (showfilter : bool) (flt : option (list bool)) : list V :=
  let base := if showfilter then 0 else 1 in
  let ikey := match x_base x with Some 0 => if shift then map S (x_code x) else x_code x | _ => x_code x end in
  pass (passing flt ikey) (x_n x) base data.
(** origarr[filter] *)
Definition picked (flt : option (list bool)) (data : list V) : list V :=
  match flt with None => data | Some f => map fst (filter snd (combine data f)) end.
(** 661-762 _calc_multipass without badrows and badcols; [zero]: the 0 of line 760 *)
Variable zero : V.
Definition calc_multipass (pass : list nat -> nat -> nat -> list V -> list V) (shift : bool) (func : option (list V -> V)) (nm : name)
           (data : list V) (showfilter : bool) (flt : option (list bool)) (ds : option (cols (V := V))) (a : acc2) : acc2 * option table2 :=
  let totalsX := accum1_pass pass shift (a_col a) data showfilter flt in
  let totalsY := accum1_pass pass shift (a_row a) data showfilter flt in
  let total := match func with Some g => g (picked flt data) | None => zero end in
  let '(rc, gb) := gbkeys inv lexsort (x_kc (a_row a)) in
  (set_row a rc, add_totals (length gb) nm totalsX totalsY total ds).

(** apply_dict_total (1287-1312): how the totals of a function are found *)
Inductive how := OnePass (nm : name) (func : list V -> V) | MultiPass (nm : name) (func : option (list V -> V)) | NoTotals.
(** 918-995 _stack_dataset *)
Definition stack_dataset (arr data : list V) (f : list V -> V) (h : how) (showfilter : bool) (flt : option (list bool)) (a : acc2)
  : acc2 * option table2 :=
  let '(a1, (ds, gb)) := make_dataset arr showfilter a in
  let plain := match ds with Some d => Some (d, []) | None => None end in
  if a_tot a then
    match h with
    | OnePass nm func => calc_onepass func nm arr showfilter ds a1
    | MultiPass nm func => calc_multipass (calc_col inv f) true func nm data showfilter flt ds a1
    | NoTotals => (a1, plain)
    end
  else (a1, plain).

(** 1011-1015 *)
Definition and_filter (f g : option (list bool)) : option (list bool) :=
  match f, g with
  | None, _ => g
  | _, None => f
  | Some f, Some g => Some (map (fun p => fst p && snd p) (combine f g))
  end.
(** the array of all bins; rt_grouping.py:3277-3472 with accum2=True *)
Definition bins2 (f : list V -> V) (flt : option (list bool)) (base : nat) (data : list V) (a : acc2) : list V :=
  map (fun b => if b <? base then inv else f (in_bin (passing flt (ikey2 a)) data b)) (seq 0 (S (nbins a))).
(** 999-1109 _calculate_all for one data column *)
Definition calculate2 (f : list V -> V) (h : how) (data : list V) (flt : option (list bool)) (showfilter : bool) (a : acc2)
  : acc2 * option table2 :=
  let filter := and_filter (a_flt a) flt in
  let arr := bins2 f filter (if showfilter then 0 else 1) data a in
  stack_dataset arr data f h showfilter filter a.
(** 1058-1063: transform=True *)
Definition transform2 (f : list V -> V) (data : list V) (flt : option (list bool)) (showfilter : bool) (a : acc2) : list V :=
  let arr := bins2 f (and_filter (a_flt a) flt) (if showfilter then 0 else 1) data a in
  map (fun b => mbget inv arr (Z.of_nat b)) (ikey2 a).
(** 1112-1159 apply_reduce: the filter of the constructor is in the codes only; totals by 493-506 *)
Definition apply_reduce2 (f : list V -> V) (nm : name) (data : list V) (flt : option (list bool)) (showfilter : bool) (a : acc2)
  : acc2 * option table2 :=
  let arr := reduce_col inv f (passing flt (ikey2 a)) (nbins a) 0 data in
  let '(a1, (ds, gb)) := make_dataset arr showfilter a in
  if a_tot a then calc_multipass (reduce_col inv f) false (Some f) nm data showfilter flt ds a1
  else (a1, match ds with Some d => Some (d, []) | None => None end).

(** 1179-1193 count; rt_dataset.py:2149-2160 imatrix_totals over the columns that are not keys;
    [num]: the cell that holds a count, [sum]: np.sum *)
Definition sum_name : name := [83; 117; 109].
Definition count2 (num : nat -> V) (sum : list V -> V) (flt : option (list bool)) (showfilter : bool) (a : acc2) : acc2 * option table2 :=
  let ikey := passing flt (ikey2 a) in
  let arr := map (fun b => num (length (filter (Nat.eqb b) ikey))) (seq 0 (S (nbins a))) in
  let '(a1, (ds, gb)) := make_dataset arr showfilter a in
  match ds with
  | None => (a1, None)
  | Some d =>
      if a_tot a then
        let im := filter (fun p => negb (mem (fst p) (names gb))) d in
        let rows := match d with (_, v) :: _ => length v | [] => 0 end in
        let totalsY := map (fun i => sum (map (fun p => nth i (snd p) inv) im)) (seq 0 rows) in
        (a1, match set_col sum_name totalsY (Some d) with
             | None => None
             | Some d' => Some (d', dset sum_name (sum totalsY) (map (fun p => (fst p, sum (snd p))) im))
             end)
      else (a1, Some (d, []))
  end.

(** one use of the table object *)
Inductive aop :=
| ACalc (f : list V -> V) (h : how) (data : list V) (flt : option (list bool)) (showfilter : bool)
| AApply (f : list V -> V) (nm : name) (data : list V) (flt : option (list bool)) (showfilter : bool)
| ACount (num : nat -> V) (sum : list V -> V) (flt : option (list bool)) (showfilter : bool)
| AGet (r : nat)
(** direct uses of the two Categoricals' key objects *)
| ARowKeys (showfilter : bool)
| AColKeys (showfilter : bool).
Definition astep (a : acc2) (o : aop) : acc2 :=
  match o with
  | ACalc f h d flt s => fst (calculate2 f h d flt s a)
  | AApply f nm d flt s => fst (apply_reduce2 f nm d flt s a)
  | ACount num sum flt s => fst (count2 num sum flt s a)
  | AGet r => fst (get2 r a)
  | ARowKeys s => set_row a (fst (if s then gbkeys_filtered inv lexsort binname (x_kc (a_row a)) else gbkeys inv lexsort (x_kc (a_row a))))
  | AColKeys s => set_colx a (fst (if s then gbkeys_filtered inv lexsort binname (x_kc (a_col a)) else gbkeys inv lexsort (x_kc (a_col a))))
  end.
Definition afinal (a : acc2) (ops : list aop) : acc2 := fold_left astep ops a.
End Acc2.
