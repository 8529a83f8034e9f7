(** Vocabulary for the statements about two-way tables (C116-C121). *)
From Coq Require Import List Arith Bool ZArith Permutation.
From Verif Require Import FlattenModel DsModel GroupingSpec AggModel AggSpec Acc2Model.
Import ListNotations.

Section Spec.
Context {V : Type}.
Variable inv : V.
Variable label : list V -> name.
Variable inv_label : nat -> name.

(** a Categorical with [n] distinct keys [t], used for the first time *)
Definition fresh_axis (t : table) (n : nat) (sort_gb pre_sorted : bool) (x : axis (V := V)) : Prop :=
  key_table inv t n /\ codes_in n (x_code x) /\ x_n x = n /\ x_kc x = new_keychain t sort_gb pre_sorted.
Definition filter_ok (n : nat) (flt : option (list bool)) : Prop := forall f, flt = Some f -> length f = n.
Definition passes (flt : option (list bool)) (r : nat) : bool := match flt with Some f => nth r f false | None => true end.

(** where row [r] counts: its row key and column key (0: filtered), or filtered in both *)
Definition place (rk ck : list nat) (flt1 flt2 : option (list bool)) (r : nat) : nat * nat :=
  if passes flt1 r && passes flt2 r then (nth r rk 0, nth r ck 0) else (0, 0).
(** the data of the rows whose place satisfies [sel], in row order *)
Definition select (rk ck : list nat) (flt1 flt2 : option (list bool)) (x : list V) (sel : nat * nat -> bool) : list V :=
  map (fun r => nth r x inv) (filter (fun r => sel (place rk ck flt1 flt2 r)) (seq 0 (length rk))).
Definition cell (i j : nat) (p : nat * nat) : bool := (fst p =? i) && (snd p =? j).
(** shown at all: without showfilter only rows with both keys *)
Definition shown (showfilter : bool) (p : nat * nat) : bool := showfilter || (negb (fst p =? 0) && negb (snd p =? 0)).
Definition in_row (showfilter : bool) (i : nat) (p : nat * nat) : bool := shown showfilter p && (fst p =? i).
Definition in_col (showfilter : bool) (j : nat) (p : nat * nat) : bool := shown showfilter p && (snd p =? j).

(** the name of the column of key [k] shown at position [j] *)
Definition col_label (tc : table (V := V)) (j k : nat) : name :=
  match label (row inv tc k) with [] => inv_label j | l => l end.
Definition col_labels (tc : table (V := V)) (pc : list nat) : list name := map (fun q => col_label tc (fst q) (snd q)) (combine (seq 0 (length pc)) pc).
Definition key_names (ylab : name) (tr : table (V := V)) : list name := match tr with [_] => [ylab] | _ => map fst tr end.

(** the table: key columns first, then one column per column key, each with one row per row key *)
Definition two_way (binname : list V -> V) (ylab : name) (tr tc : table (V := V)) (pr pc : list nat) (showfilter : bool)
           (value : nat -> nat -> V) (d : table (V := V)) : Prop :=
  (exists rest, map fst d = key_names ylab tr ++ lead showfilter filtered_name ++ col_labels tc pc ++ rest) /\
  (forall q k u, nth_error tr q = Some (k, u) -> exists k', nth_error (key_names ylab tr) q = Some k' /\
     dget k' d = Some (lead showfilter (binname (reorder inv u pr)) ++ reorder inv u pr)) /\
  (forall j k, nth_error pc j = Some k ->
     dget (col_label tc j k) d = Some (lead showfilter (value 0 (S k)) ++ map (fun i => value (S i) (S k)) pr)).
(** the column of the rows without column key *)
Definition filtered_column (pr : list nat) (value : nat -> nat -> V) (d : table (V := V)) : Prop :=
  dget filtered_name d = Some (value 0 0 :: map (fun i => value (S i) 0) pr).
(** the margins: a column [nm] of row totals, a footer of column totals, and the grand total *)
Definition margins (tc : table (V := V)) (pr pc : list nat) (showfilter : bool) (nm : name)
           (row_total col_total : nat -> V) (total : V) (r : table2 (V := V)) : Prop :=
  dget nm (fst r) = Some (lead showfilter (row_total 0) ++ map (fun i => row_total (S i)) pr) /\
  (forall j k, nth_error pc j = Some k -> dget (col_label tc j k) (snd r) = Some (col_total (S k))) /\
  (showfilter = true -> dget filtered_name (snd r) = Some (col_total 0)) /\
  dget nm (snd r) = Some total.
(** all column names of the result are different *)
Definition names_ok (ylab : name) (tr tc : table (V := V)) (pc : list nat) (showfilter : bool) (extra : list name) : Prop :=
  NoDup (key_names ylab tr ++ lead showfilter filtered_name ++ col_labels tc pc ++ extra).

(** how many rows have such a place *)
Definition tally (rk ck : list nat) (flt1 flt2 : option (list bool)) (sel : nat * nat -> bool) : nat :=
  length (filter (fun r => sel (place rk ck flt1 flt2 r)) (seq 0 (length rk))).
(** a fresh two-way table over such Categoricals *)
Definition fresh_table (tr tc : table (V := V)) (R C : nat) (sort_r pre_r sort_c pre_c : bool) (a : acc2 (V := V)) : Prop :=
  fresh_axis tr R sort_r pre_r (a_row a) /\ fresh_axis tc C sort_c pre_c (a_col a) /\
  length (x_code (a_col a)) = length (x_code (a_row a)) /\ filter_ok (length (x_code (a_row a))) (a_flt a).
(** the name of the totals column, if there is one *)
Definition total_names (a : acc2 (V := V)) (h : how (V := V)) : list name :=
  if a_tot a then match h with OnePass nm _ => [nm] | MultiPass nm _ => [nm] | NoTotals => [] end else [].

(** every row that passes the filters has both keys; or the filtered entries are shown and every row passes *)
Definition complete (rk ck : list nat) (flt1 flt2 : option (list bool)) (showfilter : bool) : Prop :=
  if showfilter then forall r, r < length rk -> passes flt1 r && passes flt2 r = true
  else forall r, r < length rk -> passes flt1 r && passes flt2 r = true -> nth r rk 0 <> 0 /\ nth r ck 0 <> 0.

(** a calculation that can be done in parts: sum, min, max, .. *)
Definition by_parts (f func : list V -> V) : Prop :=
  (forall l l', Permutation l l' -> f l = f l') /\ forall ls, func (map f ls) = f (concat ls).
End Spec.
