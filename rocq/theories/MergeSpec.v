(** Specification of joins: nested loops over the rows of the two tables.

    A key is an [option B]; [None] is a null key, which matches nothing.  Results are lists of
    (left row, right row), [None] meaning that the result row has no row of that side. *)
From Coq Require Import List Arith Bool String.
Import ListNotations.

(** the [keep] argument: [None] keeps every row, otherwise the first / last row of every key *)
Inductive keep1 := KFirst | KLast.
Definition keep := option keep1.

(** the [how] argument *)
Inductive how := HLeft | HRight | HInner | HOuter.

Section Join.
Context {B : Type}.
Variable eqb : B -> B -> bool.

Definition joins (x y : option B) : bool :=
  match x, y with Some a, Some b => eqb a b | _, _ => false end.
(** the rows among [rows] of the other table (with keys [keys]) that match key [x] *)
Definition matching (x : option B) (keys : list (option B)) (rows : list nat) : list nat :=
  filter (fun j => joins x (nth j keys None)) rows.
Definition all_rows (keys : list (option B)) : list nat := seq 0 (List.length keys).

Definition row := (option nat * option nat)%type.
(** nested-loop left join of the left rows [ls] with the right rows [rs] *)
Definition left_join (lkeys rkeys : list (option B)) (ls rs : list nat) : list row :=
  flat_map (fun i => match matching (nth i lkeys None) rkeys rs with
                     | [] => [(Some i, None)]
                     | js => map (fun j => (Some i, Some j)) js
                     end) ls.
Definition inner_join (lkeys rkeys : list (option B)) (ls rs : list nat) : list row :=
  flat_map (fun i => map (fun j => (Some i, Some j)) (matching (nth i lkeys None) rkeys rs)) ls.
(** right rows without partner *)
Definition right_only_of (lkeys rkeys : list (option B)) (ls rs : list nat) : list row :=
  map (fun j => (None, Some j))
    (filter (fun j => match matching (nth j rkeys None) lkeys ls with [] => true | _ => false end) rs).
Definition outer_of (lkeys rkeys : list (option B)) (ls rs : list nat) : list row :=
  left_join lkeys rkeys ls rs ++ right_only_of lkeys rkeys ls rs.
Definition swap (p : row) : row := (snd p, fst p).
Definition join_rows (h : how) (lkeys rkeys : list (option B)) (ls rs : list nat) : list row :=
  match h with
  | HLeft => left_join lkeys rkeys ls rs
  | HInner => inner_join lkeys rkeys ls rs
  | HRight => map swap (left_join rkeys lkeys rs ls)
  | HOuter => outer_of lkeys rkeys ls rs
  end.

(** keep: row [i] is the first / last row with its key (all nulls count as one key) *)
Definition same (x y : option B) : bool :=
  match x, y with Some a, Some b => eqb a b | None, None => true | _, _ => false end.
Definition first_of_key (keys : list (option B)) (i : nat) : bool :=
  forallb (fun j => negb (same (nth i keys None) (nth j keys None))) (seq 0 i).
Definition last_of_key (keys : list (option B)) (i : nat) : bool :=
  forallb (fun j => negb (same (nth i keys None) (nth j keys None))) (seq (S i) (List.length keys - S i)).
Definition kept (k : keep) (keys : list (option B)) : list nat :=
  match k with
  | None => all_rows keys
  | Some KFirst => filter (first_of_key keys) (all_rows keys)
  | Some KLast => filter (last_of_key keys) (all_rows keys)
  end.
(** Excludes: a left (outer) join that keeps one left row per key but all matching right rows,
    when the driving table has null keys in its null group and the other table is not empty. *)
Definition nulls_ok (lkeys rkeys : list (option B)) (inner : bool) (kl kr : keep) : Prop :=
  inner = true \/ kl = None \/ kr <> None \/ ~ In None lkeys \/ rkeys = [].
(** no two rows have the same non-null key *)
Definition unique_keys (keys : list (option B)) : Prop :=
  forall i j b, nth_error keys i = Some (Some b) -> nth_error keys j = Some (Some b) -> i = j.
(** merge_lookup: the only / first / last row of the other table with key [x] *)
Definition partner (k : keep) (x : option B) (keys : list (option B)) : option nat :=
  let m := matching x keys (all_rows keys) in
  match k with Some KLast => last (map Some m) None | _ => hd_error m end.
End Join.

(** the keys of a column: nulls match nothing *)
Definition nullable {B} (null : B -> bool) (raw : list B) : list (option B) :=
  map (fun b => if null b then None else Some b) raw.

(** cells of a result row: the value of the side's row, the invalid value if it has none; a shared
    key column takes the left value (right joins: the right value) *)
Definition cell {V} (inv : V) (c : list V) (o : option nat) : V :=
  match o with Some i => nth i c inv | None => inv end.
Definition key_cell {V} (inv : V) (h : how) (lc rc : list V) (r : row) : V :=
  match h, fst r with
  | HRight, _ => cell inv rc (snd r)
  | _, Some i => nth i lc inv
  | _, None => cell inv rc (snd r)
  end.

(** the keys used to choose the rows kept: in a left (right) join the null keys of the left
    (right) table are ordinary values *)
Definition keep_keys {B} (null : B -> bool) (driving : bool) (raw : list B) : list (option B) :=
  if driving then map Some raw else nullable null raw.
(** indicator column: 1 = left_only, 2 = right_only, 3 = both *)
Definition indicator_of (r : row) : nat :=
  match r with (Some _, Some _) => 3 | (Some _, None) => 1 | (None, Some _) => 2 | (None, None) => 0 end.

(** a Dataset: named columns *)
Section Datasets.
Context {V : Type}.
Definition dataset := list (string * list V).
Fixpoint col (name : string) (ds : dataset) : option (list V) :=
  match ds with [] => None | (n, c) :: r => if String.eqb n name then Some c else col name r end.
Definition names (ds : dataset) : list string := map fst ds.
Definition getcol (ds : dataset) (name : string) : list V := match col name ds with Some c => c | None => [] end.
Definition nrows (ds : dataset) : nat := match ds with [] => 0 | (_, c) :: _ => List.length c end.
(** distinct column names, columns of equal length *)
Definition well_formed (ds : dataset) : Prop := NoDup (names ds) /\ forall n c, In (n, c) ds -> List.length c = nrows ds.
(** row [i] has the tuple of the values of the key columns *)
Definition tuples (inv : V) (ds : dataset) (on : list string) (n : nat) : list (list V) :=
  map (fun i => map (fun c => nth i (getcol ds c) inv) on) (seq 0 n).
End Datasets.

(** the [suffixes] argument; the suffix of one side *)
Definition suffix_pair := option (option string * option string).
Definition suffix_of (left : bool) (s : suffix_pair) : option string :=
  match s with None => Some ""%string | Some (a, b) => if left then a else b end.
