(** Vocabulary for Categoricals over several key columns, for single keys made out of them, and for
    Categoricals with a code <-> name mapping. *)
From Coq Require Import List Arith ZArith Bool.
From Verif Require Import FlattenModel CatModel.
Import ListNotations.
Local Open Scope Z_scope.

(** one key: a string or a number *)
Inductive cell := Cs (s : name) | Cn (z : Z).
(** a key column: byte strings or unicode strings, or numbers; one entry for every category *)
Inductive col := Bytes (l : list name) | Unicode (l : list name) | Nums (l : list Z).
Definition col_cells (c : col) : list cell :=
  match c with Bytes l | Unicode l => map Cs l | Nums l => map Cn l end.
(** a Categorical over several key columns *)
Record mcat := mkMcat { k_base : Z; k_cols : list col; k_codes : list Z }.
(** its categories: number [r] is the tuple of the [r]-th entries of the columns *)
Definition ncats (k : mcat) : nat := match k_cols k with [] => 0 | c :: _ => length (col_cells c) end.
Definition uniq (k : mcat) : list (list cell) :=
  map (fun r => map (fun c => nth r (col_cells c) (Cn 0)) (k_cols k)) (seq 0 (ncats k)).
(** the columns have one length, there are no two equal categories, every row has a category or is
    filtered *)
Definition regular (k : mcat) : Prop :=
  k_cols k <> [] /\ (forall c, In c (k_cols k) -> length (col_cells c) = ncats k) /\ NoDup (uniq k) /\
  (k_base k = 0 \/ k_base k = 1) /\
  (forall code, In code (k_codes k) -> (k_base k - 1 <= code < k_base k + Z.of_nat (ncats k))).
(** the tuple of row [r]: [None] for a filtered row *)
Definition tuple_of (k : mcat) (code : Z) : option (list cell) :=
  if code <? k_base k then None else nth_error (uniq k) (Z.to_nat (code - k_base k)).
Definition row_tuples (k : mcat) : list (option (list cell)) := map (tuple_of k) (k_codes k).

(** the outcome of a call: a value, an exception, or left to numpy (a string compared with a column
    of numbers) *)
Inductive outcome (X : Type) := Got (x : X) | Raises | Numpy.
Arguments Got {X} _. Arguments Raises {X}. Arguments Numpy {X}.

(** a string that goes into a byte string *)
Definition ascii (s : name) : bool := forallb (fun c => Nat.ltb c 128) s.
(** the tuple asked for has one entry for every key column, entries for number columns are numbers
    and the strings for byte columns are ascii *)
Definition askable (c : col) (v : cell) : bool :=
  match c, v with
  | Bytes _, Cs s => ascii s
  | Nums _, Cs _ => false
  | _, _ => true
  end.
Definition asks (k : mcat) (q : list cell) : Prop :=
  length q = length (k_cols k) /\ forallb (fun p => askable (fst p) (snd p)) (combine (k_cols k) q) = true.

(** text of several parts with a separator between them *)
Fixpoint joined (sep : name) (parts : list name) : name :=
  match parts with [] => [] | [p] => p | p :: r => p ++ sep ++ joined sep r end.

(** what a row of a mapped Categorical shows: the name of its code, [None] for a code without one *)
Definition mapped_rows (d : list (Z * name)) (codes : list Z) : list (option name) :=
  map (fun c => get_i d c) codes.
(** a mapping whose two dictionaries say the same *)
Definition two_way (m : maps) : Prop :=
  forall c s, get_i (m_i2s m) c = Some s <-> get_s (m_s2i m) s = Some c.
(** two mappings contradict each other: a name has two codes, or a code two names *)
Definition contradict (m1 m2 : maps) : Prop :=
  (exists s c1 c2, get_s (m_s2i m1) s = Some c1 /\ get_s (m_s2i m2) s = Some c2 /\ c1 <> c2) \/
  (exists c s1 s2, get_i (m_i2s m1) c = Some s1 /\ get_i (m_i2s m2) c = Some s2 /\ s1 <> s2).
(** the order in which Python walks through the set of all names and the set of all codes *)
Definition walks (strings : list name) (ints : list Z) (ms : list maps) : Prop :=
  (forall s, In s strings <-> exists m c, In m ms /\ get_s (m_s2i m) s = Some c) /\
  (forall c, In c ints <-> exists m s, In m ms /\ get_i (m_i2s m) c = Some s).

(** c[mask] = v or c[tuple] = v; the new value a tuple or a code *)
Inductive target := Rows (mask : list bool) | Having (q : list cell).
Inductive source := Tuple (q : list cell) | Code (v : Z).
(** the rows an assignment is for, by what they showed before *)
Definition chosen (t : target) (r : nat) (old : option (list cell)) : Prop :=
  match t with Rows m => nth_error m r = Some true | Having p => old = Some p end.
(** an assignment that makes sense for [k]: the mask has a flag per row, the tuple is a category *)
Definition sensible (k : mcat) (t : target) : Prop :=
  match t with Rows m => length m = length (k_codes k) | Having p => asks k p /\ In p (uniq k) end.
