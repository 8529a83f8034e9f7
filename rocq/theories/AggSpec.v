(** Vocabulary for the statements about grouped results (C112-C114). *)
From Coq Require Import List Arith Bool ZArith Permutation.
From Verif Require Import FlattenModel DsModel GroupingSpec AggModel.
Import ListNotations.

Section Spec.
Context {V : Type}.
Variable inv : V.
(** the order of the cells *)
Variable vlt : V -> V -> Prop.

Definition table := list (name * list V).
(** [n] distinct keys in columns of distinct names *)
Definition row (t : table) (k : nat) : list V := map (fun p => nth k (snd p) inv) t.
Definition key_table (t : table) (n : nat) : Prop :=
  t <> [] /\ NoDup (map fst t) /\ (forall p, In p t -> length (snd p) = n) /\
  forall i j, i < n -> j < n -> row t i = row t j -> i = j.

(** dictionary order, the first column counts most *)
Fixpoint lex_le (a b : list V) : Prop :=
  match a, b with
  | x :: a', y :: b' => vlt x y \/ (x = y /\ lex_le a' b')
  | _, _ => True
  end.
(** [p] lists the [n] keys once each, in order *)
Definition sorts_keys (t : table) (n : nat) (p : list nat) : Prop :=
  Permutation p (seq 0 n) /\
  forall a b i j, a < b -> nth_error p a = Some i -> nth_error p b = Some j -> lex_le (row t i) (row t j).
(** the documented behaviour of lexsort: a permutation, by the last array, then the one before, .. *)
Definition lexsort_ok (lexsort : list (list V) -> list nat) : Prop :=
  forall t n, t <> [] -> (forall p, In p t -> length (snd p) = n) -> sorts_keys t n (lexsort (rev (map snd t))).
(** the order in which the keys are shown: sorted or as found *)
Definition key_order (sorted : bool) (t : table) (n : nat) (p : list nat) : Prop :=
  if sorted then sorts_keys t n p else p = seq 0 n.
(** the keys in the order [p] *)
Definition reorder (x : list V) (p : list nat) : list V := map (fun k => nth k x inv) p.
Definition shown_keys (t : table) (p : list nat) : table := map (fun c => (fst c, reorder (snd c) p)) t.
(** with the entry for the filtered rows in front *)
Definition with_bin (binname : list V -> V) (t : table) : table := map (fun c => (fst c, binname (snd c) :: snd c)) t.

(** what a use of the key object answers; the sorted row numbers are the order of the keys when these
    are shown sorted *)
Definition answers (sorted : bool) (binname : list V -> V) (t : table) (n : nat) (p : list nat) (o : kop) (x : kout) : Prop :=
  match o with
  | KKeys _ false => x = OCols (shown_keys t p)
  | KFiltered => x = OCols (with_bin binname (shown_keys t p))
  | KIsort => sorted = true -> x = OIdx p
  | KBin i => (forall k, (0 <= i)%Z -> nth_error p (Z.to_nat i) = Some k -> x = OBin (Some (row t k))) /\
              ((i < 0 \/ Z.of_nat n <= i)%Z -> x = OBin None)
  | KIndex tup =>
      if length tup =? length t
      then (forall r k, nth_error p r = Some k -> row t k = tup -> x = OIndex (Some (Z.of_nat r))) /\
           ((forall k, k < n -> row t k <> tup) -> x = OIndex (Some (-1)%Z))
      else x = OIndex None
  | KKeys _ true => True
  end.
(** uses that do not change the choice between sorted and unsorted keys *)
Definition plain (o : kop (V := V)) : bool :=
  match o with KKeys None false | KFiltered | KIsort | KBin _ | KIndex _ => true | _ => false end.

(** ** Grouped calculations *)
(** the bin of a row: its group, or the filtered bin *)
Definition bin_of (ikey : list nat) (flt : option (list bool)) (r : nat) : nat :=
  match flt with
  | Some f => if nth r f false then nth r ikey 0 else 0
  | None => nth r ikey 0
  end.
(** the values of one bin, in row order *)
Definition bin_values (ikey : list nat) (flt : option (list bool)) (x : list V) (b : nat) : list V :=
  map (fun r => nth r x inv) (filter (fun r => bin_of ikey flt r =? b) (seq 0 (length ikey))).
Definition bin_size (ikey : list nat) (flt : option (list bool)) (b : nat) : nat :=
  length (filter (fun r => bin_of ikey flt r =? b) (seq 0 (length ikey))).
(** the arguments fit the grouping *)
Definition data_ok (ikey : list nat) (flt : option (list bool)) (data : table) : Prop :=
  NoDup (map fst data) /\ (forall p, In p data -> length (snd p) = length ikey) /\
  (forall f, flt = Some f -> length f = length ikey).

(** the result: one row per key in the order [p] (after a row for the filtered bin if asked for) *)
Definition lead {X} (showfilter : bool) (x : X) : list X := if showfilter then [x] else [].
Definition keyed_result (binname : list V -> V) (t : table) (p : list nat) (showfilter : bool)
           (value : list V -> nat -> V) (usable : name -> bool) (data d : table) : Prop :=
  (forall k u, In (k, u) t ->
     dget k d = Some (lead showfilter (binname (reorder u p)) ++ reorder u p)) /\
  (forall c x, In (c, x) data -> ~ In c (map fst t) -> usable c = true ->
     dget c d = Some (lead showfilter (value x 0) ++ map (fun k => value x (S k)) p)) /\
  (forall c, In c (map fst d) -> In c (map fst t) \/ (In c (map fst data) /\ usable c = true)) /\
  NoDup (map fst d).

(** a fresh GroupBy or Categorical over the key table [t]; a GroupBy passes its sort_display on to
    its key object (rt_groupby.py:283) *)
Definition fresh_object (t : table) (n : nat) (sort_display pre_sorted : bool) (o : gobj) : Prop :=
  key_table t n /\ codes_in n (o_ikey o) /\ o_n o = n /\ o_flag o = false /\
  (forall b, o_sd o = Some b -> sort_display = b /\ pre_sorted = false) /\
  o_kc o = new_keychain t sort_display pre_sorted.

(** a user function: a group without rows gives the invalid *)
Definition on_rows (f : list V -> V) (l : list V) : V := match l with [] => inv | _ => f l end.
(** how many rows of the same bin come before this one *)
Definition rank (ikey : list nat) (flt : option (list bool)) (r : nat) : nat :=
  length (filter (fun r' => bin_of ikey flt r' =? bin_of ikey flt r) (seq 0 r)).

(** transform: every row of a group gets the value of its group *)
Definition expanded (t : table) (ikey : list nat) (showfilter : bool) (value : list V -> nat -> V)
           (usable : name -> bool) (data d : table) : Prop :=
  (forall c x, In (c, x) data -> ~ In c (map fst t) -> usable c = true ->
     exists col, dget c d = Some col /\ length col = length ikey /\
       forall r g, nth_error ikey r = Some g -> (g <> 0 \/ showfilter = true) -> nth_error col r = Some (value x g)) /\
  (forall c, In c (map fst d) -> ~ In c (map fst t) /\ In c (map fst data) /\ usable c = true).
(** the keys are in order already *)
Definition in_key_order (t : table) (n : nat) : Prop := sorts_keys t n (seq 0 n).
End Spec.
