(** Vocabulary for the statements about pivot, transpose, reduce, any / all and one_hot_encode
    (C122-C127). *)
From Coq Require Import List Arith Bool Permutation.
From Verif Require Import FlattenModel DsModel DsSpec AggSpec ShapeModel.
Import ListNotations.

Section Spec.
Context {V : Type}.
Variable inv : V.
Variable str : V -> name.

(** the texts joined by underscores *)
Fixpoint join (l : list name) : name :=
  match l with [] => [] | [x] => x | x :: r => x ++ 95 :: join r end.
Definition text (k : list V) : name := join (map str k).

(** a table: columns of distinct names, all of [N] rows *)
Definition rect (d : list (name * list V)) (N : nat) : Prop :=
  NoDup (map fst d) /\ forall n c, In (n, c) d -> length c = N.
(** what row [r] shows in the columns [ns] *)
Definition key_at (d : list (name * list V)) (ns : list name) (r : nat) : list V :=
  map (fun n => match dget n d with Some c => nth r c inv | None => inv end) ns.
(** the columns [ns] as a table of their own *)
Definition cols_of (d : list (name * list V)) (ns : list name) : list (name * list V) :=
  map (fun n => (n, match dget n d with Some c => c | None => [] end)) ns.
Definition some_of (d : list (name * list V)) (ns : list name) : Prop :=
  ns <> [] /\ NoDup ns /\ forall n, In n ns -> In n (map fst d).

(** the documented behaviour of making a Categorical of key columns: distinct keys, and every row
    finds its own key, unless that key is [missing] (holds a Filtered entry) *)
Variable missing : list V -> bool.
Definition cat_ok (cat : list (name * list V) -> grp) : Prop :=
  forall d N, d <> [] -> rect d N ->
    map fst (g_dict (cat d)) = map fst d /\ key_table inv (g_dict (cat d)) (g_n (cat d)) /\ length (g_code (cat d)) = N /\
    forall r, r < N ->
      if missing (row inv d r) then nth r (g_code (cat d)) 0 = 0
      else exists k, k < g_n (cat d) /\ nth r (g_code (cat d)) 0 = S k /\ row inv (g_dict (cat d)) k = row inv d r.
(** the keys of a Categorical, in order *)
Definition keys_of (g : grp) : list (list V) := map (row inv (g_dict g)) (seq 0 (g_n g)).

(** where row [r] goes in the pivot table *)
Definition present (k : list V) : option (list V) := if missing k then None else Some k.
Definition target (d : list (name * list V)) (labels columns : list name) (flt : option (list bool)) (r : nat)
  : option (list V) * option (list V) :=
  if match flt with Some f => nth r f false | None => true end
  then (present (key_at d labels r), present (key_at d columns r)) else (None, None).

(** the pivot table of the value column [v] of [d]: rows [lk], columns [ck] *)
Definition pivot_table (d : list (name * list V)) (N : nat) (labels columns : list name) (flt : option (list bool))
           (lk ck : list (list V)) (v : name) (t : list (name * list V)) : Prop :=
  map fst t = labels ++ map text ck /\
  (forall n c, In (n, c) t -> length c = length lk) /\
  (forall i k, nth_error lk i = Some k -> key_at t labels i = k) /\
  (forall r kr kc, r < N -> target d labels columns flt r = (Some kr, Some kc) -> In kr lk /\ In kc ck) /\
  (forall i kr kc, nth_error lk i = Some kr -> In kc ck ->
     (forall r, r < N -> target d labels columns flt r = (Some kr, Some kc) -> cell_of t (text kc) i = cell_of d v r) /\
     ((forall r, r < N -> target d labels columns flt r <> (Some kr, Some kc)) -> cell_of t (text kc) i = Some inv)).

(** the name of the column for row [i] of a transposed table *)
Variable cname : nat -> name.
Definition row_name (d : list (name * list V)) (labels : list name) (i : nat) : name :=
  match labels with [] => cname i | _ => text (key_at d labels i) end.

(** a function of many values that can be taken in parts, in any order (sum, min, max, product, ..) *)
Definition by_parts (f : list V -> V) : Prop :=
  (forall ls, f (concat ls) = f (map f ls)) /\ forall l l', Permutation l l' -> f l = f l'.

(** ** one-hot encoding *)
Definition is_encoded (d : list (name * @column V)) (n : name) : bool := match dget n d with Some (Cat _) => true | _ => false end.
(** the name of the column for a category of a column *)
Definition hot_name (c k : name) : name := c ++ [95; 95] ++ k.
(** the names of all columns made for the columns [cs], in order *)
Definition hot_names (d : list (name * @column V)) (cs : list name) : list name :=
  concat (map (fun c => match dget c d with Some (Cat cc) => map (hot_name c) (cc_cats cc) | _ => [] end) cs).
End Spec.
