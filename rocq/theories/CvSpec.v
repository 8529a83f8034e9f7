(** Vocabulary for the conversion of columns to Categoricals (C231) and between
    Categoricals and arrays of categories (C232). *)
From Coq Require Import List ZArith Bool.
From Verif Require Import FlattenModel CatModel CatSpec.
Import ListNotations.

Section Cv.
Context {T : Type}.
(** What a Struct holds; [Other]: anything else *)
Inductive item :=
| Strs (l : list T)                               (* an array of strings *)
| Cats (codes : list Z) (cats : list T)           (* a Categorical with one key, base index 1 *)
| Multi (codes : list Z) (keys : list (list T))   (* a Categorical with several keys *)
| Nums (l : list Z)                               (* an array of numbers *)
| Other (n : nat)
| Sub (l : list (name * item)).                   (* a Struct or Dataset *)
Definition struct := list (name * item).

(** The second is the first with every array of strings, at any depth, as a
    Categorical: sorted categories, exactly the strings that occur, and the same
    string in every row. *)
Inductive converted (o : ord T) : item -> item -> Prop :=
| cv_strs : forall l codes cats,
    increasing o cats -> (forall x, In x cats <-> In x l) -> map (cval 1 cats) codes = map Some l ->
    converted o (Strs l) (Cats codes cats)
| cv_cats : forall codes cats, converted o (Cats codes cats) (Cats codes cats)
| cv_multi : forall codes keys, converted o (Multi codes keys) (Multi codes keys)
| cv_nums : forall l, converted o (Nums l) (Nums l)
| cv_other : forall n, converted o (Other n) (Other n)
| cv_sub : forall l l',
    length l' = length l ->
    (forall i k t, nth_error l i = Some (k, t) -> exists t', nth_error l' i = Some (k, t') /\ converted o t t') ->
    converted o (Sub l) (Sub l').
(** an array of strings somewhere inside *)
Inductive has_strings : item -> Prop :=
| hs_here : forall l, has_strings (Strs l)
| hs_sub : forall l k t, In (k, t) l -> has_strings t -> has_strings (Sub l).
(** a Categorical, with one key or several *)
Definition is_cat (t : item) : bool := match t with Cats _ _ | Multi _ _ => true | _ => false end.
(** [n] is the column that gives the entry [k]: a name that begins with the prefix,
    without the prefix unless it is kept *)
Definition column_of (prefix : option name) (keep : bool) (k n : name) : Prop :=
  match prefix with
  | None => n = k
  | Some p => if keep then n = k /\ exists r, n = p ++ r else n = p ++ k
  end.
Definition listed (cols : list name) (k : name) : bool := existsb (fun c => if name_dec c k then true else false) cols.
End Cv.
Arguments item : clear implicits.
Arguments struct : clear implicits.
