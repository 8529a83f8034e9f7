(** Vocabulary for the column-container properties C10-C14, independent of the model's helpers. *)
From Coq Require Import String Ascii List Arith Bool.
From Verif Require Import ItemsModel.
Import ListNotations.
Open Scope list_scope.

Section Spec.
Context {V A : Type}.

(** what a user sees: the ordered column names, the value and the attribute of a column *)
Definition colnames (st : struct V A) : list string := map fst (items st).
Definition value (st : struct V A) (n : string) : option V :=
  match find (fun kv => String.eqb (fst kv) n) (items st) with
  | Some (_, (v, _)) => Some v | None => None end.
Definition attr (st : struct V A) (n : string) : option A :=
  match find (fun kv => String.eqb (fst kv) n) (items st) with
  | Some (_, (_, a)) => a | None => None end.

(** two states show the same columns: same names in the same order, same values and attributes *)
Definition same_columns (a b : struct V A) : Prop :=
  colnames a = colnames b /\ (forall n, value a n = value b n) /\ (forall n, attr a n = attr b n).

(** the name a column gets under a rename dictionary *)
Definition renamed (m : list (string * string)) (k : string) : string :=
  match find (fun kv => String.eqb (fst kv) k) m with Some (_, n) => n | None => k end.

(** [st'] is [st] with all columns renamed at once: the columns of [st'] are exactly the new
    names, no two columns were merged, and the data formerly under [k] is under its new name. *)
Definition simultaneous_rename (m : list (string * string)) (st st' : struct V A) : Prop :=
  NoDup (map (renamed m) (colnames st)) /\
  (forall n, In n (colnames st') <-> In n (map (renamed m) (colnames st))) /\
  (forall k, In k (colnames st) -> value st' (renamed m k) = value st k).

(** the position of a name in a list *)
Fixpoint position (n : string) (l : list string) : option nat :=
  match l with
  | [] => None
  | x :: r => if String.eqb x n then Some 0 else option_map S (position n r)
  end.

(** [l] without its later repetitions / without its earlier repetitions *)
Inductive first_occurrences : list string -> list string -> Prop :=
| fo_nil : first_occurrences [] []
| fo_cons x l r : first_occurrences l r ->
    first_occurrences (x :: l) (x :: filter (fun y => negb (String.eqb x y)) r).
Definition last_occurrences (l r : list string) : Prop := first_occurrences (rev l) (rev r).

(** ** Ordinary histories (C10).  The only calls excluded are those that would make Struct store
    a column under a name that [is_valid_colname] rejects, and [col_str_replace] calls that make
    two names collide or that run while a sort list is set. *)
Variable attr_kind : string -> option bool.
Variable restricted : string -> bool.
Definition ok_name (n : string) : Prop := valid_colname restricted n = true.
Definition ordinary (st : struct V A) (o : op V A) : Prop :=
  match o with
  | OSetAttr n _ => ok_name n \/ starts_underscore n = true
  | OPrefix p => Forall ok_name (map (fun k => (p ++ k)%string) (colnames st))
  | OSuffix s => Forall ok_name (map (fun k => (k ++ s)%string) (colnames st))
  | OStrReplace a b mx =>
      sortl st = None /\ NoDup (map (sreplace a b mx) (colnames st)) /\
      Forall ok_name (map (sreplace a b mx) (colnames st))
  | _ => True
  end.
Fixpoint ordinary_history (st : struct V A) (ops : list (op V A)) : Prop :=
  match ops with
  | [] => True
  | o :: r => ordinary st o /\ ordinary_history (fst (step attr_kind restricted o st)) r
  end.
(** [dir(cls)] contains every attribute of the class, so attributes are restricted names
    (rt_struct.py:272-304) *)
Definition class_attributes_restricted : Prop := forall n, attr_kind n <> None -> restricted n = true.
End Spec.
