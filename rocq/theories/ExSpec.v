(** Vocabulary for patterns extracted from strings and for matrices of Datasets
    (C225, C226). *)
From Coq Require Import List ZArith Bool.
From Verif Require Import FlattenModel.
Import ListNotations.

Definition text := list nat.
(** what unique(x, return_inverse=True) promises: the uniques, and for every
    position the place of its value among them; the uniques are values of x *)
Definition is_unique {T} (uniq : list T -> list T * list nat) : Prop :=
  forall l, let (u, inv) := uniq l in
  length inv = length l /\ NoDup u /\ (forall x, In x u -> In x l) /\
  forall i x, nth_error l i = Some x -> exists j, nth_error inv i = Some j /\ nth_error u j = Some x.

(** a compiled regular expression: its number of groups, the named groups (names
    and numbers from 0) and what it finds in a string: the whole match and the
    groups (None: a group that took no part in the match) *)
Record regex := mkR { r_groups : nat; r_names : list (name * nat); r_search : text -> option (text * list (option text)) }.
(** as many groups in a match as the expression has *)
Definition well_formed (r : regex) : Prop :=
  (forall s m gs, r_search r s = Some (m, gs) -> length gs = r_groups r) /\
  NoDup (map snd (r_names r)) /\ (forall n g, In (n, g) (r_names r) -> g < r_groups r).
(** every group takes part in every match *)
Definition total (r : regex) : Prop := forall s m gs, r_search r s = Some (m, gs) -> Forall (fun g => g <> None) gs.
(** group [g] of the first match in [s], the whole match for an expression
    without groups, and [fill] without a match *)
Definition found (r : regex) (fill : text) (g : nat) (s : text) : text :=
  match r_search r s with
  | None => fill
  | Some (m, gs) => match r_groups r with
                    | O => m
                    | S _ => match nth_error gs g with Some (Some t) => t | _ => fill end
                    end
  end.
(** the number of arrays extract gives *)
Definition arity (r : regex) : nat := Nat.max 1 (r_groups r).
(** the names of the columns: those given, or the names of the groups, and
    [gname] (group_0, group_1, ..) for groups without a name *)
Definition named (gname : nat -> name) (r : regex) (given : option (list name)) (ns : list name) : Prop :=
  length ns = arity r /\
  match given with
  | Some l => ns = l
  | None => (forall n g, In (n, g) (r_names r) -> nth_error ns g = Some n) /\
            (forall g, g < arity r -> ~ In g (map snd (r_names r)) -> nth_error ns g = Some (gname g))
  end.
(** whether a Dataset is returned *)
Definition expands (r : regex) (expand : option bool) (given : option (list name)) : bool :=
  match expand with
  | Some e => e
  | None => Nat.ltb 1 (r_groups r) || match given with Some _ => true | None => false end || match r_names r with [] => false | _ => true end
  end.
