(** Contracts of the grouping primitives used by the merge, categorical and groupby code.

    The primitives themselves (groupbyhash / groupbylex, groupbypack, ismember) are C++ code of
    the separate package riptide_cpp, which is not in /repo.  They are given here by their
    documented behaviour; this file is part of the trusted base (DESIGN.md).

    A key column is a list of [option B]: [None] is a null / filtered key.  Group numbers are 1..n
    in the order of the unique keys, 0 means "in no group". *)
From Coq Require Import List Arith Bool Lia Permutation.
Import ListNotations.

Section Group.
Context {B : Type}.
Variable eqb : B -> B -> bool.

(** position of a key among the unique keys *)
Fixpoint index_of (b : B) (us : list B) : option nat :=
  match us with
  | [] => None
  | u :: r => if eqb b u then Some 0 else option_map S (index_of b r)
  end.

(** rt_numpy.py:1978 [groupbyhash] / [groupbylex] and rt_grouping.py:1518-1541 [Grouping.ikey]:
    [us] are the unique keys (in any order: first occurrence or sorted), [ikey] the group number
    of every row. *)
Record grouping_of (keys : list (option B)) (us : list B) (ikey : list nat) : Prop := mkGrouping {
  g_distinct : NoDup us;
  g_length : length ikey = length keys;
  g_null : forall i, nth_error keys i = Some None -> nth_error ikey i = Some 0;
  g_key : forall i b, nth_error keys i = Some (Some b) ->
            exists k, nth_error ikey i = Some (S k) /\ nth_error us k = Some b }.

(** an executable grouping in first-occurrence order *)
Definition add_unique (us : list B) (o : option B) : list B :=
  match o with
  | Some b => match index_of b us with Some _ => us | None => us ++ [b] end
  | None => us
  end.
Definition uniques (keys : list (option B)) : list B := fold_left add_unique keys [].
Definition ikeys (keys : list (option B)) : list nat :=
  map (fun o => match o with
                | None => 0
                | Some b => match index_of b (uniques keys) with Some k => S k | None => 0 end
                end) keys.

(** rt_numpy.py:1186-1393 [ismember] on two lists of unique keys, second result: the position in
    the second list, [None] (an invalid index) when absent. *)
Definition lookup (us us' : list B) : list (option nat) := map (fun b => index_of b us') us.
End Group.

(** rt_numpy.py:1901-1975 [groupbypack]: the rows of one group, in row order *)
Definition group_rows (ikey : list nat) (g : nat) : list nat :=
  filter (fun i => nth i ikey 0 =? g) (seq 0 (length ikey)).
(** [nCountGroup], [iGroup], [iFirstGroup] for [n] groups and the null group *)
Definition ncountgroup (ikey : list nat) (n : nat) : list nat :=
  map (fun g => length (group_rows ikey g)) (seq 0 (S n)).
Definition igroup (ikey : list nat) (n : nat) : list nat :=
  concat (map (group_rows ikey) (seq 0 (S n))).
Definition ifirstgroup (ikey : list nat) (n : nat) : list nat :=
  map (fun g => length (concat (map (group_rows ikey) (seq 0 g)))) (seq 0 (S n)).

(** [a[lo : lo + len]] *)
Definition slice {X} (a : list X) (lo len : nat) : list X := firstn len (skipn lo a).
