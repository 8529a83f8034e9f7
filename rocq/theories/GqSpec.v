(** Vocabulary for the statements about grouped uniques, aggregates and quantiles (C160-C164). *)
From Coq Require Import List Arith Bool ZArith Permutation Sorted.
From Verif Require Import FlattenModel.
Import ListNotations.

(** ** agg: the function [op] is asked for the column [c] *)
Definition asked (spec : list (name * list name)) (c op : name) : Prop := exists ops, In (c, ops) spec /\ In op ops.
(** ** quantiles *)
Open Scope Z_scope.
(** the midpoint quantile num / den of the values [l]: the two elements of the sorted values next to the position
    (n - 1) * num / den *)
Definition quantile_at (num den : Z) (l : list Z) (r : Z * Z) : Prop :=
  exists s, Permutation s l /\ StronglySorted Z.le s /\
    let pos := num * (Z.of_nat (length l) - 1) in
    r = (nth (Z.to_nat (pos / den)) s 0, nth (Z.to_nat (- ((- pos) / den))) s 0).
(** the position is more than 3 (n - 1) / 10^9 away from the next whole numbers *)
Definition clear (num den : Z) (n : nat) : Prop :=
  let m := Z.of_nat n - 1 in
  exists i, i * den * 10 ^ 9 + 3 * den * m < num * m * 10 ^ 9 < (i + 1) * den * 10 ^ 9 - 3 * den * m.
(** the values that are not NaN *)
Definition values (l : list (option Z)) : list Z := flat_map (fun x => match x with Some z => [z] | None => [] end) l.
(** the last [w] rows up to row [r] *)
Definition last_rows {X} (w : Z) (r : nat) (l : list X) : list X :=
  map snd (filter (fun p => (fst p <=? r)%nat && (Z.of_nat r <? Z.of_nat (fst p) + w)) (combine (seq 0 (length l)) l)).
Close Scope Z_scope.
