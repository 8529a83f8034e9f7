(** What filling and running extremes mean, for lists. *)
From Coq Require Import List Arith Bool ZArith.
Import ListNotations.

Section Spec.
Context {V : Type}.
Variable isinv : V -> bool.
Definition invalid_at (a : list V) (i : nat) : Prop := forall x, nth_error a i = Some x -> isinv x = true.

(** [r] is [a] filled forward: every valid element is kept; an invalid element takes the last
    valid element before it, or [fv] when there is none, unless it is further than [limit]
    positions into its run of invalid elements ([limit = 0]: no limit), in which case it is kept. *)
Definition filled_forward (limit : nat) (fv : V) (a r : list V) : Prop :=
  length r = length a /\
  forall i x, nth_error a i = Some x ->
    (isinv x = false -> nth_error r i = Some x) /\
    (forall j y, j < i -> nth_error a j = Some y -> isinv y = false -> (forall k, j < k <= i -> invalid_at a k) ->
       nth_error r i = Some (if (limit =? 0) || (i - j <=? limit) then y else x)) /\
    ((forall k, k <= i -> invalid_at a k) ->
       nth_error r i = Some (if (limit =? 0) || (i + 1 <=? limit) then fv else x)).
Definition filled_backward (limit : nat) (fv : V) (a r : list V) : Prop :=
  length r = length a /\
  forall i x, nth_error a i = Some x ->
    (isinv x = false -> nth_error r i = Some x) /\
    (forall j y, i < j -> nth_error a j = Some y -> isinv y = false -> (forall k, i <= k < j -> invalid_at a k) ->
       nth_error r i = Some (if (limit =? 0) || (j - i <=? limit) then y else x)) /\
    ((forall k, i <= k -> invalid_at a k) ->
       nth_error r i = Some (if (limit =? 0) || (length a - i <=? limit) then fv else x)).

(** [r] is the running extreme of the valid elements: at each position, a valid element of the
    prefix that no valid element of the prefix beats; the input itself while there is none. *)
Definition running_extreme (beats : V -> V -> Prop) (a r : list V) : Prop :=
  length r = length a /\
  forall i x, nth_error a i = Some x ->
    ((forall k, k <= i -> invalid_at a k) -> nth_error r i = Some x) /\
    ((exists k y, k <= i /\ nth_error a k = Some y /\ isinv y = false) ->
     exists k y, k <= i /\ nth_error a k = Some y /\ isinv y = false /\ nth_error r i = Some y /\
       forall k' z, k' <= i -> nth_error a k' = Some z -> isinv z = false -> ~ beats z y).
(** an invalid element makes every later result invalid; before that, the running extreme *)
Definition running_extreme_strict (beats : V -> V -> Prop) (a r : list V) : Prop :=
  length r = length a /\
  forall i v, nth_error r i = Some v ->
    ((exists k x, k <= i /\ nth_error a k = Some x /\ isinv x = true) -> isinv v = true) /\
    ((forall k x, k <= i -> nth_error a k = Some x -> isinv x = false) ->
     (exists k, k <= i /\ nth_error a k = Some v) /\ forall k z, k <= i -> nth_error a k = Some z -> ~ beats z v).
End Spec.
