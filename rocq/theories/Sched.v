(** Parallel loops.

    riptable's multithreaded kernels are numba [prange] loops
    (riptable/rt_str.py:53-58 [_njit_par], riptable/rt_merge.py:611, 887, 933,
    riptable/rt_merge_asof.py, riptable/rt_groupbynumba.py).  Every iteration of such a
    loop computes, from arrays that the loop does not modify, a sequence of array stores.
    This file gives the meaning of such a loop: the stores of the different iterations are
    executed in ANY interleaving that keeps the program order of each iteration.

    Simplification: a store is atomic (one array element); the hardware memory model is
    not modelled beyond that. *)
From Coq Require Import List Arith Lia Permutation.
Import ListNotations.

Section Mem.
Context {V : Type}.

(** Contents of a one-dimensional output array, by position. *)
Definition mem := nat -> V.
Definition store : Type := nat * V.

Definition do_store (m : mem) (w : store) : mem :=
  fun p => if Nat.eqb p (fst w) then snd w else m p.

Definition run_stores (ws : list store) (m : mem) : mem := fold_left do_store ws m.

(** [interleave its ws]: [ws] is an order in which a machine may execute the stores of
    the iterations [its], each iteration's own stores in order. *)
Inductive interleave : list (list store) -> list store -> Prop :=
| il_done : forall its, Forall (fun l => l = []) its -> interleave its []
| il_step : forall pre w l post ws,
    interleave (pre ++ l :: post) ws -> interleave (pre ++ (w :: l) :: post) (w :: ws).

(** The loop that runs the iterations one after the other, in index order. *)
Definition serial (its : list (list store)) : list store := concat its.

(** The array segment [lo, lo+len) read back as a list. *)
Definition segment (m : mem) (lo len : nat) : list V := map (fun j => m (lo + j)) (seq 0 len).

End Mem.
Arguments mem : clear implicits.
Arguments store : clear implicits.

(** Loop whose whole iterations are executed atomically in the order [order]; the weaker
    notion (permutations of iterations) used when an iteration is not a plain list of
    stores. *)
Definition run_order {S : Type} (body : nat -> S -> S) (order : list nat) (s : S) : S :=
  fold_left (fun s i => body i s) order s.
