(** Parallel loops whose iterations also read the array they write.

    The numba kernels of riptable/rt_groupbynumba.py:140-206, 448-492 read and update cells of the
    result array in each iteration ([ret[grpIdx] += ...], or [ret] being [data] itself when filling
    in place).  An iteration is a program: a list of instructions, each of which sees the local
    variables of the iteration and the shared array.  The loop runs the programs of its iterations
    in ANY interleaving.

    Simplification: loads and stores of one array element are atomic; a read-modify-write is a load
    and a store, two instructions. *)
From Coq Require Import List Arith.
From Verif Require Import Sched.
Import ListNotations.

Section Threads.
Context {L V : Type}.
Definition instr := L -> mem V -> L * mem V.
(** one iteration alone *)
Fixpoint run_prog (l : L) (is : list instr) (m : mem V) : mem V :=
  match is with [] => m | f :: r => let '(l', m') := f l m in run_prog l' r m' end.
Definition run_thread (t : L * list instr) (m : mem V) : mem V := run_prog (fst t) (snd t) m.
(** [par ts m m']: [m'] is a possible outcome of running the iterations [ts] in parallel *)
Inductive par : list (L * list instr) -> mem V -> mem V -> Prop :=
| par_done ts m : Forall (fun t => snd t = []) ts -> par ts m m
| par_step pre l (f : instr) r post m m2 :
    par (pre ++ (fst (f l m), r) :: post) (snd (f l m)) m2 ->
    par (pre ++ (l, f :: r) :: post) m m2.
(** one after the other *)
Definition run_all (ts : list (L * list instr)) (m : mem V) : mem V := fold_left (fun m t => run_thread t m) ts m.
(** a load of a cell into the local variables, a store of a cell *)
Definition load (p : nat) (f : L -> V -> L) : instr := fun l m => (f l (m p), m).
Definition store_to (p : nat) (f : L -> V) : instr := fun l m => (l, do_store m (p, f l)).
End Threads.
Arguments instr : clear implicits.
(** the local variables and the program of an iteration *)
Notation thread L V := (L * list (instr L V))%type.
