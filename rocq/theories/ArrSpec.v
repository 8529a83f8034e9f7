(** Independent vocabulary for the statements about whole-array operations. *)
From Coq Require Import List Arith Bool ZArith QArith Qround.
From Coq Require Import Sorting.Sorted Sorting.Permutation.
From Verif Require Import GroupModel ArrModel.
Import ListNotations.
Local Close Scope Q_scope.

(** the element [p] places before row [i] ([p] < 0: after it), when there is one *)
Definition before {A} (l : list A) (p : Z) (i : nat) : option A :=
  let j := (Z.of_nat i - p)%Z in
  if (0 <=? j)%Z then nth_error l (Z.to_nat j) else None.

(** the value a dictionary gives to a key *)
Definition maps_to {K V} (d : list (K * V)) (k : K) (v : V) : Prop := In (k, v) d.

(** folding an elementwise operation over several masks *)
Fixpoint fold_masks (op : bool -> bool -> bool) (first : list bool) (rest : list (list bool)) : list bool :=
  match rest with
  | [] => first
  | b :: r => fold_masks op (map (fun p => op (fst p) (snd p)) (combine first b)) r
  end.

(** [v] is the [k]-th smallest (counting from 0) of [l]: it occurs, at most [k] are smaller and more
    than [k] are smaller or equal *)
Definition kth (l : list Q) (k : nat) (v : Q) : Prop :=
  (exists w, In w l /\ w == v)%Q /\
  length (filter (fun x => negb (Qle_bool v x)) l) <= k < length (filter (fun x => Qle_bool x v) l).

(** [n] groups, every row numbered from 1 by the position of its value among the distinct values *)
Definition groups_of {B} (arr : list B) (n : nat) (ikey : list nat) : Prop :=
  exists us, grouping_of (map Some arr) us ikey /\ n = length us /\ (forall u, In u us -> In u arr).

(** the contents of the mask at location [a] *)
Definition mask_at (h : masks) (a : nat) : list bool := nth a h [].

(** the [q]-quantile of [l] by linear interpolation between order statistics: with
    h = q * (length l - 1), the value floor(h)-th smallest + frac(h) * (step to the next) *)
Definition quantile_at (l : list Q) (q v : Q) : Prop :=
  let h := (q * inject_Z (Z.of_nat (length l) - 1))%Q in
  let k := Z.to_nat (Qfloor h) in
  let f := (h - inject_Z (Qfloor h))%Q in
  exists a b, kth l k a /\ (kth l (k + 1) b \/ f == 0)%Q /\ (v == a + f * (b - a))%Q.

(** the order of the sort: -inf, finite values, +inf, NaN *)
Definition fl_le (a b : fl) : Prop :=
  match a, b with
  | NegInf, _ => True
  | Fin p, Fin q => (p <= q)%Q
  | Fin _, (PosInf | NaN) => True
  | PosInf, (PosInf | NaN) => True
  | NaN, NaN => True
  | _, _ => False
  end.
(** what lexsort promises: every row once, in ascending order *)
Definition sorts (lexsort : list fl -> list nat) : Prop := forall x,
  Permutation (lexsort x) (seq 0 (length x)) /\ StronglySorted fl_le (map (fun i => nth i x NaN) (lexsort x)).
(** what ndarray.sort promises for the valid values *)
Definition sorts_q (qsort : list Q -> list Q) : Prop := forall l, Permutation (qsort l) l /\ StronglySorted Qle (qsort l).
(** the finite values of an array *)
Definition finite (x : list fl) : list Q := flat_map (fun v => match v with Fin q => [q] | _ => [] end) x.
(** the valid values of a column *)
Definition valid_values (arr : list (option Q)) : list Q := flat_map (fun v => match v with Some q => [q] | None => [] end) arr.

(** what Generator.choice(M, N, replace=False) promises: the elements at [N] different positions *)
Definition chooses (choice : list nat -> nat -> list nat) : Prop := forall M N, N <= length M ->
  exists ps, NoDup ps /\ length ps = N /\ (forall p, In p ps -> p < length M) /\ choice M N = map (fun p => nth p M 0) ps.
(** what ndarray.sort promises for row numbers *)
Definition sorts_n (nsort : list nat -> list nat) : Prop := forall l, Permutation (nsort l) l /\ StronglySorted le (nsort l).
