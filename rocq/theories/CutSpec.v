(** What cut and qcut should do (C130-C132). *)
From Coq Require Import List Arith Bool ZArith QArith Sorted.
From Verif Require Import FlattenModel ArrModel ArrSpec CutModel.
Import ListNotations.
Open Scope nat_scope.

(** v < w and v = w, for values that are not NaN *)
Definition flt (a b : fl) : Prop :=
  match a, b with
  | NegInf, (Fin _ | PosInf) => True
  | Fin p, Fin q => (p < q)%Q
  | Fin _, PosInf => True
  | _, _ => False
  end.
Definition feq (a b : fl) : Prop :=
  match a, b with
  | NegInf, NegInf => True
  | PosInf, PosInf => True
  | Fin p, Fin q => (p == q)%Q
  | _, _ => False
  end.
Definition fle (a b : fl) : Prop := flt a b \/ feq a b.
(** edges that make bins: at least two, increasing *)
Definition edges_ok (e : list fl) : Prop := 2 <= length e /\ StronglySorted flt e /\ ~ In NaN e.
(** the value is in bin [i] (counted from 1): above its left edge (or on it, in the first bin), up to its right edge *)
Definition in_bin (e : list fl) (i : nat) (v : fl) : Prop :=
  exists a b, nth_error e (i - 1) = Some a /\ nth_error e i = Some b /\ 1 <= i /\ fle v b /\ (flt a v \/ (i = 1 /\ feq v a)).
(** the value is in no bin *)
Definition outside (e : list fl) (v : fl) : Prop := v = NaN \/ flt v (hd NaN e) \/ flt (last e NaN) v.
(** the rows: those the filter leaves out count as NaN *)
Definition value_at (filt : option (list bool)) (x : list fl) (r : nat) : fl :=
  match filt with
  | None => nth r x NaN
  | Some f => if nth r f false then nth r x NaN else NaN
  end.
Definition filter_fits (filt : option (list bool)) (x : list fl) : Prop := forall f, filt = Some f -> length f = length x.
(** labels that can be used with these edges *)
Definition labels_fit (labels : labels_arg) (e : list fl) : Prop := forall l, labels = LGiven l -> length l = length e - 1.
(** no two values equal *)
Definition distinct (l : list Q) : Prop := ForallOrdPairs (fun a b => ~ (a == b)%Q) l.
(** how many rows have this code *)
Definition rows_with (codes : list nat) (k : nat) : nat := length (filter (fun c => c =? k) codes).
