(** Vocabulary for functions applied to Datasets (C235) and tables of percentages (C236). *)
From Coq Require Import List QArith Bool.
From Verif Require Import FlattenModel.
Import ListNotations.

(** columns and their numbers *)
Definition columns := list (name * list Q).
(** x of d, in percent *)
Definition pct (d x : Q) : Q := (100 * x / d)%Q.
Definition qsum (l : list Q) : Q := fold_right Qplus 0%Q l.
Definition row (cols : columns) (i : nat) : list Q := map (fun c => nth i (snd c) 0%Q) cols.
(** what to divide by *)
Inductive norm := ByTable | ByRow | ByColumn.
