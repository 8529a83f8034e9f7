(** Independent vocabulary for the statements about the history of a Multiset. *)
From Coq Require Import List Arith Bool.
From Verif Require Import FlattenModel DsModel MuSpec MuModel.
Import ListNotations.

Section Hist.
Context {M : Type}.
(** the members an operation puts in *)
Definition given (o : op (M := M)) : list (M * option nat) :=
  match o with
  | New l => map snd l
  | SetItem _ v | SetAttr _ v => [v]
  | SetItems _ vs => vs
  | Del _ | Lock | Unlock | Member_ _ _ => []
  end.
(** members with rows, none changed in place *)
Definition ordinary (o : op (M := M)) : Prop :=
  (forall v, In v (given o) -> exists k, snd v = Some (S k)) /\ match o with Member_ _ _ => False | _ => True end.
(** a history of ordinary operations, in which an attribute is set only once there are members *)
Fixpoint orderly (valid : name -> bool) (s : state (M := M)) (os : list op) : Prop :=
  match os with
  | [] => True
  | o :: r => ordinary o /\ match o with SetAttr _ _ => st_items s <> [] | _ => True end /\ orderly valid (fst (step valid s o)) r
  end.
Definition start : state (M := M) := mkState [] None false.
(** every member has the number of rows the Multiset says *)
Definition even (s : state (M := M)) : Prop := forall p, In p (st_items s) -> snd (snd p) = st_nrows s /\ exists k, st_nrows s = Some (S k).
End Hist.
