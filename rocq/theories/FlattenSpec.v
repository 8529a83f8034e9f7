(** Nested Structs whose names survive flattening: non-empty, no character of the separator, no
    "!" (used for the extra arrays of array subclasses), not "_root"; distinct within a Struct. *)
From Coq Require Import List Arith.
From Verif Require Import FlattenModel.
Import ListNotations.

Definition good_name (sep : name) (n : name) : Prop :=
  n <> [] /\ n <> root_name /\ forall ch, In ch n -> ~ In ch sep /\ ch <> bang.
Inductive well_named {A M C} (sep : name) : list (name * item A M C) -> Prop :=
| WN its :
    NoDup (map fst its) -> (forall n it, In (n, it) its -> good_name sep n) ->
    (forall n c sub, In (n, Sub c sub) its -> well_named sep sub) ->
    well_named sep its.
