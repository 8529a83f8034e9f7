(** Vocabulary for tables of several columns (C237), columns popped (C238) and the truth of
    Structs (C239). *)
From Coq Require Import List ZArith Bool.
From Verif Require Import FlattenModel.
Import ListNotations.

(** ** columns *)
(** an array; an array and a letter; two arrays *)
Inductive value (A : Type) := Plain (a : A) | Named (a : A) (s : name) | Ratio (a b : A).
Arguments Plain {A}. Arguments Named {A}. Arguments Ratio {A}.
Section Computed.
Context {A F Filter X Y : Type}.
(** the aggregate of a group function, the ratio of two, the share in percent: a column and its footer *)
Variables (agg : F -> A -> Filter -> option (X * Y)) (ratio : F -> A -> A -> Filter -> option (X * Y)) (percent : F -> A -> Filter -> option (X * Y)).
Inductive computed (f : F) (filt : Filter) : value A -> X -> Y -> Prop :=
| c_plain a x y : agg f a filt = Some (x, y) -> computed f filt (Plain a) x y
| c_ratio a b x y : ratio f a b filt = Some (x, y) -> computed f filt (Ratio a b) x y
| c_percent a s x y : s = [112]%nat \/ s = [80]%nat -> percent f a filt = Some (x, y) -> computed f filt (Named a s) x y.
End Computed.

(** ** truth *)
(** what a Struct holds: Structs, arrays, other iterables, dictionaries (key and value), other
    things; of everything only whether it is true *)
Inductive item := SubStruct (l : list (name * item)) | Array (l : list bool) | Iterable (l : list bool) | Dict (l : list (bool * bool)) | Scalar (b : bool).
(** [b] is an element of the item: of an array, an iterable, the values of a dictionary, or of
    something in the Struct, at any depth *)
Inductive element (b : bool) : item -> Prop :=
| e_sub k i l : In (k, i) l -> element b i -> element b (SubStruct l)
| e_array l : In b l -> element b (Array l)
| e_iterable l : In b l -> element b (Iterable l)
| e_dict k l : In (k, b) l -> element b (Dict l)
| e_scalar : element b (Scalar b).
(** no dictionaries *)
Inductive plain : item -> Prop :=
| p_sub l : (forall k i, In (k, i) l -> plain i) -> plain (SubStruct l)
| p_array l : plain (Array l)
| p_iterable l : plain (Iterable l)
| p_scalar b : plain (Scalar b).
