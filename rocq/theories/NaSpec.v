(** Vocabulary for the invalid category of Categoricals (C227, C228). *)
From Coq Require Import List ZArith Bool.
From Verif Require Import FlattenModel CatModel CatSpec.
Import ListNotations.
Local Open Scope Z_scope.

(** Categoricals with one key: sorted or not, base index, categories; or with a
    mapping from codes to strings *)
Inductive kind (A : Type) := Single (sorted : bool) (base : Z) (l : list A) | Mapping (m : list (Z * A)).
Arguments Single {A}. Arguments Mapping {A}.
(** a Categorical: its codes, its categories, its invalid category, the name
    shown for filtered elements (None: Filtered) *)
Record kcat (A : Type) := mkK { k_codes : list Z; k_kind : kind A; k_inv : option A; k_name : option name }.
Arguments mkK {A}. Arguments k_codes {A}. Arguments k_kind {A}. Arguments k_inv {A}. Arguments k_name {A}.

(** the code stands for the category *)
Definition is_cat {A} (k : kind A) (code : Z) (a : A) : Prop :=
  match k with
  | Single _ base l => base <= code /\ nth_error l (Z.to_nat (code - base)) = Some a
  | Mapping m => In (code, a) m
  end.
(** categories are distinct, and increasing where flagged sorted; a mapping is one to one *)
Definition sound {A} (o : ord A) (k : kind A) : Prop :=
  match k with
  | Single sorted base l => (base = 0 \/ base = 1) /\ if sorted then increasing o l else NoDup l
  | Mapping m => NoDup (map fst m) /\ NoDup (map snd m)
  end.
(** a category or, with base index 1, the code 0 of filtered elements *)
Definition valid_code {A} (k : kind A) (code : Z) : Prop :=
  match k with Single _ base l => 0 <= code < base + Z.of_nat (length l) | Mapping _ => True end.

(** what is done to Categoricals, numbered as they are made *)
Inductive inv_arg (A : Type) := Str (a : A) | Bytes (a : A) | Num.
Arguments Str {A}. Arguments Bytes {A}. Arguments Num {A}.
Inductive op (A : Type) :=
| New (codes : list Z) (k : kind A) (inv : option A)   (* Categorical(.., invalid=inv) *)
| Take (i : nat) (pos : list nat)                      (* c[1:3], c[mask], c[[..]] *)
| Copy (i : nat)                                       (* c.copy(), Categorical(c) *)
| Shift (i : nat) (n : nat)                            (* c.shift_cat(n) *)
| CopyInvalid (i : nat)                                (* c.copy_invalid() *)
| SetInvalid (i : nat) (a : inv_arg A)                 (* c.invalid_set(a) *)
| SetName (i : nat) (n : name).                        (* c.filtered_set_name(n) *)
Arguments New {A}. Arguments Take {A}. Arguments Copy {A}. Arguments Shift {A}. Arguments CopyInvalid {A}. Arguments SetInvalid {A}. Arguments SetName {A}.
