(* Vocabulary for operations on whole arrays: the element types, the numbers they
   hold, the number that stands for "invalid", and what a user expects of an
   operation on two arrays, or on an array and a number. *)
From Coq Require Import List ZArith Bool.
Import ListNotations.
Local Open Scope Z_scope.

(* bool, signed and unsigned integers of 8, 16, 32 and 64 bits, and floats with
   24 (float32) or 53 (float64) binary digits. *)
Inductive width := W8 | W16 | W32 | W64.
Inductive dt := TBool | TInt (w : width) | TUInt (w : width) | TFloat (digits : Z).

Definition bits (w : width) : Z := match w with W8 => 8 | W16 => 16 | W32 => 32 | W64 => 64 end.

Definition lowest (d : dt) : Z :=
  match d with TInt w => - 2 ^ (bits w - 1) | _ => 0 end.
Definition highest (d : dt) : Z :=
  match d with
  | TBool => 1
  | TInt w => 2 ^ (bits w - 1) - 1
  | TUInt w => 2 ^ bits w - 1
  | TFloat _ => 0
  end.
Definition integral (d : dt) : bool := match d with TFloat _ => false | _ => true end.
Definition signed (d : dt) : bool := match d with TInt _ => true | _ => false end.
Definition unsigned (d : dt) : bool := match d with TUInt _ => true | _ => false end.

(* The numbers an integer type can hold. *)
Definition holds (d : dt) (z : Z) : Prop := lowest d <= z <= highest d.

(* The number that marks a missing value: the lowest of a signed, the highest of
   an unsigned type. *)
Definition invalid (d : dt) (z : Z) : bool :=
  match d with
  | TInt _ => z =? lowest d
  | TUInt _ => z =? highest d
  | _ => false
  end.
Definition proper (d : dt) (z : Z) : Prop := holds d z /\ invalid d z = false.

(* An operand of the user: an array, or one number with the type numpy gives it
   (int64 for a Python integer of any size). *)
Inductive arg := Arr (d : dt) (l : list Z) | Sca (d : dt) (z : Z).
Definition type_of (a : arg) : dt := match a with Arr d _ => d | Sca d _ => d end.
Definition is_array (a : arg) : bool := match a with Arr _ _ => true | _ => false end.
Definition content (a : arg) : list Z := match a with Arr _ l => l | Sca _ z => [z] end.

(* Elements side by side; a single number stands beside every element. *)
Definition pairs (a b : arg) : option (list (Z * Z)) :=
  match a, b with
  | Arr _ x, Arr _ y => if Nat.eqb (length x) (length y) then Some (combine x y) else None
  | Arr _ x, Sca _ z => Some (map (fun v => (v, z)) x)
  | Sca _ z, Arr _ y => Some (map (fun v => (z, v)) y)
  | Sca _ _, Sca _ _ => None
  end.

(* Both are integers, arrays hold proper values of their type. *)
Definition good (a : arg) : Prop :=
  integral (type_of a) = true /\
  (is_array a = true -> Forall (proper (type_of a)) (content a)) /\
  (is_array a = false -> type_of a = TInt W64 \/ holds (type_of a) (hd 0 (content a))).

(* The pairs of types that no integer type can hold: unsigned 64 and signed. *)
Definition clash (a b : dt) : bool :=
  match a, b with
  | TUInt W64, TInt _ => true
  | TInt _, TUInt W64 => true
  | _, _ => false
  end.

(* A number that can be compared with an array of type [d]: what 64 bits of the
   same sign can hold; beside a bool array, what its own type can hold. *)
Definition in_reach (d s : dt) (z : Z) : Prop :=
  match d with
  | TUInt _ => 0 <= z <= 2 ^ 64 - 1
  | TInt _ => - 2 ^ 63 <= z <= 2 ^ 63 - 1
  | TBool => holds s z
  | TFloat _ => False
  end.

(* All numbers of an operand can be held. *)
Definition inside (d : dt) (a : arg) : Prop := Forall (holds d) (content a).

(* The type of sums. *)
Definition wide (d : dt) : dt := match d with TUInt W64 => TUInt W64 | _ => TInt W64 end.
