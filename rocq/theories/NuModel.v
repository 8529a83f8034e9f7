(** nunique of FastArrays, rt_fastarray.py:3934-3996, and bitcount, rt_numpy.py:5409-5445. *)
From Coq Require Import List ZArith Bool.
Import ListNotations.
Local Open Scope Z_scope.

(** Elements: integers and bools as [Num]; floats as [Num] of their rank among the floats, or
    [NaN]; strings as the lists of their character codes. *)
Inductive elem := Num (z : Z) | NaN | Text (l : list Z).
(** dtype.char: "?"; NumpyCharTypes.UnsignedInteger; the signed integers; AllFloat (without
    complex numbers); strings. rt_enum.py:580-610 *)
Inductive dtype := TBool | TInt (bits : Z) | TUint (bits : Z) | TFloat | TText.
(** rt_enum.py:88-150 [INVALID_DICT] *)
Definition invalid_of (dt : dtype) : elem :=
  match dt with
  | TBool => Num 0
  | TInt b => Num (- 2 ^ (b - 1))
  | TUint b => Num (2 ^ b - 1)
  | TFloat => NaN
  | TText => Text []
  end.
Fixpoint text_ltb (a b : list Z) : bool :=
  match a, b with
  | _, [] => false
  | [], _ :: _ => true
  | x :: a', y :: b' => (x <? y) || ((x =? y) && text_ltb a' b')
  end.
(** the order of the sort: NaN last *)
Definition ltb (a b : elem) : bool :=
  match a, b with
  | Num x, Num y => x <? y
  | Num _, NaN => true
  | Text x, Text y => text_ltb x y
  | _, _ => false
  end.
Definition elem_eq_dec (a b : elem) : {a = b} + {a <> b}.
Proof. decide equality; try apply Z.eq_dec; apply list_eq_dec, Z.eq_dec. Defined.
Fixpoint insert (x : elem) (l : list elem) : list elem :=
  match l with
  | [] => [x]
  | y :: r => if elem_eq_dec x y then l else if ltb x y then x :: l else y :: insert x r
  end.
(** rt_numpy.py:755-986 [unique] of an array: the distinct values, sorted, all NaNs as one. The
    grouping and the sort are in C++; modelled by an insertion sort. *)
Definition unique (l : list elem) : list elem := fold_right insert [] l.
(** un[k] == inv: a NaN equals nothing *)
Definition py_eq (a b : elem) : bool :=
  match a, b with NaN, _ | _, NaN => false | _, _ => if elem_eq_dec a b then true else false end.
(** 3979-3996; un[count - 1] and un[0] *)
Definition nunique (dt : dtype) (l : list elem) : Z :=
  let un := unique l in
  let count := Z.of_nat (length un) in
  match un with
  | [] => count
  | first :: _ =>
      let inv := invalid_of dt in
      match dt with
      | TFloat => if negb (py_eq (last un first) (last un first)) then count - 1 else count
      | TUint _ => if py_eq (last un first) inv then count - 1 else count
      | _ => if py_eq first inv then count - 1 else count
      end
  end.

(** The elements of an array of the dtype. *)
Definition of_dtype (dt : dtype) (e : elem) : Prop :=
  match dt, e with
  | TBool, Num z => z = 0 \/ z = 1
  | TInt b, Num z => - 2 ^ (b - 1) <= z < 2 ^ (b - 1)
  | TUint b, Num z => 0 <= z < 2 ^ b
  | TFloat, (Num _ | NaN) => True
  | TText, Text _ => True
  | _, _ => False
  end.
(** What isnan tells: NaN, and the sentinels: the least signed integer, the greatest
    unsigned one, the empty string; bools have none. *)
Definition missing (dt : dtype) (e : elem) : Prop :=
  match dt with
  | TBool => False
  | TInt b => e = Num (- 2 ^ (b - 1))
  | TUint b => e = Num (2 ^ b - 1)
  | TFloat => e = NaN
  | TText => e = Text []
  end.
(** isnan of Dates: rt_datetime.py:1475-1531 *)
Definition missing_date (e : elem) : Prop := e = Num 0 \/ e = Num (- 2 ^ 31).
(** [n] is the number of distinct elements of [l] with [P]. *)
Definition counts_distinct (P : elem -> Prop) (l : list elem) (n : Z) : Prop :=
  exists vs, NoDup vs /\ (forall e, In e vs <-> In e l /\ P e) /\ n = Z.of_nat (length vs).

(** ** bitcount *)
(** the digits of bin(p), least first *)
Fixpoint digits (p : positive) : list bool :=
  match p with xH => [true] | xO q => false :: digits q | xI q => true :: digits q end.
(** bin(a): the sign is kept apart *)
Definition bin (a : Z) : bool * list bool :=
  match a with Z0 => (false, [false]) | Zpos p => (false, rev (digits p)) | Zneg p => (true, rev (digits p)) end.
(** bin(a).count("1"), rt_numpy.py:5442-5443 *)
Definition bitcount_scalar (a : Z) : nat := length (filter (fun d => d) (snd (bin a))).
(** The number of bits that are set in the [w] bits of [a], in two's complement. *)
Definition bits_set (w : nat) (a : Z) : nat := length (filter (fun i => Z.testbit a (Z.of_nat i)) (seq 0 w)).
(** rt_numpy.py:5431-5438, [rc.BitCount]: the bits of each element; in C++, modelled by what it
    is said to do *)
Definition bitcount_array (w : nat) (l : list Z) : list nat := map (bits_set w) l.
