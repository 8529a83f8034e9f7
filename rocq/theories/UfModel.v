(* Model of riptable/rt_fastarray.py FastArray.__array_ufunc__ (4676-5251), the
   function numpy calls for every operation on FastArrays, for operations on two
   operands, for sum/min/max, for ~ and for + on strings; contiguous arrays,
   no casting/signature/where/axes keywords (these go to numpy, 4743-4777).
   The element loops are in the C++ extension; its contract is stated in
   [engine], [convert_safe] and [c_reduce] below.  Floats are modelled only as
   the type integers are converted to: an integer rounded to the digits of the
   type, or [None] for NaN. *)
From Coq Require Import List ZArith Bool.
From Verif Require Import UfSpec.
Import ListNotations.
Local Open Scope Z_scope.

Definition width_eqb (a b : width) : bool := bits a =? bits b.
Definition dt_eqb (a b : dt) : bool :=
  match a, b with
  | TBool, TBool => true
  | TInt x, TInt y => width_eqb x y
  | TUInt x, TUInt y => width_eqb x y
  | TFloat x, TFloat y => x =? y
  | _, _ => false
  end.

(* numpy dtype.num on Linux. *)
Definition num (d : dt) : Z :=
  match d with
  | TBool => 0
  | TInt W8 => 1 | TUInt W8 => 2 | TInt W16 => 3 | TUInt W16 => 4
  | TInt W32 => 5 | TUInt W32 => 6 | TInt W64 => 7 | TUInt W64 => 8
  | TFloat p => if p <=? 24 then 11 else 12
  end.

(* numpy: the first type to which both can be converted safely. *)
Definition wmax (a b : width) : width := if bits a <=? bits b then b else a.
Definition next (w : width) : option width :=
  match w with W8 => Some W16 | W16 => Some W32 | W32 => Some W64 | W64 => None end.
Definition mixed (s u : width) : dt :=
  if bits u <? bits s then TInt s
  else match next u with Some w => TInt w | None => TFloat 53 end.
Definition with_float (p : Z) (d : dt) : dt :=
  match d with
  | TBool => TFloat p
  | TInt w | TUInt w => if bits w <=? 16 then TFloat p else TFloat 53
  | TFloat q => TFloat (Z.max p q)
  end.
Definition promote (a b : dt) : dt :=
  match a, b with
  | TBool, x => x
  | x, TBool => x
  | TInt x, TInt y => TInt (wmax x y)
  | TUInt x, TUInt y => TUInt (wmax x y)
  | TInt s, TUInt u => mixed s u
  | TUInt u, TInt s => mixed s u
  | TFloat p, x => with_float p x
  | x, TFloat p => with_float p x
  end.

(* numpy find_common_type([array],[scalar]): the scalar counts only if its kind
   is higher (bool < unsigned < signed < float). *)
Definition kind (d : dt) : Z := match d with TBool => 0 | TUInt _ => 1 | TInt _ => 2 | TFloat _ => 3 end.
Definition find_common (arr sc : dt) : dt := if kind arr <? kind sc then promote sc arr else arr.

(* rt_fastarray.py 265-353 logical_find_common_type. *)
Definition logical_find (arr sc : dt) (z : Z) : dt :=
  if negb (signed sc || unsigned sc) then find_common arr sc
  else if negb (signed arr || unsigned arr) then find_common arr sc
  else
    let final :=
      if unsigned arr then
        if z <=? 255 then TUInt W8
        else if z <=? 65535 then TUInt W16
        else if z <=? 2 ^ 32 - 1 then TUInt W32
        else if z <=? 2 ^ 64 - 1 then TUInt W64
        else TFloat 53
      else
        if (-128 <=? z) && (z <=? 127) then TInt W8
        else if (-32768 <=? z) && (z <=? 32767) then TInt W16
        else if (- 2 ^ 31 <=? z) && (z <=? 2 ^ 31 - 1) then TInt W32
        else if (- 2 ^ 63 <=? z) && (z <=? 2 ^ 63 - 1) then TInt W64
        else TFloat 53 in
    if num arr <? num final then final else arr.

(* C conversion of an integer to a type: modulo for integers, rounding to the
   nearest (ties to even) for floats. *)
Definition round_to (p z : Z) : Z :=
  let a := Z.abs z in
  let n := Z.log2 a + 1 in
  if n <=? p then z
  else let s := n - p in
       let q := a / 2 ^ s in
       let r := a mod 2 ^ s in
       let q' := if (2 ^ s <? 2 * r) || ((2 ^ s =? 2 * r) && Z.odd q) then q + 1 else q in
       Z.sgn z * (q' * 2 ^ s).
Definition conv (d : dt) (z : Z) : Z :=
  match d with
  | TBool => if z =? 0 then 0 else 1
  | TInt w => (z + 2 ^ (bits w - 1)) mod 2 ^ bits w - 2 ^ (bits w - 1)
  | TUInt w => z mod 2 ^ bits w
  | TFloat p => round_to p z
  end.

(* rt_fastarray.py 365-376 _ASTYPE with SafeConversions: rc.ConvertSafe, which
   turns the invalid of one type into that of the other (NaN for floats). *)
Definition convert_safe (from to : dt) (z : Z) : option Z :=
  if invalid from z then
    match to with
    | TInt _ => Some (lowest to)
    | TUInt _ => Some (highest to)
    | TBool => Some 1
    | TFloat _ => None
    end
  else Some (conv to z).

(* The operation: arithmetic, or a comparison with its answer for NaN. *)
Inductive uop := Arith (f : Z -> Z -> Z) | Compare (f : Z -> Z -> bool) (nan : bool).
Definition logical (o : uop) : bool := match o with Arith _ => false | _ => true end.

(* 4886-4939: the type in which the operation is done.  [out]: the type of the
   array given as out=.  [None]: two scalars, left to numpy. *)
Definition final_type (o : uop) (out : option dt) (a b : arg) : option dt :=
  match out, logical o with
  | Some d, false => if is_array a || is_array b then Some d else None
  | _, _ =>
    match a, b with
    | Arr da _, Arr db _ => Some (if dt_eqb da db then da else promote da db)
    | Arr d _, Sca s z | Sca s z, Arr d _ =>
        Some (if logical o then logical_find d s z
              else if num d <=? 10 then logical_find d s z else find_common d s)
    | Sca _ _, Sca _ _ => None
    end
  end.

(* 4972-5001: which operands are converted before the call.  An operand keeps
   its type in the result. *)
Definition cast (d : dt) (a : arg) : list (option Z) :=
  match a with
  | Arr t l => map (convert_safe t d) l
  | Sca _ z => [Some z]
  end.
Definition uncast (a : arg) : list (option Z) := map Some (content a).
Definition prepare (d : dt) (a b : arg) : list (option Z) * list (option Z) :=
  match a, b with
  | Arr da _, Arr db _ =>
      if dt_eqb da db then (uncast a, uncast b)
      else if dt_eqb da d && negb (dt_eqb db d) then (uncast a, cast d b)
      else if negb (dt_eqb da d) && dt_eqb db d then (cast d a, uncast b)
      else (cast d a, cast d b)
  | _, _ =>
      ((if dt_eqb (type_of a) d && is_array a then uncast a else cast d a),
       (if dt_eqb (type_of b) d && is_array b then uncast b else cast d b))
  end.

(* rc.BasicMathTwoInputs: every operand is converted to the final type, the
   operation is done in it; a single number stands beside every element.  It
   refuses arrays of different lengths. *)
Definition lift (d : dt) (f : Z -> Z -> Z) (x y : option Z) : option Z :=
  match x, y with Some u, Some v => Some (conv d (f (conv d u) (conv d v))) | _, _ => None end.
Definition compare (d : dt) (f : Z -> Z -> bool) (nan : bool) (x y : option Z) : bool :=
  match x, y with Some u, Some v => f (conv d u) (conv d v) | _, _ => nan end.
Definition beside {A} (a b : arg) (x y : list A) : option (list (A * A)) :=
  match a, b with
  | Arr _ _, Arr _ _ => if Nat.eqb (length x) (length y) then Some (combine x y) else None
  | Arr _ _, Sca _ _ => match y with z :: _ => Some (map (fun v => (v, z)) x) | [] => None end
  | Sca _ _, Arr _ _ => match x with z :: _ => Some (map (fun v => (z, v)) y) | [] => None end
  | Sca _ _, Sca _ _ => None
  end.

Inductive result := Numbers (d : dt) (l : list (option Z)) | Answers (l : list bool).
Definition ufunc2 (o : uop) (out : option dt) (a b : arg) : option result :=
  match final_type o out a b with
  | None => None
  | Some d =>
    let '(x, y) := prepare d a b in
    match beside a b x y with
    | None => None
    | Some ps =>
      Some (match o with
            | Arith f => Numbers d (map (fun p => lift d f (fst p) (snd p)) ps)
            | Compare f nan => Answers (map (fun p => compare d f nan (fst p) (snd p)) ps)
            end)
    end
  end.

(* 5129-5132 and rt_ledger.py 238-255 _BASICMATH_ONE_INPUT for np.invert:
   without out= the argument is the array, with out= a tuple, whose dtype is
   asked for unless the array is bool.  [None] = AttributeError. *)
Definition invert (out : bool) (d : dt) (l : list Z) : option (list Z) :=
  if out && dt_eqb d TBool then Some (map (fun z => conv TBool (Z.lxor (conv TBool z) 1)) l)
  else if out then None
  else if dt_eqb d TBool then Some (map (fun z => conv TBool (Z.lxor (conv TBool z) 1)) l)
  else Some (map (fun z => conv d (Z.lnot z)) l).

(* 5021-5067: reductions, through ndarray.sum/min/max or ufunc.reduce with
   axis=None and where=True.  [Cls]: the dtype given as numpy class (np.int32),
   [Dtype]: as numpy dtype. *)
Inductive rop := RSum | RMin | RMax.
Inductive dtype_arg := Cls (d : dt) | Dtype (d : dt).
Definition dt_of (x : dtype_arg) : dt := match x with Cls d | Dtype d => d end.
Record rkw := RK { k_dtype : option dtype_arg; k_keepdims : bool; k_initial : option Z; k_out : option (list Z) }.
Inductive rres := Value (d : dt) (z : Z) | ArrayOf (d : dt) (z : Z) | ToNumpy | Raises.

(* rc.Reduce on integers: the sum as a 64-bit integer, the lowest, the highest;
   nothing for no elements. *)
Definition c_reduce (r : rop) (d : dt) (l : list Z) : option Z :=
  match l with
  | [] => None
  | x :: t =>
    Some (match r with
          | RSum => conv (if dt_eqb d (TUInt W64) then TUInt W64 else TInt W64) (fold_left Z.add l 0)
          | RMin => fold_left Z.min t x
          | RMax => fold_left Z.max t x
          end)
  end.

(* The result and the out= array afterwards. *)
Definition reduce (r : rop) (kw : rkw) (d : dt) (l : list Z) : rres * option (list Z) :=
  let dty := match k_dtype kw with None => Dtype d | Some x => x end in
  match c_reduce r d l with
  | None => (ToNumpy, k_out kw)
  | Some v =>
    (* 5034-5046 *)
    let '(rd, rv) := match dt_of dty with
                     | TFloat _ => (TFloat 53, conv (TFloat 53) v)
                     | TUInt W64 => (TUInt W64, conv (TUInt W64) v)
                     | _ => (TInt W64, conv (TInt W64) v)
                     end in
    match r with
    | RSum => ((if k_keepdims kw then ArrayOf rd rv else Value rd rv), k_out kw)
    | _ =>
      (* 5049-5061 *)
      let res := match dty with
                 | Dtype t | Cls (TBool as t) => Some (t, conv t rv)
                 | Cls _ => None
                 end in
      match res with
      | None => (Raises, k_out kw)
      | Some (t, z) => ((if k_keepdims kw then ArrayOf t z else Value t z), k_out kw)
      end
    end
  end.

(* 4943-4967: + where the (first) array holds strings.  Texts are lists of
   character codes, [show] is str() of an integer and [utf8] str.encode.  The
   engine appends texts side by side. *)
Definition text := list nat.
Inductive scalar := PStr (t : text) | PBytes (t : text) | PInt (z : Z).
Inductive sarg := SArr (l : list text) | SSca (s : scalar).
Section Strings.
  Variable show : Z -> text.
  Variable utf8 : text -> text.
  (* str(x): of bytes it is the text b'...' *)
  Definition py_str (s : scalar) : text :=
    match s with
    | PStr t => t
    | PBytes t => [98; 39]%nat ++ t ++ [39]%nat
    | PInt z => show z
    end.
  (* [bytes]: the array holds byte strings *)
  Definition operand (bytes : bool) (s : scalar) : text :=
    if bytes then utf8 (py_str s) else py_str s.
  Definition add_strings (bytes : bool) (a b : sarg) : option (list text) :=
    match a, b with
    | SArr x, SArr y => if Nat.eqb (length x) (length y)
                        then Some (map (fun p => fst p ++ snd p) (combine x y)) else None
    | SArr x, SSca s => Some (map (fun t => t ++ operand bytes s) x)
    | SSca s, SArr y => Some (map (fun t => operand bytes s ++ t) y)
    | SSca _, SSca _ => None
    end.
End Strings.
