(** Model of the choice of a common type for matching (rt_numpy.py:432-506), of the
    conversion to it and of ismember on numeric arrays (rt_numpy.py:1366-1393), of
    min_scalar_type (rt_numpy.py:222-276) and of fancy indexing of two-dimensional
    arrays (rt_utils.py:591-627, rt_fastarray.py:1329-1342). *)
From Coq Require Import List ZArith Bool.
From Verif Require Import GroupModel GroupingModel.
Import ListNotations.
Open Scope Z_scope.

(** * Numeric types *)

(** float16 and long double are left out. *)
Inductive dt := I8 | I16 | I32 | I64 | U8 | U16 | U32 | U64 | F32 | F64.

Definition is_int (d : dt) : bool := match d with F32 | F64 => false | _ => true end.
Definition is_signed (d : dt) : bool := match d with I8 | I16 | I32 | I64 => true | _ => false end.
Definition bits (d : dt) : Z :=
  match d with I8 | U8 => 8 | I16 | U16 => 16 | I32 | U32 | F32 => 32 | I64 | U64 | F64 => 64 end.
Definition signed (b : Z) : dt := if b =? 8 then I8 else if b =? 16 then I16 else if b =? 32 then I32 else I64.

(** numpy.result_type of two numeric types (numpy's documented promotion rules). *)
Definition result_type (a b : dt) : dt :=
  match is_int a, is_int b with
  | true, true =>
      if Bool.eqb (is_signed a) (is_signed b) then (if bits a <? bits b then b else a)
      else let (s, u) := if is_signed a then (a, b) else (b, a) in
           if bits u <? bits s then s else if bits u =? 64 then F64 else signed (2 * bits u)
  | true, false => if (bits b =? 64) || (16 <? bits a) then F64 else F32
  | false, true => if (bits a =? 64) || (16 <? bits b) then F64 else F32
  | false, false => if bits a <? bits b then b else a
  end.

(** iinfo and finfo: range, and bits of the mantissa (nmant does not count the implied bit). *)
Definition min_of (d : dt) : Z :=
  match d with
  | F32 => - (2 ^ 24 - 1) * 2 ^ 104 | F64 => - (2 ^ 53 - 1) * 2 ^ 971
  | _ => if is_signed d then - 2 ^ (bits d - 1) else 0
  end.
Definition max_of (d : dt) : Z :=
  match d with
  | F32 => (2 ^ 24 - 1) * 2 ^ 104 | F64 => (2 ^ 53 - 1) * 2 ^ 971
  | _ => if is_signed d then 2 ^ (bits d - 1) - 1 else 2 ^ bits d - 1
  end.
(* rt_numpy.py:441-446 *)
Definition prec_of (d : dt) : Z :=
  match d with F32 => 23 | F64 => 52 | _ => bits d - (if min_of d <? 0 then 1 else 0) end.

(* rt_numpy.py:452-453 *)
Definition can_represent (t target : dt) : bool :=
  (min_of target <=? min_of t) && (max_of t <=? max_of target) && (prec_of t <=? prec_of target).

(* rt_numpy.py:432-455 *)
Definition find_lossless (d1 d2 : dt) : option dt :=
  let c := result_type d1 d2 in
  if can_represent d1 c && can_represent d2 c then Some c else None.

(** * Values *)

(** A finite number is an integer count of 2^-1074, the least positive float64;
    [None] is the invalid value (integer sentinel, NaN).  Infinities are left out. *)
Definition one : Z := 2 ^ 1074.
Definition value := option Z.
Definition sentinel (d : dt) : Z := if is_signed d then min_of d else max_of d.

(** precision and least exponent (in our unit) of a float type *)
Definition fprec (d : dt) : Z := match d with F32 => 24 | _ => 53 end.
Definition fexp (d : dt) : Z := match d with F32 => 925 | _ => 0 end.

(** The valid numbers of a type. *)
Definition holds (d : dt) (v : Z) : Prop :=
  if is_int d then exists z, v = z * one /\ min_of d <= z <= max_of d /\ z <> sentinel d
  else exists m e, v = m * 2 ^ e /\ Z.abs m < 2 ^ fprec d /\ fexp d <= e /\ Z.abs v <= max_of d * one.
Definition holds_value (d : dt) (x : value) : Prop := match x with Some v => holds d v | None => True end.

(** FastArray.astype between numeric types (rt_fastarray.py:1416-1422, C++ by contract):
    invalid to invalid; to an integer type: truncation, then two's complement wrap;
    to a float type: nearest, ties to even.  A float out of the range of an integer
    type gives [junk] (undefined in C++). *)
Definition wrap (d : dt) (z : Z) : Z :=
  if is_signed d then (z + 2 ^ (bits d - 1)) mod 2 ^ bits d - 2 ^ (bits d - 1) else z mod 2 ^ bits d.
Definition round_even (v e : Z) : Z :=
  let q := v / 2 ^ e in
  let r := v mod 2 ^ e in
  let h := 2 ^ e / 2 in
  if (e =? 0) || (r =? 0) then q
  else if r <? h then q else if h <? r then q + 1 else if Z.even q then q else q + 1.
Definition round_float (d : dt) (v : Z) : Z :=
  let e := Z.max (fexp d) (Z.log2 (Z.abs v) + 1 - fprec d) in round_even v e * 2 ^ e.
Definition cast (junk : Z -> Z) (from to : dt) (x : value) : value :=
  match x with
  | None => None
  | Some v =>
      if is_int to then
        let z := Z.quot v one in
        let z := if (min_of to <=? z) && (z <=? max_of to) then z
                 else if is_int from then wrap to z else junk v in
        if z =? sentinel to then None else Some (z * one)
      else Some (round_float to v)
  end.

(** numpy's own astype, which does not know integer sentinels: they are converted as the
    numbers they are (rt_fastarray.py:1424-1426, taken when copy=False). *)
Definition np_cast (junk : Z -> Z) (from to : dt) (x : value) : value :=
  match x with
  | Some v => cast junk from to (Some v)
  | None => if is_int from then cast junk from to (Some (sentinel from * one))
            else if is_int to then cast junk from to (Some (junk 0 * one)) else None
  end.

(** * The type chosen for two arrays *)

(** Comparison of a raw array with a bound of the other type: a sentinel is compared as
    the number it is, a NaN compares False; for a float array the bound is rounded to its type. *)
Definition raw_lt (d : dt) (x : value) (b : Z) : bool :=
  match x with
  | Some v => if is_int d then v <? b * one else v <? round_float d (b * one)
  | None => if is_int d then sentinel d <? b else false
  end.
Definition raw_gt (d : dt) (x : value) (b : Z) : bool :=
  match x with
  | Some v => if is_int d then b * one <? v else round_float d (b * one) <? v
  | None => if is_int d then b <? sentinel d else false
  end.

(* rt_numpy.py:479-487 *)
Definition can_coerce (arr : list value) (d target : dt) : bool :=
  if negb (is_int target) then false
  else if (min_of d <? 0) && forallb (fun x => raw_lt d x (min_of target)) arr then false
  else if forallb (fun x => raw_gt d x (max_of target)) arr then false
  else true.

(* rt_numpy.py:458-498 *)
Definition find_lossless_array (d1 : dt) (arr1 : list value) (d2 : dt) (arr2 : list value) : option dt :=
  match find_lossless d1 d2 with
  | Some c => Some c
  | None => if can_coerce arr2 d2 d1 then Some d1 else if can_coerce arr1 d1 d2 then Some d2 else None
  end.

Definition dt_dec : forall a b : dt, {a = b} + {a <> b}.
Proof. decide equality. Defined.

(** rc.IsMember32 on arrays of one type (C++ by contract): the first position of an equal
    element.  Whether invalid elements match each other is left open ([nulls]). *)
Definition veqb (nulls : bool) (x y : value) : bool :=
  match x, y with Some a, Some b => a =? b | None, None => nulls | _, _ => false end.
Definition is_member32 (nulls : bool) (a b : list value) : list (option nat) :=
  map (fun x => index_of (veqb nulls) x b) a.

(* rt_numpy.py:1374-1391 (one numeric key, base_index 0); [None]: TypeError (501-505) *)
Definition ismember_num (junk : Z -> Z) (nulls : bool) (d1 : dt) (a : list value) (d2 : dt) (b : list value)
    : option (list (option nat)) :=
  if dt_dec d1 d2 then Some (is_member32 nulls a b)
  else match find_lossless_array d1 a d2 b with
       | None => None
       | Some c => Some (is_member32 nulls
           (if dt_dec d1 c then a else map (cast junk d1 c) a)
           (if dt_dec d2 c then b else map (cast junk d2 c) b))
       end.

(* rt_numpy.py:1126-1180 (_ismember_align_multikey), numeric columns: both columns of a
   key in one type, by astype(copy=False); [None]: TypeError *)
Definition align_key (junk : Z -> Z) (d1 : dt) (a : list value) (d2 : dt) (b : list value)
    : option (list value * list value) :=
  if dt_dec d1 d2 then Some (a, b)
  else match find_lossless_array d1 a d2 b with
       | None => None
       | Some c => Some (if dt_dec d1 c then a else map (np_cast junk d1 c) a, if dt_dec d2 c then b else map (np_cast junk d2 c) b)
       end.

(** * min_scalar_type *)

(** numpy.min_scalar_type of an integer (contract); [None] is the object type. *)
Definition np_min_scalar_type (v : Z) : option dt :=
  find (fun d => (min_of d <=? v) && (v <=? max_of d)) (if 0 <=? v then [U8; U16; U32; U64] else [I8; I16; I32; I64]).

(* rt_numpy.py:222-276, integer scalars *)
Definition min_scalar_type (v : Z) (promote_invalid prefer_signed : bool) : option dt :=
  let v := if promote_invalid then (if 0 <=? v then v + 1 else v - 1) else v in
  let v := if prefer_signed && (0 <=? v) then (if v =? 0 then -1 else - v) else v in
  np_min_scalar_type v.

(** * Fancy indexing of two-dimensional arrays *)

Section TwoDims.
Context {X : Type}.

Definition wrap64 (z : Z) : Z := (z + 2 ^ 63) mod 2 ^ 64 - 2 ^ 63.
Definition INV64 : Z := - 2 ^ 63.

(* rt_utils.py:591-627; [fast]: the index is a FastArray (knows its invalid value), int64
   products wrap.  [mbget] is GroupingModel's (one dimension, contract).  The result is
   given as rows; [a] is a list of rows of [ncols] entries. *)
Definition chunk (ncols : nat) (n : nat) (l : list X) : list (list X) :=
  map (fun r => firstn ncols (skipn (r * ncols) l)) (seq 0 n).
Definition mbget_2d (inv : X) (fast : bool) (ncols : nat) (a : list (list X)) (idx : list Z) : list (list X) :=
  let scaled := map (fun i => if fast && (i =? INV64) then i else wrap64 (i * Z.of_nat ncols)) idx in
  let expanded := flat_map (fun i => map (fun c => wrap64 (i + Z.of_nat c)) (seq 0 ncols)) scaled in
  chunk ncols (length idx) (map (mbget inv (concat a)) expanded).

(** numpy indexing by an integer: [None] is IndexError. *)
Definition np_take (a : list (list X)) (i : Z) : option (list X) :=
  let n := Z.of_nat (length a) in
  if (0 <=? i) && (i <? n) then nth_error a (Z.to_nat i)
  else if (- n <=? i) && (i <? 0) then nth_error a (Z.to_nat (i + n))
  else None.

Fixpoint all_some {A} (l : list (option A)) : option (list A) :=
  match l with
  | [] => Some []
  | Some x :: r => match all_some r with Some r => Some (x :: r) | None => None end
  | None :: _ => None
  end.

(* rt_fastarray.py:1329-1342: a two-dimensional array indexed by a FastArray; [isna] the
   index's invalid value; copy_invalid of row 0 is a row of invalids *)
Definition getitem_2d (inv : X) (isna : Z -> bool) (ncols : nat) (a : list (list X)) (idx : list Z) : option (list (list X)) :=
  if existsb isna idx then
    match all_some (map (np_take a) (map (fun i => if isna i then 0 else i) idx)) with
    | Some rows => Some (map (fun p => if isna (fst p) then repeat inv ncols else snd p) (combine idx rows))
    | None => None
    end
  else all_some (map (np_take a) idx).
End TwoDims.
