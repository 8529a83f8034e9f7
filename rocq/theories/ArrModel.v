(** Model of whole-array operations written in Python on FastArray: shift / diff / transitions /
    differs / duplicated / map / replacena (riptable/rt_fastarray.py), the mask operations
    (riptable/rt_numpy.py:5502-5610), quantiles (riptable/rt_bin.py:17-136,
    riptable/rt_utils.py:779-936) and sampling (riptable/rt_utils.py:1090-1135).

    An array is the list of its elements.  Newly allocated memory ([empty_like]) holds [junk].
    Simplifications: dtypes are one type per array; quantile arithmetic is exact (rationals). *)
From Coq Require Import List Arith Bool ZArith QArith Qround.
From Verif Require Import GroupModel MergeModel DsModel.
Import ListNotations.
Local Close Scope Q_scope.
Local Open Scope nat_scope.

(** ** Python slices *)
(** a slice bound on a sequence of length [n]: negative bounds count from the end *)
Definition py_bound (n : nat) (p : Z) : nat :=
  if (p <? 0)%Z then Z.to_nat (Z.of_nat n + p) else Nat.min n (Z.to_nat p).
Definition lo_bound (n : nat) (p : option Z) : nat := match p with Some p => py_bound n p | None => 0 end.
Definition hi_bound (n : nat) (p : option Z) : nat := match p with Some p => py_bound n p | None => n end.
(** [a[lo:hi]] *)
Definition getslice {A} (lo hi : option Z) (a : list A) : list A :=
  let n := length a in firstn (hi_bound n hi - lo_bound n lo) (skipn (lo_bound n lo) a).
(** numpy assignment of an array to a view of [k] elements: equal lengths, or one value broadcast.
    [None]: ValueError *)
Definition broadcast {A} (k : nat) (v : list A) : option (list A) :=
  if length v =? k then Some v
  else match v with [x] => Some (repeat x k) | _ => None end.
(** [a[lo:hi] = v] for an array and for a scalar *)
Definition setslice {A} (lo hi : option Z) (v a : list A) : option (list A) :=
  let n := length a in
  let l := lo_bound n lo in
  let h := Nat.max l (hi_bound n hi) in
  match broadcast (h - l) v with
  | Some v => Some (firstn l a ++ v ++ skipn h a)
  | None => None
  end.
Definition setslice_scalar {A} (lo hi : option Z) (x : A) (a : list A) : option (list A) := setslice lo hi [x] a.
(** an elementwise binary operation of numpy with broadcasting of one-element arrays *)
Definition bin2 {A B} (op : A -> A -> B) (a b : list A) : option (list B) :=
  if length a =? length b then Some (map (fun p => op (fst p) (snd p)) (combine a b))
  else match a, b with
       | [x], _ => Some (map (op x) b)
       | _, [y] => Some (map (fun x => op x y) a)
       | _, _ => None
       end.
Definition bind {A B} (o : option A) (f : A -> option B) : option B := match o with Some a => f a | None => None end.

Section Arr.
Context {A : Type}.
Variable inv : A.           (* INVALID_DICT[dtype.num] *)

(** rt_fastarray.py:4046-4125 [shift].  [None]: an exception. *)
Definition shift (junk : A) (periods : Z) (self : list A) : option (list A) :=
  if (periods =? 0)%Z then Some self
  else
    let temp := repeat junk (length self) in
    if (Z.of_nat (length self) <=? Z.abs periods)%Z then Some (repeat inv (length self))
    else if (0 <? periods)%Z then
      bind (setslice_scalar None (Some periods) inv temp) (fun temp =>
      setslice (Some periods) None (getslice None (Some (- periods)%Z) self) temp)
    else
      bind (setslice None (Some periods) (getslice (Some (- periods)%Z) None self) temp) (fun temp =>
      setslice_scalar (Some periods) None inv temp).

(** rt_fastarray.py:4251-4319 [diff]; [sub]: numpy's subtraction in the dtype of the array *)
Definition diff (sub : A -> A -> A) (junk : A) (periods : Z) (self : list A) : option (list A) :=
  let temp := repeat junk (length self) in
  if (Z.of_nat (length self) <=? Z.abs periods)%Z then Some (repeat inv (length self))
  else if (0 <? periods)%Z then
    bind (setslice_scalar None (Some periods) inv temp) (fun temp =>
    bind (bin2 sub (getslice (Some periods) None self) (getslice None (Some (- periods)%Z) self)) (fun r =>
    setslice (Some periods) None r temp))
  else
    bind (setslice_scalar (Some periods) None inv temp) (fun temp =>
    bind (bin2 sub (getslice None (Some periods) self) (getslice (Some (- periods)%Z) None self)) (fun r =>
    setslice None (Some periods) r temp)).

(** rt_fastarray.py:4128-4150 [_internal_self_compare]; [cmp]: the comparison kernel (CMP_EQ or
    CMP_NE) *)
Definition self_compare (cmp : A -> A -> bool) (junk : bool) (periods : Z) (self : list A) : option (list bool) :=
  let result := repeat junk (length self) in
  if (periods =? 0)%Z then None
  else if (0 <? periods)%Z then
    bind (bin2 cmp (getslice (Some periods) None self) (getslice None (Some (- periods)%Z) self)) (fun r =>
    bind (setslice (Some periods) None r result) (fun result =>
    setslice_scalar None (Some periods) false result))
  else
    bind (bin2 cmp (getslice None (Some periods) self) (getslice (Some (- periods)%Z) None self)) (fun r =>
    bind (setslice None (Some periods) r result) (fun result =>
    setslice_scalar (Some periods) None false result)).

Variable eqb : A -> A -> bool.
Definition neb (x y : A) : bool := negb (eqb x y).
(** rt_fastarray.py:4153-4217 [differs]; [string]: dtype.num > 13 (bytes, str); [jb], [junk]: the
    contents of new memory *)
Definition differs (string : bool) (jb : bool) (junk : A) (periods : Z) (self : list A) : option (list bool) :=
  if string then bind (shift junk periods self) (fun s => bin2 neb self s)
  else self_compare eqb jb periods self.
(** rt_fastarray.py:4220-4248 [transitions] *)
Definition transitions (string : bool) (jb : bool) (junk : A) (periods : Z) (self : list A) : option (list bool) :=
  if string then bind (shift junk periods self) (fun s => bin2 neb self s)
  else self_compare neb jb periods self.
End Arr.

(** ** duplicated, rt_fastarray.py:1897-1961 *)
(** rt_grouping.py:1557-1574 [Grouping.ifirstkey]: the first row of every group *)
Definition ifirstkey (ikey : list nat) (n : nat) : list nat := map (fun g => hd 0 (group_rows ikey (S g))) (seq 0 n).
(** boolean indexing [a[mask]] *)
Fixpoint select {A} (mask : list bool) (a : list A) : list A :=
  match mask, a with
  | b :: m, x :: r => if b then x :: select m r else select m r
  | _, _ => []
  end.
Section Dup.
Context {B : Type}.
(** [Grouping(arr, lex=high_unique)]: the number of groups and the group of every row *)
Variable grouping : list B -> nat * list nat.
Definition fa_duplicated (keep : keep_arg) (self : list B) : list bool :=
  let arr := match keep with KeepLast => rev self | _ => self end in
  let result := repeat true (length arr) in
  let (n, ikey) := grouping arr in
  match keep with
  | KeepNone => clear (select (map (fun c => c =? 1) (skipn 1 (ncountgroup ikey n))) (ifirstkey ikey n)) result
  | KeepFirst => clear (ifirstkey ikey n) result
  | KeepLast => rev (clear (ifirstkey ikey n) result)
  end.
End Dup.

(** ** map, map_old, replacena *)
(** [a[mask] = vals], the values used in order.  [None]: ValueError, a wrong number of values (one
    value is broadcast) *)
Fixpoint put_in_order {A} (mask : list bool) (vals a : list A) : list A :=
  match mask, a with
  | true :: m, x :: r => match vals with v :: vs => v :: put_in_order m vs r | [] => x :: r end
  | false :: m, x :: r => x :: put_in_order m vals r
  | _, _ => a
  end.
Definition setmask {A} (mask : list bool) (vals a : list A) : option (list A) :=
  match broadcast (length (select mask a)) vals with
  | Some vs => Some (put_in_order mask vs a)
  | None => None
  end.
Section Map.
Context {K V : Type}.
Variable eqb : K -> K -> bool.
(** rt_fastarray.py:4023-4043 [map]; rt_numpy.py:1186-1393 [ismember] by its contract: for every
    element, the position among the keys.  [inv]: the invalid of the values' dtype. *)
Definition fa_map (inv : V) (npdict : list (K * V)) (self : list K) : option (list V) :=
  let orig := map fst npdict in
  let replace := map snd npdict in
  let out := repeat inv (length self) in
  let found := map (fun x => match index_of eqb x orig with Some _ => true | None => false end) self in
  let idx := map (fun x => match index_of eqb x orig with Some k => k | None => 0 end) self in
  setmask found (map (fun k => nth k replace inv) (select found idx)) out.
End Map.
Section MapOld.
Context {A : Type}.
Variable eqb : A -> A -> bool.
(** rt_fastarray.py:4003-4021 [map_old] *)
Definition map_old (npdict : list (A * A)) (self : list A) : option (list A) :=
  fold_left (fun out kv => bind out (fun out => setmask (map (fun x => eqb x (fst kv)) self) [snd kv] out))
    npdict (Some self).
Variable isnan : A -> bool.
(** rt_fastarray.py:4354-4411 [replacena]: the array afterwards and the returned array ([None]:
    Python's None).  The outer [None]: ValueError. *)
Definition replacena (value : list A) (inplace : bool) (self : list A) : option (list A * option (list A)) :=
  let inst := self in
  let isna := map isnan inst in
  let filled := if existsb (fun b => b) isna then setmask isna value inst else Some inst in
  bind filled (fun filled => Some (if inplace then (filled, None) else (self, Some filled))).
(** rt_fastarray.py:4413-4527 [fillna] without a method: [None] an exception *)
Definition fillna (value : option (list A)) (limit : option nat) (inplace : bool) (self : list A) : option (list A * option (list A)) :=
  match value with
  | None => None
  | Some value => match limit with Some _ => None | None => replacena value inplace self end
  end.
End MapOld.

(** ** mask operations, rt_numpy.py:5502-5610 *)
(** Arrays live at locations of a heap because the in-place forms write into their first argument.
    Simplification: Python bools among the arguments and one-element arrays (which the kernel may
    broadcast) are left out; [op]: the kernel's elementwise operation. *)
Definition masks := list (list bool).
Inductive mask_result := MaskAt (loc : nat) | MaskError.
(** [_BASICMATH_TWO_INPUTS((a, b, out), op, 0)]; [None]: the lengths differ *)
Definition mask_into (op : bool -> bool -> bool) (h : masks) (a b out : nat) : option masks :=
  let x := nth a h [] in
  let y := nth b h [] in
  if length x =? length y then Some (upd out (map (fun p => op (fst p) (snd p)) (combine x y)) h) else None.
(** 5606-5608 / 5598-5601: the loop over the remaining arguments; on an error the heap is as the
    earlier iterations left it *)
Fixpoint mask_loop (op : bool -> bool -> bool) (h : masks) (result : nat) (rest : list nat) : masks * mask_result :=
  match rest with
  | [] => (h, MaskAt result)
  | b :: r => match mask_into op h result b result with
              | Some h => mask_loop op h result r
              | None => (h, MaskError)
              end
  end.
Definition mask_op (op : bool -> bool -> bool) (inplace : bool) (h : masks) (args : list nat) : masks * mask_result :=
  match args with
  | [] => (h, MaskError)
  | [a] => (h, MaskAt a)
  | a :: b :: rest =>
      if inplace then mask_loop op h a (b :: rest)
      else (* the kernel allocates the result of the first two *)
        match mask_into op (h ++ [[]]) a b (length h) with
        | Some h' => mask_loop op h' (length h) rest
        | None => (h, MaskError)
        end
  end.

(** ** Quantiles *)
Local Open Scope Q_scope.
(** a floating-point element *)
Inductive fl := NegInf | Fin (q : Q) | PosInf | NaN.
Inductive interpolation := Fraction | Lower | Higher.
Section BinQuantile.
(** rt_numpy.py lexsort of one key: the row numbers in sorted order, NaN last *)
Variable lexsort : list fl -> list nat.
Definition is_nan (x : fl) : bool := match x with NaN => true | _ => false end.
Definition is_pinf (x : fl) : bool := match x with PosInf => true | _ => false end.
Definition is_ninf (x : fl) : bool := match x with NegInf => true | _ => false end.
Definition count {A} (f : A -> bool) (l : list A) : nat := length (filter f l).
(** idx % 1 *)
Definition frac (q : Q) : Q := q - inject_Z (Qfloor q).
(** a + (b - a) * fraction on finite values; [NaN] otherwise (unreachable: the window is finite) *)
Definition lerp (a b : fl) (f : Q) : fl := match a, b with Fin a, Fin b => Fin (a + (b - a) * f) | _, _ => NaN end.
(** rt_bin.py:17-136 [quantile] at one point.  rc.NanInfCountFromSort by its contract: the numbers
    of NaN, +inf and -inf.  [None]: an exception; indexing with a float (lines 118, 120, and
    numpy's rule) always raises.  Only non-negative indices are modelled: [at] in [0, 1]. *)
Definition bin_quantile (method : interpolation) (x : list fl) (at_ : Q) : option fl :=
  let lsort := lexsort x in
  let nancount := count is_nan x in
  let infcount := count is_pinf x in
  let neginfcount := count is_ninf x in
  let n := length x in
  let any := (0 <? neginfcount + nancount + infcount)%nat in
  let datalen := if any then (n - (nancount + infcount + neginfcount))%nat else n in
  let window := if any then firstn (n - (nancount + infcount) - neginfcount) (skipn neginfcount lsort) else lsort in
  let val (k : nat) := bind (nth_error window k) (nth_error x) in
  if (datalen =? 0)%nat then Some NaN
  else
    let idx := at_ * inject_Z (Z.of_nat datalen - 1) in
    let k := Z.to_nat (Qfloor idx) in
    if Qeq_bool (frac idx) 0 then val k
    else match method with
         | Fraction => bind (val k) (fun a => bind (val (k + 1)%nat) (fun b => Some (lerp a b (frac idx))))
         | Lower | Higher => None
         end.
End BinQuantile.

Section UtilQuantile.
(** an element of a numeric column: [None] is the invalid value of the dtype *)
Definition elem := option Q.
(** the values in ascending order *)
Variable qsort : list Q -> list Q.
(** [arr_sort.sort()]: the invalid of a signed integer is its smallest value, NaN and the invalid of
    an unsigned integer sort last *)
Definition somes (arr : list elem) : list Q := flat_map (fun x => match x with Some q => [q] | None => [] end) arr.
Definition sort_elems (signed : bool) (arr : list elem) : list elem :=
  let inv := repeat None (count (fun x : elem => match x with None => true | _ => false end) arr) in
  let vals := map Some (qsort (somes arr)) in
  if signed then inv ++ vals else vals ++ inv.
Definition isnotnan (x : elem) : bool := match x with Some _ => true | None => false end.
(** rt_utils.py:779-793 [interpolate]; the result [None] is NaN, the outer [None] an exception; an
    invalid element takes part in the arithmetic as NaN *)
Definition interpolate (data : list elem) (floatIndex : Q) : option elem :=
  if Qle_bool 0 floatIndex then
    if Qle_bool floatIndex (inject_Z (Z.of_nat (length data) - 1)) then
      let whole := Z.to_nat (Qfloor floatIndex) in
      if Qeq_bool (frac floatIndex) 0 then nth_error data whole
      else bind (nth_error data whole) (fun a => bind (nth_error data (whole + 1)) (fun b =>
        Some (match a, b with Some a, Some b => Some ((1 - frac floatIndex) * a + frac floatIndex * b) | _, _ => None end)))
    else Some None
  else None.
Fixpoint all_some {A} (l : list (option A)) : option (list A) :=
  match l with
  | [] => Some []
  | Some a :: r => option_map (cons a) (all_some r)
  | None :: _ => None
  end.
(** rt_utils.py:797-853 [quantile]; [signed]: dtype.char in NumpyCharTypes.Integer
    (rt_enum.py:595, the signed integers) *)
Definition util_quantile (signed : bool) (arr : list elem) (q : list Q) : option (list elem) :=
  let cnt := length arr in
  let cvalid := count isnotnan arr in
  if (cvalid =? 0)%nat then Some (map (fun _ => None) q)
  else
    let arr_sort := sort_elems signed arr in
    let valid := if (cvalid =? cnt)%nat then arr_sort
                 else if signed then getslice (Some (Z.of_nat (cnt - cvalid))) (Some (-1)%Z) arr_sort
                 else getslice (Some 0%Z) (Some (Z.of_nat cvalid)) arr_sort in
    all_some (map (fun percent => interpolate valid (percent * inject_Z (Z.of_nat cvalid - 1))) q).

(** rt_utils.py:857-936 [describe_helper]: Count, Valid, Nans, Min, the percentiles, Max and the
    elements averaged by MeanM.  Left out: Mean and Std (of [valid]) and the percentile labels.
    0.10 * m and 0.90 * m are exact. *)
Record description := mkDesc { d_count : nat; d_valid : nat; d_nans : elem; d_min : elem; d_quantiles : list elem; d_max : elem; d_middle : list elem }.
Definition describe (signed : bool) (arr : list elem) (q : list Q) : option description :=
  let cnt := length arr in
  let cvalid := count isnotnan arr in
  if (cvalid =? 0)%nat then Some (mkDesc cnt cvalid None None (map (fun _ => None) q) None [])
  else
    let arr_sort := sort_elems signed arr in
    let notvalid := (cnt - cvalid)%nat in
    let valid := if (cvalid =? cnt)%nat then arr_sort
                 else if signed then getslice (Some (Z.of_nat notvalid)) None arr_sort
                 else getslice (Some 0%Z) (Some (Z.of_nat cvalid)) arr_sort in
    let m := (cvalid - 1)%nat in
    (* 906-907: int(0.10 * m), int(0.90 * m) *)
    let d1break := (m / 10)%nat in
    let d9break := (9 * m / 10)%nat in
    (* 918-925 *)
    let d9break := if (9 * m mod 10 =? 0)%nat then d9break else (d9break + 1)%nat in
    let d9break := (d9break + 1)%nat in
    let d9break := if (cvalid <? d9break)%nat then cvalid else d9break in
    let validm := getslice (Some (Z.of_nat d1break)) (Some (Z.of_nat d9break)) valid in
    bind (all_some (map (fun percent => interpolate valid (percent * inject_Z (Z.of_nat cvalid - 1))) q)) (fun quantiles =>
    bind (nth_error valid 0) (fun mn =>
    bind (nth_error valid (length valid - 1)) (fun mx =>
    Some (mkDesc cnt cvalid (Some (inject_Z (Z.of_nat (if (cvalid =? cnt)%nat then 0 else notvalid)))) mn quantiles mx validm)))).
End UtilQuantile.
Local Close Scope Q_scope.

(** ** sample, rt_utils.py:1090-1135 *)
Section Sample.
Context {R : Type}.
(** the filter argument: none, a boolean mask or row numbers *)
Inductive sample_filter := NoFilter | BoolMask (m : list bool) | RowNums (r : list nat).
(** prng.choice(M, N, replace=False): the elements of [M] at [N] positions, from the generator *)
Variable choice : list nat -> nat -> list nat.
(** idx.sort() *)
Variable nsort : list nat -> list nat.
(** [None]: an exception *)
Definition sample (obj : list R) (N : nat) (filt : sample_filter) : option (list R) :=
  let pick M :=
    let idx := nsort (choice M (Nat.min N (length M))) in
    all_some (map (nth_error obj) idx) in
  match filt with
  | NoFilter => pick (seq 0 (length obj))
  | BoolMask m => if length m =? length obj then pick (select m (seq 0 (length m))) else None
  | RowNums r => pick r
  end.
End Sample.
