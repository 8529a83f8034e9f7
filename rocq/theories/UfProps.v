(* C206-C211: operations on whole arrays. *)
From Coq Require Import List ZArith Bool Lia.
From Verif Require Import UfSpec UfModel UfProofs.
Import ListNotations.
Local Open Scope Z_scope.

Ltac solve_good :=
  split; [reflexivity|split; [intros G; try discriminate G; repeat constructor; cbv; discriminate|intros G; try discriminate G; now left]].

(* C206.  Comparing two integer arrays, of any types, compares the numbers,
   element by element (out= or not): for arrays of valid values unless one is
   uint64 and the other signed.  Arrays of different lengths are refused. *)
Theorem C206_arrays_partial :
  forall (f : Z -> Z -> bool) (nan : bool) (out : option dt) (da db : dt) (x y : list Z),
  good (Arr da x) -> good (Arr db y) -> clash da db = false ->
  ufunc2 (Compare f nan) out (Arr da x) (Arr db y)
  = if Nat.eqb (length x) (length y) then Some (Answers (map (fun p => f (fst p) (snd p)) (combine x y))) else None.
Proof.
  intros f nan out da db x y GA GB C.
  assert (IA : integral da = true) by apply GA. assert (IB : integral db = true) by apply GB.
  assert (PA : Forall (proper da) x) by (apply GA; reflexivity). assert (PB : Forall (proper db) y) by (apply GB; reflexivity).
  assert (FT : final_type (Compare f nan) out (Arr da x) (Arr db y) = Some (if dt_eqb da db then da else promote da db))
    by (destruct out; reflexivity).
  destruct (promote_holds da db IA IB C) as (PI & H1 & H2).
  set (d := if dt_eqb da db then da else promote da db) in *.
  assert (D : integral d = true /\ (forall z, holds da z -> holds d z) /\ (forall z, holds db z -> holds d z)).
  { unfold d. destruct (dt_eqb da db) eqn:E; [|auto]. apply dt_eqb_eq in E. subst. auto. }
  destruct D as (D1 & D2 & D3).
  rewrite (ufunc2_compare f nan out _ _ d FT D1 GA GB).
  - cbn [pairs]. now destruct (Nat.eqb (length x) (length y)).
  - unfold inside. cbn [content]. rewrite Forall_forall in *. intros z HZ. apply D2. now apply PA.
  - unfold inside. cbn [content]. rewrite Forall_forall in *. intros z HZ. apply D3. now apply PB.
Qed.
Print Assumptions C206_arrays_partial.

(* Finding: uint64 and signed arrays are compared as float64, where different
   large numbers become equal. *)
Theorem C206_uint64_refuted :
  good (Arr (TInt W64) [2 ^ 53 + 1]) /\ good (Arr (TUInt W64) [2 ^ 53]) /\
  ufunc2 (Compare Z.eqb false) None (Arr (TInt W64) [2 ^ 53 + 1]) (Arr (TUInt W64) [2 ^ 53]) = Some (Answers [true]).
Proof. split; [solve_good|]. split; [solve_good|]. vm_compute. reflexivity. Qed.
Print Assumptions C206_uint64_refuted.

Example C206_case :
  ufunc2 (Compare Z.ltb false) None (Arr (TInt W8) [-100; 100; 5]) (Arr (TUInt W8) [200; 100; 4])
  = Some (Answers [true; false; false]).
Proof. vm_compute. reflexivity. Qed.

(* C207.  Comparing an integer array with an integer, on either side, compares
   every valid element with it: for signed arrays and integers of 64 bits, and
   for unsigned arrays and integers that are not negative. *)
Theorem C207_number_partial :
  forall (f : Z -> Z -> bool) (nan : bool) (out : option dt) (d s : dt) (x : list Z) (z : Z),
  good (Arr d x) -> good (Sca s z) -> in_reach d s z ->
  ufunc2 (Compare f nan) out (Arr d x) (Sca s z) = Some (Answers (map (fun v => f v z) x)) /\
  ufunc2 (Compare f nan) out (Sca s z) (Arr d x) = Some (Answers (map (fun v => f z v) x)).
Proof.
  intros f nan out d s x z GA GB R.
  assert (IA : integral d = true) by apply GA. assert (IB : integral s = true) by apply GB.
  assert (PA : Forall (proper d) x) by (apply GA; reflexivity).
  assert (HB : s = TBool -> holds s z).
  { intros ->. destruct GB as (_ & _ & GB). destruct (GB eq_refl) as [X|X]; [discriminate|exact X]. }
  destruct (logical_find_ok d s z IA IB R HB) as (D1 & D2 & D3).
  assert (N1 : inside (logical_find d s z) (Arr d x)).
  { unfold inside. cbn [content]. rewrite Forall_forall in *. intros v HV. apply D2. now apply PA. }
  assert (N2 : inside (logical_find d s z) (Sca s z)) by (constructor; [exact D3|constructor]).
  split.
  - rewrite (ufunc2_compare f nan out _ _ (logical_find d s z)); try assumption; [|destruct out; reflexivity].
    cbn [pairs option_map]. now rewrite map_map.
  - rewrite (ufunc2_compare f nan out _ _ (logical_find d s z)); try assumption; [|destruct out; reflexivity].
    cbn [pairs option_map]. now rewrite map_map.
Qed.
Print Assumptions C207_number_partial.

(* Finding: beside an unsigned array a negative number is taken modulo the size
   of the type: 5 > -1 is False and 254 == -2 is True for uint8.  The comment
   "if array is unsigned but scalar is signed upcast" is not what is done: any
   number up to 255 counts as fitting uint8. *)
Theorem C207_negative_refuted :
  good (Arr (TUInt W8) [5; 254]) /\ good (Sca (TInt W64) (-1)) /\
  ufunc2 (Compare Z.gtb false) None (Arr (TUInt W8) [5; 254]) (Sca (TInt W64) (-1)) = Some (Answers [false; false]) /\
  ufunc2 (Compare Z.eqb false) None (Arr (TUInt W8) [5; 254]) (Sca (TInt W64) (-2)) = Some (Answers [false; true]).
Proof. split; [solve_good|]. split; [solve_good|]. split; vm_compute; reflexivity. Qed.
Print Assumptions C207_negative_refuted.

(* Finding: a number that 64 bits cannot hold is compared as float64: the largest
   int64 equals 2^63. *)
Theorem C207_large_refuted :
  good (Arr (TInt W64) [2 ^ 63 - 1]) /\ good (Sca (TInt W64) (2 ^ 63)) /\
  ufunc2 (Compare Z.eqb false) None (Arr (TInt W64) [2 ^ 63 - 1]) (Sca (TInt W64) (2 ^ 63)) = Some (Answers [true]).
Proof. split; [solve_good|]. split; [solve_good|]. vm_compute. reflexivity. Qed.
Print Assumptions C207_large_refuted.

Example C207_case :
  ufunc2 (Compare Z.ltb false) None (Arr (TInt W8) [-100; 100]) (Sca (TInt W64) 1000) = Some (Answers [true; true]) /\
  ufunc2 (Compare Z.ltb false) None (Sca (TInt W64) 1000) (Arr (TUInt W16) [999; 1001]) = Some (Answers [false; true]).
Proof. split; vm_compute; reflexivity. Qed.

(* C208.  Arithmetic on integers (+, -, *, minimum, maximum, &, |, ^) is done in
   a type that holds both operands; where the exact results are held by it too,
   they are the results. *)
Theorem C208_exact_partial :
  forall (f : Z -> Z -> Z) (a b : arg),
  good a -> good b ->
  match a, b with
  | Arr da _, Arr db _ => clash da db = false
  | Arr d _, Sca s z | Sca s z, Arr d _ => in_reach d s z
  | Sca _ _, Sca _ _ => False
  end ->
  exists d : dt, integral d = true /\ inside d a /\ inside d b /\
    (type_of a = type_of b -> is_array a = true -> is_array b = true -> d = type_of a) /\
    ufunc2 (Arith f) None a b
      = option_map (fun ps => Numbers d (map (fun p => Some (conv d (f (fst p) (snd p)))) ps)) (pairs a b) /\
    (forall ps, pairs a b = Some ps -> Forall (fun p => holds d (f (fst p) (snd p))) ps ->
       ufunc2 (Arith f) None a b = Some (Numbers d (map (fun p => Some (f (fst p) (snd p))) ps))).
Proof.
  intros f a b GA GB C.
  assert (K : exists d, final_type (Arith f) None a b = Some d /\ integral d = true /\ inside d a /\ inside d b /\
    (type_of a = type_of b -> is_array a = true -> is_array b = true -> d = type_of a)).
  { assert (SC : forall d s x z, good (Arr d x) -> good (Sca s z) -> in_reach d s z ->
       num d <= 10 /\ integral (logical_find d s z) = true /\ inside (logical_find d s z) (Arr d x) /\ inside (logical_find d s z) (Sca s z)).
    { intros d s x z G1 G2 R. assert (IA : integral d = true) by apply G1. assert (IB : integral s = true) by apply G2.
      assert (PA : Forall (proper d) x) by (apply G1; reflexivity).
      assert (HB : s = TBool -> holds s z).
      { intros ->. destruct G2 as (_ & _ & G2). destruct (G2 eq_refl) as [X|X]; [discriminate|exact X]. }
      destruct (logical_find_ok d s z IA IB R HB) as (D1 & D2 & D3).
      split; [destruct d as [|w|w|p]; try discriminate; try destruct w; cbn; lia|].
      split; [exact D1|]. split.
      - unfold inside. cbn [content]. rewrite Forall_forall in *. intros v HV. apply D2. now apply PA.
      - constructor; [exact D3|constructor]. }
    destruct a as [da x|s z], b as [db y|t u].
    - assert (IA : integral da = true) by apply GA. assert (IB : integral db = true) by apply GB.
      assert (PA : Forall (proper da) x) by (apply GA; reflexivity). assert (PB : Forall (proper db) y) by (apply GB; reflexivity).
      destruct (promote_holds da db IA IB C) as (PI & H1 & H2).
      exists (if dt_eqb da db then da else promote da db). split; [reflexivity|].
      destruct (dt_eqb da db) eqn:E.
      + apply dt_eqb_eq in E. subst db. split; [exact IA|].
        split; [|split]; [| |auto]; unfold inside; cbn [content]; (eapply Forall_impl; [|eassumption]); intros v HV; apply HV.
      + split; [exact PI|]. split; [|split].
        * unfold inside; cbn [content]; (eapply Forall_impl; [|exact PA]); intros v HV; apply H1, HV.
        * unfold inside; cbn [content]; (eapply Forall_impl; [|exact PB]); intros v HV; apply H2, HV.
        * cbn. intros -> _ _. now rewrite dt_eqb_refl in E.
    - destruct (SC da t x u GA GB C) as (N & D1 & D2 & D3). exists (logical_find da t u). split.
      + cbn [final_type logical]. apply Z.leb_le in N. now rewrite N.
      + repeat split; try assumption. discriminate.
    - destruct (SC db s y z GB GA C) as (N & D1 & D2 & D3). exists (logical_find db s z). split.
      + cbn [final_type logical]. apply Z.leb_le in N. now rewrite N.
      + repeat split; try assumption. discriminate.
    - easy. }
  destruct K as (d & F & D1 & D2 & D3 & D4). exists d. repeat (split; [assumption|]).
  assert (E := ufunc2_arith f None a b d F D1 GA GB D2 D3). split; [exact E|].
  intros ps P FA. rewrite E, P. cbn [option_map]. f_equal. f_equal. apply map_ext_in. intros p HP.
  rewrite Forall_forall in FA. now rewrite conv_id by auto.
Qed.
Print Assumptions C208_exact_partial.

(* A commutative operation gives the same whichever operand comes first: type,
   values, missing values, refusals. *)
Theorem C208_commutes :
  forall (f : Z -> Z -> Z) (out : option dt) (a b : arg),
  (forall x y, f x y = f y x) -> ufunc2 (Arith f) out a b = ufunc2 (Arith f) out b a.
Proof.
  intros f out a b C. unfold ufunc2. rewrite (final_type_sym f out b a).
  destruct (final_type (Arith f) out a b) as [d|]; [|reflexivity].
  rewrite (prepare_sym d a b). destruct (prepare d a b) as [x y]. cbn [fst snd]. rewrite (beside_sym a b x y).
  destruct (beside a b x y) as [ps|]; [|reflexivity]. cbn [option_map]. f_equal. f_equal. rewrite map_map. apply map_ext.
  intros [p q]. cbn. destruct p, q; cbn; try reflexivity. now rewrite C.
Qed.
Print Assumptions C208_commutes.

(* Finding: adding a negative number to an unsigned array stays unsigned: uint8
   1 + -2 is 255, the invalid of uint8, where numpy gives -1 in int16. *)
Theorem C208_unsigned_refuted :
  good (Arr (TUInt W8) [1]) /\ good (Sca (TInt W64) (-2)) /\
  ufunc2 (Arith Z.add) None (Arr (TUInt W8) [1]) (Sca (TInt W64) (-2)) = Some (Numbers (TUInt W8) [Some 255]).
Proof. split; [solve_good|]. split; [solve_good|]. vm_compute. reflexivity. Qed.
Print Assumptions C208_unsigned_refuted.

Example C208_case :
  ufunc2 (Arith Z.add) None (Arr (TInt W8) [100; -128]) (Arr (TUInt W8) [200; 1]) = Some (Numbers (TInt W16) [Some 300; Some (-32767)]) /\
  ufunc2 (Arith Z.mul) None (Sca (TInt W64) 300) (Arr (TInt W8) [2; 3]) = Some (Numbers (TInt W16) [Some 600; Some 900]).
Proof. split; vm_compute; reflexivity. Qed.

(* C209.  out=: the result is computed in the type of the array given, exactly if
   that type holds the operands and the results. *)
Theorem C209_out_partial :
  forall (f : Z -> Z -> Z) (d : dt) (a b : arg) (ps : list (Z * Z)),
  good a -> good b -> integral d = true -> inside d a -> inside d b ->
  pairs a b = Some ps -> Forall (fun p => holds d (f (fst p) (snd p))) ps ->
  ufunc2 (Arith f) (Some d) a b = Some (Numbers d (map (fun p => Some (f (fst p) (snd p))) ps)).
Proof.
  intros f d a b ps GA GB I IA IB P FA.
  assert (F : final_type (Arith f) (Some d) a b = Some d).
  { cbn [final_type logical]. destruct a, b; try reflexivity. discriminate. }
  rewrite (ufunc2_arith f (Some d) a b d F I GA GB IA IB), P. cbn [option_map]. f_equal. f_equal. apply map_ext_in.
  intros p HP. rewrite Forall_forall in FA. now rewrite conv_id by auto.
Qed.
Print Assumptions C209_out_partial.

(* Finding: with out= the operands are converted to its type before the
   operation, not the result after it: the maximum of int8 10 and int16 -200
   into an int8 array is 56, although the maximum, 10, fits. *)
Theorem C209_narrow_refuted :
  good (Arr (TInt W8) [10]) /\ good (Arr (TInt W16) [-200]) /\ holds (TInt W8) (Z.max 10 (-200)) /\
  ufunc2 (Arith Z.max) (Some (TInt W8)) (Arr (TInt W8) [10]) (Arr (TInt W16) [-200])
  = Some (Numbers (TInt W8) [Some 56]).
Proof. split; [solve_good|]. split; [solve_good|]. split; [unfold holds; cbn; lia|]. vm_compute. reflexivity. Qed.
Print Assumptions C209_narrow_refuted.

(* ~ flips every bit: -1 - x for signed integers, not for bools ... *)
Theorem C209_invert :
  forall (d : dt) (l : list Z), integral d = true -> Forall (holds d) l ->
  invert false d l = Some (map (fun z => highest d + lowest d - z) l).
Proof.
  intros d l I H. unfold invert. cbn [andb]. destruct (dt_eqb d TBool) eqn:E.
  - apply dt_eqb_eq in E. subst. f_equal. apply map_ext_in. intros z HZ. rewrite Forall_forall in H. specialize (H z HZ).
    unfold holds in H. cbn in H. assert (Z01 : z = 0 \/ z = 1) by lia. now destruct Z01 as [-> | ->].
  - f_equal. apply map_ext_in. intros z HZ. rewrite Forall_forall in H. specialize (H z HZ). unfold Z.lnot.
    destruct d as [|w|w|p]; try discriminate.
    + rewrite conv_id; [cbn [highest lowest]; lia|reflexivity|]. unfold holds in *. cbn [lowest highest] in *. lia.
    + cbn [conv highest lowest]. unfold holds in H. cbn [lowest highest] in H.
      replace (Z.pred (- z)) with (2 ^ bits w - 1 + 0 - z + (-1) * 2 ^ bits w) by lia.
      rewrite Z_mod_plus_full. apply Z.mod_small. lia.
Qed.
Print Assumptions C209_invert.

(* Finding: np.invert(a, out=b) raises AttributeError for every array that is not
   bool: the tuple of the arguments is asked for its dtype. *)
Theorem C209_invert_refuted :
  forall (d : dt) (l : list Z), d <> TBool -> invert true d l = None.
Proof.
  intros d l N. unfold invert. cbn [andb]. destruct (dt_eqb d TBool) eqn:E; [|reflexivity]. now apply dt_eqb_eq in E.
Qed.
Print Assumptions C209_invert_refuted.

Example C209_case :
  ufunc2 (Arith Z.add) (Some (TInt W32)) (Arr (TInt W8) [100]) (Arr (TInt W16) [30000]) = Some (Numbers (TInt W32) [Some 30100]) /\
  invert false (TInt W8) [5] = Some [-6] /\ invert false (TUInt W8) [5] = Some [250] /\ invert true TBool [1; 0] = Some [0; 1].
Proof. repeat split; vm_compute; reflexivity. Qed.

(* C210.  a.sum(), a.min() and a.max() of an integer array with elements, also
   with keepdims: the sum, if 64 bits hold it, and the lowest and highest
   element in the type of the array. *)
Theorem C210_reduce_partial :
  forall (d : dt) (l : list Z) (kd : bool),
  integral d = true -> Forall (holds d) l -> l <> [] ->
  let kw := RK None kd None None in
  let res d z := if kd then ArrayOf d z else Value d z in
  (holds (wide d) (fold_right Z.add 0 l) -> fst (reduce RSum kw d l) = res (wide d) (fold_right Z.add 0 l)) /\
  (exists m, fst (reduce RMin kw d l) = res d m /\ In m l /\ forall v, In v l -> m <= v) /\
  (exists m, fst (reduce RMax kw d l) = res d m /\ In m l /\ forall v, In v l -> v <= m).
Proof.
  intros d l kd I H NE. destruct l as [|x t]; [easy|]. cbv zeta.
  assert (HW : forall z, holds d z -> holds (wide d) z).
  { intros z. unfold holds. destruct d as [|w|w|p]; try discriminate; try destruct w; cbn; lia. }
  assert (CW : forall z, holds d z ->
     (let '(rd, rv) := match d with
                     | TFloat _ => (TFloat 53, conv (TFloat 53) z)
                     | TUInt W64 => (TUInt W64, conv (TUInt W64) z)
                     | _ => (TInt W64, conv (TInt W64) z)
                     end in conv d rv) = z).
  { intros z HZ. specialize (HW z HZ).
    destruct d as [|w|w|p]; try discriminate; try destruct w; cbn [wide] in HW;
      match type of HW with holds ?e _ => rewrite (conv_id e z eq_refl HW) end; now apply conv_id. }
  rewrite Forall_forall in H.
  split; [|split].
  - intros HS. unfold reduce. cbn [c_reduce k_dtype dt_of k_keepdims k_out].
    assert (SC : conv (if dt_eqb d (TUInt W64) then TUInt W64 else TInt W64) (fold_left Z.add (x :: t) 0) = fold_right Z.add 0 (x :: t)).
    { rewrite fold_add, Z.add_0_l. apply conv_id; [now destruct d as [|w|[]|p]|].
      destruct d as [|w|w|p]; try discriminate; try destruct w; exact HS. }
    rewrite SC.
    destruct d as [|w|w|p]; try discriminate; try destruct w; cbn [wide] in *; match type of HS with holds ?e _ => rewrite (conv_id e _ eq_refl HS) end; now destruct kd.
  - destruct (fold_min t x) as (H1 & H2 & H3). exists (fold_left Z.min t x).
    assert (IN : In (fold_left Z.min t x) (x :: t)) by (destruct H1 as [-> |H1]; [now left|now right]).
    split; [|split; [exact IN|]; intros v [<-|HV]; auto].
    unfold reduce. cbn [c_reduce k_dtype dt_of k_keepdims k_out]. specialize (CW _ (H _ IN)).
    destruct (match d with TUInt W64 => _ | TFloat _ => _ | _ => _ end) as [rd rv]. rewrite CW. now destruct kd.
  - destruct (fold_max t x) as (H1 & H2 & H3). exists (fold_left Z.max t x).
    assert (IN : In (fold_left Z.max t x) (x :: t)) by (destruct H1 as [-> |H1]; [now left|now right]).
    split; [|split; [exact IN|]; intros v [<-|HV]; auto].
    unfold reduce. cbn [c_reduce k_dtype dt_of k_keepdims k_out]. specialize (CW _ (H _ IN)).
    destruct (match d with TUInt W64 => _ | TFloat _ => _ | _ => _ end) as [rd rv]. rewrite CW. now destruct kd.
Qed.
Print Assumptions C210_reduce_partial.

(* Finding: initial= is ignored: the result is the same whatever is given, so
   [1, 2].sum(initial=10) is 3. *)
Theorem C210_initial_refuted :
  (forall (r : rop) (kw : rkw) (d : dt) (l : list Z) (i : option Z),
     reduce r (RK (k_dtype kw) (k_keepdims kw) i (k_out kw)) d l = reduce r kw d l) /\
  fst (reduce RSum (RK None false (Some 10) None) (TInt W64) [1; 2]) = Value (TInt W64) 3.
Proof. split; [intros r [t k i o] d l i'; reflexivity|vm_compute; reflexivity]. Qed.
Print Assumptions C210_initial_refuted.

(* Finding: out= is ignored: the array given is never written. *)
Theorem C210_out_refuted :
  forall (r : rop) (kw : rkw) (d : dt) (l : list Z), snd (reduce r kw d l) = k_out kw.
Proof.
  intros r kw d l. unfold reduce. destruct (c_reduce r d l) as [v|]; [|reflexivity].
  destruct (match dt_of _ with TUInt W64 => _ | TFloat _ => _ | _ => _ end) as [rd rv].
  destruct r; [reflexivity| |]; destruct (k_dtype kw) as [[[|w|w|p]|t]|]; reflexivity.
Qed.
Print Assumptions C210_out_refuted.

(* Finding: np.minimum.reduce and np.maximum.reduce raise AttributeError when
   dtype= is given as a class like np.int32, the usual way. *)
Theorem C210_dtype_refuted :
  fst (reduce RMin (RK (Some (Cls (TInt W32))) false None None) (TInt W32) [3; 1]) = Raises /\
  fst (reduce RMin (RK (Some (Dtype (TInt W32))) false None None) (TInt W32) [3; 1]) = Value (TInt W32) 1.
Proof. split; vm_compute; reflexivity. Qed.
Print Assumptions C210_dtype_refuted.

Example C210_case :
  fst (reduce RSum (RK None false None None) (TInt W8) [100; 100]) = Value (TInt W64) 200 /\
  fst (reduce RMax (RK None true None None) (TUInt W64) [2 ^ 63; 1]) = ArrayOf (TUInt W64) (2 ^ 63).
Proof. split; vm_compute; reflexivity. Qed.

(* C211.  + on string arrays appends texts, element by element; a string or an
   integer is appended to, or put before, every element as it is written. *)
Theorem C211_strings_partial :
  forall (show : Z -> text) (utf8 : text -> text) (bytes : bool) (x y : list text) (s : text) (z : Z),
  (forall t, Forall (fun c => (c < 128)%nat) t -> utf8 t = t) ->
  Forall (fun c => (c < 128)%nat) s -> Forall (fun c => (c < 128)%nat) (show z) ->
  add_strings show utf8 bytes (SArr x) (SArr y)
    = (if Nat.eqb (length x) (length y) then Some (map (fun p => fst p ++ snd p) (combine x y)) else None) /\
  add_strings show utf8 bytes (SArr x) (SSca (PStr s)) = Some (map (fun t => t ++ s) x) /\
  add_strings show utf8 bytes (SSca (PStr s)) (SArr y) = Some (map (fun t => s ++ t) y) /\
  add_strings show utf8 bytes (SArr x) (SSca (PInt z)) = Some (map (fun t => t ++ show z) x) /\
  add_strings show utf8 bytes (SSca (PInt z)) (SArr y) = Some (map (fun t => show z ++ t) y).
Proof.
  intros show utf8 bytes x y s z U S SZ.
  assert (O1 : operand show utf8 bytes (PStr s) = s) by (unfold operand; cbn; destruct bytes; [now apply U|reflexivity]).
  assert (O2 : operand show utf8 bytes (PInt z) = show z) by (unfold operand; cbn; destruct bytes; [now apply U|reflexivity]).
  cbn [add_strings]. rewrite O1, O2. repeat split.
Qed.
Print Assumptions C211_strings_partial.

(* Finding: appending bytes to an array of byte strings appends their Python
   notation: FA(['a']) + b'x' holds ab'x' instead of ax. *)
Theorem C211_bytes_refuted :
  forall (show : Z -> text) (utf8 : text -> text),
  (forall t, Forall (fun c => (c < 128)%nat) t -> utf8 t = t) ->
  add_strings show utf8 true (SArr [[97%nat]]) (SSca (PBytes [120%nat])) = Some [[97; 98; 39; 120; 39]%nat].
Proof.
  intros show utf8 U. cbn [add_strings map operand py_str app]. rewrite U; [reflexivity|]. repeat constructor; lia.
Qed.
Print Assumptions C211_bytes_refuted.

Example C211_case :
  add_strings (fun _ => [55%nat]) (fun t => t) true (SArr [[97]; [98; 99]]%nat) (SSca (PInt 7)) = Some [[97; 55]; [98; 99; 55]]%nat.
Proof. vm_compute. reflexivity. Qed.
