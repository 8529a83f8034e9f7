(* C214-C216: reductions of arrays. *)
From Coq Require Import List ZArith QArith Bool Lia Permutation.
From Verif Require Import RdSpec RdModel RdProofs.
Import ListNotations.
Local Open Scope Z_scope.

(* C214.  The methods that reduce an array give the result along the axis they
   are asked for: every result is the function of exactly the elements of its
   row or column, or of all elements.  Missing: axis=0 of an array of two
   dimensions, dtype=, and elements that the engine and numpy treat differently
   (see the findings); an empty array of one dimension. *)
Theorem C214_axis_partial :
  forall (E R D : Type) (eng : kind -> list E -> R) (stat : kind -> Z -> list E -> R)
         (stat_as : D -> kind -> Z -> list E -> R) (cast : D -> R -> R) (zero : R)
         (k : kind) (a : arr E) (w : kw D),
  let ddof := if has_ddof k then match k_ddof w with Some d => d | None => 1 end else 0 in
  let axis := match k_axis w with Some x => x | None => None end in
  let keep := match k_keep w with Some b => b | None => false end in
  rect a -> elements a <> [] -> k_dtype w = None ->
  (has_ddof k = false -> k_ddof w = None) ->
  eng k (elements a) = stat k (if has_ddof k then 1 else 0) (elements a) ->
  (forall c rows, a = Two c rows -> axis = Some 0 -> In k [NanMin; NanMax; ArgMin; ArgMax; NanArgMin; NanArgMax]) ->
  method eng stat stat_as cast zero k a w =
  match along (stat k ddof) a axis keep with Some o => Ok o | None => Raise end.
Proof.
  intros E R D eng stat stat_as cast zero k a [ax kp dd dt] ddof axis keep RE NE DT DD EN A0.
  cbn [k_axis k_keep k_ddof k_dtype] in *. subst dt. subst ddof axis keep.
  unfold method. cbn [k_axis k_keep k_ddof k_dtype].
  destruct (wrapped k) eqn:W.
  - assert (H1 : negb (has_ddof k) && match dd with Some _ => true | None => false end = false).
    { destruct (has_ddof k); cbn; [reflexivity|]. now rewrite (DD eq_refl). }
    rewrite H1. unfold fa_keyword_wrapper. cbn [k_axis k_keep k_ddof k_dtype].
    destruct a as [l|c rows].
    + cbn [elements] in *. unfold reduce_check, kwarg_check. cbn [k_axis k_keep k_ddof k_dtype].
      destruct (has_ddof k) eqn:HD.
      * destruct dd as [d|]; cbn [andb orb negb].
        -- destruct (Z.eqb_spec d 1) as [->|ND]; cbn [negb orb].
           ++ destruct ax as [[z|]|]; [destruct (Z.eqb_spec z 0) as [->|NZ]|..]; destruct kp as [[|]|]; cbn [orb]; unfold np; cbn [k_axis k_keep k_ddof k_dtype along]; try reflexivity;
              destruct l; try congruence; cbn; rewrite EN; reflexivity.
           ++ destruct ax as [[z|]|]; [destruct (Z.eqb_spec z 0) as [->|NZ]|..]; destruct kp as [[|]|]; cbn [orb]; unfold np; cbn [k_axis k_keep k_ddof k_dtype along]; reflexivity.
        -- destruct ax as [[z|]|]; [destruct (Z.eqb_spec z 0) as [->|NZ]|..]; destruct kp as [[|]|]; cbn [orb]; unfold np; cbn [k_axis k_keep k_ddof k_dtype along]; try reflexivity;
           destruct l; try congruence; cbn; rewrite EN; reflexivity.
      * rewrite (DD eq_refl). cbn [andb orb negb].
        destruct ax as [[z|]|]; [destruct (Z.eqb_spec z 0) as [->|NZ]|..]; destruct kp as [[|]|]; cbn [orb]; unfold np; cbn [k_axis k_keep k_ddof k_dtype along]; try reflexivity;
        destruct l; try congruence; cbn; rewrite EN; reflexivity.
    + assert (AX : ax <> Some (Some 0)).
      { intros ->. specialize (A0 c rows eq_refl eq_refl). cbn in A0. destruct k; try discriminate; intuition discriminate. }
      unfold reduce_check. cbn [k_axis k_keep k_ddof k_dtype].
      destruct (has_ddof k) eqn:HD.
      * destruct dd as [d|]; cbn [andb]; unfold np; cbn [k_axis k_keep k_ddof k_dtype];
        (destruct ax as [[z|]|]; [destruct (Z.eqb_spec z 0) as [->|NZ]; [congruence|]|..]); destruct kp as [[|]|]; reflexivity.
      * rewrite (DD eq_refl). cbn [andb]. unfold np; cbn [k_axis k_keep k_ddof k_dtype].
        (destruct ax as [[z|]|]; [destruct (Z.eqb_spec z 0) as [->|NZ]; [congruence|]|..]); destruct kp as [[|]|]; reflexivity.
  - assert (HD : has_ddof k = false) by (destruct k; try discriminate W; reflexivity).
    rewrite (DD HD). rewrite HD in *. unfold reduce_check. rewrite HD. cbn [andb k_axis k_keep k_ddof k_dtype].
    destruct a as [l|c rows].
    + unfold kwarg_check. cbn [k_axis k_keep k_ddof k_dtype orb]. cbn [elements] in *.
      destruct ax as [z|]; cbn [orb]; [unfold np; cbn [k_axis k_keep k_ddof k_dtype]; reflexivity|].
      destruct kp as [b|]; [unfold np; cbn [k_axis k_keep k_ddof k_dtype along]; reflexivity|].
      destruct l; [congruence|]. rewrite EN. reflexivity.
    + unfold np; cbn [k_axis k_keep k_ddof k_dtype]. reflexivity.
Qed.
Print Assumptions C214_axis_partial.

(* dtype=: for an array of one dimension without numpy's keywords the result is
   the result without dtype=, turned into the dtype. *)
Theorem C214_dtype_partial :
  forall (E R D : Type) eng stat stat_as (cast : D -> R -> R) zero (k : kind) (l : list E) (t : D),
  method eng stat stat_as cast zero k (One l) (mkKw _ None None None (Some t)) =
  match method eng stat stat_as cast zero k (One l) (mkKw _ None None None None) with
  | Ok o => Ok (mkOut (shape o) (map (cast t) (values o)))
  | e => e
  end.
Proof. intros. destruct k, l; reflexivity. Qed.
Print Assumptions C214_dtype_partial.

(* Finding: nansum, mean, nanmean, var, nanvar, std and nanstd ignore axis=0
   (the keyword is passed on only if it is not 0): for an array of two
   dimensions they return one number for the whole array, where axis=-2, which
   means the same, returns one for each column: nansum(axis=0) of
   [[1, 2], [3, 4]] is 10, not [4, 6]. *)
Theorem C214_axis_0_refuted :
  (forall (E R D : Type) eng stat stat_as cast zero (k : kind) (c : nat) (rows : list (list E)) (keep : option bool) (ddof : option Z),
     wrapped k = true ->
     method (R := R) (D := D) eng stat stat_as cast zero k (Two c rows) (mkKw _ (Some (Some 0)) keep ddof None) =
     method eng stat stat_as cast zero k (Two c rows) (mkKw _ (Some None) keep ddof None)) /\
  (let sum := fun (_ : kind) (_ : Z) l => fold_right Z.add 0 l in
   let m := method (fun k l => sum k 0 l) sum (fun (_ : unit) => sum) (fun _ r => r) 0 NanSum (Two 2 [[1; 2]; [3; 4]]) in
   m (mkKw _ (Some (Some 0)) None None None) = Ok (mkOut [] [10]) /\
   m (mkKw _ (Some (Some (-2))) None None None) = Ok (mkOut [2%nat] [4; 6]) /\
   along (sum NanSum 0) (Two 2 [[1; 2]; [3; 4]]) (Some 0) false = Some (mkOut [2%nat] [4; 6])).
Proof.
  split.
  - intros E R D eng stat stat_as cast zero k c rows keep ddof W. unfold method. rewrite W. reflexivity.
  - cbv zeta. repeat split.
Qed.
Print Assumptions C214_axis_0_refuted.

(* Finding: for integers with an invalid value, the methods that ignore invalid
   values (nansum, nanmean, nanmin, ...) count it as the number it is stored as
   when axis=, keepdims=True or ddof= is given, or the array has two dimensions,
   because numpy is called then: nansum() of the int8 array [5, Inv] is 5, and
   nansum(axis=-1) is -123. *)
Theorem C214_invalid_refuted :
  let inv := -128 in
  let m := method (fun _ => eng_nansum inv) (fun _ _ => np_nansum) (fun (_ : unit) _ _ => np_nansum) (fun _ r => r) 0 NanSum in
  m (One [5; inv]) (mkKw _ None None None None) = Ok (mkOut [] [5]) /\
  m (One [5; inv]) (mkKw _ (Some (Some (-1))) None None None) = Ok (mkOut [] [-123]) /\
  m (One [5; inv]) (mkKw _ None (Some true) None None) = Ok (mkOut [1%nat] [-123]) /\
  m (Two 2 [[5; inv]]) (mkKw _ None None None None) = Ok (mkOut [] [-123]).
Proof. repeat split. Qed.
Print Assumptions C214_invalid_refuted.

Example C214_case :
  let sum := fun (_ : kind) (_ : Z) l => fold_right Z.add 0 l in
  let m := method (fun k l => sum k 0 l) sum (fun (_ : unit) => sum) (fun _ r => r) 0 NanSum in
  rect (Two 3 [[1; 2; 3]; [4; 5; 6]]) /\ elements (Two 3 [[1; 2; 3]; [4; 5; 6]]) <> [] /\
  m (Two 3 [[1; 2; 3]; [4; 5; 6]]) (mkKw _ (Some (Some 1)) None None None) = Ok (mkOut [2%nat] [6; 15]) /\
  m (Two 3 [[1; 2; 3]; [4; 5; 6]]) (mkKw _ (Some (Some (-2))) (Some true) None None) = Ok (mkOut [1%nat; 3%nat] [5; 7; 9]) /\
  m (Two 3 [[1; 2; 3]; [4; 5; 6]]) (mkKw _ (Some (Some 2)) None None None) = Raise /\
  m (One [1; 2]) (mkKw _ (Some (Some 0)) None None None) = Ok (mkOut [] [3]).
Proof. cbv zeta. split; [repeat constructor|]. split; [discriminate|]. repeat split. Qed.

(* C215.  A reduction with filter= is the reduction of the elements at which the
   filter is True, whatever the number of threads and the order in which they
   run: nansum is the sum of the values there, mean and nanmean their mean, var
   and nanvar their variance.  mean, var and their kin raise ZeroDivisionError
   if nothing is there, and a filter of another length raises.  (As exact
   numbers: floats are rounded and their rounding does depend on the order.) *)
Theorem C215_filter_partial :
  forall (x : list (option Q)) (f : filt) (s s2 : list (list nat)),
  schedule (length x) s -> schedule (length x) s2 ->
  (forall b, f = FArr b -> length b = length x) ->
  let l := match f with FAll => x | FNone => [] | FArr b => chosen x b end in
  fa_filter_wrapper (fnansum s) x f = Ok (total (present l)) /\
  (l = [] -> fa_filter_wrapper (fmean s) x f = ZeroDivision /\ fa_filter_wrapper (fvar s s2) x f = ZeroDivision) /\
  (l <> [] -> exists m v, fa_filter_wrapper (fmean s) x f = Ok m /\ is_mean l m /\
                          fa_filter_wrapper (fvar s s2) x f = Ok v /\ is_var l v) /\
  (present l = [] -> fa_filter_wrapper (fnanmean s) x f = ZeroDivision /\ fa_filter_wrapper (fnanvar s s2) x f = ZeroDivision) /\
  (present l <> [] -> exists m v, fa_filter_wrapper (fnanmean s) x f = Ok m /\ is_mean (present l) m /\
                                  fa_filter_wrapper (fnanvar s s2) x f = Ok v /\ is_var (present l) v).
Proof.
  intros x f s s2 S S2 L l.
  set (b := match f with FAll => repeat true (length x) | FNone => repeat false (length x) | FArr b => b end).
  assert (LB : length b = length x) by (subst b; destruct f; [apply repeat_length|apply repeat_length|now apply L]).
  assert (EL : l = chosen x b).
  { subst l b. destruct f; [now rewrite chosen_repeat|now rewrite chosen_repeat|reflexivity]. }
  assert (W : forall my, fa_filter_wrapper my x f = my x b).
  { intro my. unfold fa_filter_wrapper. fold b. rewrite LB, Nat.eqb_refl. reflexivity. }
  rewrite !W, EL. clearbody b. clear W EL l L f.
  assert (Q1 := nansum_parts x b s S LB). assert (Q2 := sum_parts x b s S LB).
  unfold fnansum, fmean, fnanmean, fvar, fnanvar. rewrite Q1, Q2. cbn [fst snd].
  split; [reflexivity|].
  assert (V2 : forall m, fst (prange (fun i a => if on b i then (oadd (fst a) (osquare (at_ x i) m), Datatypes.S (snd a)) else a) s2)
               = total (map (fun v => osquare v m) (chosen x b))).
  { intro m. rewrite (prange_ext _ (fun i a => if on b i && (fun _ => true) (at_ x i) then (oadd (fst a) ((fun v => osquare v m) (at_ x i)), Datatypes.S (snd a)) else a)).
    - rewrite (loop_parts (fun v => osquare v m) (fun _ => true) x b s2 S2 LB). cbn [fst]. now rewrite filter_true.
    - intros i a. now rewrite andb_true_r. }
  assert (V1 : forall m, fst (prange (fun i a => if on b i && negb (isnan (at_ x i)) then (oadd (fst a) (osquare (at_ x i) m), Datatypes.S (snd a)) else a) s2)
               = total (map (fun v => osquare v m) (present (chosen x b)))).
  { intro m. assert (LP := loop_parts (fun v => osquare v m) (fun v => negb (isnan v)) x b s2 S2 LB). cbv beta in LP. rewrite LP. cbn [fst].
    replace (filter (fun v => negb (isnan v)) (chosen x b)) with (present (chosen x b)) by (apply filter_ext; intros [q|]; reflexivity). reflexivity. }
  split; [|split; [|split]].
  - intro E. now rewrite E.
  - intro E. destruct (odiv_mean _ E) as (m & M1 & M2). rewrite M1. exists m.
    rewrite V2. destruct (var_parts _ m M2 E) as (v & V3 & V4). exists v. auto.
  - intro E. now rewrite E.
  - intro E. destruct (odiv_mean _ E) as (m & M1 & M2). rewrite M1. exists m.
    rewrite V1. destruct (var_parts _ m M2 E) as (v & V3 & V4). exists v. auto.
Qed.
Print Assumptions C215_filter_partial.

Theorem C215_length :
  forall (x : list (option Q)) (b : list bool) my, length b <> length x -> fa_filter_wrapper my x (FArr b) = Raise.
Proof. intros x b my L. unfold fa_filter_wrapper. apply Nat.eqb_neq in L. now rewrite L. Qed.
Print Assumptions C215_length.

Example C215_case :
  let x := [Some 1%Q; None; Some 5%Q; Some 7%Q] in
  schedule 4 [[2%nat; 0%nat]; []; [3%nat; 1%nat]] /\
  chosen x [true; true; false; true] = [Some 1%Q; None; Some 7%Q] /\
  fa_filter_wrapper (fnansum [[2%nat; 0%nat]; []; [3%nat; 1%nat]]) x (FArr [true; true; false; true]) = Ok (Some 8%Q) /\
  fa_filter_wrapper (fmean [[2%nat; 0%nat]; []; [3%nat; 1%nat]]) x (FArr [true; true; false; true]) = Ok None /\
  fa_filter_wrapper (fnanvar [[2%nat; 0%nat]; []; [3%nat; 1%nat]] [[0%nat; 1%nat; 2%nat; 3%nat]]) x (FArr [true; true; false; true]) <> Ok None /\
  fa_filter_wrapper (fnanmean [[2%nat; 0%nat]; []; [3%nat; 1%nat]]) x FNone = ZeroDivision.
Proof.
  cbv zeta. split.
  - unfold schedule. apply NoDup_Permutation; [repeat constructor; cbn; lia|repeat constructor; cbn; lia|]. cbn. lia.
  - split; [reflexivity|]. split; [vm_compute; reflexivity|]. split; [vm_compute; reflexivity|]. split; [intro H; vm_compute in H; discriminate|]. vm_compute. reflexivity.
Qed.

(* C216.  The functions rt.nansum, rt.mean, ... of a FastArray are its methods,
   and of a list numpy's functions, with the keywords given. *)
Theorem C216_function_partial :
  forall (E R D : Type) eng stat stat_as cast zero (k : kind) (a : arr E) (w : kw D),
  function (R := R) eng stat stat_as cast zero k FA a None w = method eng stat stat_as cast zero k a w /\
  (k <> Var -> k <> Std -> k_dtype w = None ->
   function eng stat stat_as cast zero k Lst a None w =
   match along (stat k (match k_ddof w with Some d => d | None => 0 end)) a
               (match k_axis w with Some x => x | None => None end) (match k_keep w with Some b => b | None => false end) with
   | Some o => Ok o | None => Raise end).
Proof.
  intros E R D eng stat stat_as cast zero k a [ax kp dd dt]. split; [destruct k; reflexivity|].
  intros V S T. cbn [k_dtype] in T. subst dt. destruct k; try congruence; reflexivity.
Qed.
Print Assumptions C216_function_partial.

(* Finding: rt.var, rt.std and rt.median of a list (or any other value without
   those methods) raise AttributeError, because they call functions that Python
   does not have (builtins.var, builtins.median; rt.std too would call var). *)
Theorem C216_list_refuted :
  dispatch FMedian Lst = NoSuchBuiltin /\
  forall (E R D : Type) eng stat stat_as cast zero (a : arr E) pos (w : kw D),
  function (R := R) eng stat stat_as cast zero Var Lst a pos w = Raise /\
  function eng stat stat_as cast zero Std Lst a pos w = Raise.
Proof. split; [reflexivity|]. intros. split; reflexivity. Qed.
Print Assumptions C216_list_refuted.

(* Finding: rt.nanvar and rt.nanstd of a list divide by the number of elements
   and of a FastArray by one less: rt.nanvar([1, 3]) is 1 and
   rt.nanvar(rt.FastArray([1, 3])) is 2. *)
Theorem C216_ddof_refuted :
  forall (E R D : Type) (eng : kind -> list E -> R) (stat : kind -> Z -> list E -> R) stat_as cast zero (l : list E) (k : kind),
  (k = NanVar \/ k = NanStd) -> l <> [] -> eng k l = stat k 1 l ->
  function (D := D) eng stat stat_as cast zero k Lst (One l) None (mkKw _ None None None None) = Ok (mkOut [] [stat k 0 l]) /\
  function (D := D) eng stat stat_as cast zero k FA (One l) None (mkKw _ None None None None) = Ok (mkOut [] [stat k 1 l]).
Proof.
  intros E R D eng stat stat_as cast zero l k K NE EN. destruct l as [|x l]; [congruence|].
  destruct K as [-> | ->]; (split; [reflexivity|]); cbn; rewrite EN; reflexivity.
Qed.
Print Assumptions C216_ddof_refuted.

(* Finding: the axis as second argument, as numpy's functions take it, is
   ignored by the functions of a FastArray: rt.mean(a, 1) is the mean of all
   elements; rt.nansum(a, 1) raises, because the second argument is taken for
   the filter. *)
Theorem C216_position_refuted :
  forall (E R D : Type) eng stat stat_as cast zero (k : kind) (a : arr E) (ax : Z) (w : kw D),
  function (R := R) eng stat stat_as cast zero k FA a (Some ax) w =
  if match k with NanSum => true | _ => false end then Raise else method eng stat stat_as cast zero k a w.
Proof. intros. destruct k; reflexivity. Qed.
Print Assumptions C216_position_refuted.

Example C216_case :
  let sum := fun (_ : kind) (_ : Z) l => fold_right Z.add 0 l in
  let f := function (fun k l => sum k 0 l) sum (fun (_ : unit) => sum) (fun _ r => r) 0 in
  f NanSum Lst (One [1; 2]) None (mkKw _ None None None None) = Ok (mkOut [] [3]) /\
  f Mean FA (Two 2 [[1; 2]; [3; 4]]) (Some 1) (mkKw _ None None None None) = Ok (mkOut [] [10]) /\
  f Mean FA (Two 2 [[1; 2]; [3; 4]]) None (mkKw _ (Some (Some 1)) None None None) = Ok (mkOut [2%nat] [3; 7]) /\
  f Mean Lst (Two 2 [[1; 2]; [3; 4]]) (Some 1) (mkKw _ None None None None) = Ok (mkOut [2%nat] [3; 7]).
Proof. cbv zeta. repeat split. Qed.
