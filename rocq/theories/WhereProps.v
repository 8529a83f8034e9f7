(** Properties C153 to C155: where, of numbers and of Categoricals, and item assignment. *)
From Coq Require Import List Arith ZArith Bool Lia.
From Verif Require Import FlattenModel GroupModel GroupFacts GroupingModel GroupingSpec GroupingProofs2 LosslessModel LosslessProofs WhereModel WhereSpec WhereProofs WhereProofs2.
Import ListNotations.
Open Scope Z_scope.

(** *** C153: where of numbers *)
(** Every row of the result is the chosen element, exact, when the type of the result can hold what is chosen.
    Missing: when it cannot (see the refuted statements), strings, Booleans, python floats. *)
Theorem C153_where_chooses_partial :
  forall (junk : Z -> Z) (cond : list bool) (x y : operand) (c : dt), (2 <= length cond)%nat ->
  operand_ok (length cond) x -> operand_ok (length cond) y -> common_dtype x y = Some c ->
  (forall i v, chosen cond (operand_at x) (operand_at y) i = Some (Some v) -> holds c v) ->
  exists l, where_num junk cond x y = Some (c, l) /\ length l = length cond /\
    forall i, (i < length cond)%nat -> nth_error l i = chosen cond (operand_at x) (operand_at y) i.
Proof. exact where_num_ok. Qed.
Print Assumptions C153_where_chooses_partial.

(** Two arrays whose types have a lossless common type: always exact, invalid elements stay invalid. *)
Theorem C153_where_of_arrays :
  forall (junk : Z -> Z) (cond : list bool) (d1 d2 c : dt) (x y : list value), (2 <= length cond)%nat ->
  operand_ok (length cond) (OArr d1 x) -> operand_ok (length cond) (OArr d2 y) -> find_lossless d1 d2 = Some c ->
  exists l, where_num junk cond (OArr d1 x) (OArr d2 y) = Some (c, l) /\ length l = length cond /\
    forall i, (i < length cond)%nat -> nth_error l i = chosen cond (row_at x) (row_at y) i.
Proof.
  intros junk cond d1 d2 c x y L Hx Hy F. apply (where_num_ok junk cond (OArr d1 x) (OArr d2 y) c L Hx Hy (common_lossless d1 x d2 y c F)).
  intros i v. exact (arrays_hold cond d1 x d2 y _ c i v F Hx Hy).
Qed.
Print Assumptions C153_where_of_arrays.

(** Arrays of other lengths are refused, and no others. *)
Theorem C153_where_refuses :
  forall (junk : Z -> Z) (cond : list bool) (d1 d2 : dt) (x y : list value), (2 <= length cond)%nat ->
  where_num junk cond (OArr d1 x) (OArr d2 y) = None <->
  ~ (length x = 1%nat \/ length x = length cond) \/ ~ (length y = 1%nat \/ length y = length cond).
Proof. exact where_num_none. Qed.
Print Assumptions C153_where_refuses.

(** A condition of one element: one of the arrays, whole, if it has no invalid integers. *)
Theorem C153_where_of_one_partial :
  forall (junk : Z -> Z) (b : bool) (d1 d2 c : dt) (x y : list value), length x = length y -> x <> [] ->
  find_lossless d1 d2 = Some c -> Forall (holds_value d1) x -> Forall (holds_value d2) y ->
  ~ In None x -> ~ In None y ->
  where_one junk b d1 x d2 y = Some (c, if b then x else y).
Proof. exact where_one_ok. Qed.
Print Assumptions C153_where_of_one_partial.

Example C153_case :
  where_num (fun _ => 0) [true; false; true] (OArr I16 [Some (5 * one); Some (6 * one); None]) (OArr U16 [Some (65534 * one)])
    = Some (I32, [Some (5 * one); Some (65534 * one); None]) /\
  find_lossless I16 U16 = Some I32 /\
  where_num (fun _ => 0) [true; false; true] (OArr I8 [Some one; Some one; Some (- 2 * one)]) (OInt 300) = Some (I32, [Some one; Some (300 * one); Some (- 2 * one)]) /\
  where_num (fun _ => 0) [true; false; true] (OInt 3) (OArr I8 [None; None]) = None /\
  where_one (fun _ => 0) false I8 [Some one; Some (2 * one)] I32 [Some (700 * one); Some one] = Some (I32, [Some (700 * one); Some one]).
Proof. vm_compute. repeat split. Qed.
Example C153_case_hyp :
  operand_ok 3 (OArr I16 [Some (5 * one); Some (6 * one); None]) /\ operand_ok 3 (OArr U16 [Some (65534 * one)]) /\ operand_ok 3 (OInt 300).
Proof.
  assert (H : forall d z, is_int d = true -> min_of d <= z <= max_of d -> z <> sentinel d -> holds_value d (Some (z * one))) by (intros d z E R N; unfold holds_value, holds; rewrite E; now exists z).
  split; [|split].
  - split; [right; reflexivity|]. repeat constructor; apply H; vm_compute; try reflexivity; try discriminate; split; discriminate.
  - split; [left; reflexivity|]. repeat constructor; apply H; vm_compute; try reflexivity; try discriminate; split; discriminate.
  - split; reflexivity.
Qed.

(** Finding: the type of a python integer is the smallest that can store it, counting the value reserved for
    "invalid"; where(mask, 255, 0) therefore is a uint8 array in which every 255 reads as invalid
    (rt_numpy.py:317 calls min_scalar_type without promote_invalid; the same with 65535, -128, ...). *)
Theorem C153_python_numbers_are_chosen_refuted :
  ~ (forall (junk : Z -> Z) (cond : list bool) (a b : Z) (c : dt) (l : list value), (2 <= length cond)%nat ->
     0 <= a < 1000 -> 0 <= b < 1000 -> where_num junk cond (OInt a) (OInt b) = Some (c, l) ->
     forall i, (i < length cond)%nat -> nth_error l i = chosen cond (operand_at (OInt a)) (operand_at (OInt b)) i).
Proof.
  intros H. specialize (H (fun _ => 0) [true; false] 255 0 U8 [None; Some 0]).
  assert (E : nth_error [None; Some 0] 0 = Some (Some (255 * one))) by (apply (H ltac:(cbn; lia) ltac:(lia) ltac:(lia) ltac:(vm_compute; reflexivity) O); cbn; lia).
  discriminate E.
Qed.
Print Assumptions C153_python_numbers_are_chosen_refuted.

(** Finding: with a condition of one element where hands over to np.where, which does not know invalid integers:
    where([True], int32 array with an invalid, float64 array) gives -2147483648.0, where with a longer condition gives
    NaN (rt_numpy.py:3060-3062). *)
Theorem C153_one_element_keeps_invalid_refuted :
  ~ (forall (junk : Z -> Z) (b : bool) (d1 d2 c : dt) (x y : list value), length x = length y -> x <> [] ->
     find_lossless d1 d2 = Some c -> Forall (holds_value d1) x -> Forall (holds_value d2) y ->
     where_one junk b d1 x d2 y = Some (c, if b then x else y)).
Proof.
  intros H. specialize (H (fun _ => 0) true I32 F64 F64 [None] [None] eq_refl ltac:(discriminate) ltac:(vm_compute; reflexivity) ltac:(repeat constructor) ltac:(repeat constructor)).
  assert (E : where_one (fun _ => 0) true I32 [None] F64 [None] = Some (F64, [Some (- 2 ^ 31 * one)])) by (vm_compute; reflexivity). rewrite E in H. discriminate H.
Qed.
Print Assumptions C153_one_element_keeps_invalid_refuted.

(** Finding: int64 and float64 arrays, or int64 and uint64 arrays, are converted to float64: the int64 values chosen are
    rounded, without a warning (rt_numpy.py:360-374). *)
Theorem C153_arrays_are_exact_refuted :
  ~ (forall (junk : Z -> Z) (cond : list bool) (d1 d2 c : dt) (x y l : list value), (2 <= length cond)%nat ->
     operand_ok (length cond) (OArr d1 x) -> operand_ok (length cond) (OArr d2 y) ->
     where_num junk cond (OArr d1 x) (OArr d2 y) = Some (c, l) ->
     forall i, (i < length cond)%nat -> nth_error l i = chosen cond (row_at x) (row_at y) i).
Proof.
  intros H. specialize (H (fun _ => 0) [true; false] I64 F64 F64 [Some ((2 ^ 53 + 1) * one)] [None] [Some (2 ^ 53 * one); None] ltac:(cbn; lia)).
  assert (K : nth_error [Some (2 ^ 53 * one); None] 0 = Some (Some ((2 ^ 53 + 1) * one))).
  { apply (H ltac:(split; [now left|repeat constructor; exists (2 ^ 53 + 1); repeat split; vm_compute; discriminate]) ltac:(split; [now left|repeat constructor]) ltac:(vm_compute; reflexivity) O). cbn; lia. }
  injection K as K. vm_compute in K. discriminate K.
Qed.
Print Assumptions C153_arrays_are_exact_refuted.

(** *** C154: where of Categoricals *)
(** Categoricals of base index 1: every row shows what the chosen Categorical shows there. *)
Theorem C154_where_of_categoricals_partial :
  forall (B : Type) (junk : nat) (crc : list B -> Z) (grp : list B -> list B * list nat),
  (forall l, grouping_of (map Some l) (fst (grp l)) (snd (grp l))) ->
  forall (cond : list bool) (cx : list nat) (ux : list B) (cy : list nat) (uy : list B), (2 <= length cond)%nat ->
  (length cx = 1%nat \/ length cx = length cond) -> (length cy = 1%nat \/ length cy = length cond) ->
  (length ux = length uy -> crc ux = crc uy -> ux = uy) -> NoDup ux -> NoDup uy -> valid_codes cx ux -> valid_codes cy uy ->
  exists codes cats, where_cat junk 1 crc grp cond cx ux cy uy = Some (codes, cats) /\ length codes = length cond /\
    NoDup cats /\ valid_codes codes cats /\
    forall i, (i < length cond)%nat -> nth_error (shows codes cats) i = chosen cond (row_at (shows cx ux)) (row_at (shows cy uy)) i.
Proof. exact @where_cat_ok. Qed.
Print Assumptions C154_where_of_categoricals_partial.

Definition grp_n (l : list nat) := (uniques Nat.eqb (map Some l), ikeys Nat.eqb (map Some l)).
Example C154_case_grp : forall l, grouping_of (map Some l) (fst (grp_n l)) (snd (grp_n l)).
Proof. intros l. apply (ikeys_grouping Nat.eqb Nat.eqb_eq). Qed.
Example C154_case : where_cat 0 1 (fun l => Z.of_nat (list_sum l)) grp_n [true; false; true; false] [1; 0; 2; 1]%nat [7; 8]%nat [2; 1; 2; 0]%nat [8; 9]%nat
  = Some ([1; 2; 2; 0], [7; 8; 9])%nat.
Proof. vm_compute. reflexivity. Qed.

(** Finding: the result is built with the default base index 1 from codes that count from 0: where of two Categoricals
    of base index 0 shows the neighbouring category, and nothing for category 0 (rt_numpy.py:3024-3027). *)
Theorem C154_base_index_0_is_chosen_refuted :
  ~ (forall (B : Type) (junk : nat) (crc : list B -> Z) (grp : list B -> list B * list nat),
     (forall l, grouping_of (map Some l) (fst (grp l)) (snd (grp l))) ->
     forall (cond : list bool) (cx : list nat) (ux : list B) (cy : list nat) (uy : list B) codes cats, (2 <= length cond)%nat ->
     (length cx = 1%nat \/ length cx = length cond) -> (length cy = 1%nat \/ length cy = length cond) ->
     (length ux = length uy -> crc ux = crc uy -> ux = uy) -> NoDup ux -> NoDup uy -> valid_codes0 cx ux -> valid_codes0 cy uy ->
     where_cat junk 0 crc grp cond cx ux cy uy = Some (codes, cats) ->
     forall i, (i < length cond)%nat -> nth_error (shows codes cats) i = chosen cond (row_at (shows0 cx ux)) (row_at (shows0 cy uy)) i).
Proof.
  intros H. specialize (H nat O (fun l => Z.of_nat (list_sum l)) grp_n C154_case_grp [true; false] [1; 0]%nat [7; 8]%nat [1; 0]%nat [8; 9]%nat [1; 1]%nat [7; 8; 9]%nat).
  assert (K : nth_error (shows [1; 1]%nat [7; 8; 9]%nat) 0 = Some (Some 8%nat)).
  { apply (H ltac:(cbn; lia) ltac:(now right) ltac:(now right) ltac:(intros _ E; vm_compute in E; discriminate E)
      ltac:(repeat constructor; cbn; intuition lia) ltac:(repeat constructor; cbn; intuition lia) ltac:(repeat constructor) ltac:(repeat constructor) ltac:(vm_compute; reflexivity) O). cbn; lia. }
  discriminate K.
Qed.
Print Assumptions C154_base_index_0_is_chosen_refuted.

(** Finding: for mapped Categoricals the codes are taken for positions, from 1, in the list of names: with the mapping
    {2: 'a', 1: 'b'} rows of code 2 show 'b' after where, and a code above the number of names is refused, although both
    arguments have the same mapping (rt_numpy.py:3024-3027). *)
Theorem C154_mapped_is_chosen_refuted :
  ~ (forall (cond : list bool) (cx cy : list Z) (m : mapping), (2 <= length cond)%nat -> length cx = length cond -> length cy = length cond ->
     NoDup (map fst m) -> NoDup (map snd m) -> (forall c, In c cx \/ In c cy -> In c (map fst m)) ->
     exists codes names, where_mapped cond cx m cy m = Some (codes, names) /\
       forall i, (i < length cond)%nat -> option_map (fun c => nth_error names (Z.to_nat c - 1)) (nth_error codes i) =
         chosen cond (fun i => option_map (map_get m) (nth_error cx i)) (fun i => option_map (map_get m) (nth_error cy i)) i).
Proof.
  intros H. destruct (H [true; false] [2; 1] [1; 1] [(2, [97%nat]); (1, [98%nat])]) as (codes & names & E & K); try reflexivity; try (cbn; lia).
  - repeat constructor; cbn; intuition lia.
  - repeat constructor; cbn; intuition congruence.
  - assert (W : where_mapped [true; false] [2; 1] [(2, [97%nat]); (1, [98%nat])] [1; 1] [(2, [97%nat]); (1, [98%nat])] = Some ([2; 1], [[97%nat]; [98%nat]])) by (vm_compute; reflexivity).
    rewrite W in E. injection E as <- <-. specialize (K O ltac:(cbn; lia)). discriminate K.
Qed.
Print Assumptions C154_mapped_is_chosen_refuted.
Theorem C154_mapped_is_accepted_refuted :
  ~ (forall (cond : list bool) (cx cy : list Z) (m : mapping), (2 <= length cond)%nat -> length cx = length cond -> length cy = length cond ->
     NoDup (map fst m) -> NoDup (map snd m) -> (forall c, In c cx \/ In c cy -> In c (map fst m)) -> where_mapped cond cx m cy m <> None).
Proof.
  intros H. apply (H [true; false] [10; 20] [20; 10] [(10, [97%nat]); (20, [98%nat])]); try reflexivity; try (cbn; lia).
  - repeat constructor; cbn; intuition lia.
  - repeat constructor; cbn; intuition congruence.
Qed.
Print Assumptions C154_mapped_is_accepted_refuted.
(** What holds for mapped Categoricals: with the codes 1, 2, ... in the order of the names. *)
Theorem C154_mapped_partial :
  forall (cond : list bool) (cx cy : list Z) (names : list name), (2 <= length cond)%nat -> length cx = length cond -> length cy = length cond ->
  NoDup names -> (forall c, In c cx \/ In c cy -> 1 <= c <= Z.of_nat (length names)) ->
  let m := combine (map Z.of_nat (seq 1 (length names))) names in
  exists codes, where_mapped cond cx m cy m = Some (codes, names) /\ length codes = length cond /\
    forall i, (i < length cond)%nat -> option_map (fun c => nth_error names (Z.to_nat c - 1)) (nth_error codes i) =
      chosen cond (fun i => option_map (map_get m) (nth_error cx i)) (fun i => option_map (map_get m) (nth_error cy i)) i.
Proof. exact where_mapped_ok. Qed.
Print Assumptions C154_mapped_partial.
Example C154_mapped_case :
  where_mapped [true; false; true] [2; 1; 1] [(1, [97%nat]); (2, [98%nat])] [1; 2; 1] [(1, [97%nat]); (2, [98%nat])] = Some ([2; 2; 1], [[97%nat]; [98%nat]]).
Proof. vm_compute. reflexivity. Qed.

(** *** C155: item assignment *)
(** Positions assigned to hold the value last assigned to them, all others what they held, for values the type of
    the array can hold. *)
Theorem C155_assignment_partial :
  forall (junk : Z -> Z) (d : dt) (l : list value) (idx : list nat) (o : operand), operand_ok (length idx) o ->
  Forall (fun i => (i < length l)%nat) idx ->
  (forall i v, last_put idx (rows_of o (length idx)) i = Some (Some v) -> holds d v) ->
  exists l', setitem_num junk d l idx o = Some l' /\ length l' = length l /\
    forall j, nth_error l' j = match last_put idx (rows_of o (length idx)) j with Some v => Some v | None => nth_error l j end.
Proof. exact setitem_ok. Qed.
Print Assumptions C155_assignment_partial.

(** A mask: the rows where it is False are kept, the rows where it is True take the values in order. *)
Theorem C155_mask_assignment_partial :
  forall (junk : Z -> Z) (d : dt) (l : list value) (m : list bool) (o : operand), length m = length l ->
  operand_ok (length (filter (fun b => b) m)) o ->
  Forall (holds_value d) (rows_of o (length (filter (fun b => b) m))) ->
  exists l', setitem_mask junk d l m o = Some l' /\ length l' = length l /\
    forall j, nth_error l' j = match nth_error m j with
                               | Some true => nth_error (rows_of o (length (filter (fun b => b) m))) (length (filter (fun b => b) (firstn j m)))
                               | _ => nth_error l j
                               end.
Proof. exact setitem_mask_ok. Qed.
Print Assumptions C155_mask_assignment_partial.

(** A position out of range, or values that are not one per position: refused, nothing is assigned. *)
Theorem C155_assignment_refuses :
  forall (junk : Z -> Z) (d1 d2 : dt) (l v : list value) (idx : list nat),
  setitem_num junk d1 l idx (OArr d2 v) = None <->
  (exists i, In i idx /\ (length l <= i)%nat) \/ (length v <> 1%nat /\ length v <> length idx).
Proof. exact setitem_none. Qed.
Print Assumptions C155_assignment_refuses.

Example C155_case :
  setitem_num (fun _ => 0) I8 [Some one; None; Some (3 * one)] [2; 0; 2]%nat (OArr I32 [Some (5 * one); Some (6 * one); Some (7 * one)])
    = Some [Some (6 * one); None; Some (7 * one)] /\
  setitem_mask (fun _ => 0) I8 [Some one; None; Some (3 * one)] [true; false; true] (OArr I8 [None; Some (9 * one)]) = Some [None; None; Some (9 * one)] /\
  setitem_mask (fun _ => 0) I8 [Some one; None; Some (3 * one)] [false; true; true] (OInt 4) = Some [Some one; Some (4 * one); Some (4 * one)].
Proof. vm_compute. repeat split. Qed.
Example C155_case_hyp :
  let o := OArr I32 [Some (5 * one); Some (6 * one); Some (7 * one)] in
  operand_ok 3 o /\ forall i v, last_put [2; 0; 2]%nat (rows_of o 3) i = Some (Some v) -> holds I8 v.
Proof.
  assert (H : forall d z, is_int d = true -> min_of d <= z <= max_of d -> z <> sentinel d -> holds d (z * one)) by (intros d z E R N; unfold holds; rewrite E; now exists z).
  split.
  - split; [right; reflexivity|]. repeat constructor; apply H; vm_compute; try reflexivity; try discriminate; split; discriminate.
  - intros [|[|[|i]]] v E; cbn [last_put rows_of Nat.eqb] in E; try discriminate E; [replace v with (6 * one) by congruence|replace v with (7 * one) by congruence]; apply H; vm_compute; try reflexivity; try discriminate; split; discriminate.
Qed.

(** Finding: a number too large for the type of the array wraps around silently: int8 array, arr[i] = 1000 stores -24;
    -128 or 384 store "invalid" (rt_fastarray.py:1280-1281). *)
Theorem C155_numbers_are_stored_or_refused_refuted :
  ~ (forall (junk : Z -> Z) (d : dt) (l l' : list value) (i : nat) (z : Z), operand_ok 1 (OInt z) -> (i < length l)%nat ->
     setitem_num junk d l [i] (OInt z) = Some l' -> nth_error l' i = Some (Some (z * one))).
Proof.
  intros H. specialize (H (fun _ => 0) I8 [None] [Some (- 24 * one)] O 1000 ltac:(cbn; lia) ltac:(cbn; lia) ltac:(vm_compute; reflexivity)).
  injection H as H. vm_compute in H. discriminate H.
Qed.
Print Assumptions C155_numbers_are_stored_or_refused_refuted.
