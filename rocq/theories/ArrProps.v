(** C93-C100: whole-array operations. *)
From Coq Require Import List Arith Bool ZArith QArith Qround Lia Lqa Permutation Sorting.Sorted Sorting.Mergesort.
From Verif Require Import GroupModel GroupFacts MergeModel DsModel DsSpec ArrModel ArrSpec ArrProofs ArrProofs2 ArrProofs3.
Import ListNotations.
Local Close Scope Q_scope.
Local Open Scope nat_scope.

(** ** C93: shift and diff *)
(** For every array and every number of periods, shift gives row i the element [p] rows before it
    (after it when p < 0) and the invalid value when there is none; diff gives the difference of the
    two.  Neither depends on what new memory held. *)
Theorem C93_shift_diff {A} (inv : A) (sub : A -> A -> A) (junk : A) (p : Z) (l : list A) :
  (exists r, shift inv junk p l = Some r /\ length r = length l /\
     forall i, i < length l -> nth_error r i = Some (match before l p i with Some x => x | None => inv end)) /\
  (p <> 0%Z -> exists r, diff inv sub junk p l = Some r /\ length r = length l /\
     forall i x, nth_error l i = Some x -> nth_error r i = Some (match before l p i with Some y => sub x y | None => inv end)).
Proof. split; [apply shift_ok|]. intros N. destruct (diff_ok inv sub junk p l N) as (r & E & H). exists r. split; [exact E|exact H]. Qed.
Print Assumptions C93_shift_diff.
(** a shift there and back restores every row that was not shifted out *)
Theorem C93_shift_back {A} (inv j1 j2 : A) (p : Z) (l r s : list A) :
  shift inv j1 p l = Some r -> shift inv j2 (- p) r = Some s -> length s = length l /\
  forall i x, nth_error l i = Some x ->
    nth_error s i = Some (if (0 <=? Z.of_nat i + p)%Z && (Z.of_nat i + p <? Z.of_nat (length l))%Z then x else inv).
Proof.
  intros E1 E2. destruct (shift_ok inv j1 p l) as (r' & R1 & L1 & H1). assert (r' = r) by congruence. subst r'.
  destruct (shift_ok inv j2 (- p) r) as (s' & S1 & L2 & H2). assert (s' = s) by congruence. subst s'.
  split; [lia|]. intros i x X. assert (Li : i < length l) by (apply nth_error_Some; congruence).
  rewrite H2 by lia. f_equal. unfold before. replace (Z.of_nat i - - p)%Z with (Z.of_nat i + p)%Z by lia.
  destruct (Z.leb_spec 0 (Z.of_nat i + p)); cbn [andb]; [|reflexivity].
  destruct (Z.ltb_spec (Z.of_nat i + p) (Z.of_nat (length l))) as [H0|H0].
  - rewrite H1 by lia. unfold before. replace (Z.of_nat (Z.to_nat (Z.of_nat i + p)) - p)%Z with (Z.of_nat i) by lia.
    destruct (Z.leb_spec 0 (Z.of_nat i)); [|lia]. now rewrite Nat2Z.id, X.
  - rewrite nth_error_none by lia. reflexivity.
Qed.
Print Assumptions C93_shift_back.
(** Finding: the documentation says diff raises when periods is 0.  It does so, by a shape mismatch,
    only for arrays of two or more elements; a shorter array gives invalid values. *)
Theorem C93_diff_zero_refuted : (forall (A : Type) (inv : A) sub junk (l : list A), 2 <= length l -> diff inv sub junk 0 l = None) /\
  exists l r, diff 0%Z Z.sub 7%Z 0 l = Some r /\ l <> [] /\ r <> [].
Proof.
  split.
  - intros A inv sub junk l H. rewrite diff_zero. destruct (Nat.leb_spec 2 (length l)); [reflexivity|lia].
  - exists [5%Z], [0%Z]. split; [vm_compute; reflexivity|]. split; discriminate.
Qed.
Print Assumptions C93_diff_zero_refuted.
Example C93_case : shift (-99)%Z 7%Z 2 [1; 2; 3; 4; 5]%Z = Some [-99; -99; 1; 2; 3]%Z /\ shift (-99)%Z 7%Z (-2) [1; 2; 3; 4; 5]%Z = Some [3; 4; 5; -99; -99]%Z /\
  diff (-99)%Z Z.sub 7%Z 1 [1; 4; 9]%Z = Some [-99; 3; 5]%Z /\ diff (-99)%Z Z.sub 7%Z (-2) [1; 4; 9]%Z = Some [-8; -99; -99]%Z.
Proof. vm_compute. repeat split. Qed.

(** ** C94: transitions and differs *)
(** For arrays of numbers: transitions marks the rows that differ from the element [p] rows before,
    differs (as documented) those that equal it; rows without such an element are never marked. *)
Theorem C94_self_compare_partial {A} (inv : A) (eqb : A -> A -> bool) (eqb_eq : forall a b, eqb a b = true <-> a = b)
    (jb : bool) (junk : A) (p : Z) (l : list A) : p <> 0%Z ->
  exists t d, transitions inv eqb false jb junk p l = Some t /\ differs inv eqb false jb junk p l = Some d /\
    length t = length l /\ length d = length l /\
    forall i x, nth_error l i = Some x -> exists bt bd, nth_error t i = Some bt /\ nth_error d i = Some bd /\
      (bt = true <-> exists y, before l p i = Some y /\ x <> y) /\
      (bd = true <-> exists y, before l p i = Some y /\ x = y).
Proof.
  intros N. unfold transitions, differs.
  destruct (compare_ok (neb eqb) jb p l N) as (t & Et & Lt & Ht). destruct (compare_ok eqb jb p l N) as (d & Ed & Ld & Hd).
  exists t, d. split; [exact Et|]. split; [exact Ed|]. split; [exact Lt|]. split; [exact Ld|]. intros i x X.
  rewrite (Ht i x X), (Hd i x X). destruct (before l p i) as [y|].
  - unfold neb. exists (negb (eqb x y)), (eqb x y). split; [reflexivity|]. split; [reflexivity|]. destruct (eqb x y) eqn:E; cbn.
    + apply eqb_eq in E. split; split; intros H; try discriminate; try reflexivity.
      * destruct H as (z & Z & Q). congruence.
      * exists y. split; [reflexivity|exact E].
    + assert (x <> y) by (intros Q; apply eqb_eq in Q; congruence). split; split; intros H0; try discriminate; try reflexivity.
      * exists y. split; [reflexivity|exact H].
      * destruct H0 as (z & Z & Q). congruence.
  - exists false, false. repeat split; intros H; try discriminate; destruct H as (y & Y & _); discriminate.
Qed.
Print Assumptions C94_self_compare_partial.
Theorem C94_zero {A} (inv : A) eqb jb junk (l : list A) : transitions inv eqb false jb junk 0 l = None /\ differs inv eqb false jb junk 0 l = None.
Proof. split; reflexivity. Qed.
Print Assumptions C94_zero.
(** Finding: on strings differs computes the opposite, marking the rows that are different (it is the
    same expression as transitions). *)
Theorem C94_differs_refuted {A} (inv : A) (eqb : A -> A -> bool) (eqb_eq : forall a b, eqb a b = true <-> a = b) (jb : bool) (junk : A) (p : Z) (l : list A) :
  exists d, differs inv eqb true jb junk p l = Some d /\ transitions inv eqb true jb junk p l = Some d /\ length d = length l /\
    forall i x, nth_error l i = Some x -> exists b, nth_error d i = Some b /\
      (b = true <-> match before l p i with Some y => x <> y | None => x <> inv end).
Proof.
  unfold differs, transitions. destruct (shift_ok inv junk p l) as (s & Es & Ls & Hs). rewrite Es. cbn [bind].
  destruct (bin2_ok (neb eqb) l s ltac:(lia)) as (d & Ed & Ld & Hd). exists d. split; [exact Ed|]. split; [exact Ed|]. split; [exact Ld|].
  intros i x X. assert (i < length l) by (apply nth_error_Some; congruence). rewrite Hd, X, Hs by assumption. eexists. split; [reflexivity|].
  assert (NB : forall y, neb eqb x y = true <-> x <> y).
  { intros y. unfold neb. destruct (eqb x y) eqn:E; cbn; split; intros H0; try discriminate; try reflexivity.
    - apply eqb_eq in E. contradiction.
    - intros Q. apply eqb_eq in Q. congruence. }
  destruct (before l p i); apply NB.
Qed.
Print Assumptions C94_differs_refuted.
(** Finding: on strings the first rows, which have no previous element, are marked as transitions
    unless they are empty; on numbers they are not. *)
Theorem C94_transitions_refuted : exists l t i, transitions 0%Z Z.eqb true false 7%Z 1 l = Some t /\
  nth_error t i = Some true /\ before l 1 i = None.
Proof. exists [5; 5]%Z, [true; false], 0. vm_compute. repeat split. Qed.
Print Assumptions C94_transitions_refuted.
Example C94_case : transitions (-99)%Z Z.eqb false true 7%Z 1 [0; 1; 2; 3; 3; 3; 4]%Z = Some [false; true; true; true; false; false; true] /\
  differs (-99)%Z Z.eqb false true 7%Z (-3) [1; 2; 2; 3; 2; 4]%Z = Some [false; true; false; false; false; false].
Proof. vm_compute. repeat split. Qed.

(** ** C95: duplicated *)
(** For every array and every way of numbering its distinct values: keep='first' marks the elements
    that occurred before, keep='last' those that occur again, keep=False those that occur elsewhere. *)
Theorem C95_duplicated {B} (grouping : list B -> nat * list nat) (keep : keep_arg) (l : list B) :
  (forall arr, groups_of arr (fst (grouping arr)) (snd (grouping arr))) ->
  length (fa_duplicated grouping keep l) = length l /\
  forall i, i < length l -> exists b, nth_error (fa_duplicated grouping keep l) i = Some b /\
    (b = true <-> match keep with
                  | KeepFirst => seen_before l i
                  | KeepLast => seen_after l i
                  | KeepNone => seen_before l i \/ seen_after l i
                  end).
Proof. apply fa_dup. Qed.
Print Assumptions C95_duplicated.
Example C95_case : exists grouping : list nat -> nat * list nat, (forall arr, groups_of arr (fst (grouping arr)) (snd (grouping arr))) /\
  fa_duplicated grouping KeepFirst [1; 2; 3; 4; 2; 7; 8; 8; 3] = [false; false; false; false; true; false; false; true; true] /\
  fa_duplicated grouping KeepLast [1; 2; 3; 4; 2; 7; 8; 8; 3] = [false; true; true; false; false; false; true; false; false] /\
  fa_duplicated grouping KeepNone [1; 2; 3; 4; 2; 7; 8; 8; 3] = [false; true; true; false; true; false; true; true; true].
Proof.
  exists (fun arr => (length (uniques Nat.eqb (map Some arr)), ikeys Nat.eqb (map Some arr))). split; [|vm_compute; repeat split].
  intros arr. exists (uniques Nat.eqb (map Some arr)). split; [exact (ikeys_grouping Nat.eqb Nat.eqb_eq (map Some arr))|]. split; [reflexivity|].
  intros u H. apply (uniques_spec Nat.eqb Nat.eqb_eq) in H. apply in_map_iff in H. destruct H as (x & E & I). congruence.
Qed.

(** ** C96: map, map_old, replacena, fillna(value) *)
(** Every element is replaced by the value its dictionary entry gives, all at once: an entry's value
    is never looked up again.  map gives the invalid value where there is no entry, map_old keeps
    the element. *)
Theorem C96_map {K V} (eqb : K -> K -> bool) (eqb_eq : forall a b, eqb a b = true <-> a = b) (inv : V) (d : list (K * V)) (l : list K) :
  NoDup (map fst d) ->
  exists r, fa_map eqb inv d l = Some r /\ length r = length l /\
    forall i k, nth_error l i = Some k ->
      (forall v, maps_to d k v -> nth_error r i = Some v) /\
      ((forall v, ~ maps_to d k v) -> nth_error r i = Some inv).
Proof. now apply fa_map_ok. Qed.
Print Assumptions C96_map.
Theorem C96_map_old {A} (eqb : A -> A -> bool) (eqb_eq : forall a b, eqb a b = true <-> a = b) (d : list (A * A)) (l : list A) :
  NoDup (map fst d) ->
  exists r, map_old eqb d l = Some r /\ length r = length l /\
    forall i k, nth_error l i = Some k ->
      (forall v, maps_to d k v -> nth_error r i = Some v) /\
      ((forall v, ~ maps_to d k v) -> nth_error r i = Some k).
Proof.
  intros N. destruct (map_old_steps eqb eqb_eq l d l eq_refl) as (r & E & L & H). exists r. split; [exact E|]. split; [exact L|].
  intros i k Hk. exact (H N i k k Hk Hk).
Qed.
Print Assumptions C96_map_old.
(** replacena changes exactly the invalid rows: to the value, or to the values in order when there is
    one for each; another number of values is an error.  The array itself changes only with
    inplace=True. *)
Theorem C96_replacena {A} (isnan : A -> bool) (l : list A) (inplace : bool) :
  (forall v, exists r, length r = length l /\
     (forall i x, nth_error l i = Some x -> nth_error r i = Some (if isnan x then v else x)) /\
     replacena isnan [v] inplace l = Some (if inplace then (r, None) else (l, Some r)) /\
     fillna isnan (Some [v]) None inplace l = Some (if inplace then (r, None) else (l, Some r))) /\
  (forall vs, length vs = length (filter isnan l) -> exists r, length r = length l /\
     select (map isnan l) r = vs /\ (forall i x, nth_error l i = Some x -> isnan x = false -> nth_error r i = Some x) /\
     replacena isnan vs inplace l = Some (if inplace then (r, None) else (l, Some r))) /\
  (forall vs, filter isnan l <> [] -> length vs <> length (filter isnan l) -> length vs <> 1 -> replacena isnan vs inplace l = None) /\
  (forall limit, fillna isnan None limit inplace l = None) /\ (forall v k, fillna isnan (Some v) (Some k) inplace l = None).
Proof.
  split; [|split; [|split; [|split]]].
  - intros v. destruct (replacena_ok isnan l inplace v) as (r & H1 & H2 & H3). exists r. split; [exact H1|]. split; [exact H2|]. split; [exact H3|exact H3].
  - intros vs H. now apply replacena_many.
  - intros vs H1 H2 H3. now apply replacena_wrong.
  - reflexivity.
  - reflexivity.
Qed.
Print Assumptions C96_replacena.
Example C96_case : fa_map Nat.eqb 0%Z [(1, 10%Z); (2, 20%Z); (3, 30%Z)] [0; 2; 1; 2] = Some [0; 20; 10; 20]%Z /\
  map_old Nat.eqb [(1, 2); (2, 3); (3, 1)] [1; 2; 3; 9; 1] = Some [2; 3; 1; 9; 2] /\
  replacena (Nat.eqb 0) [7] false [0; 1; 0] = Some ([0; 1; 0], Some [7; 1; 7]) /\ replacena (Nat.eqb 0) [7; 8] true [0; 1; 0] = Some ([7; 1; 8], None).
Proof. vm_compute. repeat split. Qed.

(** ** C97: mask_or, mask_and, mask_xor, mask_andnot and their in-place forms *)
(** The result of two or more masks of one length is the operation folded over them element by
    element.  The plain form puts it in a new array and changes no argument; the in-place form puts
    it in the first argument and changes no other array.  Masks of different lengths are an error.
    Partial: the in-place form requires that the first argument is not repeated. *)
Theorem C97_mask_ops_partial (op : bool -> bool -> bool) (h : masks) (a b : nat) (rest : list nat) (n : nat) :
  (forall c, In c (a :: b :: rest) -> c < length h /\ length (mask_at h c) = n) ->
  (exists h', mask_op op false h (a :: b :: rest) = (h', MaskAt (length h)) /\
     mask_at h' (length h) = fold_masks op (mask_at h a) (map (mask_at h) (b :: rest)) /\
     (forall c, c < length h -> mask_at h' c = mask_at h c)) /\
  (~ In a (b :: rest) -> exists h', mask_op op true h (a :: b :: rest) = (h', MaskAt a) /\ length h' = length h /\
     mask_at h' a = fold_masks op (mask_at h a) (map (mask_at h) (b :: rest)) /\
     (forall c, c <> a -> mask_at h' c = mask_at h c)) /\
  (forall i, i < n -> exists x bs, nth_error (mask_at h a) i = Some x /\
     Forall2 (fun c y => nth_error (mask_at h c) i = Some y) (b :: rest) bs /\
     nth_error (fold_masks op (mask_at h a) (map (mask_at h) (b :: rest))) i = Some (fold_left op bs x)).
Proof.
  intros H. split; [|split].
  - destruct (mask_new op h a b rest n H) as (h' & E & _ & V & O). exists h'. auto.
  - intros NI. destruct (H a (or_introl eq_refl)) as (La & Na).
    destruct (loop_ok op n (b :: rest) h a La Na) as (h' & E & L & V & O).
    + intros c I. split; [intros ->; contradiction|]. apply H. now right.
    + exists h'. auto.
  - intros i Li. destruct (H a (or_introl eq_refl)) as (La & Na).
    destruct (nth_error (mask_at h a) i) as [x|] eqn:E; [|apply nth_error_None in E; lia].
    destruct (fold_at op n (map (mask_at h) (b :: rest)) (mask_at h a) i x Na) as (bs & F & V).
    + intros m I. apply in_map_iff in I. destruct I as (c & <- & I). apply H. now right.
    + exact E.
    + exists x, bs. split; [reflexivity|]. split; [|exact V].
      assert (W : forall (l : list nat) bs, Forall2 (fun m x => nth_error m i = Some x) (map (mask_at h) l) bs -> Forall2 (fun c y => nth_error (mask_at h c) i = Some y) l bs).
      { clear. induction l as [|c l IH]; intros bs F; inversion F; subst; constructor; auto. }
      exact (W _ _ F).
Qed.
Print Assumptions C97_mask_ops_partial.
Theorem C97_mask_errors op (inplace : bool) (h : masks) (a b : nat) (rest : list nat) :
  (forall c, In c (a :: b :: rest) -> c < length h) ->
  (exists c, In c (b :: rest) /\ length (mask_at h c) <> length (mask_at h a)) ->
  snd (mask_op op inplace h (a :: b :: rest)) = MaskError /\ snd (mask_op op inplace h []) = MaskError /\ mask_op op inplace h [a] = (h, MaskAt a).
Proof.
  intros B (c & I & N). split; [|split; reflexivity]. destruct inplace.
  - cbn [mask_op]. apply (loop_bad op (length (mask_at h a))); [apply B; now left|reflexivity|]. exists c. auto.
  - unfold mask_op, mask_into. fold (mask_at (h ++ [[]]) a) (mask_at (h ++ [[]]) b).
    rewrite !mask_at_snoc by (apply B; cbn; tauto). destruct (Nat.eqb_spec (length (mask_at h a)) (length (mask_at h b))) as [E|E]; [|reflexivity].
    apply (loop_bad op (length (mask_at h a))).
    + rewrite MergeFacts.upd_length, app_length. cbn. lia.
    + rewrite upd_at by (rewrite app_length; cbn; lia). rewrite Nat.eqb_refl. now apply zip_len.
    + destruct I as [->|I]; [congruence|]. exists c. split; [exact I|].
      rewrite upd_at by (rewrite app_length; cbn; lia). assert (c < length h) by (apply B; cbn; tauto). destruct (Nat.eqb_spec c (length h)); [lia|].
      now rewrite mask_at_snoc.
Qed.
Print Assumptions C97_mask_errors.
(** Finding: when the first array appears again, the in-place form reads its half-computed result:
    mask_xori(a, b, a) clears a instead of leaving b in it. *)
Theorem C97_inplace_alias_refuted : exists h a b h',
  mask_op xorb true h [a; b; a] = (h', MaskAt a) /\
  mask_at h' a <> fold_masks xorb (mask_at h a) [mask_at h b; mask_at h a].
Proof. exists [[true; false]; [true; true]], 0, 1, [[false; false]; [true; true]]. split; [vm_compute; reflexivity|vm_compute; discriminate]. Qed.
Print Assumptions C97_inplace_alias_refuted.
(** Finding: the in-place form can fail half way: a later mask of another length is reported after the
    first argument has been changed. *)
Theorem C97_inplace_error_refuted : exists h a b c h', mask_op orb true h [a; b; c] = (h', MaskError) /\ mask_at h' a <> mask_at h a.
Proof. exists [[false]; [true]; [true; true]], 0, 1, 2, [[true]; [true]; [true; true]]. split; [vm_compute; reflexivity|vm_compute; discriminate]. Qed.
Print Assumptions C97_inplace_error_refuted.
Example C97_case : mask_op orb false [[true; false; false]; [false; true; false]; [false; false; false]] [0; 1; 2] =
    ([[true; false; false]; [false; true; false]; [false; false; false]; [true; true; false]], MaskAt 3) /\
  mask_op andb true [[true; true; false]; [false; true; false]; [true; true; true]] [0; 1; 2] =
    ([[false; true; false]; [false; true; false]; [true; true; true]], MaskAt 0).
Proof. vm_compute. repeat split. Qed.

(** ** C98: quantile (used by cut and qcut) *)
(** For q in [0, 1] the result is the linearly interpolated q-quantile of the finite values; NaN and
    infinities are ignored; it is NaN exactly when there is no finite value.  It grows with q and
    lies between two of the values.  Where q falls on a value, all three methods return the
    corresponding order statistic.  Partial: between values only interpolation='fraction'; exact
    arithmetic. *)
Theorem C98_quantile_partial (lexsort : list fl -> list nat) (LS : sorts lexsort) (x : list fl) (q : Q) : (0 <= q <= 1)%Q ->
  (finite x = [] -> forall m, bin_quantile lexsort m x q = Some NaN) /\
  (finite x <> [] -> exists v, bin_quantile lexsort Fraction x q = Some (Fin v) /\ quantile_at (finite x) q v /\
     (exists y, In y (finite x) /\ (y <= v)%Q) /\ (exists y, In y (finite x) /\ (v <= y)%Q) /\
     forall q' v', (q <= q' <= 1)%Q -> bin_quantile lexsort Fraction x q' = Some (Fin v') -> (v <= v')%Q) /\
  (forall m k, finite x <> [] -> (q * inject_Z (Z.of_nat (length (finite x)) - 1) == inject_Z (Z.of_nat k))%Q ->
     exists v, bin_quantile lexsort m x q = Some (Fin v) /\ kth (finite x) k v).
Proof.
  intros Q01. split; [|split].
  - intros E m. pose proof (bin_quantile_ok lexsort LS x q Q01) as H. rewrite E in H. apply H.
  - intros NE. pose proof (bin_quantile_ok lexsort LS x q Q01) as H. destruct (finite x) as [|f0 fr] eqn:EF; [congruence|]. rewrite <- EF in *.
    destruct H as (v & Ev & Hv). exists v. split; [exact Ev|]. split; [exact Hv|]. destruct (quantile_range _ _ _ Hv) as (R1 & R2). split; [exact R1|]. split; [exact R2|].
    intros q' v' (A1 & A2) E'. pose proof (bin_quantile_ok lexsort LS x q' ltac:(split; lra)) as H'. destruct (finite x) as [|g0 gr] eqn:EG; [congruence|]. rewrite <- EG in *.
    destruct H' as (w & Ew & Hw). assert (w = v') by congruence. subst w. apply (quantile_mono (finite x) q q'); [exact NE|split; lra|exact Hv|exact Hw].
  - intros m k NE E. now apply (bin_quantile_grid lexsort LS m x q k).
Qed.
Print Assumptions C98_quantile_partial.
(** the specification determines the value *)
Theorem C98_quantile_unique l q v v' : (0 <= q)%Q -> l <> [] -> quantile_at l q v -> quantile_at l q v' -> (v == v')%Q.
Proof. intros H N A B. apply Qle_antisym; eapply quantile_mono; try eassumption; split; lra. Qed.
Print Assumptions C98_quantile_unique.
(** Finding: interpolation_method='lower' and 'higher' index the array with a float, so they raise for
    every q that does not fall exactly on a value. *)
Theorem C98_lower_higher_refuted (lexsort : list fl -> list nat) (LS : sorts lexsort) x q :
  finite x <> [] -> ~ (frac (q * inject_Z (Z.of_nat (length (finite x)) - 1)) == 0)%Q ->
  bin_quantile lexsort Lower x q = None /\ bin_quantile lexsort Higher x q = None.
Proof.
  intros NE Z. rewrite !(bin_quantile_shape lexsort LS). cbv zeta.
  destruct (length (finite x) =? 0) eqn:E0; [apply Nat.eqb_eq, length_zero_iff_nil in E0; contradiction|].
  destruct (Qeq_bool _ 0) eqn:Eq; [apply Qeq_bool_iff in Eq; contradiction|]. split; reflexivity.
Qed.
Print Assumptions C98_lower_higher_refuted.
Example C98_case : sorts fl_lexsort /\
  let x := [Fin 3; NaN; Fin 1; PosInf; Fin 2; NegInf; Fin 7] in
  bin_quantile fl_lexsort Fraction x (1 # 2) = Some (Fin (5 # 2)) /\ bin_quantile fl_lexsort Lower x 1 = Some (Fin 7) /\
  bin_quantile fl_lexsort Fraction x 0 = Some (Fin 1) /\ bin_quantile fl_lexsort Lower x (1 # 2) = None.
Proof. split; [exact fl_lexsort_ok|]. vm_compute. repeat split. Qed.

(** ** C99: Dataset.quantile and Dataset.describe, per column *)
(** For floats and unsigned integers, and for signed integers without invalid values, quantile gives
    the interpolated quantiles of the valid values.  Partial: signed integer columns with invalid
    values are wrong, see the refutation. *)
Theorem C99_quantile_partial (qsort : list Q -> list Q) (QS : sorts_q qsort) (signed : bool) (arr : list elem) (qs : list Q) :
  (forall q, In q qs -> (0 <= q <= 1)%Q) ->
  (valid_values arr = [] -> util_quantile qsort signed arr qs = Some (map (fun _ => None) qs)) /\
  (valid_values arr <> [] -> signed = false \/ length (valid_values arr) = length arr ->
   exists r, util_quantile qsort signed arr qs = Some (map Some r) /\ Forall2 (fun q v => quantile_at (valid_values arr) q v) qs r).
Proof.
  intros HQ. split.
  - intros E. unfold util_quantile. rewrite valid_count, E. reflexivity.
  - intros NE C. now apply util_quantile_ok.
Qed.
Print Assumptions C99_quantile_partial.
(** Finding: on a signed integer column holding an invalid value the largest valid value is cut off, so
    the 1-quantile (and every quantile above the last but one value) is NaN. *)
Theorem C99_quantile_refuted : exists arr v, In v (valid_values arr) /\ (forall x, In x (valid_values arr) -> (x <= v)%Q) /\
  quantile_at (valid_values arr) 1 v /\ util_quantile (isort Qle_bool) true arr [1%Q] = Some [None].
Proof.
  exists [Some 1%Q; None; Some 3%Q; Some 2%Q], 3%Q. split; [cbn; tauto|]. split; [|split; [|vm_compute; reflexivity]].
  - cbn. intros x [<-|[<-|[<-|[]]]]; vm_compute; discriminate.
  - exists 3%Q, 3%Q. split; [|split; [right; vm_compute; reflexivity|vm_compute; reflexivity]].
    split; [exists 3%Q; split; [cbn; tauto|reflexivity]|vm_compute; lia].
Qed.
Print Assumptions C99_quantile_refuted.
(** describe, for every numeric column with a valid value: Count, Valid and Nans count the rows; Min
    and Max are the extremes of the valid values; the percentiles are their quantiles; MeanM averages
    what is left after removing the same number, a tenth of (Valid - 1) rounded down, of smallest and
    of largest values.  Partial: columns without a valid value, Mean and Std. *)
Theorem C99_describe_partial (qsort : list Q -> list Q) (QS : sorts_q qsort) (signed : bool) (arr : list elem) (qs : list Q) :
  valid_values arr <> [] -> (forall q, In q qs -> (0 <= q <= 1)%Q) ->
  exists d r mn mx lo mid hi, describe qsort signed arr qs = Some d /\
    d_count d = length arr /\ d_valid d = length (valid_values arr) /\
    d_nans d = Some (inject_Z (Z.of_nat (length arr - length (valid_values arr)))) /\
    d_quantiles d = map Some r /\ Forall2 (fun q v => quantile_at (valid_values arr) q v) qs r /\
    d_min d = Some mn /\ In mn (valid_values arr) /\ (forall x, In x (valid_values arr) -> (mn <= x)%Q) /\
    d_max d = Some mx /\ In mx (valid_values arr) /\ (forall x, In x (valid_values arr) -> (x <= mx)%Q) /\
    d_middle d = map Some mid /\ Permutation (valid_values arr) (lo ++ mid ++ hi) /\ StronglySorted Qle (lo ++ mid ++ hi) /\
    length lo = (length (valid_values arr) - 1) / 10 /\ length hi = length lo.
Proof. now apply describe_ok. Qed.
Print Assumptions C99_describe_partial.
(** Finding: on a column without a valid value Nans is NaN, not the number of invalid rows. *)
Theorem C99_describe_nans_refuted (qsort : list Q -> list Q) signed arr qs : valid_values arr = [] ->
  exists d, describe qsort signed arr qs = Some d /\ d_count d = length arr /\ d_nans d = None.
Proof. intros E. eexists. unfold describe. rewrite valid_count, E. cbn [length Nat.eqb]. split; [reflexivity|]. split; reflexivity. Qed.
Print Assumptions C99_describe_nans_refuted.
Example C99_case : sorts_q (isort Qle_bool) /\
  util_quantile (isort Qle_bool) false [Some 4; None; Some 1; Some 2]%Q [0; 1 # 2; 1]%Q = Some [Some 1%Q; Some 2%Q; Some 4%Q] /\
  exists d, describe (isort Qle_bool) true [Some 4; None; Some 1; Some 2]%Q [1 # 2]%Q = Some d /\ d_min d = Some 1%Q /\ d_max d = Some 4%Q /\ d_quantiles d = [Some 2%Q].
Proof. split; [exact q_isort_ok|]. split; [vm_compute; reflexivity|]. eexists. split; [vm_compute; reflexivity|]. repeat split. Qed.

(** ** C100: sample *)
Lemma sorted_lt l : NoDup l -> StronglySorted le l -> StronglySorted lt l.
Proof.
  intros N. induction 1 as [|x l S IH F]; [constructor|]. inversion N; subst. constructor; [auto|]. rewrite Forall_forall in *.
  intros y Y. specialize (F y Y). assert (x <> y) by (intros ->; contradiction). lia.
Qed.
Lemma nodup_map_nth ps (M : list nat) : NoDup ps -> NoDup M -> (forall p, In p ps -> p < length M) -> NoDup (map (fun p => nth p M 0) ps).
Proof.
  intros NP NM B. induction NP as [|p ps NI NP IH]; cbn; [constructor|]. constructor; [|apply IH; intros; apply B; now right].
  intros I. apply in_map_iff in I. destruct I as (p' & E & I). assert (p' = p); [|subst; contradiction].
  apply (proj1 (NoDup_nth M 0) NM p' p); [apply B; now right|apply B; now left|exact E].
Qed.
(** Whatever the generator chooses, sample returns min(N, available) different rows, all passing the
    filter, in their original order; a mask of the wrong size is an error.  With row numbers as the
    filter, the sample is taken from them, each occurrence at most once. *)
Theorem C100_sample {R} (choice : list nat -> nat -> list nat) (nsort : list nat -> list nat) (CH : chooses choice) (NS : sorts_n nsort)
    (obj : list R) (N : nat) :
  (exists rows out, sample choice nsort obj N NoFilter = Some out /\ StronglySorted lt rows /\
     length rows = Nat.min N (length obj) /\ Forall2 (fun r x => nth_error obj r = Some x) rows out) /\
  (forall m, length m = length obj -> exists rows out, sample choice nsort obj N (BoolMask m) = Some out /\ StronglySorted lt rows /\
     length rows = Nat.min N (length (filter (fun b => b) m)) /\ (forall r, In r rows -> nth_error m r = Some true) /\
     Forall2 (fun r x => nth_error obj r = Some x) rows out) /\
  (forall m, length m <> length obj -> sample choice nsort obj N (BoolMask m) = None) /\
  (forall rs, (forall r, In r rs -> r < length obj) -> exists ps rows out, sample choice nsort obj N (RowNums rs) = Some out /\
     NoDup ps /\ length ps = Nat.min N (length rs) /\ (forall p, In p ps -> p < length rs) /\
     Permutation rows (map (fun p => nth p rs 0) ps) /\ StronglySorted le rows /\ Forall2 (fun r x => nth_error obj r = Some x) rows out).
Proof.
  assert (PICK : forall M, (forall r, In r M -> r < length obj) -> exists ps rows out,
     all_some (map (nth_error obj) (nsort (choice M (Nat.min N (length M))))) = Some out /\ rows = nsort (choice M (Nat.min N (length M))) /\
     NoDup ps /\ length ps = Nat.min N (length M) /\ (forall p, In p ps -> p < length M) /\
     Permutation rows (map (fun p => nth p M 0) ps) /\ StronglySorted le rows /\ Forall2 (fun r x => nth_error obj r = Some x) rows out).
  { intros M B. destruct (CH M (Nat.min N (length M)) ltac:(lia)) as (ps & N1 & L1 & B1 & E1).
    destruct (NS (choice M (Nat.min N (length M)))) as (P & S). rewrite E1 in P at 2.
    destruct (all_some_map (nth_error obj) (nsort (choice M (Nat.min N (length M))))) as (out & EO & F).
    - intros r I. apply nth_error_Some. apply B. apply (Permutation_in _ P) in I. apply in_map_iff in I. destruct I as (p & <- & I).
      apply nth_In. now apply B1.
    - exists ps, (nsort (choice M (Nat.min N (length M)))), out. repeat (split; [first [reflexivity|assumption]|]). exact F. }
  assert (DIST : forall M ps rows, NoDup M -> NoDup ps -> (forall p, In p ps -> p < length M) -> Permutation rows (map (fun p => nth p M 0) ps) -> StronglySorted le rows ->
     StronglySorted lt rows /\ length rows = length ps /\ forall r, In r rows -> In r M).
  { intros M ps rows NM NP B P S. split; [|split].
    - apply sorted_lt; [|exact S]. apply (Permutation_NoDup (Permutation_sym P)). now apply nodup_map_nth.
    - rewrite (Permutation_length P). apply map_length.
    - intros r I. apply (Permutation_in _ P) in I. apply in_map_iff in I. destruct I as (p & <- & I). apply nth_In. now apply B. }
  split; [|split; [|split]].
  - destruct (PICK (seq 0 (length obj))) as (ps & rows & out & E & Er & NP & LP & BP & P & S & F); [intros r I; apply in_seq in I; lia|].
    destruct (DIST _ _ _ (seq_NoDup _ _) NP BP P S) as (D1 & D2 & D3). rewrite seq_length in *. exists rows, out.
    split; [unfold sample; rewrite seq_length; exact E|]. split; [exact D1|]. split; [lia|exact F].
  - intros m Lm. destruct (PICK (select m (seq 0 (length m)))) as (ps & rows & out & E & Er & NP & LP & BP & P & S & F).
    { intros r I. apply select_in in I. lia. }
    destruct (DIST _ _ _ (select_nodup m _ (seq_NoDup _ _)) NP BP P S) as (D1 & D2 & D3).
    rewrite select_count in LP by (rewrite seq_length; reflexivity). exists rows, out.
    split; [unfold sample; rewrite Lm, Nat.eqb_refl; rewrite Lm in E; exact E|]. split; [exact D1|]. split; [lia|]. split; [|exact F].
    intros r I. apply D3, select_in in I. destruct I as (_ & I). now rewrite Nat.sub_0_r in I.
  - intros m Lm. unfold sample. destruct (Nat.eqb_spec (length m) (length obj)); [contradiction|reflexivity].
  - intros rs B. destruct (PICK rs B) as (ps & rows & out & E & Er & NP & LP & BP & P & S & F). exists ps, rows, out.
    split; [exact E|]. repeat (split; [assumption|]). exact F.
Qed.
Print Assumptions C100_sample.
Example C100_case : exists choice, chooses choice /\ sorts_n (isort Nat.leb) /\
  sample choice (isort Nat.leb) [10; 20; 30; 40; 50] 2 (BoolMask [true; false; true; false; true]) = Some [30; 50] /\
  sample choice (isort Nat.leb) [10; 20; 30] 7 NoFilter = Some [10; 20; 30].
Proof.
  exists (fun M N => map (fun p => nth p M 0) (rev (seq (length M - N) N))). split; [|split; [exact n_isort_ok|vm_compute; repeat split]].
  intros M N L. exists (rev (seq (length M - N) N)). split; [apply NoDup_rev, seq_NoDup|]. split; [now rewrite rev_length, seq_length|]. split; [|reflexivity].
  intros p I. apply in_rev, in_seq in I. lia.
Qed.
