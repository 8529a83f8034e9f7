(** Assignment, expansion, deduplication, alignment. *)
From Coq Require Import List Arith ZArith Bool Lia.
From Verif Require Import GroupModel GroupFacts FillModel FillProofs FlattenModel GroupingModel GroupingSpec GroupingProofs GroupingProofs2
  CatModel CatSpec CatProofs CatProofs2.
Import ListNotations.
Local Open Scope Z_scope.

Section Assign.
Context {A : Type}.
Variable o : ord A.
Hypothesis T : total o.

Lemma inc_cons x l : increasing o (x :: l) <-> (forall y, In y l -> o_ltb o x y = true) /\ increasing o l.
Proof.
  split.
  - intros I. split.
    + intros y Iy. apply In_nth_error in Iy. destruct Iy as [j E]. apply (I 0%nat (S j) x y); [lia|reflexivity|exact E].
    + intros i j a b L E1 E2. apply (I (S i) (S j) a b); [lia|exact E1|exact E2].
  - intros [F I] [|i] [|j] a b L E1 E2; try lia.
    + injection E1 as <-. apply F. eapply nth_error_In. exact E2.
    + apply (I i j a b); [lia|exact E1|exact E2].
Qed.
Lemma usinsert_in x l y : In y (usinsert o x l) <-> y = x \/ In y l.
Proof.
  induction l as [|z l IH]; cbn [usinsert]; [cbn; intuition|].
  destruct (o_eqb o x z) eqn:E; [apply (t_eq o T) in E; subst; cbn; intuition|].
  destruct (o_ltb o x z); cbn [In]; [intuition|]. rewrite IH. intuition.
Qed.
Lemma usinsert_inc x l : increasing o l -> increasing o (usinsert o x l).
Proof.
  induction l as [|z l IH]; cbn [usinsert]; intros I.
  - apply inc_cons. split; [intros y []|exact I].
  - destruct (o_eqb o x z) eqn:E; [exact I|]. destruct (o_ltb o x z) eqn:L.
    + apply inc_cons. split; [|exact I]. apply inc_cons in I. destruct I as [F I]. intros y H; destruct H as [<-|H]; [exact L|].
      eapply (t_trans o T); [exact L|]. apply F. exact H.
    + apply inc_cons in I. destruct I as [F I]. apply inc_cons. split; [|apply IH; exact I].
      intros y H. apply usinsert_in in H. destruct H as [->|H]; [|apply F; exact H].
      apply (eqb_false o T) in E. destruct (t_tri o T x z) as [Q|[Q|Q]]; congruence.
Qed.
Lemma usort_inc l : increasing o (usort o l).
Proof.
  unfold usort. induction l as [|x l IH]; cbn [fold_right]; [intros i j a b _ E; destruct i; discriminate|].
  apply usinsert_inc. exact IH.
Qed.
Lemma usort_in l y : In y (usort o l) <-> In y l.
Proof.
  unfold usort. induction l as [|x l IH]; cbn [fold_right]; [reflexivity|]. rewrite usinsert_in, IH. cbn. intuition.
Qed.
Lemma position_nth l x : In x l -> 0 <= position o l x < Z.of_nat (length l) /\ nth_error l (Z.to_nat (position o l x)) = Some x.
Proof.
  intros I. unfold position. destruct (index_of (o_eqb o) x l) as [j|] eqn:E.
  - apply (index_of_some (o_eqb o) (t_eq o T)) in E. assert (j < length l)%nat by (apply nth_error_Some; congruence).
    rewrite Nat2Z.id. split; [lia|exact E].
  - apply (index_of_none (o_eqb o) (t_eq o T)) in E. contradiction.
Qed.

Lemma put_mask_vals base (l : list A) code v mask codes : cval base l code = Some v ->
  map (cval base l) (put_mask mask code codes) =
  map (fun p => if fst p : bool then Some v else snd p) (combine mask (map (cval base l) codes)).
Proof.
  intros E. unfold put_mask. revert codes. induction mask as [|m mask IH]; intros [|k codes]; try reflexivity.
  cbn [combine map fst snd]. rewrite <- IH. f_equal. destruct m; [exact E|reflexivity].
Qed.
Lemma put_mask_forall (P : Z -> Prop) mask code codes : P code -> Forall P codes -> Forall P (put_mask mask code codes).
Proof.
  intros H. unfold put_mask. revert codes. induction mask as [|m mask IH]; intros [|k codes] F; try constructor; inversion F; subst; cbn [fst snd].
  - destruct m; assumption.
  - apply IH. assumption.
Qed.

(** the categorical with the categories already there, or after they were added *)
Lemma setitem_last W h c mask v code : cat_ok o W h c -> cat_match o h c v = Some code ->
  let c' := mkCat (put_mask mask code (c_codes c)) (c_list c) (c_uniq c) (c_sorted c) (c_ordered c) (c_notord c) (c_base c) in
  cat_ok o W h c' /\ vals h c' = map (fun p => if fst p : bool then Some v else snd p) (combine mask (vals h c)).
Proof.
  intros K M. pose proof (match_spec' o T W h c v K) as S. rewrite M in S. destruct S as [S R]. split.
  - constructor; cbn [c_list c_codes c_base c_sorted]; try apply K. apply put_mask_forall; [exact R|apply K].
  - apply put_mask_vals. exact S.
Qed.

Lemma setitem_ok W h c auto mask v (K : cat_ok o W h c) :
  (In v (items h (c_list c)) \/ auto = true) ->
  (In v (items h (c_list c)) \/ Forall (fun k => c_base c <= k) (c_codes c)) ->
  exists h' c', setitem o h c auto mask v = Some (h', c') /\ cat_ok o W h' c' /\
    vals h' c' = map (fun p => if fst p : bool then Some v else snd p) (combine mask (vals h c)).
Proof.
  intros Ha Hf. unfold setitem. fold (items h (c_list c)).
  destruct (existsb (o_eqb o v) (items h (c_list c))) eqn:E.
  - assert (I : In v (items h (c_list c))).
    { apply existsb_exists in E. destruct E as [y [Iy Ey]]. apply (t_eq o T) in Ey. congruence. }
    pose proof (match_spec' o T W h c v K) as S. destruct (cat_match o h c v) as [code|] eqn:M; [|contradiction].
    eexists. eexists. split; [reflexivity|]. apply (setitem_last W h c mask v code K M).
  - assert (I : ~ In v (items h (c_list c))).
    { intros I. assert (existsb (o_eqb o v) (items h (c_list c)) = true) by (apply existsb_exists; exists v; split; [exact I|apply (eqb_refl o T)]). congruence. }
    destruct Ha as [?| ->]; [contradiction|]. destruct Hf as [?|Hf]; [contradiction|].
    set (all := items h (c_list c) ++ [v]). set (l := usort o all).
    set (c1 := mkCat (map (fun k => mbget 0 (map (position o l) all) (k - c_base c) + c_base c) (c_codes c)) (length h) (c_uniq c) true (c_ordered c) (c_notord c) (c_base c)).
    set (h1 := h ++ [mkArr (Nat.max (a_width (get_arr h (c_list c))) (o_len o v)) l]).
    assert (Il : items h1 (length h) = l) by (unfold items, h1; rewrite get_app_new; reflexivity).
    (* the renumbered code designates the same category *)
    assert (Step : forall k, In k (c_codes c) -> in_range (c_base c) l (mbget 0 (map (position o l) all) (k - c_base c) + c_base c) /\
       cval (c_base c) l (mbget 0 (map (position o l) all) (k - c_base c) + c_base c) = cval (c_base c) (items h (c_list c)) k).
    { intros k Ik. pose proof (proj1 (Forall_forall _ _) (k_codes _ _ _ _ K) k Ik) as R. pose proof (proj1 (Forall_forall _ _) Hf k Ik) as B.
      cbv beta in B. unfold in_range in R. set (j := Z.to_nat (k - c_base c)).
      destruct (nth_error (items h (c_list c)) j) as [x|] eqn:Ex; [|apply nth_error_None in Ex; unfold j in *; lia].
      assert (Eall : nth_error all j = Some x) by (unfold all; rewrite nth_error_app1; [exact Ex|apply nth_error_Some; congruence]).
      replace (k - c_base c) with (Z.of_nat j) by (unfold j; lia).
      rewrite (mbget_error 0 _ j (position o l x)) by (rewrite (map_nth_error _ _ _ Eall); reflexivity).
      destruct (position_nth l x) as [P1 P2]; [unfold l; apply usort_in; eapply nth_error_In; exact Eall|].
      split; [unfold in_range; lia|]. unfold cval. destruct (Z.ltb_spec (position o l x + c_base c) (c_base c)); [lia|].
      destruct (Z.ltb_spec k (c_base c)); [lia|]. fold j. rewrite Ex, <- P2. f_equal. lia. }
    assert (K1 : cat_ok o W h1 c1).
    { constructor; unfold c1; cbn [c_list c_codes c_base c_sorted]; rewrite ?Il.
      - unfold h1. rewrite app_length. cbn. lia.
      - apply usort_inc.
      - apply Forall_map, Forall_forall. intros k Ik. apply Step. exact Ik.
      - apply K.
      - unfold h1. rewrite get_app_new. cbn [a_width]. pose proof (k_width _ _ _ _ K). lia. }
    assert (V1 : vals h1 c1 = vals h c).
    { unfold vals, c1. cbn [c_list c_codes c_base]. rewrite Il, map_map. apply map_ext_in. intros k Ik. apply Step. exact Ik. }
    pose proof (match_spec' o T W h1 c1 v K1) as S. destruct (cat_match o h1 c1 v) as [code|] eqn:M.
    + eexists. eexists. split; [reflexivity|]. rewrite <- V1. apply (setitem_last W h1 c1 mask v code K1 M).
    + exfalso. apply S. unfold c1. cbn [c_list]. rewrite Il. unfold l. apply usort_in. unfold all. apply in_or_app. right. now left.
Qed.
End Assign.

(** ** expand *)
Section Expand.
Context {A : Type}.
Lemma mbget_pos {X} (inv : X) a i : 0 <= i < Z.of_nat (length a) -> mbget inv a i = nth (Z.to_nat i) a inv.
Proof. intros H. replace i with (Z.of_nat (Z.to_nat i)) at 1 by lia. apply mbget_nat. lia. Qed.
Lemma mbget_none_cons (l : list A) i : 0 <= i <= Z.of_nat (length l) ->
  mbget None (None :: map Some l) i = cval 1 l i.
Proof.
  intros H. rewrite mbget_pos by (cbn [length]; rewrite map_length; lia). unfold cval.
  destruct (Z.ltb_spec i 1).
  - assert (i = 0) by lia. subst. reflexivity.
  - replace (Z.to_nat i) with (S (Z.to_nat (i - 1))) by lia. cbn [nth].
    destruct (nth_error l (Z.to_nat (i - 1))) as [x|] eqn:E; [|apply nth_error_None in E; lia].
    apply nth_error_nth. rewrite (map_nth_error _ _ _ E). reflexivity.
Qed.
Lemma expand_ok (h : heap A) c : (c_base c = 0 \/ c_base c = 1) ->
  Forall (in_range (c_base c) (items h (c_uniq c))) (c_codes c) ->
  expand_array h c = map (cval (c_base c) (items h (c_uniq c))) (c_codes c).
Proof.
  intros B F. unfold expand_array. destruct B as [E|E]; rewrite E in *.
  - cbn [Z.eqb]. rewrite map_map. apply map_ext_in. intros k I. pose proof (proj1 (Forall_forall _ _) F k I) as R. unfold in_range in R.
    rewrite mbget_none_cons by lia. unfold cval. destruct (Z.ltb_spec (k + 1) 1), (Z.ltb_spec k 0); try lia; [reflexivity|]. f_equal. lia.
  - change (1 =? 0) with false. cbv iota. apply map_ext_in. intros k I. pose proof (proj1 (Forall_forall _ _) F k I) as R. unfold in_range in R.
    apply mbget_none_cons. lia.
Qed.
Lemma expand_dict_ok (h : heap A) c : c_base c = 1 ->
  Forall (in_range 1 (items h (c_list c))) (c_codes c) ->
  expand_dict h c = map (cval 1 (items h (c_list c))) (c_codes c).
Proof.
  intros B F. unfold expand_dict. apply map_ext_in. intros k I. pose proof (proj1 (Forall_forall _ _) F k I) as R. unfold in_range in R.
  apply mbget_none_cons. lia.
Qed.
(** c[i] shows the same *)
Lemma show_cval base (us : list A) k : base = 0 \/ base = 1 -> in_range base us k ->
  show_code base us k = match cval base us k with Some a => Val a | None => if base =? 1 then Filtered else Bang k end.
Proof.
  intros B R. unfold in_range in R. unfold show_code, cval. destruct (Z.ltb_spec (k - base) 0), (Z.ltb_spec k base); try lia.
  - cbn [orb]. assert (k = base - 1) by lia. destruct B as [-> | ->]; cbn [Z.eqb andb]; [reflexivity|].
    subst k. reflexivity.
  - cbn [orb]. destruct (Z.leb_spec (Z.of_nat (length us)) (k - base)); [lia|].
    destruct (nth_error us (Z.to_nat (k - base))) eqn:E; [reflexivity|]. apply nth_error_None in E. lia.
Qed.
End Expand.

(** ** make_unique *)
Section Uniq.
Context {A : Type}.
Variable grp : list A -> list A * list nat.
Hypothesis grp_ok : forall l, grouping_of (map Some l) (fst (grp l)) (snd (grp l)).
Hypothesis grp_in : forall l a, In a (fst (grp l)) -> In a l.

Lemma make_unique_ok base values cats : base = 0 \/ base = 1 ->
  Forall (fun k => base - 1 <= k < base + Z.of_nat (length cats) /\ 0 <= k) values ->
  let out := make_unique grp base values cats in
  map (cval base (snd out)) (fst out) = map (cval base cats) values /\ NoDup (snd out) /\
  (forall a, In a (snd out) <-> In a cats).
Proof.
  intros B F. pose proof (grp_ok cats) as G. pose proof (grp_in cats) as Gin. unfold make_unique. destruct (grp cats) as [us ik]. cbn [fst snd] in *.
  pose proof (numbered_of _ _ _ G) as Nu.
  assert (Hin : forall a, In a us <-> In a cats).
  { intros a. split; intros I.
    - apply Gin. exact I.
    - apply In_nth_error in I. destruct I as [i E]. destruct (g_key _ _ _ G i a) as [q [Eq Eu]]; [apply map_nth_error; exact E|]. eapply nth_error_In. exact Eu. }
  destruct (Nat.eqb_spec (length cats) (length us)) as [L|L]; cbn [fst snd].
  - split; [reflexivity|]. split; [|reflexivity]. apply (@NoDup_incl_NoDup _ us); [exact (g_distinct _ _ _ G)|lia|]. intros a. apply Hin.
  - assert (P : forall j x, nth_error cats j = Some x -> exists q, nth_error (map (fun k => Z.of_nat k - (1 - base)) ik) j = Some (Z.of_nat q + base) /\ nth_error us q = Some x).
    { intros j x E. destruct (g_key _ _ _ G j x) as [q [Eq Eu]]; [apply map_nth_error; exact E|]. exists q. split; [|exact Eu].
      rewrite (map_nth_error _ _ _ Eq). f_equal. lia. }
    assert (Q : forall k, base <= k < base + Z.of_nat (length cats) ->
       cval base us (mbget 0 (map (fun k => Z.of_nat k - (1 - base)) ik) (k - base)) = cval base cats k).
    { intros k R. destruct (nth_error cats (Z.to_nat (k - base))) as [x|] eqn:Ex; [|apply nth_error_None in Ex; lia].
      destruct (P _ _ Ex) as [q [Eq Eu]]. replace (k - base) with (Z.of_nat (Z.to_nat (k - base))) at 1 by lia. rewrite (mbget_error 0 _ _ _ Eq).
      unfold cval. destruct (Z.ltb_spec (Z.of_nat q + base) base), (Z.ltb_spec k base); try lia. rewrite Ex. rewrite <- Eu. f_equal. lia. }
    destruct (Z.ltb_spec 0 base); cbn [fst snd]; (split; [|split; [exact (g_distinct _ _ _ G)|exact Hin]]); rewrite map_map; apply map_ext_in; intros k I;
      pose proof (proj1 (Forall_forall _ _) F k I) as R; cbv beta in R.
    + destruct (Z.eqb_spec k 0) as [->|Nk].
      * unfold cval. destruct (Z.ltb_spec 0 base); [reflexivity|lia].
      * apply Q. lia.
    + assert (base = 0) by lia. subst base. rewrite <- (Q k) by lia. do 2 f_equal. lia.
Qed.
End Uniq.

(** ** two categoricals, align *)
Section Two.
Context {A : Type}.
Variables (crc : list A -> Z) (grp : list A -> list A * list nat).
Hypothesis grp_ok : forall l, grouping_of (map Some l) (fst (grp l)) (snd (grp l)).
Local Open Scope nat_scope.

Lemma merge_cats_valid junk iks uss : uss <> [] ->
  (forall v w, In v uss -> In w uss -> length v = length w -> crc v = crc w -> v = w) ->
  Forall2 (fun ik us => codes_in (length us) ik) iks uss ->
  let out := merge_cats junk 1 crc grp iks uss in codes_in (length (snd out)) (fst out).
Proof.
  intros Ne S F.
  assert (C : forall u, (forall v, In v uss -> v = u) -> codes_in (length u) (concat iks)).
  { intros u H. clear S Ne. revert H. induction F as [|ik us iks uss Hc F IH]; intros H; cbn [concat]; [constructor|].
    apply Forall_app. split; [assert (E : us = u) by (apply H; now left); rewrite <- E; exact Hc|]. apply IH. intros v I. apply H. now right. }
  unfold merge_cats. destruct uss as [|u [|u' r]]; [congruence| |].
  - cbn [fst snd]. apply C. intros v [->|[]]. reflexivity.
  - destruct (crc_match crc (u :: u' :: r)) eqn:M.
    + cbn [fst snd]. apply C. apply crc_match_all with (crc := crc); assumption.
    + unfold hstack_groupings. pose proof (grp_ok (concat (u :: u' :: r))) as G. destruct (grp (concat (u :: u' :: r))) as [newu uk].
      cbn [fst snd] in *. change (1 =? 0) with false. cbv iota. apply fix_all_bound.
      * rewrite (g_length _ _ _ G), map_length. clear. induction (u :: u' :: r) as [|x l IH]; [apply Nat.le_refl|].
        cbn [map concat]. rewrite app_length. change (list_sum (length x :: map (@length A) l)) with (length x + list_sum (map (@length A) l)). lia.
      * intros c I. apply In_nth_error in I. destruct I as [i E].
        assert (H : i < length (map Some (concat (u :: u' :: r)))) by (rewrite <- (g_length _ _ _ G); apply nth_error_Some; congruence).
        rewrite map_length in H. destruct (nth_error (concat (u :: u' :: r)) i) as [b|] eqn:Eb; [|apply nth_error_None in Eb; lia].
        destruct (g_key _ _ _ G i b) as [q [Eq Eu]]; [apply map_nth_error; exact Eb|]. assert (c = Datatypes.S q) by congruence. subst.
        assert (q < length newu) by (apply nth_error_Some; congruence). lia.
      * clear - F. remember (u :: u' :: r) as uss eqn:Q. clear Q. induction F; cbn [map]; constructor; assumption.
Qed.

Lemma shown_inj (us : list A) a b : NoDup us -> a <= length us -> b <= length us -> (a = b <-> shown us a = shown us b).
Proof.
  intros N La Lb. split; [intros ->; reflexivity|]. destruct a as [|a], b as [|b]; cbn [shown]; intros E; [reflexivity| | |].
  - symmetry in E. apply nth_error_None in E. lia.
  - apply nth_error_None in E. lia.
  - f_equal. apply (proj1 (NoDup_nth_error us) N); [lia|exact E].
Qed.

Lemma compare_cats_eq k1 l1 k2 l2 r a b :
  (length l1 = length l2 -> crc l1 = crc l2 -> l1 = l2) -> NoDup l1 -> NoDup l2 ->
  valid_codes k1 l1 -> valid_codes k2 l2 -> 
  nth_error (shows k1 l1) r = Some a -> nth_error (shows k2 l2) r = Some b ->
  exists x, nth_error (compare_cats crc grp Ceq k1 l1 k2 l2) r = Some x /\ (x = true <-> a = b) /\
            nth_error (compare_cats crc grp Cne k1 l1 k2 l2) r = Some (negb x).
Proof.
  intros S N1 N2 V1 V2 E1 E2. unfold compare_cats.
  assert (S' : forall v w, In v [l1; l2] -> In w [l1; l2] -> length v = length w -> crc v = crc w -> v = w).
  { intros v w [<-|[<-|[]]] [<-|[<-|[]]] H1 H2; auto; symmetry; apply S; auto. }
  assert (F : Forall2 (fun ik us => codes_in (length us) ik) [k1; k2] [l1; l2]) by (repeat constructor; assumption).
  destruct (merge_cats_1 0 crc grp grp_ok [k1; k2] [l1; l2]) as [M N]; auto; [discriminate|intros us [<-|[<-|[]]]; assumption|].
  pose proof (merge_cats_valid 0 [k1; k2] [l1; l2] ltac:(discriminate) S' F) as V. cbv zeta in V.
  destruct (merge_cats 0 1 crc grp [k1; k2] [l1; l2]) as [m us]. cbn [fst snd] in *.
  cbn [combine map concat fst snd] in M. rewrite app_nil_r in M.
  assert (Lm : length m = length k1 + length k2) by (apply (f_equal (@length _)) in M; rewrite app_length, !map_length in M; exact M).
  assert (M1 : map (shown us) (firstn (length k1) m) = map (shown l1) k1).
  { rewrite <- firstn_map, M, firstn_app, map_length, Nat.sub_diag. cbn [firstn]. rewrite app_nil_r, firstn_all2; [reflexivity|rewrite map_length; lia]. }
  assert (M2 : map (shown us) (skipn (length k1) m) = map (shown l2) k2).
  { rewrite <- skipn_map, M, skipn_app, map_length, Nat.sub_diag. cbn [skipn]. rewrite skipn_all2; [reflexivity|rewrite map_length; lia]. }
  change (shows k1 l1) with (map (shown l1) k1) in E1. change (shows k2 l2) with (map (shown l2) k2) in E2.
  rewrite <- M1 in E1. rewrite <- M2 in E2.
  destruct (nth_error (firstn (length k1) m) r) as [x|] eqn:Ex; [|apply nth_error_None in Ex; assert (nth_error (map (shown us) (firstn (length k1) m)) r = None) by (apply nth_error_None; rewrite map_length; lia); congruence].
  destruct (nth_error (skipn (length k1) m) r) as [y|] eqn:Ey; [|apply nth_error_None in Ey; assert (nth_error (map (shown us) (skipn (length k1) m)) r = None) by (apply nth_error_None; rewrite map_length; lia); congruence].
  rewrite (map_nth_error _ _ _ Ex) in E1. rewrite (map_nth_error _ _ _ Ey) in E2. injection E1 as E1. injection E2 as E2.
  assert (Vx : x <= length us) by (eapply (proj1 (Forall_forall _ _) V); rewrite <- (firstn_skipn (length k1) m); apply in_or_app; left; eapply nth_error_In; exact Ex).
  assert (Vy : y <= length us) by (eapply (proj1 (Forall_forall _ _) V); rewrite <- (firstn_skipn (length k1) m); apply in_or_app; right; eapply nth_error_In; exact Ey).
  pose proof (shown_inj us x y N Vx Vy) as J. exists (Z.of_nat x =? Z.of_nat y)%Z.
  assert (C : nth_error (combine (firstn (length k1) m) (skipn (length k1) m)) r = Some (x, y)) by (apply nth_error_combine; assumption).
  split; [rewrite (map_nth_error _ _ _ C); reflexivity|]. split; [|rewrite (map_nth_error _ _ _ C); reflexivity].
  rewrite Z.eqb_eq, <- E1, <- E2, <- J. lia.
Qed.

Lemma split_concat {X} (f : nat -> X) : forall (ls : list (list X)) codes, map f codes = concat ls ->
  map (map f) (split_at (map (@length X) ls) codes) = ls.
Proof.
  induction ls as [|l ls IH]; intros codes E; cbn [map split_at concat] in *; [reflexivity|].
  f_equal.
  - rewrite <- firstn_map, E, firstn_app, Nat.sub_diag. cbn [firstn]. rewrite app_nil_r. apply firstn_all.
  - apply IH. rewrite <- skipn_map, E, skipn_app, Nat.sub_diag. cbn [skipn]. rewrite skipn_all. reflexivity.
Qed.

Lemma align_gen base (sh : list A -> nat -> option A) cs : cs <> [] ->
  (forall p q, In p cs -> In q cs -> length (snd p) = length (snd q) -> crc (snd p) = crc (snd q) -> snd p = snd q) ->
  (let out := merge_cats 0 base crc grp (map fst cs) (map snd cs) in
   map (sh (snd out)) (fst out) = concat (map (fun p => map (sh (snd p)) (fst p)) (combine (map fst cs) (map snd cs)))) ->
  let out := align base crc grp cs in
  map (fun c => map (sh (snd c)) (fst c)) out = map (fun c => map (sh (snd c)) (fst c)) cs /\
  (forall p q, In p out -> In q out -> snd p = snd q) /\ length out = length cs.
Proof.
  intros Ne S M. unfold align. destruct (cats_equal crc cs) eqn:C.
  - split; [reflexivity|]. split; [|reflexivity]. unfold cats_equal in C. destruct cs as [|c r]; [congruence|].
    assert (H : forall p, In p (c :: r) -> snd p = snd c).
    { intros p [->|I]; [reflexivity|]. rewrite forallb_forall in C. pose proof (C p I) as D. apply andb_true_iff in D. destruct D as [D1 D2].
      apply S; [now right|now left|apply Nat.eqb_eq; exact D1|apply Z.eqb_eq; exact D2]. }
    intros p q Ip Iq. rewrite (H p Ip), (H q Iq). reflexivity.
  - destruct (merge_cats 0 base crc grp (map fst cs) (map snd cs)) as [codes us]. cbn [fst snd] in M.
    assert (Cm : combine (map fst cs) (map snd cs) = cs).
    { clear. induction cs as [|[x y] cs IH]; cbn; [reflexivity|]. rewrite IH. reflexivity. }
    rewrite Cm in M. apply split_concat in M. rewrite map_map in M.
    replace (map (fun x => length (map (sh (snd x)) (fst x))) cs) with (map (fun c : list nat * list A => length (fst c)) cs) in M by (apply map_ext; intros; rewrite map_length; reflexivity).
    rewrite !map_map. cbn [fst snd]. split; [exact M|]. split.
    + intros p q Ip Iq. apply in_map_iff in Ip, Iq. destruct Ip as [? [<- _]], Iq as [? [<- _]]. reflexivity.
    + apply (f_equal (@length _)) in M. rewrite !map_length in M. rewrite map_length. exact M.
Qed.
End Two.
