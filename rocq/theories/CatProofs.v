(** Looking up values in the category list, comparisons. *)
From Coq Require Import List Arith ZArith Bool Lia.
From Verif Require Import GroupModel GroupFacts GroupingModel CatModel CatSpec.
Import ListNotations.
Local Open Scope Z_scope.

Section Facts.
Context {A : Type}.
Variable o : ord A.
Hypothesis T : total o.

Lemma ltb_asym a b : o_ltb o a b = true -> o_ltb o b a = false.
Proof.
  intros H. destruct (o_ltb o b a) eqn:E; [|reflexivity].
  pose proof (t_trans o T _ _ _ H E) as F. rewrite (t_irr o T) in F. discriminate.
Qed.
Lemma eqb_refl a : o_eqb o a a = true.
Proof. apply (t_eq o T). reflexivity. Qed.
Lemma eqb_false a b : o_eqb o a b = false <-> a <> b.
Proof. split; intros H. - intros E. apply (t_eq o T) in E. congruence. - destruct (o_eqb o a b) eqn:E; [|reflexivity]. apply (t_eq o T) in E. contradiction. Qed.
Lemma eqb_sym a b : o_eqb o a b = o_eqb o b a.
Proof.
  destruct (o_eqb o a b) eqn:E; symmetry.
  - apply (t_eq o T). apply (t_eq o T) in E. congruence.
  - apply eqb_false. apply eqb_false in E. congruence.
Qed.

Lemma increasing_nodup l : increasing o l -> NoDup l.
Proof.
  intros I. apply NoDup_nth_error. intros i j Hi E. destruct (lt_eq_lt_dec i j) as [[L|L]|L]; [|exact L|]; exfalso.
  - destruct (nth_error l i) as [a|] eqn:Ei; [|apply nth_error_None in Ei; lia].
    pose proof (I i j a a L Ei (eq_sym E)) as F. rewrite (t_irr o T) in F. discriminate.
  - destruct (nth_error l i) as [a|] eqn:Ei; [|apply nth_error_None in Ei; lia].
    pose proof (I j i a a L (eq_sym E) Ei) as F. rewrite (t_irr o T) in F. discriminate.
Qed.

Lemma bsearch_spec l s (I : increasing o l) f : forall lo hi, (hi - lo <= f)%nat -> (lo <= hi)%nat -> (hi <= length l)%nat ->
  (forall i x, (i < lo)%nat -> nth_error l i = Some x -> o_ltb o x s = true) ->
  (forall i x, (hi <= i)%nat -> nth_error l i = Some x -> o_ltb o x s = false) ->
  let p := bsearch o f l s lo hi in
  (p <= length l)%nat /\ forall i x, nth_error l i = Some x -> ((i < p)%nat <-> o_ltb o x s = true).
Proof.
  induction f as [|f IH]; intros lo hi Hf Hl Hh Lo Hi p.
  - assert (lo = hi) by lia. subst. unfold p. cbn. split; [lia|]. intros i x E. split; [intros; eapply Lo; eauto|].
    intros L. destruct (le_lt_dec hi i) as [G|G]; [|exact G]. rewrite (Hi i x G E) in L. discriminate.
  - unfold p. cbn [bsearch]. destruct (Nat.ltb_spec lo hi) as [L|L].
    + set (mid := (lo + (hi - lo) / 2)%nat).
      assert (M : (lo <= mid < hi)%nat).
      { unfold mid. pose proof (Nat.div_lt (hi - lo) 2). lia. }
      destruct (nth_error l mid) as [x|] eqn:E; [|apply nth_error_None in E; lia].
      destruct (o_ltb o x s) eqn:Ex.
      * apply IH; try lia; [|exact Hi]. intros i y Hi' Ey. destruct (Nat.eq_dec i mid) as [->|N]; [congruence|].
        eapply (t_trans o T); [|exact Ex]. eapply I; [|exact Ey|exact E]. lia.
      * apply IH; try lia; [exact Lo|]. intros i y Hi' Ey. destruct (Nat.eq_dec i mid) as [->|N]; [congruence|].
        destruct (o_ltb o y s) eqn:Es; [|reflexivity]. exfalso.
        assert (o_ltb o x s = true) by (eapply (t_trans o T); [|exact Es]; eapply I; [|exact E|exact Ey]; lia). congruence.
    + assert (lo = hi) by lia. subst. split; [lia|]. intros i x E. split; [intros; eapply Lo; eauto|].
      intros L'. destruct (le_lt_dec hi i) as [G|G]; [|exact G]. rewrite (Hi i x G E) in L'. discriminate.
Qed.
Lemma searchsorted_spec l s : increasing o l ->
  (searchsorted o l s <= length l)%nat /\
  forall i x, nth_error l i = Some x -> ((i < searchsorted o l s)%nat <-> o_ltb o x s = true).
Proof.
  intros I. unfold searchsorted. apply bsearch_spec; auto; try lia.
  intros i x L E. assert (i < length l)%nat by (apply nth_error_Some; congruence). lia.
Qed.

(** how the index of a value compares with twice a code *)
Lemma index_sorted base l s j x : increasing o l -> nth_error l j = Some x ->
  let i := category_index o true base l s in
  ((2 * (Z.of_nat j + base) <? i) = o_ltb o x s) /\ ((2 * (Z.of_nat j + base) =? i) = o_eqb o x s).
Proof.
  intros I E i. destruct (searchsorted_spec l s I) as [Hp P]. unfold i, category_index.
  set (p := searchsorted o l s) in *. pose proof (P j x E) as Pj. assert (Pj' : o_ltb o x s = true -> (j < p)%nat) by apply Pj.
  assert (Pj2 : (j < p)%nat -> o_ltb o x s = true) by apply Pj. clear Pj.
  destruct (nth_error l p) as [y|] eqn:Ey.
  - pose proof (proj1 (P p y Ey)) as Py. assert (Ny : o_ltb o y s = false) by (destruct (o_ltb o y s) eqn:Q; [|reflexivity]; exfalso; apply (proj2 (P p y Ey)) in Q; lia).
    destruct (o_eqb o s y) eqn:Es.
    + apply (t_eq o T) in Es. subst y. destruct (Nat.eq_dec j p) as [->|N].
      * assert (x = s) by congruence. subst. split; [rewrite Ny; apply Z.ltb_irrefl|]. rewrite eqb_refl. apply Z.eqb_refl.
      * assert (o_eqb o x s = false). { apply eqb_false. intros ->. apply N. apply (proj1 (NoDup_nth_error l) (increasing_nodup l I)); [apply nth_error_Some; congruence|congruence]. }
        rewrite H. destruct (o_ltb o x s) eqn:Q.
        -- split; [apply Z.ltb_lt; specialize (Pj' eq_refl); lia|apply Z.eqb_neq; lia].
        -- split; [apply Z.ltb_ge|apply Z.eqb_neq; lia]. destruct (le_lt_dec p j) as [G|G]; [lia|]. apply Pj2 in G. congruence.
    + destruct (o_ltb o x s) eqn:Q.
      * split; [apply Z.ltb_lt; specialize (Pj' eq_refl); lia|]. assert (o_eqb o x s = false). { apply eqb_false. intros ->. rewrite (t_irr o T) in Q. discriminate. } rewrite H. apply Z.eqb_neq. lia.
      * assert (G : (p <= j)%nat) by (destruct (le_lt_dec p j) as [G|G]; [exact G|apply Pj2 in G; congruence]).
        split; [apply Z.ltb_ge; lia|]. assert (H : o_eqb o x s = false); [|rewrite H; apply Z.eqb_neq; lia].
        apply eqb_false. intros ->. destruct (Nat.eq_dec j p) as [->|N].
        -- assert (y = s) by congruence. subst. rewrite eqb_refl in Es. discriminate.
        -- assert (o_ltb o y s = true) by (eapply I; [|exact Ey|exact E]; lia). congruence.
  - assert (Hl : (j < length l)%nat) by (apply nth_error_Some; congruence). apply nth_error_None in Ey. assert (p = length l) by lia.
    assert (Q : o_ltb o x s = true) by (apply Pj2; lia). rewrite Q. split; [apply Z.ltb_lt; lia|].
    assert (H' : o_eqb o x s = false). { apply eqb_false. intros ->. rewrite (t_irr o T) in Q. discriminate. } rewrite H'. apply Z.eqb_neq. lia.
Qed.
Lemma index_unsorted base l s j x : NoDup l -> nth_error l j = Some x ->
  (2 * (Z.of_nat j + base) =? category_index o false base l s) = o_eqb o x s.
Proof.
  intros N E. unfold category_index. assert (Hj : (j < length l)%nat) by (apply nth_error_Some; congruence).
  destruct (index_of (o_eqb o) s l) as [k|] eqn:F.
  - apply (index_of_some (o_eqb o) (t_eq o T)) in F. destruct (o_eqb o x s) eqn:Q.
    + apply (t_eq o T) in Q. subst. assert (j = k) by (apply (proj1 (NoDup_nth_error l) N); [exact Hj|]; congruence). subst. apply Z.eqb_refl.
    + apply eqb_false in Q. apply Z.eqb_neq. intros G. assert (j = k) by lia. subst. congruence.
  - apply (index_of_none (o_eqb o) (t_eq o T)) in F. assert (Q : o_eqb o x s = false). { apply eqb_false. intros ->. apply F. eapply nth_error_In. exact E. }
    rewrite Q. apply Z.eqb_neq. lia.
Qed.
Lemma index_low sorted base l s : 2 * base - 2 < category_index o sorted base l s.
Proof.
  unfold category_index. destruct sorted.
  - destruct (nth_error l _); [destruct (o_eqb o s a)|]; lia.
  - destruct (index_of _ _ _); lia.
Qed.
Lemma index_high base l s : NoDup l -> category_index o false base l s <= 2 * (Z.of_nat (length l) + base).
Proof.
  intros N. unfold category_index. destruct (index_of _ _ _) as [j|] eqn:F; [|lia].
  apply (index_of_some (o_eqb o) (t_eq o T)) in F. assert (j < length l)%nat by (apply nth_error_Some; congruence). lia.
Qed.

(** the list is fit for the flag *)
Definition list_ok (sorted : bool) (l : list A) : Prop := if sorted then increasing o l else NoDup l.
Lemma list_ok_nodup b l : list_ok b l -> NoDup l.
Proof. destruct b; cbn; [apply increasing_nodup|auto]. Qed.

Lemma cval_some base (l : list A) k x : cval base l k = Some x <-> base <= k /\ nth_error l (Z.to_nat (k - base)) = Some x.
Proof. unfold cval. destruct (Z.ltb_spec k base); split; intros H'; try discriminate; try tauto; try lia. Qed.

(** c == s *)
Lemma eq_spec sorted base l s k : list_ok sorted l -> in_range base l k ->
  (2 * k =? category_index o sorted base l s) = match cval base l k with Some x => o_eqb o x s | None => false end.
Proof.
  intros L R. unfold in_range in R. destruct (cval base l k) as [x|] eqn:E.
  - apply cval_some in E. destruct E as [Hb E]. replace k with (Z.of_nat (Z.to_nat (k - base)) + base) at 1 by lia.
    destruct sorted; cbn in L; [apply (index_sorted base l s _ x L E)|apply index_unsorted; assumption].
  - unfold cval in E. destruct (Z.ltb_spec k base) as [H|H].
    + apply Z.eqb_neq. pose proof (index_low sorted base l s). lia.
    + exfalso. apply nth_error_None in E. lia.
Qed.
(** order comparisons on a sorted list *)
Lemma cmp_spec base l s op k x : increasing o l -> cval base l k = Some x ->
  zop op (2 * k) (category_index o true base l s) = cmp_vals o op x s.
Proof.
  intros I E. apply cval_some in E. destruct E as [Hb E]. replace k with (Z.of_nat (Z.to_nat (k - base)) + base) at 1 by lia.
  destruct (index_sorted base l s _ x I E) as [H1 H2]. set (i := category_index o true base l s) in *. set (q := 2 * _) in *.
  assert (H3 : (q <? i) || (q =? i) || (i <? q) = true) by (destruct (Z.ltb_spec q i), (Z.eqb_spec q i), (Z.ltb_spec i q); try reflexivity; lia).
  assert (H4 : (i <? q) = o_ltb o s x).
  { destruct (t_tri o T x s) as [->|[Q|Q]].
    - rewrite eqb_refl in H2. rewrite (t_irr o T). apply Z.ltb_ge. apply Z.eqb_eq in H2. lia.
    - rewrite Q in H1. rewrite (ltb_asym _ _ Q). apply Z.ltb_lt in H1. apply Z.ltb_ge. lia.
    - rewrite (ltb_asym _ _ Q) in H1. assert (o_eqb o x s = false). { apply eqb_false. intros ->. rewrite (t_irr o T) in Q. discriminate. }
      rewrite H in H2. rewrite H1, H2 in H3. rewrite Q. exact H3. }
  destruct op; cbn [zop cmp_vals].
  - exact H2.
  - rewrite H2. reflexivity.
  - exact H1.
  - rewrite <- H1, <- H2. destruct (Z.leb_spec q i), (Z.ltb_spec q i), (Z.eqb_spec q i); try reflexivity; lia.
  - exact H4.
  - rewrite <- H4, <- H2. destruct (Z.leb_spec i q), (Z.ltb_spec i q), (Z.eqb_spec q i); try reflexivity; lia.
Qed.

Lemma match_spec sorted base l s : list_ok sorted l ->
  match match_index o sorted base l s with
  | Some r => cval base l r = Some s /\ in_range base l r
  | None => ~ In s l
  end.
Proof.
  intros L. unfold match_index. set (i := category_index o sorted base l s). 
  assert (EV : forall j, nth_error l j = Some s -> i = 2 * (Z.of_nat j + base)).
  { intros j E. symmetry. apply Z.eqb_eq. unfold i. destruct sorted; cbn in L.
    - rewrite (proj2 (index_sorted base l s j s L E)). apply eqb_refl.
    - rewrite (index_unsorted base l s j s L E). apply eqb_refl. }
  destruct (Z.even i && (i <? 2 * (Z.of_nat (length l) + base))) eqn:C.
  - apply andb_true_iff in C. destruct C as [Ev Lt]. apply Z.ltb_lt in Lt. apply Z.even_spec in Ev. destruct Ev as [q Eq].
    assert (Q : i / 2 = q) by (rewrite Eq, Z.mul_comm; apply Z.div_mul; lia). rewrite Q.
    pose proof (index_low sorted base l s) as Lo. fold i in Lo.
    assert (R : in_range base l q) by (unfold in_range; lia). split; [|exact R].
    pose proof (eq_spec sorted base l s q L R) as S. fold i in S. rewrite Eq, Z.eqb_refl in S.
    destruct (cval base l q) as [x|]; [|discriminate]. symmetry in S. apply (t_eq o T) in S. congruence.
  - intros I. apply In_nth_error in I. destruct I as [j E]. pose proof (EV j E) as H. rewrite H in C.
    rewrite Z.even_mul in C. cbn [Z.even orb andb] in C. apply Z.ltb_ge in C. assert (j < length l)%nat by (apply nth_error_Some; congruence). lia.
Qed.
End Facts.
