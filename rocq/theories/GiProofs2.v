(** Proofs for GiModel.v: first and last rows, one group. *)
From Coq Require Import List Arith ZArith Bool Lia Sorted Permutation.
From Verif Require Import FlattenModel GroupModel GroupFacts GroupingModel GroupingSpec GroupingProofs5 GiSpec GiModel GiProofs.
Import ListNotations.

Lemma slice_nth {X} (a : list X) lo len p x : nth_error (slice a lo len) p = Some x -> nth_error a (lo + p) = Some x.
Proof.
  unfold slice. intros H. assert (E : nth_error (skipn lo a) p = Some x).
  { revert p H. generalize (skipn lo a) as l. induction len as [|len IH]; intros l p H; [destruct p; discriminate|]. destruct l as [|y l]; [destruct p; discriminate|].
    destruct p as [|p]; cbn in *; [exact H|now apply IH]. }
  clear H. revert lo E. induction a as [|y a IH]; intros lo E; [rewrite skipn_nil in E; destruct p; discriminate|].
  destruct lo as [|lo]; [exact E|]. cbn in *. now apply IH.
Qed.
Lemma mbget_at a i r : nth_error a i = Some r -> mbget inv32 (map Z.of_nat a) (Z.of_nat i) = Z.of_nat r.
Proof.
  intros H. unfold mbget. assert (i < length a) by (apply nth_error_Some; congruence). rewrite map_length.
  destruct (Z.leb_spec 0 (Z.of_nat i)); [|lia]. destruct (Z.ltb_spec (Z.of_nat i) (Z.of_nat (length a))); [|lia]. cbn [andb].
  rewrite Nat2Z.id. apply nth_error_nth. now apply map_nth_error.
Qed.

Section FirstLast.
Context {K : Type} {keys : list (option K)} {us : list K} {ikey : list nat}.
Hypothesis G : grouping_of keys us ikey.
Variable s : gstate.
Hypothesis P : packed ikey (length us) s = pack_of ikey (length us).

Lemma used_rows j k : nth_error us j = Some k -> used keys k -> exists r l, group_rows ikey (S j) = r :: l.
Proof.
  intros E [i H]. assert (I : In i (group_rows ikey (S j))) by (apply group_rows_in; now apply (grouping_key G i k j E)).
  destruct (group_rows ikey (S j)) as [|r l]; [contradiction|eauto].
Qed.
Lemma skip1_len : length (skipn 1 (ifirstgroup ikey (length us))) = length us /\ length (skipn 1 (ncountgroup ikey (length us))) = length us.
Proof. unfold ifirstgroup, ncountgroup. cbn. rewrite !map_length, !seq_length. auto. Qed.
Lemma ne_nth0 (l : list nat) i : i < length l -> nth_error l i = Some (nth i l 0).
Proof. intros H. now apply nth_error_nth'. Qed.

Lemma first_fancy_at j k : nth_error us j = Some k -> used keys k ->
  exists r, nth_error (first_fancy us ikey s) j = Some (Z.of_nat r) /\ first_row keys k r.
Proof.
  intros E U. destruct (used_rows j k E U) as [r [l R]]. exists r. assert (L : j < length us) by (apply nth_error_Some; congruence).
  pose proof (rows_ok G j k E) as [So Me]. rewrite R in So, Me. split.
  - unfold first_fancy. rewrite P. cbn [pack_of p_igroup p_ifirst].
    erewrite map_nth_error; [|apply ne_nth0; destruct skip1_len as [-> _]; exact L]. f_equal. rewrite nth_skip1. apply mbget_at.
    rewrite <- (Nat.add_0_r (nth _ _ _)). apply (slice_nth _ _ (nth (S j) (ncountgroup ikey (length us)) 0)). rewrite pack_slice by lia. rewrite R. reflexivity.
  - split; [apply Me; now left|]. intros i H. apply Me in H. inversion So as [|? ? ? F]; subst. destruct H as [->|H]; [lia|]. rewrite Forall_forall in F. specialize (F i H). lia.
Qed.
Lemma last_fancy_at j k : nth_error us j = Some k -> used keys k ->
  exists r, nth_error (last_fancy us ikey s) j = Some (Z.of_nat r) /\ last_row keys k r.
Proof.
  intros E U. destruct (used_rows j k E U) as [r0 [l R]]. assert (L : j < length us) by (apply nth_error_Some; congruence).
  pose proof (rows_ok G j k E) as [So Me].
  destruct (nth_error (group_rows ikey (S j)) (length l)) as [r|] eqn:Er; [|apply nth_error_None in Er; rewrite R in Er; cbn in Er; lia].
  exists r. split.
  - unfold last_fancy. rewrite P. cbn [pack_of p_igroup p_ifirst p_ncount].
    assert (C : nth_error (combine (skipn 1 (ifirstgroup ikey (length us))) (skipn 1 (ncountgroup ikey (length us)))) j
      = Some (nth (S j) (ifirstgroup ikey (length us)) 0, nth (S j) (ncountgroup ikey (length us)) 0)).
    { destruct skip1_len as [L1 L2]. rewrite <- !nth_skip1. 
      revert L1 L2. generalize (skipn 1 (ifirstgroup ikey (length us))) as a, (skipn 1 (ncountgroup ikey (length us))) as b. revert L. generalize (length us) as n, j as i. clear.
      intros n i L a. revert i n L. induction a as [|x a IH]; intros i n L [|y b] L1 L2; cbn in L1, L2; try lia. destruct i as [|i]; cbn; [reflexivity|]. apply (IH i (pred n)); lia. }
    rewrite (map_nth_error _ _ _ C). f_equal. cbn [fst snd].
    assert (N : nth (S j) (ncountgroup ikey (length us)) 0 = S (length l)) by (unfold ncountgroup; rewrite nth_map_seq0 by lia; rewrite R; reflexivity).
    rewrite N. replace (Z.of_nat (nth (S j) (ifirstgroup ikey (length us)) 0%nat) + Z.of_nat (S (length l)) - 1)%Z with (Z.of_nat (nth (S j) (ifirstgroup ikey (length us)) 0 + length l)) by lia.
    apply mbget_at. apply (slice_nth _ _ (nth (S j) (ncountgroup ikey (length us)) 0)). rewrite pack_slice by lia. exact Er.
  - split; [apply Me; eapply nth_error_In; exact Er|]. intros i H. apply Me in H. apply In_nth_error in H. destruct H as [p Hp].
    assert (p < S (length l)) by (replace (S (length l)) with (length (group_rows ikey (S j))) by (rewrite R; reflexivity); apply nth_error_Some; congruence).
    destruct (Nat.eq_dec p (length l)) as [->|Np]; [rewrite Er in Hp; injection Hp as ->; lia|].
    pose proof (group_rows_increasing ikey (S j) p (length l) i r Hp Er ltac:(lia)). lia.
Qed.

Lemma codes_ok : codes_in (length us) ikey.
Proof.
  apply Forall_forall. intros c I. apply In_nth_error in I. destruct I as [i H]. destruct c as [|c]; [lia|]. pose proof (grouping_range G i c H). lia.
Qed.
Lemma igroup_len : length (igroup ikey (length us)) = length keys.
Proof. rewrite (Permutation_length (igroup_perm ikey (length us) codes_ok)), seq_length. apply (g_length _ _ _ G). Qed.

Lemma mark_nat n (rs : list nat) : (forall r, In r rs -> r < n) -> exists m, mark n (map Z.of_nat rs) = Some m /\ length m = n /\
  forall i b, nth_error m i = Some b -> (b = true <-> In i rs).
Proof.
  intros R. unfold mark. assert (F : forallb (fun i => (- Z.of_nat n <=? i)%Z && (i <? Z.of_nat n)%Z) (map Z.of_nat rs) = true).
  { apply forallb_forall. intros z I. apply in_map_iff in I. destruct I as [r [<- I]]. specialize (R r I). apply andb_true_iff. rewrite Z.leb_le, Z.ltb_lt. lia. }
  rewrite F. eexists. split; [reflexivity|]. split; [now rewrite map_length, seq_length|]. intros i b E.
  assert (Li : i < n) by (assert (nth_error (map (fun r => existsb (fun i => ((if (i <? 0)%Z then (i + Z.of_nat n)%Z else i) =? Z.of_nat r)%Z) (map Z.of_nat rs)) (seq 0 n)) i <> None) as Q by congruence; apply nth_error_Some in Q; rewrite map_length, seq_length in Q; exact Q).
  assert (Es : nth_error (seq 0 n) i = Some i) by (rewrite (nth_error_nth' _ 0) by (rewrite seq_length; lia); rewrite seq_nth by lia; reflexivity).
  rewrite (map_nth_error _ _ _ Es) in E. injection E as <-. rewrite existsb_exists. split.
  - intros [z [I H]]. apply in_map_iff in I. destruct I as [r [<- I]]. destruct (Z.ltb_spec (Z.of_nat r) 0); [lia|]. apply Z.eqb_eq in H. apply Nat2Z.inj in H. now subst.
  - intros I. exists (Z.of_nat i). split; [now apply in_map|]. destruct (Z.ltb_spec (Z.of_nat i) 0); [lia|]. apply Z.eqb_refl.
Qed.
Lemma as_nats (zs : list Z) (Q : K -> nat -> Prop) : length zs = length us ->
  (forall j k, nth_error us j = Some k -> exists r, nth_error zs j = Some (Z.of_nat r) /\ Q k r) ->
  exists rs, zs = map Z.of_nat rs /\ length rs = length us /\ forall j k, nth_error us j = Some k -> exists r, nth_error rs j = Some r /\ Q k r.
Proof.
  clear. revert zs. induction us as [|k l IH]; intros [|z zs] L H; cbn in L; try lia.
  - exists []. repeat split. intros [|j] k' E; discriminate.
  - destruct (IH zs) as [rs [E [Lr R]]]; [lia|intros j k' E; exact (H (S j) k' E)|]. destruct (H 0 k eq_refl) as [r [Er Qr]]. cbn in Er. injection Er as ->.
    exists (r :: rs). cbn. rewrite E, Lr. repeat split. intros [|j] k' Ej; cbn in *; [injection Ej as <-; eauto|apply R, Ej].
Qed.
Lemma mark_rows (zs : list Z) (Q : K -> nat -> Prop) : length zs = length us -> (forall k r, Q k r -> has_key keys r k) ->
  (forall j k, nth_error us j = Some k -> exists r, nth_error zs j = Some (Z.of_nat r) /\ Q k r) ->
  (forall k r r', Q k r -> Q k r' -> r = r') ->
  exists m, mark (length (p_igroup (packed ikey (length us) s))) zs = Some m /\ length m = length keys /\
   forall i b, nth_error m i = Some b -> (b = true <-> exists k, has_key keys i k /\ Q k i).
Proof.
  intros L HQ H Un. rewrite P. cbn [pack_of p_igroup]. rewrite igroup_len.
  destruct (as_nats zs Q L H) as [rs [-> [Lr R]]].
  assert (Rr : forall r, In r rs -> exists k, In k us /\ Q k r).
  { intros r I. apply In_nth_error in I. destruct I as [j Ej]. destruct (nth_error us j) as [k|] eqn:Eu.
    - destruct (R j k Eu) as [r' [E' Hq]]. rewrite Ej in E'. injection E' as <-. exists k. split; [eapply nth_error_In; exact Eu|exact Hq].
    - apply nth_error_None in Eu. assert (j < length rs) by (apply nth_error_Some; congruence). lia. }
  destruct (mark_nat (length keys) rs) as [m [Em [Lm Hm]]].
  { intros r I. destruct (Rr r I) as [k [_ Hq]]. apply HQ in Hq. apply nth_error_Some. unfold has_key in Hq. congruence. }
  exists m. split; [exact Em|]. split; [exact Lm|]. intros i b E. rewrite (Hm i b E). split.
  - intros I. destruct (Rr i I) as [k [_ Hq]]. exists k. split; [now apply HQ|exact Hq].
  - intros [k [Hk Hq]]. destruct (g_key _ _ _ G i k Hk) as [j [_ Ej]]. destruct (R j k Ej) as [r [Er Hr]]. rewrite (Un k i r Hq Hr). eapply nth_error_In. exact Er.
Qed.
Lemma first_len : length (first_fancy us ikey s) = length us.
Proof. unfold first_fancy. rewrite P, map_length. apply skip1_len. Qed.
Lemma last_len : length (last_fancy us ikey s) = length us.
Proof. unfold last_fancy. rewrite P, map_length. cbn [pack_of p_ifirst p_ncount]. rewrite combine_length. destruct skip1_len as [-> ->]. lia. Qed.
Lemma first_bool_ok : (forall k, In k us -> used keys k) ->
  exists m, first_bool us ikey s = Some m /\ length m = length keys /\ forall i b, nth_error m i = Some b -> (b = true <-> exists k, has_key keys i k /\ first_row keys k i).
Proof.
  intros U. apply mark_rows; [apply first_len|intros k r [H _]; exact H| |].
  - intros j k E. apply first_fancy_at; [exact E|]. apply U. eapply nth_error_In; exact E.
  - intros k r r' [A B] [C D]. specialize (B r' C). specialize (D r A). lia.
Qed.
Lemma last_bool_ok : (forall k, In k us -> used keys k) ->
  exists m, last_bool us ikey s = Some m /\ length m = length keys /\ forall i b, nth_error m i = Some b -> (b = true <-> exists k, has_key keys i k /\ last_row keys k i).
Proof.
  intros U. apply mark_rows; [apply last_len|intros k r [H _]; exact H| |].
  - intros j k E. apply last_fancy_at; [exact E|]. apply U. eapply nth_error_In; exact E.
  - intros k r r' [A B] [C D]. specialize (B r' C). specialize (D r A). lia.
Qed.
End FirstLast.

(** ** one group *)
Section One.
Context {K : Type} (eqb leb : K -> K -> bool).
Hypothesis eqb_ok : forall a b, eqb a b = true <-> a = b.
Hypothesis T : total_order leb.
Lemma kinsert_perm k l : Permutation (kinsert leb k l) (k :: l).
Proof. induction l as [|x l IH]; cbn; [reflexivity|]. destruct (leb k x); [reflexivity|]. rewrite IH. apply perm_swap. Qed.
Lemma ksort_perm l : Permutation (ksort leb l) l.
Proof. induction l as [|x l IH]; cbn; [reflexivity|]. rewrite kinsert_perm. now rewrite IH. Qed.
Lemma kinsert_sorted k l : in_order leb l -> in_order leb (kinsert leb k l).
Proof.
  destruct T as [Tt [Tr _]]. induction 1 as [|x l S IH F]; cbn; [constructor; constructor|]. destruct (leb k x) eqn:E.
  - constructor; [constructor; assumption|]. constructor; [exact E|]. rewrite Forall_forall in *. intros y I. apply (Tr k x y E). now apply F.
  - constructor; [exact IH|]. apply (Permutation_Forall (Permutation_sym (kinsert_perm k l))). constructor; [|exact F]. destruct (Tt x k) as [H|H]; [exact H|congruence].
Qed.
Lemma ksort_sorted l : in_order leb (ksort leb l).
Proof. induction l as [|x l IH]; cbn; [constructor|now apply kinsert_sorted]. Qed.
Lemma order_unique l : forall l', in_order leb l -> in_order leb l' -> Permutation l l' -> l = l'.
Proof.
  destruct T as [_ [_ Ta]]. induction l as [|x l IH]; intros l' S1 S2 Q; [now apply Permutation_nil in Q|].
  destruct l' as [|y l']; [apply Permutation_sym, Permutation_nil in Q; discriminate|].
  inversion S1 as [|? ? S1' F1]; subst. inversion S2 as [|? ? S2' F2]; subst. rewrite Forall_forall in F1, F2.
  assert (x = y).
  { assert (I1 : In x (y :: l')) by (apply (Permutation_in _ Q); now left). assert (I2 : In y (x :: l)) by (apply (Permutation_in _ (Permutation_sym Q)); now left).
    destruct I1 as [->|I1]; [reflexivity|]. destruct I2 as [->|I2]; [reflexivity|]. apply Ta; auto. }
  subst y. f_equal. apply IH; auto. now apply Permutation_cons_inv in Q.
Qed.

Context {keys : list (option K)} {us : list K} {ikey : list nat}.
Hypothesis G : grouping_of keys us ikey.
Lemma gbkeys_nodup sd : NoDup (gbkeys leb sd us).
Proof. unfold gbkeys. destruct sd; [|apply (g_distinct _ _ _ G)]. apply (Permutation_NoDup (Permutation_sym (ksort_perm us))), (g_distinct _ _ _ G). Qed.
Lemma gbkeys_perm sd : Permutation (gbkeys leb sd us) us.
Proof. unfold gbkeys. destruct sd; [apply ksort_perm|reflexivity]. Qed.
Lemma rows_filter j : filter (fun i => (Z.of_nat (nth i ikey 0%nat) =? Z.of_nat j + 1)%Z) (seq 0 (length ikey)) = group_rows ikey (S j).
Proof. unfold group_rows. apply filter_ext. intros i. apply eq_true_iff_eq. rewrite Z.eqb_eq, Nat.eqb_eq. lia. Qed.
Lemma get_group_at sd multi j c : nth_error (gbkeys leb sd us) j = Some c -> get_group eqb leb sd multi us ikey c = Some (group_rows ikey (S j)).
Proof.
  intros E. unfold get_group. rewrite (index_of_nth eqb eqb_ok c _ j (gbkeys_nodup sd) E). f_equal. apply rows_filter.
Qed.
Lemma get_group_missing sd multi c : ~ In c us -> get_group eqb leb sd multi us ikey c = if multi then Some [] else None.
Proof.
  intros N. unfold get_group. assert (E : index_of eqb c (gbkeys leb sd us) = None).
  { apply (index_of_none eqb eqb_ok). intros I. apply N. apply (Permutation_in _ (gbkeys_perm sd) I). }
  rewrite E. destruct multi; [|reflexivity]. f_equal. generalize (seq 0 (length ikey)) as l. induction l as [|i l IH]; cbn; [reflexivity|]. destruct (Z.eqb_spec (Z.of_nat (nth i ikey 0%nat)) (-1)); [lia|exact IH].
Qed.
Lemma get_group_order sd multi : (forall k, In k us -> used keys k) ->
  ((forall c, In c us -> exists rows, get_group eqb leb sd multi us ikey c = Some rows /\ rows_having keys c rows) <-> gbkeys leb sd us = us).
Proof.
  intros U. split.
  - intros H. assert (L : length (gbkeys leb sd us) = length us) by apply Permutation_length, gbkeys_perm.
    assert (Q : forall j c, nth_error (gbkeys leb sd us) j = Some c -> nth_error us j = Some c).
    { intros j c E. assert (I : In c us) by (apply (Permutation_in _ (gbkeys_perm sd)); eapply nth_error_In; exact E).
      destruct (H c I) as [rows [Er Hr]]. rewrite (get_group_at sd multi j c E) in Er. injection Er as <-.
      destruct (nth_error us j) as [k|] eqn:Eu; [|apply nth_error_None in Eu; assert (j < length (gbkeys leb sd us)) by (apply nth_error_Some; congruence); lia].
      destruct (rows_ok G j k Eu) as [_ Hk]. destruct (U k (nth_error_In _ _ Eu)) as [i Hi]. apply Hk in Hi as I'. destruct Hr as [_ Hr]. apply Hr in I'. unfold has_key in *. congruence. }
    assert (X : forall a b : list K, length a = length b -> (forall j c, nth_error a j = Some c -> nth_error b j = Some c) -> a = b); [|now apply X].
    clear. induction a as [|x a IH]; intros [|y b] L Q; cbn in L; try lia; [reflexivity|].
    pose proof (Q 0 x eq_refl) as E. cbn in E. injection E as ->. f_equal. apply IH; [lia|]. intros j c H. exact (Q (S j) c H).
  - intros E c I. apply In_nth_error in I. destruct I as [j Ej]. exists (group_rows ikey (S j)). split; [apply get_group_at; now rewrite E|apply (rows_ok G j c Ej)].
Qed.
Lemma sorted_iff : gbkeys leb true us = us <-> in_order leb us.
Proof.
  cbn. split; intros H; [rewrite <- H; apply ksort_sorted|]. apply order_unique; [apply ksort_sorted|exact H|apply ksort_perm].
Qed.
Lemma as_categorical_same sd : gbkeys leb sd us = us -> as_categorical leb sd us ikey = keys.
Proof.
  intros E. unfold as_categorical. rewrite E. assert (L := g_length _ _ _ G).
  assert (Q : forall i, nth_error (map (fun c => match c with 0 => None | S j => nth_error us j end) ikey) i = nth_error keys i).
  { intros i. destruct (nth_error keys i) as [[b|]|] eqn:Ek.
    - destruct (g_key _ _ _ G i b Ek) as [k [E1 E2]]. now rewrite (map_nth_error _ _ _ E1), E2.
    - now rewrite (map_nth_error _ _ _ (g_null _ _ _ G i Ek)).
    - apply nth_error_None in Ek. apply nth_error_None. rewrite map_length. lia. }
  assert (X : forall a b : list (option K), (forall i, nth_error a i = nth_error b i) -> a = b); [|apply X, Q]. clear.
  induction a as [|x a IH]; intros [|y b] Q; [reflexivity|specialize (Q 0); discriminate|specialize (Q 0); discriminate|].
  pose proof (Q 0) as E. cbn in E. injection E as ->. f_equal. apply IH. intros i. exact (Q (S i)).
Qed.
End One.
