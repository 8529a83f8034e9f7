(** Facts about the grouping contracts. *)
From Coq Require Import List Arith Bool Lia Permutation.
From Verif Require Import GroupModel.
Import ListNotations.

Section Group.
Context {B : Type}.
Variable eqb : B -> B -> bool.
Hypothesis eqb_eq : forall a b, eqb a b = true <-> a = b.

Lemma index_of_some b us k : index_of eqb b us = Some k -> nth_error us k = Some b.
Proof.
  revert k. induction us as [|u r IH]; cbn; intros k; [discriminate|].
  destruct (eqb b u) eqn:E.
  - intros [= <-]. apply eqb_eq in E. now subst.
  - destruct (index_of eqb b r) as [j|]; cbn; [|discriminate]. intros [= <-]. cbn. auto.
Qed.
Lemma index_of_none b us : index_of eqb b us = None <-> ~ In b us.
Proof.
  induction us as [|u r IH]; cbn; [split; [tauto|reflexivity]|].
  destruct (eqb b u) eqn:E.
  - split; [discriminate|]. intros H. apply eqb_eq in E. subst. tauto.
  - assert (Nu : b <> u) by (intros Q; apply eqb_eq in Q; congruence).
    destruct (index_of eqb b r) as [j|]; cbn; split; try discriminate; try reflexivity; intros H1.
    + exfalso. assert (Q : ~ In b r) by tauto. apply IH in Q. discriminate.
    + intros [Q|Q]; [congruence|]. destruct IH as [IH1 _]. now apply IH1.
Qed.
Lemma index_of_nth b us k : NoDup us -> nth_error us k = Some b -> index_of eqb b us = Some k.
Proof.
  intros N H. destruct (index_of eqb b us) as [j|] eqn:E.
  - apply index_of_some in E. f_equal. apply (NoDup_nth_error us); [exact N| |congruence].
    apply nth_error_Some. congruence.
  - apply index_of_none in E. elim E. eapply nth_error_In; eauto.
Qed.

Lemma nodup_app_one {X} (l : list X) x : NoDup l -> ~ In x l -> NoDup (l ++ [x]).
Proof.
  intros N H. apply (NoDup_Add (a := x) (l := l) (l' := l ++ [x])); [|split; assumption].
  replace l with (l ++ []) at 1 by apply app_nil_r. apply Add_app.
Qed.
Lemma fold_add_unique keys : forall us, NoDup us -> NoDup (fold_left (add_unique eqb) keys us) /\
  (forall b, In b (fold_left (add_unique eqb) keys us) <-> In b us \/ In (Some b) keys).
Proof.
  induction keys as [|o r IH]; cbn; intros us N; [split; [exact N|tauto]|].
  destruct o as [b|]; cbn.
  - destruct (index_of eqb b us) as [k|] eqn:E.
    + destruct (IH us N) as [H1 H2]. split; [exact H1|]. intros c. rewrite H2. split; [tauto|].
      intros [H|[[= ->]|H]]; try tauto. left. eapply nth_error_In. eapply index_of_some; eauto.
    + apply index_of_none in E. destruct (IH (us ++ [b]) (nodup_app_one us b N E)) as [H1 H2].
      split; [exact H1|]. intros c. rewrite H2, in_app_iff. cbn. split.
      * intros [[H|[->|[]]]|H]; tauto.
      * intros [H|[[= ->]|H]]; tauto.
  - destruct (IH us N) as [H1 H2]. split; [exact H1|]. intros c. rewrite H2. split; [tauto|].
    intros [H|[H|H]]; try tauto; discriminate.
Qed.
Lemma uniques_spec keys : NoDup (uniques eqb keys) /\ (forall b, In b (uniques eqb keys) <-> In (Some b) keys).
Proof.
  destruct (fold_add_unique keys [] (NoDup_nil _)) as [H1 H2]. split; [exact H1|].
  intros b. unfold uniques. rewrite H2. cbn. tauto.
Qed.
(** the executable grouping satisfies the contract *)
Lemma ikeys_grouping keys : grouping_of keys (uniques eqb keys) (ikeys eqb keys).
Proof.
  destruct (uniques_spec keys) as [N I]. constructor.
  - exact N.
  - unfold ikeys. apply map_length.
  - intros i H. unfold ikeys. now rewrite nth_error_map, H.
  - intros i b H. unfold ikeys. rewrite nth_error_map, H. cbn.
    destruct (index_of eqb b (uniques eqb keys)) as [k|] eqn:E.
    + exists k. split; [reflexivity|]. eapply index_of_some; eauto.
    + apply index_of_none in E. elim E. apply I. eapply nth_error_In; eauto.
Qed.
End Group.

Section Contract.
Context {B : Type} {keys : list (option B)} {us : list B} {ikey : list nat}.
Hypothesis G : grouping_of keys us ikey.
Lemma grouping_key i b k : nth_error us k = Some b -> (nth_error ikey i = Some (S k) <-> nth_error keys i = Some (Some b)).
Proof.
  intros U. split; intros H.
  - destruct (nth_error keys i) as [[b'|]|] eqn:E.
    + destruct (g_key _ _ _ G i b' E) as (k' & H1 & H2). rewrite H in H1. injection H1 as <-. congruence.
    + pose proof (g_null _ _ _ G i E). congruence.
    + apply nth_error_None in E. assert (i < length ikey) by (apply nth_error_Some; congruence).
      rewrite (g_length _ _ _ G) in H0. lia.
  - destruct (g_key _ _ _ G i b H) as (k' & H1 & H2). rewrite H1. do 2 f_equal.
    apply (NoDup_nth_error us); [apply (g_distinct _ _ _ G)| |congruence]. apply nth_error_Some. congruence.
Qed.
Lemma grouping_null i : nth_error ikey i = Some 0 <-> nth_error keys i = Some None.
Proof.
  split; intros H; [|exact (g_null _ _ _ G i H)]. destruct (nth_error keys i) as [[b|]|] eqn:E.
  - destruct (g_key _ _ _ G i b E) as (k & H1 & _). congruence.
  - reflexivity.
  - apply nth_error_None in E. assert (i < length ikey) by (apply nth_error_Some; congruence).
    rewrite (g_length _ _ _ G) in H0. lia.
Qed.
Lemma grouping_range i k : nth_error ikey i = Some (S k) -> k < length us.
Proof.
  intros H. destruct (nth_error keys i) as [[b|]|] eqn:E.
  - destruct (g_key _ _ _ G i b E) as (k' & H1 & H2). apply nth_error_Some. congruence.
  - pose proof (g_null _ _ _ G i E). congruence.
  - apply nth_error_None in E. assert (i < length ikey) by (apply nth_error_Some; congruence).
    rewrite (g_length _ _ _ G) in H0. lia.
Qed.
End Contract.

(** ** packing *)
Lemma group_rows_in ikey g i : In i (group_rows ikey g) <-> nth_error ikey i = Some g.
Proof.
  unfold group_rows. rewrite filter_In, in_seq, Nat.eqb_eq. split.
  - intros [H1 H2]. rewrite (nth_error_nth' ikey 0) by lia. now f_equal.
  - intros H. assert (i < length ikey) by (apply nth_error_Some; congruence). split; [lia|].
    now apply nth_error_nth.
Qed.
Lemma group_rows_nodup ikey g : NoDup (group_rows ikey g).
Proof. apply NoDup_filter, seq_NoDup. Qed.

(** increasing lists of row numbers *)
Lemma seq_increasing n : forall s i j a b, nth_error (seq s n) i = Some a -> nth_error (seq s n) j = Some b -> i < j -> a < b.
Proof.
  intros s i j a b Ha Hb Lt.
  assert (i < n) by (rewrite <- (seq_length n s); apply nth_error_Some; congruence).
  assert (j < n) by (rewrite <- (seq_length n s); apply nth_error_Some; congruence).
  rewrite (nth_error_nth' _ 0) in Ha by (rewrite seq_length; lia). rewrite (nth_error_nth' _ 0) in Hb by (rewrite seq_length; lia).
  rewrite seq_nth in Ha by lia. rewrite seq_nth in Hb by lia.
  injection Ha as <-. injection Hb as <-. lia.
Qed.
Lemma filter_increasing (f : nat -> bool) l :
  (forall i j a b, nth_error l i = Some a -> nth_error l j = Some b -> i < j -> a < b) ->
  forall i j a b, nth_error (filter f l) i = Some a -> nth_error (filter f l) j = Some b -> i < j -> a < b.
Proof.
  induction l as [|x l IH]; cbn; intros H i j a b Ha Hb Lt; [destruct i; discriminate|].
  assert (Hl : forall i j a b, nth_error l i = Some a -> nth_error l j = Some b -> i < j -> a < b).
  { intros i' j' a' b' H1 H2 H3. apply (H (S i') (S j') a' b'); auto. lia. }
  destruct (f x); [|eapply IH; eauto].
  destruct i as [|i], j as [|j]; cbn in Ha, Hb; try lia.
  - injection Ha as <-. apply nth_error_In in Hb. apply filter_In in Hb. destruct Hb as [Hb _].
    apply In_nth_error in Hb. destruct Hb as [q Hq]. apply (H 0 (S q) x b); auto. lia.
  - apply (IH Hl i j a b); auto. lia.
Qed.
Lemma group_rows_increasing ikey g i j a b :
  nth_error (group_rows ikey g) i = Some a -> nth_error (group_rows ikey g) j = Some b -> i < j -> a < b.
Proof. apply filter_increasing. intros. eapply seq_increasing; eauto. Qed.
Lemma group_rows_order ikey g i j a b :
  nth_error (group_rows ikey g) i = Some a -> nth_error (group_rows ikey g) j = Some b -> a < b -> i < j.
Proof.
  intros Ha Hb L. destruct (Nat.lt_trichotomy i j) as [H|[H|H]]; [exact H| |].
  - subst. rewrite Ha in Hb. injection Hb as <-. lia.
  - pose proof (group_rows_increasing _ _ _ _ _ _ Hb Ha H). lia.
Qed.

Lemma seq_split n g : g < n -> seq 0 n = seq 0 g ++ g :: seq (S g) (n - S g).
Proof.
  intros H. replace n with (g + S (n - S g)) at 1 by lia. rewrite seq_app. cbn. reflexivity.
Qed.
Lemma nth_map_seq0 {A} (f : nat -> A) n i d : i < n -> nth i (map f (seq 0 n)) d = f i.
Proof.
  intros H. rewrite (nth_indep _ d (f 0)) by (rewrite map_length, seq_length; exact H).
  rewrite (map_nth f), seq_nth by exact H. reflexivity.
Qed.
Lemma pack_slice ikey n g : g <= n ->
  slice (igroup ikey n) (nth g (ifirstgroup ikey n) 0) (nth g (ncountgroup ikey n) 0) = group_rows ikey g.
Proof.
  intros H. unfold slice, igroup, ifirstgroup, ncountgroup.
  rewrite !nth_map_seq0 by lia.
  rewrite (seq_split (S n) g) by lia. rewrite map_app, concat_app. cbn [map concat].
  rewrite skipn_app, skipn_all2 by lia. rewrite Nat.sub_diag. cbn. rewrite firstn_app, Nat.sub_diag. cbn.
  now rewrite app_nil_r, firstn_all.
Qed.
