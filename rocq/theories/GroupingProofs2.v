(** Proofs about stacking categoricals. *)
From Coq Require Import List Arith ZArith Bool Lia.
From Verif Require Import GroupModel GroupFacts FlattenModel FlattenProofs GroupingModel GroupingSpec GroupingProofs.
Import ListNotations.

Section Stack.
Context {B : Type}.
Implicit Types (us newu : list B) (iks : list (list nat)) (uss : list (list B)).

(** number [c] (base 1) designates category [b] *)
Definition numbered newu (uk : list nat) (l : list B) : Prop :=
  Forall2 (fun c b => shown newu c = Some b) uk l.

Lemma numbered_of (l newu : list B) uk : grouping_of (map Some l) newu uk -> numbered newu uk l.
Proof.
  intros [N L _ K]. rewrite map_length in L. revert L K. revert uk. induction l as [|b l IH]; intros [|c uk] L K; try discriminate; [constructor|].
  constructor.
  - destruct (K 0 b eq_refl) as [k [E H]]. cbn in E. injection E as ->. exact H.
  - apply IH; [cbn in L; lia|]. intros i b' H. apply (K (S i) b' H).
Qed.

Lemma Forall2_nth {X Y} (R : X -> Y -> Prop) l l' : Forall2 R l l' -> forall i y, nth_error l' i = Some y -> exists x, nth_error l i = Some x /\ R x y.
Proof.
  induction 1 as [|x y l l' H F IH]; intros [|i] z E; cbn in E; try discriminate.
  - injection E as <-. exists x. auto.
  - apply IH. exact E.
Qed.

(** base 1 *)
Lemma fix_codes_1 junk newu uslice us old : numbered newu uslice us -> codes_in (length us) old ->
  map (shown newu) (fix_codes junk 1 uslice old) = map (shown us) old.
Proof.
  intros N C. unfold fix_codes. cbn [Nat.eqb]. rewrite map_map.
  induction old as [|o old IH]; [reflexivity|]. inversion C; subst. cbn [map combine fst snd]. f_equal; [|auto].
  destruct o as [|k]; [reflexivity|]. cbn [Nat.eqb].
  replace (Z.of_nat (S k) - 1)%Z with (Z.of_nat k) by lia.
  destruct (some_lt us k) as [b Eb]; [lia|].
  destruct (Forall2_nth _ _ _ N _ _ Eb) as [c [Ec Hc]]. rewrite (mbget_error _ _ _ _ Ec). cbn [shown]. congruence.
Qed.
(** base 0: code [c] designates category number [c] *)
Lemma fix_codes_0 junk newu uslice us old : numbered newu uslice us -> Forall (fun c => c < length us) old ->
  map (nth_error newu) (fix_codes junk 0 (map (fun k => k - 1) uslice) old) = map (nth_error us) old.
Proof.
  intros N C. unfold fix_codes. cbn [Nat.eqb]. rewrite map_map.
  apply map_ext_in. intros o I. eapply Forall_forall in C; [|exact I].
  destruct (some_lt us o C) as [b Eb]. destruct (Forall2_nth _ _ _ N _ _ Eb) as [c [Ec Hc]].
  rewrite (mbget_error junk _ _ (c - 1)); [|rewrite (map_nth_error _ _ _ Ec); reflexivity].
  destruct c as [|c]; cbn [shown] in Hc; [discriminate|]. replace (S c - 1) with c by lia. congruence.
Qed.

Lemma numbered_app newu uk l l' : numbered newu uk (l ++ l') ->
  numbered newu (firstn (length l) uk) l /\ numbered newu (skipn (length l) uk) l'.
Proof.
  revert uk. induction l as [|b l IH]; intros uk H; cbn [length firstn skipn app] in *.
  - split; [constructor|exact H].
  - inversion H; subst. destruct (IH _ H4) as [A A']. split; [constructor; auto|exact A'].
Qed.

Lemma fix_all_1 junk newu : forall uss iks uk, numbered newu uk (concat uss) ->
  Forall2 (fun ik us => codes_in (length us) ik) iks uss ->
  map (shown newu) (fix_all junk 1 uk (map (@length B) uss) iks) =
  concat (map (fun p => map (shown (snd p)) (fst p)) (combine iks uss)).
Proof.
  induction uss as [|us uss IH]; intros iks uk N F; inversion F; subst; cbn [map combine concat fix_all]; [reflexivity|].
  cbn [concat] in N. apply numbered_app in N. destruct N as [N1 N2].
  rewrite map_app. rewrite (fix_codes_1 junk newu _ us) by auto. cbn [fst snd]. f_equal. apply IH; auto.
Qed.
Lemma fix_all_0 junk newu : forall uss iks uk, numbered newu uk (concat uss) ->
  Forall2 (fun ik us => Forall (fun c => c < length us) ik) iks uss ->
  map (nth_error newu) (fix_all junk 0 (map (fun k => k - 1) uk) (map (@length B) uss) iks) =
  concat (map (fun p => map (nth_error (snd p)) (fst p)) (combine iks uss)).
Proof.
  induction uss as [|us uss IH]; intros iks uk N F; inversion F; subst; cbn [map combine concat fix_all]; [reflexivity|].
  cbn [concat] in N. apply numbered_app in N. destruct N as [N1 N2].
  rewrite map_app, firstn_map, skipn_map. rewrite (fix_codes_0 junk newu _ us) by auto. cbn [fst snd]. f_equal. apply IH; auto.
Qed.

Variables (junk : nat) (crc : list B -> Z) (grp : list B -> list B * list nat).
Hypothesis grp_ok : forall l, grouping_of (map Some l) (fst (grp l)) (snd (grp l)).

Lemma hstack_groupings_1 iks uss : Forall2 (fun ik us => codes_in (length us) ik) iks uss ->
  let out := hstack_groupings junk 1 grp iks uss in
  map (shown (snd out)) (fst out) = concat (map (fun p => map (shown (snd p)) (fst p)) (combine iks uss)) /\
  NoDup (snd out).
Proof using grp_ok.
  intros F. unfold hstack_groupings. pose proof (grp_ok (concat uss)) as G. destruct (grp (concat uss)) as [newu uk]. cbn [fst snd] in *.
  cbn [Nat.eqb]. split; [|apply (g_distinct _ _ _ G)]. apply fix_all_1; [apply numbered_of; exact G|exact F].
Qed.
Lemma hstack_groupings_0 iks uss : Forall2 (fun ik us => Forall (fun c => c < length us) ik) iks uss ->
  let out := hstack_groupings junk 0 grp iks uss in
  map (nth_error (snd out)) (fst out) = concat (map (fun p => map (nth_error (snd p)) (fst p)) (combine iks uss)) /\
  NoDup (snd out).
Proof using grp_ok.
  intros F. unfold hstack_groupings. pose proof (grp_ok (concat uss)) as G. destruct (grp (concat uss)) as [newu uk]. cbn [fst snd] in *.
  cbn [Nat.eqb]. split; [|apply (g_distinct _ _ _ G)]. apply fix_all_0; [apply numbered_of; exact G|exact F].
Qed.

Lemma crc_match_all u r : (forall v w, In v (u :: r) -> In w (u :: r) -> length v = length w -> crc v = crc w -> v = w) ->
  crc_match crc (u :: r) = true -> forall v, In v (u :: r) -> v = u.
Proof using.
  intros S M v I. cbn [crc_match] in M. rewrite forallb_forall in M. destruct I as [->|I]; [reflexivity|].
  specialize (M v I). apply andb_true_iff in M. destruct M as [M1 M2]. apply Nat.eqb_eq in M1. apply Z.eqb_eq in M2.
  apply S; auto; [now right|now left].
Qed.
Lemma concat_map_same {Y} (sh : list B -> nat -> Y) u : forall iks uss, length iks = length uss -> (forall v, In v uss -> v = u) ->
  map (sh u) (concat iks) = concat (map (fun p => map (sh (snd p)) (fst p)) (combine iks uss)).
Proof using.
  induction iks as [|ik iks IH]; intros [|v uss] L H; cbn in L; try discriminate; [reflexivity|].
  cbn [concat combine map fst snd]. rewrite map_app. rewrite (H v) by now left. f_equal. apply IH; [lia|]. intros; apply H; now right.
Qed.

Lemma Forall2_len {X Y} (R : X -> Y -> Prop) l l' : Forall2 R l l' -> length l = length l'.
Proof using. induction 1; cbn; auto. Qed.

Theorem merge_cats_1 iks uss : uss <> [] ->
  (forall v w, In v uss -> In w uss -> length v = length w -> crc v = crc w -> v = w) ->
  (forall us, In us uss -> NoDup us) ->
  Forall2 (fun ik us => codes_in (length us) ik) iks uss ->
  let out := merge_cats junk 1 crc grp iks uss in
  map (shown (snd out)) (fst out) = concat (map (fun p => map (shown (snd p)) (fst p)) (combine iks uss)) /\
  NoDup (snd out).
Proof using grp_ok.
  intros Ne S D F. unfold merge_cats. destruct uss as [|u [|u' r]]; [congruence| |].
  - split; [|apply D; now left]. cbn [fst snd]. apply (concat_map_same (@shown B)); [eapply Forall2_len; eauto|]. intros v [->|[]]; reflexivity.
  - destruct (crc_match crc (u :: u' :: r)) eqn:M.
    + split; [|apply D; now left]. cbn [fst snd]. apply (concat_map_same (@shown B)); [eapply Forall2_len; eauto|].
      apply crc_match_all; auto.
    + apply hstack_groupings_1. exact F.
Qed.
Theorem merge_cats_0 iks uss : uss <> [] ->
  (forall v w, In v uss -> In w uss -> length v = length w -> crc v = crc w -> v = w) ->
  (forall us, In us uss -> NoDup us) ->
  Forall2 (fun ik us => Forall (fun c => c < length us) ik) iks uss ->
  let out := merge_cats junk 0 crc grp iks uss in
  map (nth_error (snd out)) (fst out) = concat (map (fun p => map (nth_error (snd p)) (fst p)) (combine iks uss)) /\
  NoDup (snd out).
Proof using grp_ok.
  intros Ne S D F. unfold merge_cats. destruct uss as [|u [|u' r]]; [congruence| |].
  - split; [|apply D; now left]. cbn [fst snd]. apply (concat_map_same (@nth_error B)); [eapply Forall2_len; eauto|]. intros v [->|[]]; reflexivity.
  - destruct (crc_match crc (u :: u' :: r)) eqn:M.
    + split; [|apply D; now left]. cbn [fst snd]. apply (concat_map_same (@nth_error B)); [eapply Forall2_len; eauto|].
      apply crc_match_all; auto.
    + apply hstack_groupings_0. exact F.
Qed.

(** the new codes fit the dtype chosen from the largest number (line 369-381) *)
Lemma fix_all_bound m uk : forall ulens iks, list_sum ulens <= length uk -> (forall c, In c uk -> c <= m) ->
  Forall2 (fun ik n => codes_in n ik) iks ulens -> Forall (fun c => c <= m) (fix_all junk 1 uk ulens iks).
Proof using.
  intros ulens. revert uk. induction ulens as [|n ulens IH]; intros uk iks L H F; inversion F as [|x n0 iks0 u0 Hx F0]; subst; cbn [fix_all]; [constructor|].
  change (list_sum (n :: ulens)) with (n + list_sum ulens) in L.
  apply Forall_app. split.
  - unfold fix_codes. change (1 =? 1) with true. cbv iota. apply Forall_forall. intros c I. apply in_map_iff in I. destruct I as [[a o] [E I]]. cbn [fst snd] in E.
    destruct (Nat.eqb_spec o 0) as [E0|No]; [lia|]. subst c.
    apply In_nth_error in I. destruct I as [j Ej].
    assert (Eo : nth_error x j = Some o /\ nth_error (map (fun o => mbget junk (firstn n uk) (Z.of_nat o - 1)) x) j = Some a).
    { clear -Ej. revert j Ej. generalize (fun o => mbget junk (firstn n uk) (Z.of_nat o - 1)) as f. intros f.
      induction x as [|z x IHx]; intros [|j] E; cbn in *; try discriminate; [injection E as <- <-; auto|auto]. }
    destruct Eo as [Eo Ea]. rewrite (map_nth_error _ _ _ Eo) in Ea. injection Ea as <-.
    eapply Forall_forall in Hx; [|eapply nth_error_In; eauto].
    replace (Z.of_nat o - 1)%Z with (Z.of_nat (o - 1)) by lia.
    rewrite mbget_nat by (rewrite firstn_length; lia). apply H.
    assert (Q : In (nth (o - 1) (firstn n uk) junk) (firstn n uk ++ skipn n uk)) by (apply in_or_app; left; apply nth_In; rewrite firstn_length; lia). rewrite (firstn_skipn n uk) in Q. exact Q.
  - apply IH; [rewrite skipn_length; lia| |assumption].
    intros c I. apply H. rewrite <- (firstn_skipn n uk). apply in_or_app. now right.
Qed.
Lemma list_max_in l c : In c l -> c <= list_max l.
Proof using.
  intros I. assert (Q := proj1 (list_max_le l (list_max l)) (le_n _)). eapply Forall_forall in Q; eauto.
Qed.
Theorem hstack_codes_fit iks uss :
  Forall2 (fun ik us => codes_in (length us) ik) iks uss ->
  let uk := snd (grp (concat uss)) in
  (Z.of_nat (list_max uk) < 2 ^ 63)%Z ->
  let out := map Z.of_nat (fst (hstack_groupings junk 1 grp iks uss)) in
  map (store_bits (int_dtype_from_len (Z.of_nat (list_max uk)))) out = out.
Proof using grp_ok.
  intros F uk Hm out. subst out. rewrite <- (map_id (map Z.of_nat _)) at 2. apply map_ext_in. intros z I.
  apply in_map_iff in I. destruct I as [c [<- I]].
  assert (Hc : c <= list_max uk).
  { revert I. unfold hstack_groupings. subst uk. pose proof (grp_ok (concat uss)) as G. destruct (grp (concat uss)) as [newu uk]. cbn [fst snd Nat.eqb] in *.
    intros I. assert (Q : Forall (fun c => c <= list_max uk) (fix_all junk 1 uk (map (@length B) uss) iks)).
    { apply fix_all_bound.
      - rewrite (g_length _ _ _ G), map_length. clear. induction uss as [|u r IH]; cbn [map concat]; [cbn; lia|]. rewrite app_length.
        change (list_sum (length u :: map (@length B) r)) with (length u + list_sum (map (@length B) r)). lia.
      - apply list_max_in.
      - clear -F. induction F; cbn; constructor; auto. }
    eapply Forall_forall in Q; eauto. }
  pose proof (dtype_pos (Z.of_nat (list_max uk))). apply store_bits_id; [lia|]. apply dtype_holds; lia.
Qed.
End Stack.

(** *** mapped categoricals *)
Lemma map_get_in m c s : NoDup (map fst m) -> In (c, s) m -> map_get m c = Some s.
Proof.
  induction m as [|[c' s'] m IH]; cbn [map fst]; intros N H; [destruct H|destruct H as [E|I]].
  - injection E as -> ->. cbn. rewrite Z.eqb_refl. reflexivity.
  - cbn. destruct (Z.eqb_spec c' c) as [->|Nc]; [|apply IH; [inversion N; auto|exact I]].
    exfalso. inversion N; subst. apply H1. apply in_map_iff. exists (c, s). auto.
Qed.
Lemma map_get_some m c s : map_get m c = Some s -> In (c, s) m.
Proof.
  induction m as [|[c' s'] m IH]; cbn; [discriminate|]. destruct (Z.eqb_spec c' c) as [->|]; [intros [= ->]; now left|right; auto].
Qed.
Lemma by_name_fresh m s c : ~ In s (map snd m) -> by_name m s c = m ++ [(c, s)].
Proof.
  induction m as [|[c' s'] m IH]; cbn; intros H; [reflexivity|]. destruct (name_dec s' s) as [->|]; [exfalso; apply H; now left|].
  f_equal. apply IH. intros I. apply H. now right.
Qed.
Lemma dict_by_name_id m : NoDup (map snd m) -> dict_by_name m = m.
Proof.
  unfold dict_by_name. intros N. assert (Q : forall m acc, NoDup (map snd (acc ++ m)) -> fold_left (fun d (p : Z * name) => by_name d (snd p) (fst p)) m acc = acc ++ m).
  { clear. induction m as [|[c s] m IH]; intros acc N; cbn [fold_left]; [now rewrite app_nil_r|].
    rewrite by_name_fresh.
    - rewrite IH; rewrite <- app_assoc; [reflexivity|exact N].
    - rewrite map_app in N. cbn [map snd] in N. apply NoDup_remove_2 in N. intros I. apply N. apply in_or_app. now left. }
  apply (Q m []). exact N.
Qed.
Lemma first_codes_in seen m c s : In (c, s) (first_codes seen m) -> In (c, s) m /\ ~ In c seen.
Proof.
  revert seen. induction m as [|[c' s'] m IH]; intros seen H; cbn in H; [contradiction|].
  destruct (in_dec Z.eq_dec c' seen) as [I|I].
  - destruct (IH _ H). split; [now right|auto].
  - destruct H as [E|H]; [injection E as -> ->; split; [now left|auto]|]. destruct (IH _ H) as [A A']. split; [now right|]. intros Q. apply A'. now right.
Qed.
Lemma first_codes_nodup seen m : NoDup (map fst (first_codes seen m)).
Proof.
  revert seen. induction m as [|[c s] m IH]; intros seen; cbn; [constructor|]. destruct (in_dec Z.eq_dec c seen); [apply IH|].
  cbn. constructor; [|apply IH]. intros I. apply in_map_iff in I. destruct I as [[c' s'] [E I]]. cbn in E. subst. apply first_codes_in in I. destruct I as [_ I]. apply I. now left.
Qed.
Lemma first_codes_has seen m c : In c (map fst m) -> ~ In c seen -> In c (map fst (first_codes seen m)).
Proof.
  revert seen. induction m as [|[c' s'] m IH]; intros seen H N; cbn in *; [contradiction|].
  destruct (in_dec Z.eq_dec c' seen) as [I|I].
  - destruct H as [->|H]; [contradiction|]. apply IH; auto.
  - cbn. destruct (Z.eq_dec c' c) as [->|Ne]; [now left|]. right. destruct H as [->|H]; [congruence|]. apply IH; [auto|]. intros [Q|Q]; [congruence|auto].
Qed.

(** the mappings agree: no code has two names and no name has two codes *)
Definition agree (ms : list mapping) : Prop :=
  forall m m' c s c' s', In m ms -> In m' ms -> In (c, s) m -> In (c', s') m' -> (c = c' <-> s = s').

Theorem hstack_mapped_ok codes ms m c s : agree ms -> (forall m, In m ms -> NoDup (map fst m) /\ NoDup (map snd m)) ->
  In m ms -> In (c, s) m -> map_get (snd (hstack_mapped codes ms)) c = Some s.
Proof.
  intros A D I Hc. unfold hstack_mapped. destruct ms as [|m0 r]; [contradiction|].
  destruct (forallb (same_mapping m0) r) eqn:E; cbn [snd].
  - assert (m = m0).
    { destruct I as [->|I]; [reflexivity|]. rewrite forallb_forall in E. specialize (E m I). unfold same_mapping in E.
      destruct (list_eq_dec Z.eq_dec (map fst m0) (map fst m)) as [E1|]; [|discriminate].
      destruct (list_eq_dec name_dec (map snd m0) (map snd m)) as [E2|]; [|discriminate].
      clear -E1 E2. revert m0 E1 E2. induction m as [|[a b] m IH]; intros [|[a' b'] m0] E1 E2; cbn in *; try discriminate; [reflexivity|].
      injection E1 as -> E1. injection E2 as -> E2. f_equal. apply IH; auto. }
    subst. destruct (D m0 I) as [D1 D2]. rewrite dict_by_name_id by exact D2. apply map_get_in; auto.
  - set (all := concat (m0 :: r)) in *.
    assert (Iall : forall c s, In (c, s) all -> exists m, In m (m0 :: r) /\ In (c, s) m).
    { intros c0 s0 H. apply in_concat in H. destruct H as [x [? ?]]. eauto. }
    assert (N : NoDup (map snd (first_codes [] all))).
    { pose proof (first_codes_nodup [] all) as F. assert (P : forall p, In p (first_codes [] all) -> In p all) by (intros [c0 s0] H; apply (first_codes_in [] all); exact H).
      revert F P. generalize (first_codes [] all) as l. induction l as [|[c0 s0] l IH]; intros F P; cbn; [constructor|].
      cbn in F. inversion F; subst. constructor; [|apply IH; [auto|intros; apply P; now right]].
      intros Q. apply in_map_iff in Q. destruct Q as [[c1 s1] [Es Q]]. cbn in Es. subst s1.
      destruct (Iall c0 s0 (P _ (or_introl eq_refl))) as [ma [Ia Ha]]. destruct (Iall c1 s0 (P _ (or_intror Q))) as [mb [Ib Hb]].
      assert (c0 = c1) by (apply (proj2 (A ma mb c0 s0 c1 s0 Ia Ib Ha Hb)); reflexivity). subst. apply H1. apply in_map_iff. exists (c1, s0). auto. }
    rewrite dict_by_name_id by exact N. apply map_get_in; [apply first_codes_nodup|].
    assert (Hall : In c (map fst all)) by (apply in_map_iff; exists (c, s); split; [reflexivity|]; apply in_concat; eauto).
    apply (first_codes_has []) in Hall; [|auto]. apply in_map_iff in Hall. destruct Hall as [[c' s'] [Ec Q]]. cbn in Ec. subst c'.
    destruct (first_codes_in [] _ _ _ Q) as [Q' _]. destruct (Iall _ _ Q') as [mb [Ib Hb]].
    assert (s = s') by (apply (proj1 (A m mb c s c s' I Ib Hc Hb)); reflexivity). subst. exact Q.
Qed.
