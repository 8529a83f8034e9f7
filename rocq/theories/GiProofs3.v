(** Proofs for GiModel.v: header names and the columns of grouped calls. *)
From Coq Require Import List Arith Bool Lia.
From Verif Require Import FlattenModel FlattenProofs GroupingProofs AggProofs2 DsProofs3 GiSpec GiModel.
Import ListNotations.

Lemma decimal_inj a b : decimal a = decimal b -> a = b.
Proof. apply digits_nat_inj. Qed.
Lemma digits_range d : Forall (fun c => 48 <= c <= 57) (digits d).
Proof. induction d; cbn; constructor; try assumption; lia. Qed.
Lemma decimal_range a : Forall (fun c => 48 <= c <= 57) (decimal a).
Proof. apply digits_range. Qed.
Lemma headers_wanted names : headers names = wanted names.
Proof. reflexivity. Qed.

(** the while loop ends with a name that is no header *)
Lemma bump_ge fuel hs nm : forall c, c <= bump fuel hs nm c.
Proof. induction fuel as [|fu IH]; intros c; cbn; [lia|]. destruct (in_dec _ _ _); [|lia]. specialize (IH (c + 1)). lia. Qed.
Lemma bump_fuel fuel hs nm : forall c, (exists j, j < fuel /\ ~ In (nm ++ decimal (c + j)) hs) -> ~ In (nm ++ decimal (bump fuel hs nm c)) hs.
Proof.
  induction fuel as [|fu IH]; intros c [j [L N]]; [lia|]. cbn. destruct (in_dec name_dec (nm ++ decimal c) hs) as [I|I]; [|exact I].
  apply IH. destruct j as [|j]; [rewrite Nat.add_0_r in N; contradiction|]. exists j. split; [lia|]. now rewrite <- Nat.add_assoc.
Qed.
Lemma bump_free hs nm c : ~ In (nm ++ decimal (bump (length hs + 1) hs nm c)) hs.
Proof.
  apply bump_fuel. rewrite Nat.add_1_r.
  assert (D : (exists j, j < S (length hs) /\ ~ In (nm ++ decimal (c + j)) hs) \/ (forall j, j < S (length hs) -> In (nm ++ decimal (c + j)) hs)).
  { generalize (S (length hs)) as m. induction m as [|m IH]; [right; intros; lia|].
    destruct IH as [[j [? ?]]|R]; [left; exists j; split; [lia|assumption]|].
    destruct (in_dec name_dec (nm ++ decimal (c + m)) hs) as [I|I].
    - right. intros j Hj. assert (j = m \/ j < m) as [->|?] by lia; auto.
    - left. exists m. split; [lia|exact I]. }
  destruct D as [D|D]; [exact D|]. exfalso.
  assert (N : NoDup (map (fun j => nm ++ decimal (c + j)) (seq 0 (S (length hs))))).
  { apply NoDup_map_inj; [|apply seq_NoDup]. intros x y E. apply app_inv_head, decimal_inj in E. lia. }
  assert (I : incl (map (fun j => nm ++ decimal (c + j)) (seq 0 (S (length hs)))) hs).
  { intros z Hz. apply in_map_iff in Hz. destruct Hz as [j [<- Hj]]. apply in_seq in Hj. apply D. lia. }
  pose proof (NoDup_incl_length N I) as L. rewrite map_length, seq_length in L. unfold name in *. lia.
Qed.

Section Heads.
Variable hs : list name.
(** a name made up by the loop *)
Definition made (nm h : name) : Prop := exists c, h = nm ++ decimal c /\ ~ In h hs.
Lemma final_len l : forall ud, length (final_headers hs l ud) = length l.
Proof. induction l as [|nm l IH]; intros ud; cbn; [reflexivity|]. destruct (dget nm ud); cbn; now rewrite IH. Qed.

(** every final header is either the wanted name, seen for the first time, or made from a wanted name
    seen before, with a number not used for it before *)
Lemma final_spec l : forall ud h j, nth_error (final_headers hs l ud) j = Some h ->
  exists nm, nth_error l j = Some nm /\
    ((h = nm /\ dget nm ud = None /\ (forall i, i < j -> nth_error l i <> Some nm)) \/
     ((dget nm ud <> None \/ exists i, i < j /\ nth_error l i = Some nm) /\ ~ In h hs /\
      exists c, h = nm ++ decimal c)).
Proof.
  induction l as [|nm l IH]; intros ud h [|j] E; cbn in E; try discriminate.
  - exists nm. split; [reflexivity|]. destruct (dget nm ud) as [c|] eqn:Ed; cbn in E; injection E as <-.
    + right. split; [left; discriminate|]. split; [apply bump_free|]. eexists. reflexivity.
    + left. split; [reflexivity|]. split; [reflexivity|]. intros i L. lia.
  - destruct (dget nm ud) as [c|] eqn:Ed; cbn in E.
    + apply IH in E. destruct E as [k [Ek [[-> [D F]]|[Hd R]]]]; exists k; (split; [exact Ek|]).
      * left. rewrite dget_dset in D. destruct (name_dec nm k) as [->|Nk]; [discriminate|]. split; [reflexivity|]. split; [exact D|]. intros [|i] L; cbn; [congruence|]. apply F. lia.
      * right. split; [|exact R]. destruct Hd as [Hd|[i [L Hi]]]; [|right; exists (S i); split; [lia|exact Hi]].
        rewrite dget_dset in Hd. destruct (name_dec nm k) as [->|Nk]; [right; exists 0; split; [lia|reflexivity]|now left].
    + apply IH in E. destruct E as [k [Ek [[-> [D F]]|[Hd R]]]]; exists k; (split; [exact Ek|]).
      * left. rewrite dget_dset in D. destruct (name_dec nm k) as [->|Nk]; [discriminate|]. split; [reflexivity|]. split; [exact D|]. intros [|i] L; cbn; [congruence|]. apply F. lia.
      * right. split; [|exact R]. destruct Hd as [Hd|[i [L Hi]]]; [|right; exists (S i); split; [lia|exact Hi]].
        rewrite dget_dset in Hd. destruct (name_dec nm k) as [->|Nk]; [right; exists 0; split; [lia|reflexivity]|now left].
Qed.
(** the numbers made for one name increase *)
Lemma final_counters l : forall ud j h nm c0, nth_error (final_headers hs l ud) j = Some h -> nth_error l j = Some nm -> dget nm ud = Some c0 ->
  exists c, h = nm ++ decimal c /\ c0 <= c.
Proof.
  induction l as [|n l IH]; intros ud [|j] h nm c0 E En Ed; cbn in E, En; try discriminate.
  - injection En as ->. rewrite Ed in E. cbn in E. injection E as <-. eexists. split; [reflexivity|]. apply bump_ge.
  - destruct (dget n ud) as [c|] eqn:Eu; cbn in E.
    + destruct (name_dec n nm) as [->|Nn].
      * rewrite Ed in Eu. injection Eu as ->. destruct (IH _ j h nm (bump (length hs + 1) hs nm c + 1) E En) as [c' [Q L]].
        { rewrite dget_dset. now destruct (name_dec nm nm). }
        exists c'. split; [exact Q|]. pose proof (bump_ge (length hs + 1) hs nm c). lia.
      * apply (IH _ j h nm c0 E En). rewrite dget_dset. now destruct (name_dec n nm).
    + destruct (name_dec n nm) as [->|Nn]; [congruence|]. apply (IH _ j h nm c0 E En). rewrite dget_dset. now destruct (name_dec n nm).
Qed.
Lemma final_same l : forall ud i j nm h, i < j -> nth_error l i = Some nm -> nth_error l j = Some nm ->
  nth_error (final_headers hs l ud) i = Some h -> nth_error (final_headers hs l ud) j = Some h -> In nm hs -> False.
Proof.
  induction l as [|n l IH]; intros ud i j nm h L Ei Ej Hi Hj I; [destruct i; discriminate|].
  destruct j as [|j]; [lia|]. destruct i as [|i]; cbn in *.
  - injection Ei as ->. destruct (dget nm ud) as [c|] eqn:Ed; cbn in Hi, Hj; injection Hi as <-.
    + destruct (final_counters _ _ _ _ _ (bump (length hs + 1) hs nm c + 1) Hj Ej) as [c' [Q L']]; [rewrite dget_dset; now destruct (name_dec nm nm)|].
      apply app_inv_head, decimal_inj in Q. lia.
    + destruct (final_counters _ _ _ _ _ 1 Hj Ej) as [c' [Q L']]; [rewrite dget_dset; now destruct (name_dec nm nm)|].
      rewrite <- (app_nil_r nm) in Q at 1. apply app_inv_head in Q. symmetry in Q. now apply digits_nonempty in Q.
  - destruct (dget n ud); cbn in Hi, Hj; eapply (IH _ i j nm h); eauto; lia.
Qed.
End Heads.

Lemma count_two (hs : list name) : forall i j nm, i < j -> nth_error hs i = Some nm -> nth_error hs j = Some nm -> repeated hs nm.
Proof.
  unfold repeated. induction hs as [|x l IH]; intros i j nm L Ei Ej; [destruct i; discriminate|].
  destruct j as [|j]; [lia|]. destruct i as [|i]; cbn in Ei, Ej |- *.
  - injection Ei as ->. destruct (name_dec nm nm); [|congruence]. apply nth_error_In in Ej. apply (count_occ_In name_dec) in Ej. lia.
  - pose proof (IH i j nm ltac:(lia) Ei Ej). destruct (name_dec x nm); lia.
Qed.
(** two names followed by digits *)
Lemma prefixes (a b : name) : forall x y, a ++ x = b ++ y -> (exists z, a = b ++ z /\ y = z ++ x) \/ (exists z, b = a ++ z /\ x = z ++ y).
Proof.
  revert b. induction a as [|c a IH]; intros b x y E.
  - right. exists b. split; [reflexivity|exact E].
  - destruct b as [|d b]; [left; exists (c :: a); split; [reflexivity|symmetry; exact E]|]. cbn in E. injection E as -> E.
    destruct (IH b x y E) as [[z [-> ->]]|[z [-> ->]]]; [left|right]; exists z; split; reflexivity.
Qed.

Lemma headers_distinct (hs : list name) :
  (forall a b, repeated hs a -> repeated hs b -> ~ numbered a b) -> NoDup (final_headers hs hs []).
Proof.
  intros NC. assert (W : forall i j h, i < j -> nth_error (final_headers hs hs []) i = Some h -> nth_error (final_headers hs hs []) j = Some h -> False).
  { intros i j h L Hi Hj. destruct (final_spec hs hs [] h i Hi) as [n1 [E1 C1]]. destruct (final_spec hs hs [] h j Hj) as [n2 [E2 C2]].
    destruct (name_dec n1 n2) as [->|Nn]; [apply (final_same hs hs [] i j n2 h); auto; eapply nth_error_In; exact E1|].
    destruct C1 as [[-> _]|[[D1|[i1 [L1 F1]]] [N1 [c1 Q1]]]]; [| |].
    - destruct C2 as [[-> _]|[_ [N2 _]]]; [congruence|]. apply N2. eapply nth_error_In; exact E1.
    - elim D1. reflexivity.
    - destruct C2 as [[-> _]|[[D2|[i2 [L2 F2]]] [N2 [c2 Q2]]]].
      + apply N1. eapply nth_error_In; exact E2.
      + elim D2. reflexivity.
      + assert (R1 : repeated hs n1) by (eapply count_two; [exact L1|exact F1|exact E1]). assert (R2 : repeated hs n2) by (eapply count_two; [exact L2|exact F2|exact E2]).
        subst h. rename Q2 into H0.
        destruct (prefixes n1 n2 _ _ H0) as [[z [Ez Ey]]|[z [Ez Ey]]].
        * apply (NC n1 n2 R1 R2). exists z. split; [exact Ez|]. split; [intros ->; apply Nn; now rewrite app_nil_r in Ez|].
          pose proof (decimal_range c2) as F. rewrite Ey in F. apply Forall_app in F. apply F.
        * apply (NC n2 n1 R2 R1). exists z. split; [exact Ez|]. split; [intros ->; apply Nn; now rewrite app_nil_r in Ez|].
          pose proof (decimal_range c1) as F. rewrite Ey in F. apply Forall_app in F. apply F. }
  apply NoDup_nth_error. intros i j Li E. destruct (nth_error (final_headers hs hs []) i) as [h|] eqn:Ei; [|apply nth_error_None in Ei; lia].
  destruct (Nat.lt_trichotomy i j) as [H|[H|H]]; [exfalso; eauto|exact H|exfalso; eauto].
Qed.
Lemma headers_first (hs : list name) j nm : nth_error hs j = Some nm -> (forall i, i < j -> nth_error hs i <> Some nm) -> nth_error (final_headers hs hs []) j = Some nm.
Proof.
  intros E F. destruct (nth_error (final_headers hs hs []) j) as [h|] eqn:Eh.
  - destruct (final_spec hs hs [] h j Eh) as [n1 [E1 C]]. assert (n1 = nm) by congruence. subst n1.
    destruct C as [[-> _]|[[D|[i [L Hi]]] _]]; [reflexivity|now elim D|]. elim (F i L Hi).
  - apply nth_error_None in Eh. rewrite final_len in Eh. assert (j < length hs) by (apply nth_error_Some; congruence). lia.
Qed.

Lemma zip_dict_exact {A} (l : list (option name * A)) : NoDup (get_header_names (map fst l)) -> zip_dict l = combine (get_header_names (map fst l)) (map snd l).
Proof.
  intros N. unfold zip_dict. rewrite dset_all_id; [reflexivity|]. cbn [map app].
  assert (L : length (get_header_names (map fst l)) = length (map snd l)).
  { unfold get_header_names. rewrite final_len. unfold headers. rewrite map_length, combine_length, seq_length, !map_length. lia. }
  assert (Q : map fst (combine (get_header_names (map fst l)) (map snd l)) = get_header_names (map fst l)); [|now rewrite Q].
  revert L. generalize (get_header_names (map fst l)) as a, (map snd l) as b. clear. induction a as [|x a IH]; intros [|y b] L; cbn in *; try lia; [reflexivity|]. f_equal. apply IH. lia.
Qed.

(** ** gb[names] *)
Lemma with_keys_is idx ks : NoDup ks -> with_keys idx ks = idx ++ filter (fun k => if in_dec name_dec k idx then false else true) ks.
Proof.
  unfold with_keys. revert idx. induction ks as [|k ks IH]; intros idx N; cbn; [now rewrite app_nil_r|]. inversion N as [|? ? N1 N2]; subst.
  destruct (in_dec name_dec k idx) as [I|I]; [apply IH, N2|]. rewrite (IH _ N2), <- app_assoc. cbn. do 2 f_equal.
  apply filter_ext_in. intros x Ix. destruct (in_dec name_dec x idx) as [I1|I1], (in_dec name_dec x (idx ++ [k])) as [I2|I2]; try reflexivity.
  - elim I2. apply in_or_app. now left.
  - apply in_app_or in I2. destruct I2 as [I2|[->|[]]]; contradiction.
Qed.
Section Sel.
Context {A : Type}.
Lemma select_ok (d : list (name * A)) : forall ns acc, NoDup (map fst acc) -> (forall n, In n ns -> dget n d <> None) ->
  exists t, select ns d acc = Some t /\ NoDup (map fst t) /\ forall n, dget n t = if in_dec name_dec n ns then dget n d else dget n acc.
Proof.
  induction ns as [|n ns IH]; intros acc N H; cbn [select].
  - exists acc. split; [reflexivity|]. split; [exact N|]. intros n. reflexivity.
  - destruct (dget n d) as [c|] eqn:E; [|elim (H n); [now left|exact E]].
    destruct (IH (dset n c acc)) as [t [Et [Nt Ht]]].
    + change (dset n c acc) with (dset_all [(n, c)] acc). now apply dset_all_nodup.
    + intros x I. apply H. now right.
    + exists t. split; [exact Et|]. split; [exact Nt|]. intros x. rewrite Ht. destruct (in_dec name_dec x ns) as [I|I], (in_dec name_dec x (n :: ns)) as [J|J]; try reflexivity.
      * elim J. now right.
      * rewrite dget_dset. destruct J as [->|J]; [|contradiction]. destruct (name_dec x x); [now rewrite E|congruence].
      * rewrite dget_dset. destruct (name_dec n x) as [->|]; [elim J; now left|reflexivity].
Qed.
Lemma select_order (d : list (name * A)) : forall ns acc t, NoDup (map fst acc ++ ns) -> select ns d acc = Some t -> map fst t = map fst acc ++ ns.
Proof.
  induction ns as [|n ns IH]; intros acc t N E; cbn in E; [injection E as <-; now rewrite app_nil_r|].
  destruct (dget n d) as [c|]; [|discriminate]. assert (Q : dset n c acc = acc ++ [(n, c)]).
  { apply dset_fresh. apply NoDup_remove_2 in N. intros I. apply N, in_or_app. now left. }
  rewrite Q in E. assert (N' : NoDup (map fst (acc ++ [(n, c)]) ++ ns)) by (rewrite map_app; cbn; rewrite <- app_assoc; exact N). rewrite (IH _ _ N' E). rewrite map_app. cbn. now rewrite <- app_assoc.
Qed.
Lemma select_raises (d : list (name * A)) n : forall ns acc, In n ns -> dget n d = None -> select ns d acc = None.
Proof.
  induction ns as [|x ns IH]; intros acc I E; [contradiction|]. cbn. destruct I as [->|I]; [now rewrite E|]. destruct (dget x d); [apply IH; assumption|reflexivity].
Qed.
End Sel.
Lemma with_keys_in idx ks n : NoDup ks -> (In n (with_keys idx ks) <-> In n idx \/ In n ks).
Proof.
  intros N. rewrite with_keys_is by exact N. rewrite in_app_iff, filter_In. split; [tauto|]. intros [H|H]; [now left|]. destruct (in_dec name_dec n idx); [now left|right]. now split.
Qed.
