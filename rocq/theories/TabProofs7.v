(** Proofs about the Dataset container (7): labels, deep copies and their independence. *)
From Coq Require Import List Arith Bool ZArith Lia.
From Verif Require Import FlattenModel FlattenProofs MergeModel MergeFacts DsModel DsProofs3 TabModel TabSpec TabProofs TabProofs2 TabProofs3.
Import ListNotations.

Lemma nth_upd' {X} (d : X) k i v l : nth k (upd i v l) d = if (k =? i) && (i <? length l) then v else nth k l d.
Proof.
  destruct (Nat.ltb_spec i (length l)) as [L|L].
  - rewrite nth_upd by assumption. now rewrite andb_true_r.
  - rewrite andb_false_r. unfold upd. now rewrite (proj2 (Nat.ltb_ge _ _)).
Qed.

Section Tab.
Context {V : Type}.
Variable junk inv : V.
Variable c : pyclass.
Notation read := (read junk).
Implicit Types w : world V.

(** the attribute objects of a list of columns *)
Definition refs_of (its : list (name * item)) : list nat := flat_map (fun p => match attr (snd p) with Some r => [r] | None => [] end) its.
Definition refs (d : dataset) : list nat := refs_of (items d).
Definition labels_ok w (d : dataset) : Prop := NoDup (refs d) /\ forall r, In r (refs d) -> r < length (attrs w).

Lemma refs_dset n it its : (match dget n its with Some it' => attr it = attr it' | None => attr it = None end) -> refs_of (dset n it its) = refs_of its.
Proof.
  induction its as [|[m x] its IH]; cbn [dset dget]; intros H.
  - unfold refs_of. cbn. now rewrite H.
  - destruct (name_dec m n) as [->|]; unfold refs_of in *; cbn [flat_map snd]; [now rewrite H|now rewrite IH].
Qed.
Lemma refs_item_set n a its : refs_of (item_set n a its) = refs_of its.
Proof. unfold item_set. apply refs_dset. now destruct (dget n its). Qed.
Lemma refs_attr its its' : map (fun p => (fst p, attr (snd p))) its' = map (fun p => (fst p, attr (snd p))) its -> refs_of its' = refs_of its.
Proof.
  revert its. induction its' as [|[m x] its' IH]; intros [|[n y] its] E; try discriminate; [reflexivity|]. cbn in E. injection E as _ Ea E.
  unfold refs_of in *. cbn [flat_map snd]. rewrite Ea. f_equal. now apply IH.
Qed.
Lemma refs_ddel n its : exists l1 l2 r, refs_of its = l1 ++ r ++ l2 /\ refs_of (ddel n its) = l1 ++ l2.
Proof.
  induction its as [|[m x] its IH]; cbn [ddel]; [exists [], [], []; split; reflexivity|].
  destruct (name_dec m n).
  - exists [], (refs_of its), (match attr x with Some r => [r] | None => [] end). split; reflexivity.
  - destruct IH as (l1 & l2 & r & E1 & E2). exists ((match attr x with Some r => [r] | None => [] end) ++ l1), l2, r. unfold refs_of in *. cbn [flat_map snd].
    rewrite E1, E2, <- !app_assoc. split; reflexivity.
Qed.
Lemma in_refs n it (d : dataset) r : In (n, it) (items d) -> attr it = Some r -> In r (refs d).
Proof. intros H E. apply in_flat_map. exists (n, it). split; [assumption|]. cbn. rewrite E. now left. Qed.

(** *** The label of a column *)
Definition lab w (d : dataset) (n : name) : option nat := match dget n (items d) with Some it => label_of w it | None => None end.

Lemma label_remove_attrs (d : dataset) : forall w, length (attrs (label_remove w d)) = length (attrs w) /\
  (forall r, In r (refs d) -> nth r (attrs (label_remove w d)) None = None) /\
  (forall r, ~ In r (refs d) -> nth r (attrs (label_remove w d)) None = nth r (attrs w) None).
Proof.
  unfold label_remove, refs. induction (items d) as [|[n it] its IH] using rev_ind; intros w; [cbn; repeat split; tauto|].
  rewrite fold_left_app. cbn [fold_left snd]. unfold refs_of in *. rewrite flat_map_app. cbn [flat_map snd]. rewrite app_nil_r.
  set (w1 := fold_left _ its w). specialize (IH w). fold w1 in IH. destruct IH as (L & A & B).
  destruct (attr it) as [l|]; [|rewrite app_nil_r; auto].
  cbn [attrs]. split; [now rewrite upd_len|]. split; intros r Hr; rewrite nth_upd'; rewrite in_app_iff in Hr; cbn in Hr.
  - destruct (Nat.eqb_spec r l) as [->|N]; cbn [andb].
    + destruct (Nat.ltb_spec l (length (attrs w1))); [reflexivity|]. apply nth_overflow. lia.
    + apply A. destruct Hr as [Hr|[Hr|[]]]; [assumption|congruence].
  - destruct (Nat.eqb_spec r l) as [->|N]; [exfalso; apply Hr; right; now left|]. cbn [andb]. apply B. tauto.
Qed.
Lemma refs_set_new n x its it k : dget n its = Some it -> attr it = None -> NoDup (refs_of its) -> ~ In k (refs_of its) ->
  NoDup (refs_of (dset n (Item x (Some k)) its)) /\ (forall r, In r (refs_of (dset n (Item x (Some k)) its)) <-> r = k \/ In r (refs_of its)).
Proof.
  induction its as [|[m y] its IH]; cbn [dget dset]; [discriminate|]. destruct (name_dec m n) as [->|].
  - intros [= ->] E ND N. unfold refs_of in *. cbn [flat_map snd attr app] in *. rewrite E in *. cbn [app] in *. split; [now constructor|]. intros r. cbn. intuition.
  - intros D E ND N. unfold refs_of in *. cbn [flat_map snd] in *. destruct (attr y) as [r0|]; [|now apply IH].
    cbn [app] in *. inversion ND; subst. destruct (IH D E) as [A B]; [assumption|intros H; apply N; now right|]. split.
    + constructor; [|assumption]. intros H. apply B in H. destruct H as [->|H]; [apply N; now left|contradiction].
    + intros r. cbn. rewrite B. tauto.
Qed.
Lemma set_label_spec w d n k : NoDup (keys d) -> labels_ok w d -> In n (keys d) ->
  let w' := fst (set_label w d n k) in let d' := snd (set_label w d n k) in
  labels_ok w' d' /\ keys d' = keys d /\ (forall m, lab w' d' m = if name_dec m n then Some k else lab w d m) /\
  length (attrs w) <= length (attrs w') /\
  (forall r, ~ In r (refs d) -> r < length (attrs w) -> nth r (attrs w') None = nth r (attrs w) None /\ ~ In r (refs d')).
Proof.
  intros ND [NR Rg] Hn. unfold set_label. destruct (dget_has n (items d) Hn) as [it Ei]. rewrite Ei.
  destruct (attr it) as [l|] eqn:Ea; cbn [fst snd].
  - assert (Hl : In l (refs d)) by (eapply in_refs; [apply dget_some_in, Ei|assumption]). pose proof (Rg l Hl) as Ll.
    split; [|split; [reflexivity|split; [|split]]].
    + split; [assumption|]. intros r Hr. cbn [attrs]. rewrite upd_len. auto.
    + intros m. unfold lab. destruct (name_dec m n) as [->|N].
      * rewrite Ei. unfold label_of. rewrite Ea. cbn [attrs]. rewrite nth_upd', Nat.eqb_refl. now rewrite (proj2 (Nat.ltb_lt _ _) Ll).
      * destruct (dget m (items d)) as [it'|] eqn:Em; [|reflexivity]. unfold label_of. destruct (attr it') as [l'|] eqn:Ea'; [|reflexivity]. cbn [attrs]. rewrite nth_upd'.
        destruct (Nat.eqb_spec l' l) as [->|]; [|reflexivity]. exfalso. apply N.
        apply dget_some_in in Ei, Em. clear - NR Ei Em Ea Ea'. unfold refs in NR. induction (items d) as [|[q x] its IH]; [easy|]. unfold refs_of in *. cbn [flat_map snd] in NR.
        assert (In1 : forall q' x', In (q', x') its -> attr x' = Some l -> In l (flat_map (fun p => match attr (snd p) with Some r => [r] | None => [] end) its)).
        { intros q' x' H1 H2. apply in_flat_map. exists (q', x'). split; [assumption|]. cbn. rewrite H2. now left. }
        destruct Ei as [Ei|Ei], Em as [Em|Em].
        -- congruence.
        -- exfalso. injection Ei as -> ->. rewrite Ea in NR. cbn in NR. inversion NR; subst. eauto.
        -- exfalso. injection Em as -> ->. rewrite Ea' in NR. cbn in NR. inversion NR; subst. eauto.
        -- apply IH; auto. destruct (attr x); [|assumption]. cbn in NR. now inversion NR.
    + cbn. now rewrite upd_len.
    + intros r Nr Lr. split; [|assumption]. cbn [attrs]. rewrite nth_upd'. destruct (Nat.eqb_spec r l) as [->|]; [contradiction|reflexivity].
  - set (k0 := length (attrs w)). assert (Nk : ~ In k0 (refs d)) by (intros H; apply Rg in H; unfold k0 in H; lia).
    destruct (refs_set_new n (arr it) (items d) it k0 Ei Ea NR Nk) as [A B].
    split; [|split; [|split; [|split]]].
    + split; [exact A|]. intros r Hr. cbn [attrs]. rewrite app_length. cbn. unfold refs in Hr. cbn [items] in Hr. apply B in Hr. destruct Hr as [->|Hr]; [unfold k0; lia|]. apply Rg in Hr. lia.
    + unfold keys. cbn [items]. rewrite dset_names. fold (keys d). now rewrite (proj2 (mem_in n (keys d)) Hn).
    + intros m. unfold lab. cbn [items]. rewrite dget_dset. destruct (name_dec n m) as [->|N].
      * destruct (name_dec m m); [|easy]. unfold label_of. cbn [attr attrs]. unfold k0. now rewrite app_nth2, Nat.sub_diag by lia.
      * destruct (name_dec m n); [congruence|]. destruct (dget m (items d)) as [it'|] eqn:Em; [|reflexivity]. unfold label_of. destruct (attr it') as [l'|] eqn:Ea'; [|reflexivity].
        cbn [attrs]. apply app_nth1. apply Rg. eapply in_refs; [apply dget_some_in, Em|assumption].
    + cbn. rewrite app_length. lia.
    + intros r Nr Lr. split; [cbn [attrs]; now apply app_nth1|]. unfold refs. cbn [items]. intros H. apply B in H. destruct H as [->|H]; [unfold k0 in Lr; lia|contradiction].
Qed.
Fixpoint position (n : name) (l : list name) (k : nat) : option nat :=
  match l with [] => None | m :: r => match position n r (S k) with Some j => Some j | None => if name_dec m n then Some k else None end end.
Lemma set_labels_lab : forall l w d k, NoDup (keys d) -> labels_ok w d -> (forall n, In n l -> In n (keys d)) ->
  let w' := fst (set_labels w d l k) in let d' := snd (set_labels w d l k) in
  labels_ok w' d' /\ keys d' = keys d /\ (forall m, lab w' d' m = match position m l k with Some j => Some j | None => lab w d m end) /\
  length (attrs w) <= length (attrs w') /\
  (forall r, ~ In r (refs d) -> r < length (attrs w) -> nth r (attrs w') None = nth r (attrs w) None /\ ~ In r (refs d')).
Proof.
  induction l as [|n l IH]; intros w d k ND LO Sub; cbn [set_labels position].
  - cbn [fst snd]. repeat split; auto; apply LO.
  - pose proof (set_label_spec w d n k ND LO (Sub n (or_introl eq_refl))) as (LO1 & K1 & L1 & G1 & F1).
    destruct (set_label w d n k) as [w1 d1]. cbn [fst snd] in *.
    destruct (IH w1 d1 (S k)) as (LO2 & K2 & L2 & G2 & F2); [now rewrite K1|assumption|intros m Hm; rewrite K1; apply Sub; now right|].
    split; [assumption|]. split; [congruence|]. split; [|split; [lia|]].
    + intros m. rewrite L2, L1. destruct (position m l (S k)); [reflexivity|]. destruct (name_dec m n) as [->|N]; [now destruct (name_dec n n)|]. destruct (name_dec n m); [congruence|reflexivity].
    + intros r Nr Lr. destruct (F1 r Nr Lr) as [E1 N1]. destruct (F2 r N1 ltac:(lia)) as [E2 N2]. split; [congruence|assumption].
Qed.
Lemma label_set_lab w d l : NoDup (keys d) -> labels_ok w d -> (forall n, In n l -> In n (keys d)) ->
  let w' := fst (label_set_names w d l) in let d' := snd (label_set_names w d l) in
  labels_ok w' d' /\ keys d' = keys d /\ (forall m, lab w' d' m = position m l 0) /\ length (attrs w) <= length (attrs w') /\
  (forall r, ~ In r (refs d) -> r < length (attrs w) -> nth r (attrs w') None = nth r (attrs w) None /\ ~ In r (refs d')).
Proof.
  intros ND [NR Rg] Sub. unfold label_set_names. destruct (label_remove_attrs d w) as (L & A & B). set (w1 := label_remove w d) in *.
  assert (LO1 : labels_ok w1 d) by (split; [assumption|intros r Hr; rewrite L; auto]).
  destruct (set_labels_lab l w1 d 0 ND LO1 Sub) as (LO2 & K2 & L2 & G2 & F2).
  split; [assumption|]. split; [assumption|]. split; [|split; [lia|]].
  - intros m. rewrite L2. destruct (position m l 0); [reflexivity|]. unfold lab. destruct (dget m (items d)) as [it|] eqn:Em; [|reflexivity]. unfold label_of.
    destruct (attr it) as [r|] eqn:Ea; [|reflexivity]. apply A. eapply in_refs; [apply dget_some_in, Em|assumption].
  - intros r Nr Lr. destruct (F2 r Nr) as [E N]; [lia|]. split; [|assumption]. rewrite E. now apply B.
Qed.

(** *** label_get_names depends only on the labels *)
Definition tagged w (d : dataset) : list (option nat * name) := map (fun p => (label_of w (snd p), fst p)) (items d).
Lemma tagged_lab w d : NoDup (keys d) -> tagged w d = map (fun n => (lab w d n, n)) (keys d).
Proof.
  intros ND. unfold tagged, keys. rewrite map_map. apply map_ext_in. intros [n it] Hin. cbn [fst snd]. f_equal. unfold lab. now rewrite (in_dget_nodup n it (items d) ND Hin).
Qed.
Lemma label_get_ext w d w' d' : NoDup (keys d) -> keys d' = keys d -> (forall n, In n (keys d) -> lab w' d' n = lab w d n) -> label_get_names w' d' = label_get_names w d.
Proof.
  intros ND K E. unfold label_get_names. fold (tagged w d). fold (tagged w' d').
  assert (Et : tagged w' d' = tagged w d).
  { rewrite !tagged_lab, K by (rewrite ?K; assumption). apply map_ext_in. intros n Hn. now rewrite E. }
  now rewrite Et.
Qed.
Lemma find_label (t : list (option nat * name)) k p : find (fun p => match fst p with Some j => j =? k | None => false end) t = Some p -> In p t /\ fst p = Some k.
Proof.
  intros H. apply find_some in H. destruct H as [H1 H2]. split; [assumption|]. destruct (fst p) as [j|]; [|discriminate]. apply Nat.eqb_eq in H2. congruence.
Qed.
Lemma label_names_in w d n : In n (label_get_names w d) -> In n (keys d).
Proof.
  unfold label_get_names. fold (tagged w d). rewrite in_flat_map. intros (k & _ & H). destruct (find _ (rev (tagged w d))) as [p|] eqn:E; [|easy]. destruct H as [<-|[]].
  apply find_label in E. destruct E as [E _]. apply in_rev, in_map_iff in E. destruct E as ([m it] & <- & Hin). cbn. now apply (in_map fst) in Hin.
Qed.
Lemma label_names_nodup w d : NoDup (keys d) -> NoDup (label_get_names w d).
Proof.
  intros ND. unfold label_get_names. fold (tagged w d). set (top := fold_left _ _ _).
  set (f := fun k => match find (fun p => match fst p with Some j => j =? k | None => false end) (rev (tagged w d)) with Some p => [snd p] | None => [] end).
  assert (F : forall k n, In n (f k) -> In n (keys d) /\ lab w d n = Some k).
  { intros k n H. unfold f in H. destruct (find _ _) as [p|] eqn:E; [|easy]. destruct H as [<-|[]]. apply find_label in E. destruct E as [E1 E2]. apply in_rev in E1.
    rewrite tagged_lab in E1 by assumption. apply in_map_iff in E1. destruct E1 as (m & <- & Hm). cbn in *. auto. }
  assert (L1 : forall k, length (f k) <= 1) by (intros k; unfold f; destruct (find _ _); cbn; lia).
  clearbody f. generalize (seq_NoDup top 0). generalize (seq 0 top). intros l. induction l as [|k l IH]; intros N; [constructor|]. cbn [flat_map]. inversion N; subst.
  specialize (IH H2). destruct (f k) as [|x [|y q]] eqn:E; [assumption| |specialize (L1 k); rewrite E in L1; cbn in L1; lia].
  cbn. constructor; [|assumption]. intros Hin. apply in_flat_map in Hin. destruct Hin as (k' & Hk & Hx). apply F in Hx. destruct (F k x) as [_ Q]; [rewrite E; now left|]. destruct Hx. assert (k = k') by congruence. subst. contradiction.
Qed.
Lemma position_spec l : forall k n j, NoDup l -> (position n l k = Some j <-> k <= j /\ nth_error l (j - k) = Some n).
Proof.
  induction l as [|m l IH]; intros k n j ND; cbn [position].
  - split; [discriminate|]. intros [_ H]. destruct (j - k); discriminate.
  - inversion ND as [|? ? Nm ND']; subst. destruct (position n l (S k)) as [j'|] eqn:E.
    + apply IH in E; [|assumption]. destruct E as [L E]. split.
      * intros [= <-]. split; [lia|]. replace (j' - k) with (S (j' - S k)) by lia. exact E.
      * intros [L2 H]. f_equal. destruct (j - k) as [|q] eqn:Eq.
        -- cbn in H. exfalso. apply Nm. assert (m = n) by congruence. subst. eapply nth_error_In, E.
        -- cbn in H. assert (q = j' - S k); [|lia]. eapply (proj1 (NoDup_nth_error l) ND'); [apply nth_error_Some; congruence|congruence].
    + destruct (name_dec m n) as [->|N].
      * split; [intros [= <-]; rewrite Nat.sub_diag; auto|]. intros [L H]. f_equal. destruct (j - k) as [|q] eqn:Eq; [lia|]. cbn in H. exfalso. apply Nm. eapply nth_error_In, H.
      * split; [discriminate|]. intros [L H]. destruct (j - k) as [|q] eqn:Eq; [cbn in H; congruence|]. cbn in H.
        assert (position n l (S k) = Some j) by (apply IH; [assumption|]; split; [lia|]; replace (j - S k) with q by lia; exact H). congruence.
Qed.
Lemma top_spec (t : list (option nat * name)) m0 : forall m, (forall p k, In p t -> fst p = Some k -> k < m) -> m0 <= m ->
  (m <= m0 \/ exists p k, In p t /\ fst p = Some k /\ m = S k) ->
  fold_left (fun m p => match fst p with Some k => Nat.max m (S k) | None => m end) t m0 = m.
Proof.
  revert m0. induction t as [|p t IH]; intros m0 m R L E; cbn [fold_left].
  - destruct E as [E|(p & k & [] & _)]. lia.
  - apply IH.
    + intros q k Hq. apply R. now right.
    + destruct (fst p) as [k|] eqn:Ep; [|lia]. specialize (R p k (or_introl eq_refl) Ep). lia.
    + destruct E as [E|(q & k & [<-|Hq] & Ek & ->)].
      * left. destruct (fst p); lia.
      * left. rewrite Ek. lia.
      * right. exists q, k. auto.
Qed.
Lemma label_set_get w d l : NoDup (keys d) -> labels_ok w d -> NoDup l -> (forall n, In n l -> In n (keys d)) ->
  label_get_names (fst (label_set_names w d l)) (snd (label_set_names w d l)) = l.
Proof.
  intros ND LO NL Sub. destruct (label_set_lab w d l ND LO Sub) as (_ & K & L & _). set (w' := fst _) in *. set (d' := snd _) in *.
  assert (ND' : NoDup (keys d')) by now rewrite K.
  unfold label_get_names. fold (tagged w' d'). rewrite tagged_lab by assumption. rewrite K.
  assert (Lk : forall n k, lab w' d' n = Some k <-> nth_error l k = Some n).
  { intros n k. rewrite L, position_spec by assumption. rewrite Nat.sub_0_r. intuition lia. }
  rewrite (top_spec _ 0 (length l)).
  - assert (Q : forall k, k < length l -> (match find (fun p => match fst p with Some j => j =? k | None => false end) (rev (map (fun n => (lab w' d' n, n)) (keys d))) with Some p => [snd p] | None => [] end) = [nth k l []]).
    { intros k Hk. assert (Ek : nth_error l k = Some (nth k l [])) by now apply nth_error_nth'.
      destruct (find _ _) as [p|] eqn:E.
      - apply find_label in E. destruct E as [E1 E2]. apply in_rev, in_map_iff in E1. destruct E1 as (m & <- & _). cbn in *. apply Lk in E2. congruence.
      - exfalso. assert (Z : In (Some k, nth k l []) (rev (map (fun n => (lab w' d' n, n)) (keys d)))).
        { rewrite <- in_rev. apply in_map_iff. exists (nth k l []). split; [f_equal; now apply Lk|]. apply Sub. now apply nth_In. }
        pose proof (find_none _ _ E _ Z) as Y. cbn in Y. rewrite Nat.eqb_refl in Y. discriminate. }
    assert (R : forall (f : nat -> list name) s (q : list name), (forall k, k < length q -> f (s + k) = [nth k q []]) -> flat_map f (seq s (length q)) = q).
    { clear. intros f s q. revert s. induction q as [|x q IH]; intros s H; [reflexivity|]. cbn [length seq flat_map]. rewrite <- (Nat.add_0_r s) at 1. rewrite (H 0) by (cbn; lia). cbn [nth app]. f_equal. apply IH.
      intros k Hk. replace (S s + k) with (s + S k) by lia. apply (H (S k)). cbn. lia. }
    apply R. intros k Hk. cbn. now apply Q.
  - intros p k Hp Ep. apply in_map_iff in Hp. destruct Hp as (n & <- & _). cbn in Ep. apply Lk in Ep. apply nth_error_Some. congruence.
  - lia.
  - destruct l as [|x l'] eqn:El; [left; cbn; lia|]. right. rewrite <- El in *. exists (Some (length l - 1), nth (length l - 1) l []), (length l - 1).
    assert (Len : 0 < length l) by (rewrite El; cbn; lia).
    assert (Ek : nth_error l (length l - 1) = Some (nth (length l - 1) l [])) by (apply nth_error_nth'; lia).
    split; [|split; [reflexivity|lia]]. apply in_map_iff. exists (nth (length l - 1) l []). split; [f_equal; now apply Lk|]. apply Sub. apply nth_In. lia.
Qed.
End Tab.
