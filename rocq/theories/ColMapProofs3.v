(** Proofs for C13, final part. *)
From Coq Require Import String Ascii List Arith Bool Lia Permutation Sorted.
From Verif Require Import ItemsModel ItemsSpec ItemsFacts ItemsProofs ItemsProofs2 ColMapProofs ColMapProofs2.
Import ListNotations.
Open Scope list_scope.

(** *** [free] for the rename list *)
Lemma free_mono S r : forall done done', incl done done' -> free done S r -> free done' S r.
Proof.
  induction r as [|[o n] r IH]; cbn; intros done done' I H; [exact H|]. destruct H as [H1 H2]. split; [auto|].
  revert H2. apply IH. intros x [->|Hx]; [now left|right; auto].
Qed.
Lemma free_app S a : forall done b, free done S a -> free (keys a ++ done) S b -> free done S (a ++ b).
Proof.
  induction a as [|[o n] a IH]; cbn; intros done b Ha Hb; [exact Hb|]. destruct Ha as [H1 H2]. split; [exact H1|].
  apply IH; [exact H2|]. revert Hb. apply free_mono. intros x Hx. unfold keys in *. cbn in Hx.
  rewrite in_app_iff in *. cbn. tauto.
Qed.
Lemma linked_rev_free m S : forall from t last, linked m from t last -> ~ In last S -> forall done, free done S (rev t).
Proof.
  intros from t last L. induction L as [k l D|k k' t l D L IH]; cbn [rev]; intros F done.
  - cbn. tauto.
  - apply free_app; [auto|]. cbn. split; [|exact I]. intros _. apply in_or_app. left.
    rewrite keys_rev, <- in_rev. exact (linked_head _ _ _ _ L).
Qed.
Lemma linked_noloop m : forall from t last, linked m from t last -> NoDup (keys t) -> ~ In last (keys t) ->
  forall k n, In (k, n) t -> k <> n.
Proof.
  intros from t last L. induction L as [k l D|k k' t l D L IH]; cbn [keys map fst]; intros N H a b I.
  - destruct I as [[= <- <-]|[]]. cbn in H. intros ->. apply H. now left.
  - apply NoDup_cons_iff in N. destruct N as [N1 N2]. cbn in H. destruct I as [[= <- <-]|I].
    + intros ->. apply N1. exact (linked_head _ _ _ _ L).
    + apply IH; tauto.
Qed.

Lemma take_trans_free m P : forall ts seen rn seen' rn', Forall (chain m P) ts ->
  NoDup (keys rn) -> (forall k, In k (keys rn) -> In k seen) ->
  free [] P rn -> (forall k n, In (k, n) rn -> k <> n) ->
  take_trans ts seen rn = (seen', rn') -> free [] P rn' /\ (forall k n, In (k, n) rn' -> k <> n).
Proof.
  induction ts as [|t r IH]; cbn [take_trans]; intros seen rn seen' rn' F N S Fr Nl H.
  - injection H as <- <-. auto.
  - inversion F as [|? ? Ct Fo]; subst. destruct (existsb _ (keys t)) eqn:X; [eapply IH; eauto|].
    destruct Ct as [from last L Nt Pk Fre].
    assert (Nr : NoDup (keys rn ++ keys (rev t))).
    { apply nodup_app_intro; [exact N|rewrite keys_rev; now apply NoDup_rev|].
      intros k H1 H2. rewrite keys_rev, <- in_rev in H2. pose proof (existsb_none _ _ X k H2) as Q. cbn in Q.
      apply smem_not in Q. apply Q. auto. }
    eapply IH; [exact Fo| | | | |exact H]; rewrite (fold_dset_fresh (rev t) rn Nr).
    + rewrite keys_app. exact Nr.
    + intros k. rewrite keys_app, !in_app_iff. intros [G|G]; auto.
    + apply free_app; [exact Fr|]. eapply linked_rev_free; eauto.
    + intros k n G. apply in_app_or in G. destruct G as [G|G]; [eauto|]. apply in_rev in G.
      eapply linked_noloop; eauto.
Qed.

(** *** coverage *)
Lemma collect_cover m P : forall todo p p', collect m P todo p = inl p' ->
  (forall k, In k (p_seen p) -> In k (p_seen p')) /\ (forall t, In t (p_trans p) -> In t (p_trans p')) /\
  (forall o, In o todo -> In o (p_seen p') \/ exists t, In t (p_trans p') /\ In o (keys t)).
Proof.
  induction todo as [|o r IH]; cbn [collect]; intros p p' H.
  - injection H as <-. split; [auto|]. split; [auto|]. intros o [].
  - destruct (smem o (p_seen p)) eqn:So.
    + destruct (IH p p' H) as (H1 & H2 & H3). split; [exact H1|]. split; [exact H2|].
      intros x [<-|Hx]; [left; apply H1; now apply smem_in|auto].
    + destruct (smem o P) eqn:Po; cbn [negb] in H.
      * destruct (get_seq (S (length m)) m P o []) as [[t b]|e] eqn:G; [|discriminate].
        assert (Ho : In o (keys t)).
        { apply smem_in in Po.
          destruct (get_seq_spec m P _ o [] o t b (or_introl (conj eq_refl eq_refl)) (NoDup_nil _) (fun k F => match F with end) Po G)
            as (last & L & _). exact (linked_head _ _ _ _ L). }
        destruct b; apply IH in H; cbn [p_seen p_trans] in H; destruct H as (H1 & H2 & H3).
        -- split; [intros k Hk; apply H1; apply in_or_app; auto|]. split; [exact H2|].
           intros x [<-|Hx]; [left; apply H1; apply in_or_app; auto|auto].
        -- split; [exact H1|]. split; [intros; apply H2; apply in_or_app; auto|].
           intros x [<-|Hx]; [|auto]. right. exists t. split; [apply H2; apply in_or_app; right; now left|exact Ho].
      * apply IH in H; cbn [p_seen p_trans] in H; destruct H as (H1 & H2 & H3).
        split; [intros k Hk; apply H1; apply in_or_app; auto|]. split; [exact H2|].
        intros x [<-|Hx]; [left; apply H1; apply in_or_app; right; now left|auto].
Qed.

Lemma collect_total m P : (forall k n, dget k m = Some n -> In n P -> In n (keys m)) ->
  forall todo p, (forall o, In o todo -> In o (keys m)) -> exists p', collect m P todo p = inl p'.
Proof.
  intros H. induction todo as [|o r IH]; cbn [collect]; intros p T; [eauto|].
  destruct (smem o (p_seen p)); [apply IH; auto using in_cons|]. destruct (smem o P); cbn [negb]; [|apply IH; auto using in_cons].
  destruct (get_seq (S (length m)) m P o []) as [[t b]|e] eqn:G.
  - destruct b; apply IH; auto using in_cons.
  - exfalso. destruct (get_seq_exc _ _ _ _ _ _ G) as [-> | ->].
    + revert G. apply get_seq_fuel; [cbn; lia|constructor|intros k []].
    + revert G. apply get_seq_nokey; [exact H|]. apply T. now left.
Qed.

(** forward walks are deterministic, backward walks too when [m] is injective *)
Lemma linked_split m : forall from t last x, linked m from t last -> In x (keys t) ->
  exists a s, t = a ++ s /\ linked m x s last.
Proof.
  intros from t last x L. induction L as [k l D|k k' t l D L IH]; cbn [keys map fst]; intros H.
  - destruct H as [<-|[]]. exists [], [(k, l)]. split; [reflexivity|now constructor].
  - destruct H as [<-|H].
    + exists [], ((k, k') :: t). split; [reflexivity|now constructor].
    + destruct (IH H) as (a & s & -> & Ls). exists ((k, k') :: a), s. split; [reflexivity|exact Ls].
Qed.
Lemma linked_det m P : forall from t last, linked m from t last -> ~ In last P -> (forall k, In k (keys t) -> In k P) ->
  forall t' last', linked m from t' last' -> ~ In last' P -> (forall k, In k (keys t') -> In k P) -> t = t'.
Proof.
  intros from t last L. induction L as [k l D|k k' t l D L IH]; intros F Pk t' last' L' F' Pk'.
  - inversion L' as [? ? D'|? k2 t2 ? D' L2]; subst; rewrite D in D'; injection D' as <-; [reflexivity|].
    exfalso. apply F. apply Pk'. cbn. right. exact (linked_head _ _ _ _ L2).
  - inversion L' as [? ? D'|? k2 t2 ? D' L2]; subst; rewrite D in D'; injection D' as <-.
    + exfalso. apply F'. apply Pk. cbn. right. exact (linked_head _ _ _ _ L).
    + f_equal. eapply IH; eauto; intros; [apply Pk|apply Pk']; cbn; auto.
Qed.
Lemma linked_consec m : forall a from y z x w s last, linked m from (a ++ (y, z) :: (x, w) :: s) last -> z = x.
Proof.
  induction a as [|[q r] a IH]; cbn; intros from y z x w s last L.
  - inversion L as [|? ? ? ? D L2]; subst. inversion L2; reflexivity.
  - inversion L as [? ? D E|? ? ? ? D L2]; subst; [destruct a; discriminate|]. eapply IH; eauto.
Qed.
Lemma linked_suffix_incl m : inj m -> forall a b x w s from from1 last last1,
  linked m from (a ++ (x, w) :: s) last -> linked m from1 (b ++ (x, w) :: s) last1 ->
  length a <= length b -> forall k, In k (keys a) -> In k (keys b).
Proof.
  intros I. induction a as [|[y z] a IH] using rev_ind; intros b x w s from from1 last last1 L L1 Le k Hk; [contradiction|].
  rewrite app_length in Le. cbn in Le.
  destruct b as [|[y' z'] b _] using rev_ind; [cbn in Le; lia|]. rewrite app_length in Le. cbn in Le.
  rewrite <- app_assoc in L, L1. cbn in L, L1.
  pose proof (linked_consec _ _ _ _ _ _ _ _ _ L) as ->. pose proof (linked_consec _ _ _ _ _ _ _ _ _ L1) as ->.
  assert (D : dget y m = Some x) by (eapply linked_pairs; [exact L|apply in_or_app; right; now left]).
  assert (D' : dget y' m = Some x) by (eapply linked_pairs; [exact L1|apply in_or_app; right; now left]).
  assert (y = y') by (eapply I; eauto). subst y'.
  rewrite keys_app, in_app_iff in Hk. rewrite keys_app, in_app_iff. destruct Hk as [Hk|Hk]; [|right; exact Hk].
  left. eapply (IH b y x ((x, w) :: s)); [exact L|exact L1|lia|exact Hk].
Qed.
Lemma chain_subset m P t t1 : inj m -> chain m P t -> chain m P t1 -> length t <= length t1 ->
  (exists x, In x (keys t) /\ In x (keys t1)) -> forall k, In k (keys t) -> In k (keys t1).
Proof.
  intros I [from last L N Pk F] [from1 last1 L1 N1 Pk1 F1] Le (x & Hx & Hx1) k Hk.
  destruct (linked_split _ _ _ _ _ L Hx) as (a & s & -> & Ls).
  destruct (linked_split _ _ _ _ _ L1 Hx1) as (b & s1 & -> & Ls1).
  assert (s = s1).
  { eapply linked_det; [exact Ls|exact F| |exact Ls1|exact F1|]; intros q Hq; [apply Pk|apply Pk1]; rewrite keys_app, in_app_iff; auto. }
  subst s1. rewrite !app_length in Le. rewrite keys_app, in_app_iff in Hk |- *. destruct Hk as [Hk|Hk]; [|auto].
  left. assert (exists w r, s = (x, w) :: r) as (w & r & ->) by (inversion Ls; eauto).
  eapply linked_suffix_incl; [exact I|exact L|exact L1|lia|exact Hk].
Qed.
(** a chain never meets a cycle *)
Lemma chain_cycle_disjoint m P t f v : inj m -> chain m P t -> cyc m P f v -> forall x, In x (keys t) -> ~ In x f.
Proof.
  intros I [from last L N Pk F] [tc fc lc -> -> Lc Nc Pc Lac] x Hx Hf.
  pose proof (cycle_values m I _ _ _ Lc Nc Lac) as E.
  destruct (linked_split _ _ _ _ _ L Hx) as (a & s & -> & Ls).
  assert (G : forall y s, linked m y s last -> In y (keys tc) -> In last (keys tc)).
  { clear - E Lc. intros y s L. induction L as [k l D|k k' t l D L IH]; intros H.
    - apply E. unfold keys in H. apply in_map_iff in H. destruct H as ([p q] & Ep & H). cbn in Ep. subst p.
      pose proof (linked_pairs _ _ _ _ Lc _ _ H) as D'. rewrite D in D'. injection D' as <-. exact (in_map snd _ _ H).
    - apply IH. apply E. unfold keys in H. apply in_map_iff in H. destruct H as ([p q] & Ep & H). cbn in Ep. subst p.
      pose proof (linked_pairs _ _ _ _ Lc _ _ H) as D'. rewrite D in D'. injection D' as <-. exact (in_map snd _ _ H). }
  apply F. apply Pc. exact (G x s Ls Hf).
Qed.

Lemma insert_len_sorted x l : StronglySorted (fun a b => length b <= length a) l ->
  StronglySorted (fun a b => length b <= length a) (insert_len x l).
Proof.
  induction l as [|y l IH]; cbn; intros H; [repeat constructor|].
  inversion H as [|? ? H1 H2]; subst. destruct (Nat.leb_spec (length y) (length x)) as [Le|Gt].
  - constructor; [exact H|]. constructor; [exact Le|]. rewrite Forall_forall in *. intros z Hz. specialize (H2 z Hz). lia.
  - constructor; [auto|]. rewrite Forall_forall in *. intros z Hz. apply in_insert_len in Hz. destruct Hz as [->|Hz]; [lia|auto].
Qed.
Lemma sort_len_sorted l : StronglySorted (fun a b => length b <= length a) (sort_len l).
Proof. induction l; cbn; [constructor|]. now apply insert_len_sorted. Qed.

Lemma take_trans_cover m P seen0 : inj m -> (forall t x, chain m P t -> In x (keys t) -> ~ In x seen0) ->
  forall ts seen rn seen' rn' taken,
  Forall (chain m P) ts -> Forall (chain m P) taken ->
  StronglySorted (fun a b => length b <= length a) ts -> (forall a b, In a taken -> In b ts -> length b <= length a) ->
  (forall k, In k seen <-> In k seen0 \/ exists t, In t taken /\ In k (keys t)) ->
  take_trans ts seen rn = (seen', rn') ->
  (forall k, In k seen -> In k seen') /\ (forall t k, In t ts -> In k (keys t) -> In k seen').
Proof.
  intros I Dj. induction ts as [|t r IH]; cbn [take_trans]; intros seen rn seen' rn' taken F Ft So Le S H.
  - injection H as <- <-. split; [auto|]. intros t k [].
  - inversion F as [|? ? Ct Fo]; subst. inversion So as [|? ? S1 S2]; subst.
    destruct (existsb _ (keys t)) eqn:X.
    + destruct (IH seen rn seen' rn' taken Fo Ft S1 (fun a b Ha Hb => Le a b Ha (or_intror Hb)) S H) as (M1 & M2).
      split; [exact M1|]. intros t' k [<-|Ht] Hk; [|eauto]. apply M1. apply S. right.
      apply existsb_exists in X. destruct X as (x & Hx & Sx). apply smem_in, S in Sx.
      destruct Sx as [Sx|(t1 & T1 & X1)]; [elim (Dj t x Ct Hx Sx)|]. exists t1. split; [exact T1|].
      rewrite Forall_forall in Ft.
      eapply (chain_subset m P t t1 I Ct (Ft t1 T1)); [apply Le; [exact T1|now left]|eauto|exact Hk].
    + pose proof (fun h1 h2 h3 h4 => IH (seen ++ keys (rev t)) _ seen' rn' (t :: taken) Fo h1 h2 h3 h4 H) as Q; destruct Q as (M1 & M2).
      * now constructor.
      * exact S1.
      * intros a b [<-|Ha] Hb; [rewrite Forall_forall in S2; auto|]. apply Le; [exact Ha|now right].
      * intros k. rewrite in_app_iff, S, keys_rev, <- in_rev. cbn. split.
        -- intros [[G|(t1 & T1 & G)]|G]; eauto.
        -- intros [G|(t1 & [<-|T1] & G)]; eauto.
      * split; [intros k Hk; apply M1; apply in_or_app; auto|].
        intros t' k [<-|Ht] Hk; [|eauto]. apply M1. apply in_or_app. right. rewrite keys_rev, <- in_rev. exact Hk.
Qed.

(** *** assembling *)
Lemma filter_len {X} (f : X -> bool) l : length (filter f l) <= length l.
Proof. induction l as [|x l IH]; cbn; [lia|]. destruct (f x); cbn; lia. Qed.
Lemma setsize_le l : setsize l <= length l.
Proof.
  unfold setsize. induction l as [|x l IH]; cbn; [lia|]. pose proof (filter_len (fun y => negb (String.eqb x y)) (fromkeys l)). lia.
Qed.
Lemma setsize_nodup l : NoDup l -> setsize l = length l.
Proof.
  intros N. unfold setsize. apply Nat.le_antisymm; [apply setsize_le|].
  apply NoDup_incl_length; [exact N|]. intros x Hx. now apply fromkeys_in.
Qed.
Lemma setsize_full l : setsize l = length l -> NoDup l.
Proof.
  induction l as [|x l IH]; intros H; [constructor|]. unfold setsize in *. cbn in H.
  pose proof (filter_len (fun y => negb (String.eqb x y)) (fromkeys l)) as F1.
  pose proof (setsize_le l) as F2. unfold setsize in F2. injection H as H.
  constructor; [|apply IH; lia]. intros Q. apply fromkeys_in in Q.
  assert (Z : forall (q : list string), In x q -> length (filter (fun y => negb (String.eqb x y)) q) < length q).
  { induction q as [|y q IHq]; cbn; [tauto|]. intros [->|Hq].
    - rewrite String.eqb_refl. cbn. pose proof (filter_len (fun y => negb (String.eqb x y)) q). lia.
    - destruct (negb _); cbn; [specialize (IHq Hq)|pose proof (filter_len (fun y => negb (String.eqb x y)) q)]; lia. }
  specialize (Z _ Q). lia.
Qed.
Lemma entries_inj m : NoDup (keys m) -> NoDup (entries m) -> inj m.
Proof.
  intros _ N a b n Da Db. apply dget_some_in in Da. apply dget_some_in in Db.
  unfold entries in N. revert N Da Db. induction m as [|[k e] r IH]; cbn; [tauto|]. intros N [Ha|Ha] [Hb|Hb].
  - congruence.
  - injection Ha as -> ->. apply NoDup_cons_iff in N. elim (proj1 N). exact (in_map snd _ _ Hb).
  - injection Hb as -> ->. apply NoDup_cons_iff in N. elim (proj1 N). exact (in_map snd _ _ Ha).
  - apply NoDup_cons_iff in N. apply IH; tauto.
Qed.
Lemma inj_entries m : NoDup (keys m) -> inj m -> NoDup (entries m).
Proof.
  intros N I. induction m as [|[k e] r IH]; cbn; [constructor|]. cbn in N. apply NoDup_cons_iff in N. destruct N as [N1 N2].
  constructor.
  - intros Q. apply in_map_iff in Q. destruct Q as ([a b] & E & Q). cbn in E. subst b.
    assert (k = a).
    { apply (I k a e).
      - cbn. now rewrite String.eqb_refl.
      - cbn. seq a k; [reflexivity|]. now apply in_dget. }
    subst. apply N1. exact (in_map fst _ _ Q).
  - apply IH; [exact N2|]. intros a b n Da Db. apply (I a b n); cbn.
    + seq a k; [apply dget_in_keys in Da; contradiction|exact Da].
    + seq b k; [apply dget_in_keys in Db; contradiction|exact Db].
Qed.

Lemma disjoint_fop l : disjoint_swaps l -> ForallOrdPairs (fun s s' => forall k, In k (fst s) -> ~ In k (fst s')) l.
Proof.
  induction 1 as [|l s H IH D]; [constructor|]. revert D IH. clear. induction l as [|x l IH]; cbn; intros D F.
  - repeat constructor.
  - inversion F as [|? ? F1 F2]; subst. constructor.
    + apply Forall_app. split; [exact F1|]. constructor; [|constructor]. intros k Hk. apply (D x k); auto.
    + apply IH; auto. intros s' k Hs. apply D. auto.
Qed.

(** a successful [safe_reorder] gives a well-formed schedule *)
Record sched_ok (m : dict string) (P : list string) (rn : dict string) (sw : list (list string * list string)) : Prop := mkSO {
  so_ord : ordered rn; so_nodup : NoDup (keys rn);
  so_pairs : forall k n, In (k, n) rn -> dget k m = Some n;
  so_prot : forall k, In k (keys rn) -> In k P;
  so_vals : forall k n, In (k, n) rn -> ~ In n P \/ In n (keys rn);
  so_disj : forall s k, In s sw -> In k (fst s) -> ~ In k (keys rn);
  so_cyc : Forall (fun s => cyc m P (fst s) (snd s)) sw;
  so_fop : ForallOrdPairs (fun s s' => forall k, In k (fst s) -> ~ In k (fst s')) sw;
  so_cover : forall k, In k (keys m) -> In k P -> In k (keys rn) \/ exists s, In s sw /\ In k (fst s);
  so_free : free [] P rn; so_noloop : forall k n, In (k, n) rn -> k <> n }.

Lemma safe_reorder_ok m P rn sw : NoDup (keys m) -> inj m -> safe_reorder m P = inl (rn, sw) -> sched_ok m P rn sw.
Proof.
  intros Nm I. unfold safe_reorder. destruct (collect m P (keys m) (mkP [] [] [])) as [p|e] eqn:C; [|discriminate].
  destruct (take_trans (sort_len (p_trans p)) (p_seen p) []) as [seen rn0] eqn:T.
  destruct (setsize seen =? length m) eqn:Z; cbn [negb]; [|discriminate]. intros [= <- <-].
  pose proof (fun h1 h2 => collect_ok m P I (keys m) _ p (fun o H => H) h1 h2 C) as Q; destruct Q as (O & D).
  { constructor; cbn; try constructor; intros; contradiction. } { constructor. }
  destruct O as [O1 O2 O3 O4 O5].
  assert (Fc : Forall (chain m P) (sort_len (p_trans p))).
  { apply Forall_forall. intros t Ht. rewrite Forall_forall in O1. apply O1. now apply in_sort_len. }
  pose proof (fun h => take_trans_ok m P (p_seen p) _ _ _ _ _ Fc h T) as Q; destruct Q as [S Dj Nd Pa Pr Va Or].
  { constructor; cbn; try tauto; try (constructor; fail); intros; try contradiction. }
  pose proof (fun h1 h2 h3 h4 => take_trans_free m P _ _ _ _ _ Fc h1 h2 h3 h4 T) as Q; destruct Q as [Fr Nl]; [constructor|intros k []|exact Logic.I|intros k n []|].
  apply Nat.eqb_eq in Z.
  constructor; auto.
  - intros s k Hs Hk Q. apply (Dj k Q). eapply O4; eauto.
  - now apply disjoint_fop.
  - intros k Hm Hp.
    assert (Hs : In k seen).
    { assert (incl (keys m) (fromkeys seen)) as In1.
      { apply (NoDup_length_incl (fromkeys_nodup seen)).
        - unfold setsize in Z. rewrite Z. unfold keys. now rewrite map_length.
        - intros x Hx. apply fromkeys_in, S in Hx. destruct Hx as [Hx|Hx]; [auto|].
          apply in_keys_dget in Hx. destruct Hx as [n Dn]. apply dget_some_in in Dn. exact (dget_in_keys _ _ _ (Pa _ _ Dn)). }
      apply fromkeys_in. apply In1. exact Hm. }
    apply S in Hs. destruct Hs as [Hs|Hs]; [right; auto|left; exact Hs].
Qed.

Lemma cyc_closed m P f v : inj m -> cyc m P f v -> closed (f, v).
Proof.
  intros I [t from last -> -> L N Pk La]. unfold closed. cbn [fst snd]. split; [unfold keys, entries; now rewrite !map_length|].
  split; [exact N|]. pose proof (cycle_values m I _ _ _ L N La) as E. unfold seteq.
  apply andb_true_iff. split; apply forallb_forall; intros x Hx; apply smem_in; now apply E.
Qed.
Lemma cyc_ren m P f v k : inj m -> cyc m P f v -> In k f -> exists n, dget k (combine f v) = Some n /\ dget k m = Some n /\ In n f.
Proof.
  intros I [t from last -> -> L N Pk La] H.
  assert (combine (keys t) (entries t) = t) as ->.
  { clear. unfold keys, entries. induction t as [|[a b] t IH]; cbn; [reflexivity|]. now rewrite IH. }
  apply in_keys_dget in H. destruct H as [n D]. exists n. split; [exact D|].
  pose proof (dget_some_in _ _ _ D) as Q. split; [eapply linked_pairs; eauto|].
  apply (cycle_values m I _ _ _ L N La). exact (in_map snd _ _ Q).
Qed.
Lemma swd_keys sw : Forall closed sw -> forall k, In k (keys (swd sw)) <-> exists s, In s sw /\ In k (fst s).
Proof.
  intros C k. unfold swd, keys. split.
  - intros H. apply in_map_iff in H. destruct H as ([a b] & E & H). cbn in E. subst a.
    apply in_concat in H. destruct H as (c & Hc & H). apply in_map_iff in Hc. destruct Hc as (s & <- & Hs).
    exists s. split; [exact Hs|]. exact (in_combine_l _ _ _ _ H).
  - intros (s & Hs & Hk). rewrite Forall_forall in C. destruct (C s Hs) as (L & _ & _).
    rewrite <- (keys_combine (fst s) (snd s) L) in Hk. unfold keys in Hk. apply in_map_iff in Hk.
    destruct Hk as ([a b] & E & Hk). cbn in E. subst a. apply in_map_iff. exists (k, b). split; [reflexivity|].
    apply in_concat. exists (combine (fst s) (snd s)). split; [|exact Hk]. apply in_map_iff. eauto.
Qed.
Lemma swd_get m P sw k n : Forall (fun s => cyc m P (fst s) (snd s)) sw -> dget k (swd sw) = Some n -> dget k m = Some n.
Proof.
  intros C D. apply dget_some_in in D. unfold swd in D. apply in_concat in D. destruct D as (c & Hc & D).
  apply in_map_iff in Hc. destruct Hc as (s & <- & Hs). rewrite Forall_forall in C.
  destruct (C s Hs) as [t from last E1 E2 L N Pk La]. rewrite E1, E2 in D.
  assert (combine (keys t) (entries t) = t) as Et.
  { clear. unfold keys, entries. induction t as [|[a b] t IH]; cbn; [reflexivity|]. now rewrite IH. }
  rewrite Et in D. eapply linked_pairs; eauto.
Qed.

Section P.
Context {V A : Type}.
Variable attr_kind : string -> option bool.
Variable restricted : string -> bool.
Implicit Types st : struct V A.
Notation valid := (valid_colname restricted).

Lemma compose_ren m P rn sw : inj m -> sched_ok m P rn sw -> forall k, In k P ->
  ren (swd sw) (ren rn k) = ren m k.
Proof.
  intros I S k Hp. pose proof S as [Or Nd Pa Pr Va Dj Cy Fo Co Fr Nl].
  assert (Cl : Forall closed sw).
  { apply Forall_forall. intros [f v] Hs. rewrite Forall_forall in Cy. exact (cyc_closed m P f v I (Cy _ Hs)). }
  assert (SwP : forall x, In x (keys (swd sw)) -> In x P /\ ~ In x (keys rn) /\ In x (keys m)).
  { intros x Hx. apply (swd_keys sw Cl) in Hx. destruct Hx as (s & Hs & Hk). rewrite Forall_forall in Cy.
    destruct (cyc_ren m P _ _ x I (Cy s Hs) Hk) as (n & _ & Dm & _).
    split; [|split; [eauto|exact (dget_in_keys _ _ _ Dm)]].
    destruct (Cy s Hs) as [t from last E1 E2 L N Pk La]. apply Pk. now rewrite <- E1. }
  destruct (dget k rn) as [n|] eqn:Dr.
  - rewrite (ren_in rn k n Dr). pose proof (dget_some_in _ _ _ Dr) as Q. rewrite (ren_in m k n (Pa _ _ Q)).
    apply ren_notin. intros H. destruct (SwP n H) as (H1 & H2 & _). destruct (Va k n Q); contradiction.
  - apply dget_none in Dr. rewrite (ren_notin rn k Dr).
    destruct (dget k (swd sw)) as [n|] eqn:Ds.
    + rewrite (ren_in _ _ _ Ds). symmetry. apply ren_in. eapply swd_get; eauto.
    + rewrite (ren_notin (swd sw) k) by now apply dget_none. symmetry. apply ren_notin. intros Q.
      destruct (Co k Q Hp) as [H|H]; [contradiction|]. apply dget_none in Ds. apply Ds. now apply (swd_keys sw Cl).
Qed.

Lemma renamed_ren m k : renamed m k = ren m k.
Proof. rewrite renamed_dget. reflexivity. Qed.

Lemma sim_intro m st st' : good restricted st' -> good restricted st -> length (keys (items st')) = length (keys (items st)) ->
  (forall n, In n (keys (items st')) -> exists k, In k (keys (items st)) /\ ren m k = n) ->
  (forall k, In k (keys (items st)) -> value st' (ren m k) = value st k) ->
  simultaneous_rename m st st'.
Proof.
  intros G' G L I Vl. unfold simultaneous_rename. unfold colnames. fold (keys (items st)). fold (keys (items st')).
  assert (E : map (renamed m) (keys (items st)) = map (ren m) (keys (items st))) by (apply map_ext; intros; apply renamed_ren).
  rewrite E. split; [|split].
  - apply (NoDup_incl_NoDup (l := keys (items st'))); [apply G'|rewrite map_length; lia|].
    intros n Hn. destruct (I n Hn) as (k & Hk & <-). now apply in_map.
  - intros n. split.
    + intros Hn. destruct (I n Hn) as (k & Hk & <-). now apply in_map.
    + intros H. apply in_map_iff in H. destruct H as (k & <- & Hk). apply value_some. rewrite Vl by exact Hk.
      now apply value_some.
  - intros k Hk. rewrite renamed_ren. auto.
Qed.

Theorem col_map_simultaneous m st st' :
  NoDup (colnames st) -> Forall (fun n => valid n = true) (colnames st) ->
  NoDup (keys m) ->
  (forall k, In k (keys m) -> In k (colnames st)) \/ (exists v, In v (entries m) /\ In v (colnames st)) ->
  col_map attr_kind restricted m st = (st', None) -> simultaneous_rename m st st'.
Proof.
  intros N Va Nm Hyp. unfold col_map. destruct (locked st) eqn:L; [discriminate|].
  assert (G : good restricted st) by (constructor; auto).
  destruct (setsize (entries m) <? setsize (keys m)) eqn:Sz; [discriminate|].
  assert (Ne : NoDup (entries m)).
  { apply setsize_full. apply Nat.ltb_ge in Sz. rewrite (setsize_nodup _ Nm) in Sz. pose proof (setsize_le (entries m)).
    unfold keys, entries in *. rewrite map_length in *. lia. }
  pose proof (entries_inj m Nm Ne) as I.
  destruct (existsb _ (entries m)) eqn:Ov.
  - destruct (safe_reorder m (keys (items st))) as [[rn sw]|e] eqn:R; [|discriminate].
    pose proof (safe_reorder_ok m _ rn sw Nm I R) as S. pose proof S as [Or Nd Pa Pr Vs Dj Cy Fo Co Fr Nl].
    unfold bind. destruct (do_renames restricted rn st) as [s1 [e|]] eqn:R1; [discriminate|].
    destruct (do_renames_effect restricted rn st s1 G Or R1) as (G1 & K1 & E1).
    pose proof (aligned_value restricted (ren rn) st s1 G1 K1 E1) as V1.
    intros R2.
    assert (Cl : Forall closed sw).
    { apply Forall_forall. intros [f v] Hs. rewrite Forall_forall in Cy. exact (cyc_closed m _ f v I (Cy _ Hs)). }
    destruct (do_swaps_effect attr_kind restricted sw s1 G1 Fo Cl) as (st2 & R2' & G2 & K2 & V2).
    { intros s k Hs Hk. rewrite K1. apply in_map_iff. exists k. split; [apply ren_notin; eauto|].
      rewrite Forall_forall in Cy. destruct (Cy s Hs) as [t from last Q1 Q2 Lk Nk Pk La]. apply Pk. now rewrite <- Q1. }
    rewrite R2 in R2'. injection R2' as <-.
    apply sim_intro; auto.
    + rewrite K2, K1. now rewrite map_length.
    + intros n Hn. rewrite K2, K1 in Hn. apply in_map_iff in Hn. destruct Hn as (k & <- & Hk).
      destruct (dget k rn) as [x|] eqn:Dr.
      * exists k. split; [exact Hk|]. rewrite (ren_in _ _ _ Dr). apply ren_in. apply Pa. now apply dget_some_in.
      * rewrite (ren_notin rn k) by now apply dget_none. destruct (dget k m) as [x|] eqn:Dm.
        -- destruct (Co k (dget_in_keys _ _ _ Dm) Hk) as [Q|(s & Hs & Q)]; [apply dget_none in Dr; contradiction|].
           rewrite Forall_forall in Cy. destruct (Cy s Hs) as [t from last Q1 Q2 Lk Nk Pk La].
           rewrite Q1 in Q. apply (cycle_values m I _ _ _ Lk Nk La) in Q. unfold entries in Q.
           apply in_map_iff in Q. destruct Q as ([a b] & Eb & Q). cbn in Eb. subst b. exists a.
           split; [apply Pk; exact (in_map fst _ _ Q)|]. apply ren_in. eapply linked_pairs; eauto.
        -- exists k. split; [exact Hk|]. unfold ren. now rewrite Dm.
    + intros k Hk. rewrite <- (compose_ren m _ rn sw I S k Hk). rewrite V2; [apply V1; exact Hk|].
      rewrite K1. now apply in_map.
  - assert (Dis : forall v, In v (entries m) -> ~ In v (keys (items st))).
    { intros v Hv. apply dmem_not. exact (existsb_none _ _ Ov v Hv). }
    destruct Hyp as [Hyp|(v & H1 & H2)]; [|elim (Dis v H1 H2)].
    intros R.
    assert (Or : ordered m).
    { clear - Dis Hyp. induction m as [|[k n] r IH]; [exact Logic.I|]. cbn. split.
      - intros Q. apply (Dis n); [now left|]. apply Hyp. now right.
      - apply IH; intros; [apply Hyp; now right|apply Dis; now right]. }
    destruct (do_renames_effect restricted m st st' G Or R) as (G1 & K1 & E1).
    apply sim_intro; auto.
    + rewrite K1. apply map_length.
    + intros n Hn. rewrite K1 in Hn. apply in_map_iff in Hn. destruct Hn as (k & E & Hk). eauto.
    + apply (aligned_value restricted (ren m) st st' G1 K1 E1).
Qed.

Theorem col_map_succeeds m st :
  NoDup (colnames st) -> Forall (fun n => valid n = true) (colnames st) -> locked st = false ->
  NoDup (keys m) -> NoDup (entries m) -> Forall (fun n => valid n = true) (entries m) ->
  (forall k, In k (keys m) -> In k (colnames st)) ->
  (forall n, In n (entries m) -> In n (colnames st) -> In n (keys m)) ->
  snd (col_map attr_kind restricted m st) = None.
Proof.
  intros N Va L Nm Ne Ve Hk Hn. unfold col_map. rewrite L.
  assert (G : good restricted st) by (constructor; auto).
  pose proof (entries_inj m Nm Ne) as I.
  assert (Sz : (setsize (entries m) <? setsize (keys m)) = false).
  { apply Nat.ltb_ge. rewrite !setsize_nodup by assumption. unfold keys, entries. rewrite !map_length. lia. }
  rewrite Sz. set (P := keys (items st)) in *.
  destruct (existsb _ (entries m)) eqn:Ov.
  - assert (HmP : forall k n, dget k m = Some n -> In n P -> In n (keys m)).
    { intros k n D Hp. apply Hn; [|exact Hp]. exact (in_map snd _ _ (dget_some_in _ _ _ D)). }
    destruct (collect_total m P HmP (keys m) (mkP [] [] []) (fun o H => H)) as (p & C).
    assert (SR : exists rn sw, safe_reorder m P = inl (rn, sw)).
    { unfold safe_reorder. rewrite C.
      destruct (take_trans (sort_len (p_trans p)) (p_seen p) []) as [seen rn0] eqn:T.
      pose proof (fun h1 h2 => collect_ok m P I (keys m) _ p (fun o H => H) h1 h2 C) as Q; destruct Q as (O & D).
      { constructor; cbn; try constructor; intros; contradiction. } { constructor. }
      destruct O as [O1 O2 O3 O4 O5].
      assert (Fc : Forall (chain m P) (sort_len (p_trans p))).
      { apply Forall_forall. intros t Ht. rewrite Forall_forall in O1. apply O1. now apply in_sort_len. }
      pose proof (fun h => take_trans_ok m P (p_seen p) _ _ _ _ _ Fc h T) as Q; destruct Q as [S Dj Nd Pa Pr Vs Or].
      { constructor; cbn; try tauto; try (constructor; fail); intros; try contradiction. }
      pose proof (fun h0 h1 h2 h3 => take_trans_cover m P (p_seen p) I h0 _ _ _ _ _ [] Fc (Forall_nil _) h1 h2 h3 T) as Q; destruct Q as (M1 & M2).
      { intros t x Ct Hx Hs. pose proof Ct as [from last Lk Nk Pk Fk].
        destruct (O5 x Hs (Pk x Hx)) as (s & S1 & S2). rewrite Forall_forall in O2.
        exact (chain_cycle_disjoint m P t _ _ I Ct (O2 s S1) x Hx S2). }
      { apply sort_len_sorted. }
      { intros a b []. }
      { intros k. split; [auto|]. intros [H|(t & [] & _)]. exact H. }
      destruct (collect_cover m P _ _ _ C) as (C1 & C2 & C3).
      assert (Eq : setsize seen = length m).
      { assert (LK : length (keys m) = length m) by (unfold keys; apply map_length).
        unfold setsize. apply Nat.le_antisymm.
        - rewrite <- LK. apply NoDup_incl_length; [apply fromkeys_nodup|]. intros x Hx. apply fromkeys_in, S in Hx.
          destruct Hx as [Hx|Hx]; [auto|]. apply in_keys_dget in Hx. destruct Hx as [n Dn].
          apply dget_some_in in Dn. exact (dget_in_keys _ _ _ (Pa _ _ Dn)).
        - rewrite <- LK. apply NoDup_incl_length; [exact Nm|]. intros x Hx. apply fromkeys_in.
          destruct (C3 x Hx) as [H|(t & T1 & T2)]; [auto|]. apply (M2 t x); [now apply in_sort_len|exact T2]. }
      apply Nat.eqb_eq in Eq. rewrite Eq. cbn [negb]. eauto. }
    destruct SR as (rn & sw & R). rewrite R.
    pose proof (safe_reorder_ok m _ rn sw Nm I R) as S. pose proof S as [Or Nd Pa Pr Vs Dj Cy Fo Co Fr Nl].
    assert (Ren : snd (do_renames restricted rn st) = None).
    { apply (do_renames_success attr_kind restricted P rn [] [] st G); auto.
      - intros x. unfold P. split; [intros H; left; split; [exact H|intros []]|intros [[H _]|[]]; exact H].
      - apply inj_entries; [exact Nd|]. intros a b n Da Db.
        apply (I a b n); apply Pa; now apply dget_some_in.
      - apply Forall_forall. intros n Hnn. unfold entries in Hnn. apply in_map_iff in Hnn. destruct Hnn as ([a b] & E & Q). cbn in E. subst b.
        rewrite Forall_forall in Ve. apply Ve. exact (in_map snd _ _ (dget_some_in _ _ _ (Pa _ _ Q))). }
    unfold bind. destruct (do_renames restricted rn st) as [s1 e] eqn:R1. cbn in Ren. subst e.
    destruct (do_renames_effect restricted rn st s1 G Or R1) as (G1 & K1 & E1).
    assert (Cl : Forall closed sw).
    { apply Forall_forall. intros [f v] Hs. rewrite Forall_forall in Cy. exact (cyc_closed m _ f v I (Cy _ Hs)). }
    destruct (do_swaps_effect attr_kind restricted sw s1 G1 Fo Cl) as (st2 & R2' & _).
    { intros s k Hs Hkk. rewrite K1. apply in_map_iff. exists k. split; [apply ren_notin; eauto|].
      rewrite Forall_forall in Cy. destruct (Cy s Hs) as [t from last Q1 Q2 Lk Nk Pk La]. apply Pk. now rewrite <- Q1. }
    now rewrite R2'.
  - assert (Dis : forall v, In v (entries m) -> ~ In v P).
    { intros v Hv. apply dmem_not. exact (existsb_none _ _ Ov v Hv). }
    apply (do_renames_success attr_kind restricted P m [] [] st G); auto.
    + intros x. unfold P. split; [intros H; left; split; [exact H|intros []]|intros [[H _]|[]]; exact H].
    + intros k n Q Hkn. subst n. apply (Dis k); [exact (in_map snd _ _ Q)|]. apply Hk. exact (in_map fst _ _ Q).
    + clear - Dis Hk. induction m as [|[k n] r IH]; [exact Logic.I|]. cbn. split.
      * intros Q. apply (Dis n); [now left|]. apply Hk. now right.
      * apply IH; intros; [apply Hk; now right|apply Dis; now right].
    + generalize (@nil string) as done. clear - Dis. induction m as [|[k n] r IH]; [intros; exact Logic.I|]. intros done. cbn. split.
      * intros Q. elim (Dis n); [now left|exact Q].
      * apply IH. intros v Hv. apply Dis. now right.
Qed.
End P.

(** ** Concrete cases *)
Local Open Scope string_scope.
Definition cm_st : struct nat nat :=
  run ex_kind ex_restricted [OSetItem "a" 1; OSetItem "b" 2; OSetItem "c" 3; OSetItem "d" 4; OAttr "a" (fun _ => 7)].
(** a 2-cycle a<->b together with the chain c -> d -> e *)
Definition cm_map : dict string := [("a", "b"); ("c", "d"); ("d", "e"); ("b", "a")].
Lemma cm_ex : snd (col_map ex_kind ex_restricted cm_map cm_st) = None /\
  items (fst (col_map ex_kind ex_restricted cm_map cm_st)) = [("a", (2, Some 7)); ("b", (1, None)); ("d", (3, None)); ("e", (4, None))].
Proof. split; reflexivity. Qed.
Lemma cm_hyps : NoDup (colnames cm_st) /\ Forall (fun n => valid_colname ex_restricted n = true) (colnames cm_st) /\
  NoDup (keys cm_map) /\ (forall k, In k (keys cm_map) -> In k (colnames cm_st)).
Proof.
  split; [apply nodupb_nodup; reflexivity|]. split; [repeat constructor|]. split; [apply nodupb_nodup; reflexivity|].
  cbn. intros k. intuition.
Qed.

(** sequential instead of simultaneous: {'a':'x','x':'y'} on a Struct with the single column 'a' *)
Lemma cm_refuted_sequential :
  let st := run ex_kind ex_restricted [OSetItem "a" 1 : op nat nat] in
  let r := col_map ex_kind ex_restricted [("a", "x"); ("x", "y")] st in
  snd r = None /\ colnames (fst r) = ["y"] /\ ~ simultaneous_rename [("a", "x"); ("x", "y")] st (fst r).
Proof.
  cbn. split; [reflexivity|]. split; [reflexivity|]. intros (_ & H & _).
  specialize (H "y"). cbn in H. destruct H as [H _]. destruct (H (or_introl eq_refl)) as [Q|[]]. discriminate Q.
Qed.
(** a raising call is not atomic *)
Lemma cm_refuted_atomic :
  let st := run ex_kind ex_restricted [OSetItem "a" 1; OSetItem "b" 2 : op nat nat] in
  let r := col_map ex_kind ex_restricted [("a", "x"); ("b", "_y")] st in
  snd r = Some EValue /\ colnames (fst r) = ["x"; "b"].
Proof. split; reflexivity. Qed.
(** attributes stay with the name, not with the renamed column, on a cycle *)
Lemma cm_refuted_attr :
  let r := col_map ex_kind ex_restricted [("a", "b"); ("b", "a")] cm_st in
  snd r = None /\ value (fst r) "b" = value cm_st "a" /\ attr cm_st "a" = Some 7 /\ attr (fst r) "b" = None /\ attr (fst r) "a" = Some 7.
Proof. repeat split; reflexivity. Qed.
