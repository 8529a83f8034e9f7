(** Proofs for C13: col_map. *)
From Coq Require Import String Ascii List Arith Bool Lia Permutation.
From Verif Require Import ItemsModel ItemsSpec ItemsFacts ItemsProofs ItemsProofs2.
Import ListNotations.
Open Scope list_scope.

(** the new name of [k] under an association list *)
Definition ren (m : dict string) (k : string) : string := match dget k m with Some n => n | None => k end.

(** *** get_seq: linked sequences *)
(** [linked m from t last]: t = [(k0,k1);(k1,k2);...;(kn,last)] with k0 = from, all pairs given by m *)
Inductive linked (m : dict string) : string -> dict string -> string -> Prop :=
| ln_one k last : dget k m = Some last -> linked m k [(k, last)] last
| ln_cons k k' t last : dget k m = Some k' -> linked m k' t last -> linked m k ((k, k') :: t) last.

Lemma linked_snoc m t : forall from last to, linked m from t last -> dget last m = Some to ->
  linked m from (t ++ [(last, to)]) to.
Proof.
  intros from last to H. revert to. induction H; intros to D; cbn.
  - constructor; [assumption|]. now constructor.
  - constructor; auto.
Qed.
Lemma linked_pairs m from t last : linked m from t last -> forall k n, In (k, n) t -> dget k m = Some n.
Proof.
  induction 1 as [k l D|k k' t l D L IH]; cbn; intros a b I.
  - destruct I as [[= -> ->]|[]]. exact D.
  - destruct I as [[= -> ->]|I]; [exact D|]. auto.
Qed.
Lemma linked_head m from t last : linked m from t last -> In from (keys t).
Proof. destruct 1; cbn; auto. Qed.
(** a value is the last target or a key of the sequence *)
Lemma linked_vals m from t last : linked m from t last -> forall k n, In (k, n) t -> n = last \/ In n (keys t).
Proof.
  induction 1 as [k l D|k k' t l D L IH]; cbn; intros a b I.
  - destruct I as [[= -> ->]|[]]. auto.
  - destruct I as [[= -> ->]|I].
    + right. right. exact (linked_head _ _ _ _ L).
    + destruct (IH a b I); auto.
Qed.
Lemma linked_last m from t last : linked m from t last -> exists k, In (k, last) t.
Proof. induction 1 as [k l D|k k' t l D L [x IH]]; cbn; eauto. Qed.
(** every key but the head is the value of a key *)
Lemma linked_pred m from t last : linked m from t last -> forall n, In n (keys t) -> n = from \/ exists k, In (k, n) t.
Proof.
  induction 1 as [k l D|k k' t l D L IH]; cbn; intros n I.
  - destruct I as [<-|[]]. auto.
  - destruct I as [<-|I]; [auto|]. right. destruct (IH n I) as [->|[x Hx]]; eauto.
Qed.

(** all [inl] answers of get_seq *)
Lemma get_seq_spec m P : forall fuel from seqd start t b,
  (seqd = [] /\ from = start \/ linked m start seqd from) -> NoDup (keys seqd) ->
  (forall k, In k (keys seqd) -> In k P) -> In from P ->
  get_seq fuel m P from seqd = inl (t, b) ->
  exists last, linked m start t last /\ NoDup (keys t) /\ (forall k, In k (keys t) -> In k P) /\
    (b = false -> ~ In last P) /\ (b = true -> In last (keys t)).
Proof.
  induction fuel as [|fuel IH]; intros from seqd start t b S N Pk Pf; cbn [get_seq].
  - destruct (dmem from seqd) eqn:M; [|discriminate]. intros [= <- <-].
    apply dmem_in in M. destruct S as [[-> _]|S]; [contradiction|].
    exists from. repeat split; auto; discriminate.
  - destruct (dmem from seqd) eqn:M.
    + intros [= <- <-]. apply dmem_in in M. destruct S as [[-> _]|S]; [contradiction|].
      exists from. repeat split; auto; discriminate.
    + destruct (dget from m) as [to|] eqn:D; [|discriminate].
      apply dmem_not in M.
      assert (E : dset from to seqd = seqd ++ [(from, to)]) by now apply dset_fresh.
      assert (L' : linked m start (dset from to seqd) to).
      { rewrite E. destruct S as [[-> ->]|S]; [now constructor|]. now apply linked_snoc. }
      assert (N' : NoDup (keys (dset from to seqd))) by now apply nodup_dset.
      assert (P' : forall k, In k (keys (dset from to seqd)) -> In k P).
      { intros k Hk. apply in_keys_dset in Hk. destruct Hk as [->|Hk]; auto. }
      destruct (smem to P) eqn:Mp; cbn [negb].
      * intros G. apply smem_in in Mp. eapply IH; [right; exact L'|exact N'|exact P'|exact Mp|exact G].
      * intros [= <- <-]. exists to. repeat split; auto; [|discriminate]. intros _. now apply smem_not.
Qed.

(** fuel never runs out when [seqd] only holds keys of [m] *)
Lemma get_seq_fuel m P : forall fuel from seqd, length m < fuel + length seqd -> NoDup (keys seqd) ->
  (forall k, In k (keys seqd) -> In k (keys m)) -> get_seq fuel m P from seqd <> inr EFuel.
Proof.
  induction fuel as [|fuel IH]; intros from seqd L N S; cbn [get_seq].
  - exfalso. cbn in L. pose proof (NoDup_incl_length N S) as Q. unfold keys in Q. rewrite !map_length in Q. lia.
  - destruct (dmem from seqd) eqn:M; [discriminate|]. destruct (dget from m) as [to|] eqn:D; [|discriminate].
    destruct (negb (smem to P)); [discriminate|]. apply IH.
    + rewrite dset_fresh, app_length by now apply dmem_not. cbn. lia.
    + now apply nodup_dset.
    + intros k Hk. apply in_keys_dset in Hk. destruct Hk as [->|Hk]; [exact (dget_in_keys _ _ _ D)|auto].
Qed.
(** no KeyError when every protected target is itself renamed *)
Lemma get_seq_nokey m P : (forall k n, dget k m = Some n -> In n P -> In n (keys m)) ->
  forall fuel from seqd, In from (keys m) -> get_seq fuel m P from seqd <> inr EKey.
Proof.
  intros H. induction fuel as [|fuel IH]; intros from seqd I; cbn [get_seq]; destruct (dmem from seqd); try discriminate.
  apply in_keys_dget in I. destruct I as [to D]. rewrite D.
  destruct (smem to P) eqn:M; cbn [negb]; [|discriminate]. apply IH. eapply H; [exact D|now apply smem_in].
Qed.
Lemma get_seq_exc m P : forall fuel from seqd e, get_seq fuel m P from seqd = inr e -> e = EFuel \/ e = EKey.
Proof.
  induction fuel as [|fuel IH]; intros from seqd e; cbn [get_seq]; destruct (dmem from seqd); try discriminate.
  - intros [= <-]. auto.
  - destruct (dget from m); [|intros [= <-]; auto]. destruct (negb _); [discriminate|]. apply IH.
Qed.

(** *** collect *)
Inductive chain (m : dict string) (P : list string) (t : dict string) : Prop :=
| mkChain (from last : string) (L : linked m from t last) (N : NoDup (keys t))
    (Pr : forall k, In k (keys t) -> In k P) (Fr : ~ In last P).
Inductive cyc (m : dict string) (P : list string) (f v : list string) : Prop :=
| mkCyc (t : dict string) (from last : string) (Ef : f = keys t) (Ev : v = entries t)
    (L : linked m from t last) (N : NoDup (keys t)) (Pr : forall k, In k (keys t) -> In k P)
    (La : In last (keys t)).

(** what holds of the plan while [todo] remains *)
Record plan_ok (m : dict string) (P : list string) (p : plan) : Prop := mkPO {
  po_trans : Forall (chain m P) (p_trans p);
  po_swaps : Forall (fun s => cyc m P (fst s) (snd s)) (p_swaps p);
  po_seen_m : forall k, In k (p_seen p) -> In k (keys m);
  po_swaps_seen : forall s k, In s (p_swaps p) -> In k (fst s) -> In k (p_seen p);
  (* a seen protected name belongs to a recorded cycle *)
  po_seen : forall k, In k (p_seen p) -> In k P -> exists s, In s (p_swaps p) /\ In k (fst s) }.

(** injectivity of the rename dictionary *)
Definition inj (m : dict string) : Prop := forall a b n, dget a m = Some n -> dget b m = Some n -> a = b.

(** the cycles of a list are pairwise disjoint *)
Inductive disjoint_swaps : list (list string * list string) -> Prop :=
| ds_nil : disjoint_swaps []
| ds_snoc l s : disjoint_swaps l -> (forall s' k, In s' l -> In k (fst s') -> ~ In k (fst s)) -> disjoint_swaps (l ++ [s]).

(** with an injective dictionary a "cycle" answer really is a cycle *)
Lemma linked_cycle_start m : inj m -> forall from t last, linked m from t last -> NoDup (keys t) -> In last (keys t) -> last = from.
Proof.
  intros I from t last L. induction L as [k l D|k k' t l D L IH]; cbn [keys map fst]; intros N H.
  - destruct H as [H|[]]. symmetry. exact H.
  - apply NoDup_cons_iff in N. destruct N as [N1 N2]. destruct H as [H|H]; [symmetry; exact H|].
    pose proof (IH N2 H) as ->. destruct (linked_last _ _ _ _ L) as [x Hx].
    pose proof (linked_pairs _ _ _ _ L x k' Hx) as Dx.
    assert (x = k) by (eapply I; eauto). subst x. elim N1. exact (in_map fst _ _ Hx).
Qed.
(** the values of a closed cycle are exactly its keys *)
Lemma cycle_values m : inj m -> forall from t last, linked m from t last -> NoDup (keys t) -> In last (keys t) ->
  forall n, In n (entries t) <-> In n (keys t).
Proof.
  intros I from t last L N H n. pose proof (linked_cycle_start m I _ _ _ L N H) as E. subst last. unfold entries. split.
  - intros G. apply in_map_iff in G. destruct G as ([a b] & <- & G). cbn.
    destruct (linked_vals _ _ _ _ L a b G) as [->|]; auto.
  - intros G. destruct (linked_pred _ _ _ _ L n G) as [->|[k Hk]].
    + destruct (linked_last _ _ _ _ L) as [x Hx]. exact (in_map snd _ _ Hx).
    + exact (in_map snd _ _ Hk).
Qed.
(** walking backwards into a cycle stays in the cycle *)
Lemma linked_back m (S : string -> Prop) : (forall a n, dget a m = Some n -> S n -> S a) ->
  forall from t last, linked m from t last -> (exists k, In k (keys t) /\ S k) -> S from.
Proof.
  intros Cl from t last L. induction L as [k l D|k k' t l D L IH]; cbn [keys map fst]; intros (x & H & Sx).
  - destruct H as [<-|[]]. exact Sx.
  - destruct H as [<-|H]; [exact Sx|]. eapply Cl; [exact D|]. apply IH. exists x. auto.
Qed.
(** walking forwards inside a cycle *)
Lemma cyc_closed_back m P f v : inj m -> cyc m P f v -> forall a n, dget a m = Some n -> In n f -> In a f.
Proof.
  intros I [t from last -> -> L N Pr La] a n D H.
  pose proof (cycle_values m I _ _ _ L N La) as E. apply E in H. unfold entries in H.
  apply in_map_iff in H. destruct H as ([x y] & Hy & Hx). cbn in Hy. subst y.
  pose proof (linked_pairs _ _ _ _ L _ _ Hx) as Dx. assert (a = x) by (eapply I; eauto). subst. exact (in_map fst _ _ Hx).
Qed.

Lemma collect_ok m P : inj m -> forall todo p p',
  (forall o, In o todo -> In o (keys m)) ->
  plan_ok m P p -> disjoint_swaps (p_swaps p) -> collect m P todo p = inl p' ->
  plan_ok m P p' /\ disjoint_swaps (p_swaps p').
Proof.
  intros I. induction todo as [|o r IH]; cbn [collect]; intros p p' T O Dj H.
  - injection H as <-. auto.
  - destruct (smem o (p_seen p)) eqn:So; [eapply IH; eauto; intros; apply T; now right|].
    apply smem_not in So.
    destruct (smem o P) eqn:Po; cbn [negb] in H.
    + apply smem_in in Po.
      destruct (get_seq (S (length m)) m P o []) as [[t b]|e] eqn:G; [|discriminate].
      destruct (get_seq_spec m P _ o [] o t b (or_introl (conj eq_refl eq_refl)) (NoDup_nil _) (fun k F => match F with end) Po G)
        as (last & L & N & Pk & Fr & Cy).
      destruct O as [O1 O2 O3 O4 O5].
      destruct b.
      * specialize (Cy eq_refl). eapply IH; [intros; apply T; now right| | |exact H]; cbn [p_swaps].
        -- constructor; cbn [p_trans p_swaps p_seen]; auto.
           ++ apply Forall_app. split; [exact O2|]. constructor; [|constructor]. cbn [fst snd].
              exact (mkCyc m P _ _ t o last eq_refl eq_refl L N Pk Cy).
           ++ intros k Hk. apply in_app_or in Hk. destruct Hk as [Hk|Hk]; [auto|].
              unfold keys in Hk. apply in_map_iff in Hk. destruct Hk as ([a c] & <- & Hk).
              exact (dget_in_keys _ _ _ (linked_pairs _ _ _ _ L a c Hk)).
           ++ intros s k Hs Hk. apply in_app_or in Hs. apply in_or_app. destruct Hs as [Hs|[<-|[]]]; [left; eauto|right; exact Hk].
           ++ intros k Hk Pkk. apply in_app_or in Hk. destruct Hk as [Hk|Hk].
              ** destruct (O5 k Hk Pkk) as (s & H1 & H2). exists s. split; [apply in_or_app; auto|exact H2].
              ** exists (keys t, entries t). split; [apply in_or_app; right; left; reflexivity|exact Hk].
        -- constructor; [exact Dj|]. intros s' k Hs Hk Hk'. cbn [fst] in Hk'.
           rewrite Forall_forall in O2. pose proof (cyc_closed_back m P _ _ I (O2 s' Hs)) as Cl.
           pose proof (linked_back m (fun x => In x (fst s')) Cl _ _ _ L (ex_intro _ k (conj Hk' Hk))) as Q.
           apply So. eapply O4; eauto.
      * specialize (Fr eq_refl). eapply IH; [intros; apply T; now right| | |exact H]; [|exact Dj].
        constructor; cbn [p_trans p_swaps p_seen]; auto. apply Forall_app. split; [exact O1|].
        constructor; [|constructor]. exact (mkChain m P t o last L N Pk Fr).
    + apply smem_not in Po. destruct O as [O1 O2 O3 O4 O5].
      eapply IH; [intros; apply T; now right| | |exact H]; [|exact Dj].
      constructor; cbn [p_trans p_swaps p_seen]; auto.
      * intros k Hk. apply in_app_or in Hk. destruct Hk as [Hk|[<-|[]]]; [auto|]. apply T. now left.
      * intros s k Hs Hk. apply in_or_app. left. eauto.
      * intros k Hk Pk. apply in_app_or in Hk. destruct Hk as [Hk|[<-|[]]]; [auto|]. contradiction.
Qed.

(** *** take_trans: the rename list *)
Lemma in_insert_len x l y : In y (insert_len x l) <-> y = x \/ In y l.
Proof.
  induction l as [|z l IH]; cbn; [intuition|]. destruct (length z <=? length x); cbn; [intuition|]. rewrite IH. intuition.
Qed.
Lemma in_sort_len l y : In y (sort_len l) <-> In y l.
Proof. induction l as [|x l IH]; cbn; [tauto|]. rewrite in_insert_len, IH. intuition. Qed.

(** names introduced by a rename are never renamed again later in the list *)
Fixpoint ordered (rs : dict string) : Prop :=
  match rs with [] => True | (_, n) :: r => ~ In n (keys r) /\ ordered r end.
Lemma ordered_app a b : ordered a -> ordered b -> (forall k n, In (k, n) a -> ~ In n (keys b)) -> ordered (a ++ b).
Proof.
  induction a as [|[k n] a IH]; cbn; intros Ha Hb H; [exact Hb|]. split.
  - unfold keys in *. rewrite map_app, in_app_iff. intros [G|G]; [tauto|]. apply (H k n); auto.
  - apply IH; tauto || (intros; eapply H; eauto).
Qed.
Lemma keys_rev {E} (t : dict E) : keys (rev t) = rev (keys t).
Proof. unfold keys. apply map_rev. Qed.
Lemma keys_app {E} (a b : dict E) : keys (a ++ b) = keys a ++ keys b.
Proof. unfold keys. apply map_app. Qed.

Lemma linked_rev_ordered m : forall from t last, linked m from t last -> NoDup (keys t) -> ~ In last (keys t) -> ordered (rev t).
Proof.
  intros from t last L. induction L as [k l D|k k' t l D L IH]; cbn [rev app keys map fst]; intros N H.
  - cbn. auto.
  - apply NoDup_cons_iff in N. destruct N as [N1 N2]. cbn in H.
    apply ordered_app; [apply IH; auto| cbn; auto|].
    intros a b G. cbn. intros [E|[]]. subst b. apply in_rev in G.
    destruct (linked_vals _ _ _ _ L a k G) as [->|Q]; [tauto|]. contradiction.
Qed.

Record take_ok (m : dict string) (P : list string) (seen : list string) (rn : dict string) (seen0 : list string) : Prop := mkTO {
  to_seen : forall k, In k seen <-> In k seen0 \/ In k (keys rn);
  to_disj : forall k, In k (keys rn) -> ~ In k seen0;
  to_nodup : NoDup (keys rn);
  to_pairs : forall k n, In (k, n) rn -> dget k m = Some n;
  to_prot : forall k, In k (keys rn) -> In k P;
  to_vals : forall k n, In (k, n) rn -> ~ In n P \/ In n (keys rn);
  to_ord : ordered rn }.

Lemma nodup_app_intro {X} (a b : list X) : NoDup a -> NoDup b -> (forall x, In x a -> ~ In x b) -> NoDup (a ++ b).
Proof.
  induction a as [|x a IH]; cbn; intros Na Nb H; [exact Nb|]. apply NoDup_cons_iff in Na. destruct Na as [N1 N2].
  constructor; [rewrite in_app_iff; intros [G|G]; [contradiction|]; apply (H x); auto|]. apply IH; auto.
Qed.

Lemma take_trans_ok m P seen0 : forall ts seen rn seen' rn',
  Forall (chain m P) ts -> take_ok m P seen rn seen0 -> take_trans ts seen rn = (seen', rn') ->
  take_ok m P seen' rn' seen0.
Proof.
  induction ts as [|t r IH]; cbn [take_trans]; intros seen rn seen' rn' F O H.
  - injection H as <- <-. exact O.
  - inversion F as [|? ? Ct Fr]; subst. destruct (existsb _ (keys t)) eqn:X; [eapply IH; eauto|].
    eapply IH; [exact Fr| |exact H]. clear IH H.
    destruct Ct as [from last L N Pk Fre]. destruct O as [S D Nd Pa Pr Va Or].
    assert (Fresh : forall k, In k (keys t) -> ~ In k seen).
    { intros k Hk. apply smem_not. exact (existsb_none _ _ X k Hk). }
    assert (Kr : forall k, In k (keys (rev t)) <-> In k (keys t)) by (intros k; rewrite keys_rev, <- in_rev; reflexivity).
    assert (Nr : NoDup (keys rn ++ keys (rev t))).
    { apply nodup_app_intro; [exact Nd|rewrite keys_rev; now apply NoDup_rev|].
      intros k H1 H2. apply Kr in H2. apply (Fresh k H2). apply S. now right. }
    rewrite (fold_dset_fresh (rev t) rn Nr).
    assert (Lf : ~ In last (keys t)) by (intros Q; apply Fre; auto).
    constructor.
    + intros k. rewrite in_app_iff, S, keys_app, in_app_iff. tauto.
    + intros k. rewrite keys_app, in_app_iff. intros [G|G]; [auto|]. apply Kr in G. intros Q. apply (Fresh k G). apply S. now left.
    + rewrite keys_app. exact Nr.
    + intros k n G. apply in_app_or in G. destruct G as [G|G]; [auto|]. apply in_rev in G. eapply linked_pairs; eauto.
    + intros k. rewrite keys_app, in_app_iff. intros [G|G]; [auto|]. apply Pk. now apply Kr.
    + intros k n G. rewrite keys_app, in_app_iff. apply in_app_or in G. destruct G as [G|G].
      * destruct (Va k n G); auto.
      * apply in_rev in G. destruct (linked_vals _ _ _ _ L k n G) as [->|Q]; [auto|]. right. right. now apply Kr.
    + apply ordered_app; [exact Or|eapply linked_rev_ordered; eauto|].
      intros k n G Q. apply Kr in Q. destruct (Va k n G) as [Z|Z]; [apply Z; auto|].
      apply (Fresh n Q). apply S. now right.
Qed.
