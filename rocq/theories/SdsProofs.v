(** Proofs about file names and the tree built from them (SdsModel.v). *)
From Coq Require Import List Arith Bool Lia Permutation.
From Verif Require Import FlattenModel DsModel SdsModel SdsSpec FlattenProofs DsProofs3 AggProofs2.
Import ListNotations.

Definition clear_name (k : name) : Prop := ~ In bang k.

Lemma split_ne s : split_bang s <> [].
Proof. destruct s as [|c r]; cbn [split_bang]; [easy|]. destruct (c =? bang); [easy|]. destruct (split_bang r); easy. Qed.
Lemma split_clear s : Forall clear_name (split_bang s).
Proof.
  induction s as [|c r IH]; cbn [split_bang].
  - constructor; [intros []|constructor].
  - destruct (Nat.eqb_spec c bang) as [->|N].
    + constructor; [intros []|exact IH].
    + destruct (split_bang r) as [|h t]; [constructor; [|constructor]|].
      * intros [E|[]]; congruence.
      * inversion IH as [|x l H1 H2]; subst. constructor; [|exact H2]. intros [E|I]; [congruence|exact (H1 I)].
Qed.
Lemma split_one k : clear_name k -> split_bang k = [k].
Proof.
  induction k as [|c r IH]; intros H; cbn [split_bang]; [reflexivity|].
  destruct (Nat.eqb_spec c bang) as [->|N]; [destruct H; now left|].
  rewrite IH; [reflexivity|]. intros I. apply H. now right.
Qed.
Lemma split_app k s : clear_name k -> split_bang (k ++ bang :: s) = k :: split_bang s.
Proof.
  induction k as [|c r IH]; intros H; cbn [split_bang app].
  - rewrite Nat.eqb_refl. reflexivity.
  - destruct (Nat.eqb_spec c bang) as [->|N]; [destruct H; now left|].
    rewrite IH; [reflexivity|]. intros I. apply H. now right.
Qed.
Lemma join_cons k q : q <> [] -> join (k :: q) = k ++ bang :: join q.
Proof. destruct q; [easy|reflexivity]. Qed.
Lemma split_join p : p <> [] -> Forall clear_name p -> split_bang (join p) = p.
Proof.
  induction p as [|k q IH]; intros N H; [easy|].
  inversion H as [|x l H1 H2]; subst.
  destruct q as [|k' q]; [exact (split_one k H1)|].
  rewrite join_cons by easy. rewrite split_app by exact H1. rewrite IH; easy.
Qed.
Lemma join_split s : join (split_bang s) = s.
Proof.
  induction s as [|c r IH]; cbn [split_bang]; [reflexivity|].
  destruct (Nat.eqb_spec c bang) as [->|N].
  - rewrite join_cons by apply split_ne. rewrite IH. reflexivity.
  - destruct (split_bang r) as [|h t] eqn:E; [destruct (split_ne r E)|].
    rewrite <- IH. destruct t; reflexivity.
Qed.
Lemma join_inj p q : p <> [] -> q <> [] -> Forall clear_name p -> Forall clear_name q -> join p = join q -> p = q.
Proof. intros Np Nq Hp Hq E. rewrite <- (split_join p), <- (split_join q) by easy. now rewrite E. Qed.
Lemma join_app p q : p <> [] -> q <> [] -> join (p ++ q) = join p ++ bang :: join q.
Proof.
  induction p as [|k r IH]; intros Np Nq; [easy|].
  destruct r as [|k' r]; [apply join_cons; exact Nq|].
  cbn [app]. rewrite join_cons by easy. rewrite (join_cons k (k' :: r)) by easy.
  change (k' :: r ++ q) with ((k' :: r) ++ q). rewrite IH by easy. rewrite <- app_assoc. reflexivity.
Qed.
(** the name of the container reached by [p]; None for the root *)
Definition pre_of (p : list name) : option name := match p with [] => None | _ => Some (join p) end.
Lemma under_pre p k : under (pre_of p) k = join (p ++ [k]).
Proof.
  destruct p as [|h t]; [reflexivity|]. cbn [pre_of under].
  rewrite (join_app (h :: t) [k]) by easy. reflexivity.
Qed.
Lemma pre_snoc p k : pre_of (p ++ [k]) = Some (under (pre_of p) k).
Proof. rewrite under_pre. destruct p; reflexivity. Qed.

(** ---------- the extension ---------- *)
Lemma endswith_app p k : ~ In bang ext -> endswith k ext = false -> endswith (p ++ bang :: k) ext = false.
Proof.
  intros _. unfold endswith. rewrite rev_app_distr. cbn [rev]. rewrite <- app_assoc.
  set (r := rev k). set (t := [bang] ++ rev p). change (rev ext) with [115; 100; 115; 46].
  intros H. destruct r as [|c0 [|c1 [|c2 [|c3 r]]]]; cbn in H |- *; rewrite ?andb_false_r; try reflexivity; exact H.
Qed.
Lemma stem_id s : endswith s ext = false -> stem s = s.
Proof. unfold stem. now intros ->. Qed.
Lemma after_last_none k : clear_name k -> after_last k = None.
Proof.
  induction k as [|c r IH]; intros H; cbn [after_last]; [reflexivity|].
  rewrite IH by (intros I; apply H; now right).
  destruct (Nat.eqb_spec c bang) as [->|N]; [destruct H; now left|reflexivity].
Qed.
Lemma after_last_app p k : clear_name k -> after_last (p ++ bang :: k) = Some k.
Proof.
  intros H. induction p as [|c r IH]; cbn [app after_last].
  - rewrite (after_last_none k H), Nat.eqb_refl. reflexivity.
  - rewrite IH. reflexivity.
Qed.
Lemma leaf_under pre k : clear_name k -> leaf_name (under pre k) = k.
Proof.
  intros H. unfold leaf_name. destruct pre as [p|]; cbn [under].
  - rewrite (after_last_app p k H). reflexivity.
  - rewrite (after_last_none k H). reflexivity.
Qed.
Lemma escapes_plain pre k : plain_name k -> escapes (under pre k) = false.
Proof.
  intros (H1 & _ & _ & H4). unfold escapes. rewrite (leaf_under pre k H1).
  destruct (existsb (fun c => existsb (Nat.eqb c) invalid_chars) k) eqn:E; [|reflexivity].
  apply existsb_exists in E. destruct E as (c & I & E). apply existsb_exists in E. destruct E as (c' & I' & E).
  apply Nat.eqb_eq in E. subst c'. destruct (H4 c I I').
Qed.
Lemma stem_plain pre k : plain_name k -> stem (under pre k) = under pre k.
Proof.
  intros (H1 & H2 & _ & _). apply stem_id. destruct pre as [p|]; cbn [under]; [|exact H2].
  apply endswith_app; [|exact H2]. cbn. intuition discriminate.
Qed.

(** ---------- the tree of file names ---------- *)
Inductive sch_ok : (list name -> Prop) -> schema -> Prop :=
| Sch_ok (P : list name -> Prop) kids : NoDup (map fst kids) ->
    (forall k, In k (map fst kids) <-> exists q, P (k :: q)) ->
    (forall k s, In (k, s) kids -> sch_ok (fun q => P (k :: q)) s) ->
    sch_ok P (Node kids).
Lemma schema_rect' (Q : schema -> Prop) : (forall kids, (forall k s, In (k, s) kids -> Q s) -> Q (Node kids)) -> forall s, Q s.
Proof.
  intros H. fix IH 1. intros [kids]. apply H. induction kids as [|[k s] r IHr]; intros k' s' I; [destruct I|].
  destruct I as [E|I]; [injection E as _ <-; exact (IH s)|exact (IHr k' s' I)].
Qed.
Lemma sch_ext s : forall P Q, (forall q, P q <-> Q q) -> sch_ok P s -> sch_ok Q s.
Proof.
  induction s as [kids IH] using schema_rect'. intros P Q E H. inversion H as [P' kids' N1 N2 N3 E1 E2]; subst.
  constructor; [exact N1| |].
  - intros k. rewrite (N2 k). split; intros [q I]; exists q; apply E; exact I.
  - intros k s I. apply (IH k s I (fun q => P (k :: q))); [intros q; apply E|exact (N3 k s I)].
Qed.
Lemma sch_empty P : (forall k q, ~ P (k :: q)) -> sch_ok P (Node []).
Proof. intros H. constructor; [constructor| |intros k s []]. intros k. split; [intros []|intros [q I]; destruct (H k q I)]. Qed.
Lemma in_dset {X} k (v : X) d : NoDup (map fst d) -> forall k' v', In (k', v') (dset k v d) <-> (k' = k /\ v' = v) \/ (k' <> k /\ In (k', v') d).
Proof.
  intros N k' v'. pose proof (DsProofs3.dset_nodup k v d N) as N'. split.
  - intros I. apply (dget_nodup _ _ _ N') in I. rewrite dget_dset in I.
    destruct (name_dec k k') as [->|D]; [injection I as ->; now left|]. right. split; [congruence|]. exact (dget_some_in _ _ _ I).
  - intros [[-> ->]|[D I]]; apply dget_some_in; rewrite dget_dset.
    + destruct (name_dec k k); [reflexivity|congruence].
    + destruct (name_dec k k'); [congruence|]. exact (dget_nodup _ _ _ N I).
Qed.
Lemma sins_ok p : forall P kids, sch_ok P (Node kids) -> sch_ok (fun q => P q \/ q = p) (Node (sins p kids)).
Proof.
  induction p as [|n r IH]; intros P kids H; cbn [sins].
  - inversion H as [P' kids' N1 N2 N3 E1 E2]; subst. constructor; [exact N1| |].
    + intros k. rewrite (N2 k). split; intros [q I]; exists q; [now left|]. destruct I as [I|I]; [exact I|discriminate].
    + intros k s I. apply (sch_ext s (fun q => P (k :: q))); [|exact (N3 k s I)]. intros q. split; [now left|]. intros [J|J]; [exact J|discriminate].
  - inversion H as [P' kids' N1 N2 N3 E1 E2]; subst.
    assert (Hs : sch_ok (fun q => P (n :: q)) (Node (match dget n kids with Some s => kids_of s | None => [] end))).
    { destruct (dget n kids) as [s|] eqn:G.
      - apply dget_some_in in G. destruct s as [ks]. exact (N3 n _ G).
      - apply sch_empty. intros k q I. apply dget_none in G. apply G. apply N2. exists (k :: q). exact I. }
    apply IH in Hs. constructor.
    + apply DsProofs3.dset_nodup. exact N1.
    + intros k. rewrite in_map_iff. split.
      * intros [[k' s'] [E I]]. cbn in E. subst k'. apply (in_dset _ _ _ N1) in I. destruct I as [[-> ->]|[D I]].
        -- exists r. now right.
        -- assert (J : In k (map fst kids)) by (apply in_map_iff; exists (k, s'); easy).
           apply N2 in J. destruct J as [q J]. exists q. now left.
      * intros [q [I|I]].
        -- assert (J : In k (map fst kids)) by (apply N2; exists q; exact I). apply in_map_iff in J. destruct J as [[k' s'] [E J]]. cbn in E. subst k'.
           destruct (name_dec k n) as [->|D].
           ++ eexists (n, _). split; [reflexivity|]. apply (in_dset _ _ _ N1). left. split; reflexivity.
           ++ exists (k, s'). split; [reflexivity|]. apply (in_dset _ _ _ N1). right. split; assumption.
        -- injection I as -> ->. eexists (n, _). split; [reflexivity|]. apply (in_dset _ _ _ N1). left. split; reflexivity.
    + intros k s I. apply (in_dset _ _ _ N1) in I. destruct I as [[-> ->]|[D I]].
      * eapply sch_ext; [|exact Hs]. intros q. cbn beta. split; intros [J|J]; [now left|right; now subst|now left|]. injection J as ->. now right.
      * apply (sch_ext s (fun q => P (k :: q))); [|exact (N3 k s I)]. intros q. split; [now left|].
        intros [J|J]; [exact J|]. injection J as J1 _. congruence.
Qed.
Lemma build_ok stems : sch_ok (fun q => exists f, In f stems /\ split_bang f = q) (Node (build_schema stems)).
Proof.
  unfold build_schema.
  assert (G : forall l s P, sch_ok P (Node s) -> sch_ok (fun q => P q \/ exists f, In f l /\ split_bang f = q) (Node (fold_left (fun s f => sins (split_bang f) s) l s))).
  { induction l as [|f r IH]; intros s P H; cbn [fold_left].
    - eapply sch_ext; [|exact H]. intros q. split; [now left|]. intros [I|[f [[] _]]]. exact I.
    - apply (sins_ok (split_bang f)) in H. apply IH in H. eapply sch_ext; [|exact H]. intros q. cbn beta. split.
      + intros [[I|I]|[g [I E]]]; [now left|right; exists f; split; [now left|congruence]|right; exists g; split; [now right|exact E]].
      + intros [I|[g [[<-|I] E]]]; [now left; left|left; right; congruence|right; exists g; easy]. }
  specialize (G stems [] (fun _ => False) (sch_empty _ (fun k q x => x))).
  eapply sch_ext; [|exact G]. intros q. cbn beta. split; [intros [[]|I]; exact I|now right].
Qed.
