From Coq Require Import List Arith Bool Lia DecimalNat.
From Verif Require Import FlattenModel FlattenSpec.
Import ListNotations.

(** ** dict *)
Lemma dset_fresh {X} k (v : X) d : ~ In k (map fst d) -> dset k v d = d ++ [(k, v)].
Proof.
  induction d as [|[k' v'] d IH]; cbn; intros H; [reflexivity|]. destruct (name_dec k' k) as [->|]; [elim H; now left|]. rewrite IH by tauto. reflexivity.
Qed.
Lemma dset_all_fresh {X} (l d : list (name * X)) : NoDup (map fst l) -> (forall k, In k (map fst l) -> ~ In k (map fst d)) -> dset_all l d = d ++ l.
Proof.
  unfold dset_all. revert d. induction l as [|[k v] l IH]; intros d N D; cbn [fold_left fst snd]; [now rewrite app_nil_r|]. inversion N as [|? ? N1 N2]; subst.
  rewrite dset_fresh by (apply D; now left). rewrite IH; [now rewrite <- app_assoc|exact N2|]. intros k' Hk. rewrite map_app, in_app_iff. cbn.
  intros [H|[<-|[]]]; [|contradiction]. apply (D k'); [now right|exact H].
Qed.
Lemma dget_in {X} k (v : X) d : NoDup (map fst d) -> In (k, v) d -> dget k d = Some v.
Proof.
  induction d as [|[k' v'] d IH]; cbn; intros N H; [contradiction|]. inversion N as [|? ? N1 N2]; subst. destruct H as [H|H].
  - injection H as -> ->. now destruct (name_dec k k).
  - destruct (name_dec k' k) as [->|]; [|now apply IH]. elim N1. now apply in_map with (f := fst) in H.
Qed.

(** ** names *)
Lemma sw_app a p s : startswith (a ++ p) (a ++ s) = startswith p s.
Proof. induction a as [|x a IH]; cbn; [reflexivity|]. now rewrite Nat.eqb_refl. Qed.
Lemma sw_prefix a p s : startswith (a ++ p) s = true -> startswith a s = true.
Proof.
  revert s. induction a as [|x a IH]; intros s H; [reflexivity|]. destruct s as [|y s]; [discriminate|]. cbn in *. apply andb_true_iff in H. destruct H as [-> H]. cbn. now apply IH.
Qed.
Lemma sw_self a s : startswith a (a ++ s) = true.
Proof. induction a as [|x a IH]; cbn; [reflexivity|]. now rewrite Nat.eqb_refl. Qed.

Lemma digits_inj a b : digits a = digits b -> a = b.
Proof.
  revert b. induction a; intros [] H; cbn in H; try discriminate; try reflexivity; injection H as H; f_equal; auto.
Qed.
Lemma col_i_inj i j : col_i i = col_i j -> i = j.
Proof. unfold col_i. intros H. apply app_inv_head, digits_inj in H. now apply Unsigned.to_uint_inj in H. Qed.

Section Proofs.
Context {A M C : Type}.
Variable sep : name.
Hypothesis sep_ne : sep <> [].
Variable col_tag : nat -> name.
Hypothesis tag_inj : forall i j, col_tag i = col_tag j -> i = j.
Notation item := (item A M C).
Notation value := (value A M C).
Notation entry := (name * value * flag)%type.

Definition stopc (ch : nat) : Prop := In ch sep \/ ch = bang.
Definition stophd (x : name) : Prop := match x with [] => True | ch :: _ => stopc ch end.
Definition ok (n : name) : Prop := forall ch, In ch n -> ~ stopc ch.
Lemma good_ok n : good_name sep n -> ok n.
Proof using. intros (_ & _ & H) ch Hc [Q|Q]; destruct (H ch Hc); contradiction. Qed.
Lemma sw_names n n' t ch x : ok n -> ok n' -> stopc ch -> stophd x -> startswith (n ++ ch :: t) (n' ++ x) = true -> n = n'.
Proof using.
  intros On. revert n'. induction n as [|a n IH]; intros n' On' Sc Sx H.
  - destruct n' as [|b n']; [reflexivity|]. cbn in H. apply andb_true_iff in H. destruct H as [H _]. apply Nat.eqb_eq in H. subst b. elim (On' ch); [now left|exact Sc].
  - destruct n' as [|b n'].
    + cbn in H. destruct x as [|y x]; [discriminate|]. apply andb_true_iff in H. destruct H as [H _]. apply Nat.eqb_eq in H. subst y. elim (On a); [now left|exact Sx].
    + cbn in H. apply andb_true_iff in H. destruct H as [H1 H2]. apply Nat.eqb_eq in H1. subst b. f_equal.
      apply IH; auto; intros c Hc; [apply On|apply On']; now right.
Qed.
Lemma eq_names n n' x x' : ok n -> ok n' -> stophd x -> stophd x' -> n ++ x = n' ++ x' -> n = n'.
Proof using.
  intros On. revert n'. induction n as [|a n IH]; intros n' On' Sx Sx' H.
  - destruct n' as [|b n']; [reflexivity|]. cbn in H. destruct x as [|y x]; [discriminate|]. injection H as -> _. elim (On' b); [now left|exact Sx].
  - destruct n' as [|b n'].
    + cbn in H. destruct x' as [|y x']; [discriminate|]. injection H as <- _. elim (On a); [now left|exact Sx'].
    + cbn in H. injection H as <- H. f_equal. apply IH; auto; intros c Hc; [apply On|apply On']; now right.
Qed.
Lemma sep_hd : exists s0 s1, sep = s0 :: s1.
Proof using sep_ne. destruct sep as [|a s]; [congruence|eauto]. Qed.
Lemma sep_stop : stophd sep.
Proof using sep_ne. destruct sep_hd as (a & s & E). rewrite E. cbn. left. rewrite E. now left. Qed.

(** ** entries of a flattened Struct *)
Definition pfx (p : name) (e : entry) : entry := let '(n, v, f) := e in (p ++ n, v, f).
Definition mets (its : list (name * item)) : list (name * M) :=
  flat_map (fun p => match snd p with Spec m _ _ => [(fst p, m)] | _ => [] end) its.
Fixpoint ent (nm : name) (it : item) : list entry :=
  match it with
  | Arr a => [(nm, VA a, FPlain)]
  | Scal a => [(nm, VA a, FScalar)]
  | Spec m a cols => (nm, VA a, FMeta) :: map (fun p => (nm ++ bang :: col_tag (fst p), VA (snd p), FPlain)) (combine (seq 0 (length cols)) cols)
  | Sub c its => (nm ++ sep, VM (make_nested_meta c (mets its)), FNested) :: map (pfx (nm ++ sep)) (flat_map (fun p => ent (fst p) (snd p)) its)
  end.
Definition ents (its : list (name * item)) : list entry := flat_map (fun p => ent (fst p) (snd p)) its.
Definition key (e : entry) : name := fst (fst e).
Lemma key_pfx p l : map key (map (pfx p) l) = map (fun k => p ++ k) (map key l).
Proof using. rewrite !map_map. apply map_ext. intros [[n v] f]. reflexivity. Qed.

Lemma NoDup_map_inj {X Y} (f : X -> Y) l : (forall x y, f x = f y -> x = y) -> NoDup l -> NoDup (map f l).
Proof using. intros I. induction 1 as [|x l H N IH]; cbn; constructor; auto. intros Q. apply in_map_iff in Q. destruct Q as (y & E & Hy). apply I in E. now subst. Qed.
Lemma NoDup_app_d {X} (l l' : list X) : NoDup l -> NoDup l' -> (forall x, In x l -> ~ In x l') -> NoDup (l ++ l').
Proof using.
  induction 1 as [|x l Hx N IH]; cbn; intros N' D; [exact N'|]. constructor.
  - intros H. apply in_app_or in H. destruct H as [H|H]; [contradiction|]. elim (D x); [now left|exact H].
  - apply IH; [exact N'|]. intros y Hy. apply D. now right.
Qed.

Lemma ent_key nm it k : In k (map key (ent nm it)) -> exists x, k = nm ++ x /\ stophd x.
Proof using sep_ne.
  destruct it as [a|a|m a cols|c its]; cbn [ent map].
  - intros [<-|[]]. exists []. now rewrite app_nil_r.
  - intros [<-|[]]. exists []. now rewrite app_nil_r.
  - rewrite map_map. cbn [key fst]. intros [<-|H]; [exists []; now rewrite app_nil_r|]. apply in_map_iff in H. destruct H as (p & <- & _). cbn.
    eexists. split; [reflexivity|]. cbn. now right.
  - rewrite key_pfx. intros [<-|H]; [exists sep; split; [reflexivity|exact sep_stop]|]. apply in_map_iff in H. destruct H as (k' & <- & _).
    rewrite <- app_assoc. eexists. split; [reflexivity|]. destruct sep_hd as (s0 & s1 & E). rewrite E. cbn. left. rewrite E. now left.
Qed.
Lemma ents_key its k : In k (map key (ents its)) -> exists n it x, In (n, it) its /\ In k (map key (ent n it)) /\ k = n ++ x /\ stophd x.
Proof using sep_ne.
  intros H. apply in_map_iff in H. destruct H as (e & <- & H). apply in_flat_map in H. destruct H as ([n it] & Hin & He). cbn [fst snd] in He.
  assert (Hk : In (key e) (map key (ent n it))) by (now apply in_map). destruct (ent_key n it (key e) Hk) as (x & E & S). exists n, it, x. auto.
Qed.
Lemma combine_seq_nodup {X} (cols : list X) s : NoDup (map fst (combine (seq s (length cols)) cols)).
Proof using.
  revert s. induction cols as [|c cols IH]; intros s; [constructor|]. cbn. constructor; [|apply IH]. intros H. apply in_map_iff in H. destruct H as ([i x] & E & H).
  apply in_combine_l in H. apply in_seq in H. cbn in E. lia.
Qed.
(** distinct keys *)
Lemma ents_nodup its : well_named sep its -> NoDup (map key (ents its)).
Proof using sep_ne tag_inj.
  induction 1 as [its N G W IH]. unfold ents. induction its as [|[n it] its IHl]; [constructor|]. cbn [flat_map]. rewrite map_app. cbn [fst snd].
  inversion N as [|? ? N1 N2]; subst. assert (Gn := good_ok n (G n it (or_introl eq_refl))). apply NoDup_app_d.
  - destruct it as [a|a|m a cols|c sub]; cbn [ent map].
    + constructor; [intros []|constructor].
    + constructor; [intros []|constructor].
    + rewrite map_map. cbn [key fst]. constructor.
      * intros H. apply in_map_iff in H. destruct H as (p & E & _). cbn in E. assert (L := f_equal (@length nat) E). rewrite app_length in L. cbn in L. lia.
      * assert (Q := combine_seq_nodup cols 0). apply (NoDup_map_inj (fun i => n ++ bang :: col_tag i)) in Q; [now rewrite map_map in Q|].
        intros i j E. apply app_inv_head in E. injection E as E. now apply tag_inj.
    + rewrite key_pfx. constructor.
      * intros H. apply in_map_iff in H. destruct H as (k & E & H). assert (k = []) as ->.
        { assert (L := f_equal (@length nat) E). rewrite app_length in L. change (length (key (n ++ sep, VM (make_nested_meta c (mets sub)), FNested))) with (length (n ++ sep)) in L.
          apply length_zero_iff_nil. lia. }
        apply (ents_key sub) in H. destruct H as (n' & it' & x & Hin & _ & E' & _). destruct n'; [|discriminate].
        assert (Ws := W n c sub (or_introl eq_refl)). destruct Ws as [sub _ G' _]. destruct (G' _ _ Hin) as [Q _]. congruence.
      * apply NoDup_map_inj; [intros x y E; now apply app_inv_head in E|]. apply (IH n c sub). now left.
  - apply IHl; [exact N2| | |]; intros; [eapply G|eapply W|eapply IH]; right; eassumption.
  - intros k Hk Hk'. apply ent_key in Hk. destruct Hk as (x & -> & Sx). apply (ents_key its) in Hk'. destruct Hk' as (n' & it' & x' & Hin & _ & E & Sx').
    assert (n = n').
    { eapply eq_names; [exact Gn| |exact Sx|exact Sx'|exact E]. apply good_ok. eapply G. right. exact Hin. }
    subst n'. apply N1. now apply in_map with (f := fst) in Hin.
Qed.
Lemma mets_in its n m : In (n, m) (mets its) -> In n (map fst its).
Proof using.
  unfold mets. intros H. apply in_flat_map in H. destruct H as ([n' it] & Hin & H). cbn [fst snd] in H. destruct it; try contradiction. destruct H as [H|[]]. injection H as <- <-.
  now apply in_map with (f := fst) in Hin.
Qed.
Lemma mets_nodup its : NoDup (map fst its) -> NoDup (map fst (mets its)).
Proof using.
  induction its as [|[n it] its IH]; intros N; [constructor|]. inversion N as [|? ? N1 N2]; subst. unfold mets. cbn [flat_map]. rewrite map_app.
  fold (mets its). cbn [fst snd]. assert (Q : ~ In n (map fst (mets its))).
  { intros H. apply in_map_iff in H. destruct H as ([n' m] & <- & H). apply mets_in in H. contradiction. }
  destruct it; cbn; auto. constructor; auto.
Qed.

Definition kv (e : entry) : name * value := fst e.
Lemma map_fst_kv l : map fst (map kv l) = map key l.
Proof using. rewrite map_map. reflexivity. Qed.
Lemma flat_item_sub nm (c : C) (its : list (name * item)) : flat_item sep col_tag nm (Sub c its) =
  let '(d, fl, md) := flat_items sep col_tag its ([], [], []) in
  ((nm ++ sep, VM (make_nested_meta c md)) :: map (fun p => ((nm ++ sep) ++ fst p, snd p)) d, FNested :: fl, []).
Proof using. reflexivity. Qed.
Lemma combine_map_snd {X Y Z} (f : Y -> Z) (l : list X) (cols : list Y) : length l = length cols -> map (fun p => f (snd p)) (combine l cols) = map f cols.
Proof using. revert cols. induction l as [|x l IH]; intros [|y cols] H; cbn in *; try lia; [reflexivity|]. f_equal. apply IH. lia. Qed.
Lemma flat_items_eq its : well_named sep its -> forall d fl md,
  (forall k, In k (map key (ents its)) -> ~ In k (map fst d)) -> (forall n, In n (map fst its) -> ~ In n (map fst md)) ->
  flat_items sep col_tag its (d, fl, md) = (d ++ map kv (ents its), fl ++ map snd (ents its), md ++ mets its).
Proof using sep_ne tag_inj.
  induction 1 as [its N G W IH].
  assert (GG : NoDup (map key (ents its))) by (apply ents_nodup; now constructor). revert GG.
  induction its as [|[n it] its IHl]; intros GG d fl md D1 D2.
  { cbn. now rewrite !app_nil_r. }
  inversion N as [|? ? N1 N2]; subst. cbn [flat_items].
  assert (E : flat_item sep col_tag n it = (map kv (ent n it), map snd (ent n it), mets [(n, it)])).
  { destruct it as [a|a|m a cols|c sub]; try reflexivity.
    - cbn [flat_item ent map mets flat_map fst snd app]. rewrite !map_map. cbn [kv fst snd]. rewrite (combine_map_snd (fun _ => FPlain)) by apply seq_length. reflexivity.
    - rewrite flat_item_sub. rewrite (IH n c sub (or_introl eq_refl)) by (intros ? ? []). cbn [app ent mets flat_map map fst snd kv]. rewrite !map_map. cbn [fst snd].
      change (flat_map (fun p => ent (fst p) (snd p)) sub) with (ents sub).
      assert (E1 : map (fun x : entry => snd (pfx (n ++ sep) x)) (ents sub) = map snd (ents sub)) by (apply map_ext; intros [[? ?] ?]; reflexivity).
      assert (E2 : map (fun x : entry => kv (pfx (n ++ sep) x)) (ents sub) = map (fun x => ((n ++ sep) ++ fst (kv x), snd (kv x))) (ents sub)) by (apply map_ext; intros [[? ?] ?]; reflexivity).
      rewrite E1, E2. reflexivity. }
  rewrite E. unfold ents in GG, D1. cbn [flat_map fst snd] in GG, D1. rewrite map_app in GG. fold (ents its) in GG, D1. rewrite map_app in D1.
  assert (ND1 : NoDup (map key (ent n it))).
  { clear -GG. induction (map key (ent n it)) as [|x l IH]; [constructor|]. cbn in GG. inversion GG as [|? ? Q1 Q2]; subst. constructor; [intros H; apply Q1, in_or_app; now left|auto]. }
  assert (ND2 : NoDup (map key (ents its))).
  { clear -GG. induction (map key (ent n it)) as [|x l IH]; [exact GG|]. cbn in GG. inversion GG; subst. auto. }
  assert (ND3 : forall k, In k (map key (ents its)) -> ~ In k (map key (ent n it))).
  { intros k Hk. clear -GG Hk. induction (map key (ent n it)) as [|x l IH]; [tauto|]. cbn in GG. inversion GG as [|? ? Q1 Q2]; subst. intros [<-|H]; [apply Q1, in_or_app; now right|now apply IH]. }
  rewrite dset_all_fresh by (rewrite map_fst_kv; first [exact ND1|intros k Hk; apply D1, in_or_app; now left]).
  rewrite dset_all_fresh.
  - fold (@flat_items A M C sep col_tag). rewrite IHl; clear IHl; auto.
    + unfold ents, mets. cbn [flat_map fst snd]. rewrite !map_app, !app_assoc, !app_nil_r. reflexivity.
    + intros; eapply G; right; eassumption.
    + intros; eapply W; right; eassumption.
    + intros; eapply IH; [right; eassumption| |]; assumption.
    + intros k Hk. rewrite map_app, in_app_iff, map_fst_kv. intros [H|H]; [apply (D1 k); [apply in_or_app; now right|exact H]|now apply (ND3 k)].
    + intros k Hk. rewrite map_app, in_app_iff. intros [H|H]; [apply (D2 k); [now right|exact H]|].
      apply in_map_iff in H. destruct H as ([n' m'] & <- & H). apply mets_in in H. destruct H as [<-|[]]. cbn in Hk. contradiction.
  - apply mets_nodup. constructor; [intros []|constructor].
  - intros k Hk. apply D2. apply in_map_iff in Hk. destruct Hk as ([n' m'] & <- & H). apply mets_in in H. destruct H as [<-|[]]. now left.
Qed.
Lemma meta_root (c : C) (its : list (name * item)) : well_named sep its -> dget root_name (make_nested_meta c (mets its)) = Some (MC c) /\
  (forall n m a cols, In (n, Spec m a cols) its -> dget n (make_nested_meta c (mets its)) = Some (MM m)).
Proof using.
  intros [its' N G W]. unfold make_nested_meta. set (l := map _ (mets its')).
  assert (F : map fst l = map fst (mets its')) by (unfold l; rewrite map_map; reflexivity).
  assert (R : ~ In root_name (map fst (mets its'))).
  { intros H. apply in_map_iff in H. destruct H as ([n m] & E & H). cbn in E. subst n. apply mets_in in H. apply in_map_iff in H. destruct H as ([n it] & E & H). cbn in E. subst n.
    destruct (G _ _ H) as (_ & Q & _). congruence. }
  assert (E : dset_all l [(root_name, MC c)] = (root_name, MC c) :: l).
  { rewrite dset_all_fresh; [reflexivity|rewrite F; now apply mets_nodup|]. intros k Hk [H|[]]. cbn in H. subst k. rewrite F in Hk. contradiction. }
  assert (ND : NoDup (map fst ((root_name, @MC M C c) :: l))) by (cbn; rewrite F; constructor; [exact R|now apply mets_nodup]).
  rewrite E. split; [apply dget_in; [exact ND|now left]|].
  intros n m a cols H. apply dget_in; [exact ND|]. right. apply in_map_iff. exists (n, m). split; [reflexivity|]. apply in_flat_map. exists (n, Spec m a cols). split; [exact H|now left].
Qed.

(** ** undo *)
Definition bnd (top : bool) (start : name) (rest : list entry) : Prop :=
  match rest with [] => True | (n, _, _) :: _ => top = false /\ startswith start n = false end.
Definition undoes (its : list (name * item)) : Prop :=
  forall fuel top start md c acc rest,
    dget root_name md = Some (MC c) -> (forall n m a cols, In (n, Spec m a cols) its -> dget n md = Some (MM m)) ->
    (forall n, In n (map fst its) -> ~ In n (map fst acc)) -> bnd top start rest ->
    length (ents its) + length rest < fuel ->
    undo sep fuel top start md (map (pfx start) (ents its) ++ rest) acc = Some ((c, acc ++ its), rest).
Lemma ent_hd n it : exists x v f l, ent n it = (n ++ x, v, f) :: l /\ (x = [] \/ x = sep).
Proof using. destruct it; cbn [ent]; [exists []|exists []|exists []|exists sep]; rewrite ?app_nil_r; do 3 eexists; split; try reflexivity; auto. Qed.
(** the entry after an item of name [n] does not continue it *)
Lemma next_entry n its top start rest ch t : good_name sep n -> NoDup (n :: map fst its) -> (forall n it, In (n, it) its -> good_name sep n) ->
  stopc ch -> bnd top start rest -> bnd false (start ++ n ++ ch :: t) (map (pfx start) (ents its) ++ rest).
Proof using sep_ne.
  intros Gn N G Sc B. inversion N as [|? ? N1 N2]; subst. destruct its as [|[n' it'] its].
  - cbn. destruct rest as [|[[k v] f] rest]; [exact I|]. destruct B as [_ B]. split; [reflexivity|]. apply not_true_is_false. intros H. apply sw_prefix in H. congruence.
  - unfold ents. cbn [flat_map fst snd]. destruct (ent_hd n' it') as (x & v & f & l & E & Sx). rewrite E. cbn [map app pfx bnd]. split; [reflexivity|].
    rewrite sw_app. apply not_true_is_false. intros H. apply sw_names in H; [| | |exact Sc|].
    + subst n'. apply N1. now left.
    + now apply good_ok.
    + apply good_ok. eapply G. now left.
    + destruct Sx as [-> | ->]; [exact I|exact sep_stop].
Qed.
Lemma take_cols_eq p (l : list entry) rest : (forall e, In e l -> startswith p (key e) = true) ->
  match rest with [] => True | (n, _, _) :: _ => startswith p n = false end ->
  take_cols p (l ++ rest) = (map (fun e => snd (fst e)) l, rest).
Proof using.
  intros H R. induction l as [|[[n v] f] l IH]; cbn.
  - destruct rest as [|[[n v] f] rest]; [reflexivity|]. cbn. now rewrite R.
  - assert (Q := H (n, v, f) (or_introl eq_refl)). cbn in Q. rewrite Q. rewrite IH by (intros; apply H; now right). reflexivity.
Qed.
Lemma arrays_VA (l : list A) : arrays (map (@VA A M C) l) = Some l.
Proof using. induction l as [|a l IH]; cbn; [reflexivity|]. now rewrite IH. Qed.
Lemma undo_list its : NoDup (map fst its) -> (forall n it, In (n, it) its -> good_name sep n) ->
  (forall n c sub, In (n, Sub c sub) its -> well_named sep sub /\ undoes sub) -> undoes its.
Proof using sep_ne.
  induction its as [|[n it] its IHl]; intros N G IHs fuel top start md c acc rest Hroot Hm Hacc B Hf.
  { cbn [ents flat_map map app]. destruct fuel as [|fuel]; [cbn in Hf; lia|]. cbn [undo]. unfold build_class. rewrite Hroot. rewrite app_nil_r.
    destruct rest as [|[[k v] f] rest]; [reflexivity|]. destruct B as [-> B]. now rewrite B. }
  assert (IH' : undoes its).
  { inversion N; subst. apply IHl; auto; intros; [eapply G|eapply IHs]; right; eassumption. } clear IHl.
  assert (Gn := G n it (or_introl eq_refl)).
  assert (G' : forall n it, In (n, it) its -> good_name sep n) by (intros; eapply G; right; eassumption).
  destruct fuel as [|fuel]; [lia|].
  unfold ents. cbn [flat_map fst snd]. fold (ents its). rewrite map_app, <- app_assoc.
  unfold ents in Hf. cbn [flat_map fst snd] in Hf. fold (ents its) in Hf. rewrite app_length in Hf.
  assert (Sk : forall t, skipn (length start) (start ++ t) = t) by (intros; rewrite skipn_app, skipn_all, Nat.sub_diag; reflexivity).
  assert (Fr : dset n it acc = acc ++ [(n, it)]) by (apply dset_fresh, Hacc; now left).
  assert (Go : forall fuel', length (ents its) + length rest < fuel' ->
     undo sep fuel' top start md (map (pfx start) (ents its) ++ rest) (dset n it acc) = Some ((c, acc ++ (n, it) :: its), rest)).
  { intros fuel' Hf'. rewrite Fr. rewrite (IH' fuel' top start md c (acc ++ [(n, it)]) rest); auto.
    - now rewrite <- app_assoc.
    - intros; eapply Hm; right; eassumption.
    - intros k Hk. rewrite map_app, in_app_iff. intros [H|[<-|[]]]; [apply (Hacc k); [now right|exact H]|]. cbn in Hk. inversion N; contradiction. }
  destruct it as [a|a|m a cols|cc sub]; cbn [ent map app pfx]; cbn [undo]; rewrite sw_self; cbn [negb]; rewrite andb_false_r; rewrite Sk.
  - apply Go. cbn in Hf. lia.
  - apply Go. cbn in Hf. lia.
  - rewrite (Hm n m a cols (or_introl eq_refl)). rewrite take_cols_eq.
    + cbn [ent length] in Hf. rewrite !map_map. cbn [fst snd pfx].
      rewrite (combine_map_snd (@VA A M C)) by apply seq_length. rewrite arrays_VA. apply Go. lia.
    + intros e He. apply in_map_iff in He. destruct He as (e' & <- & He). apply in_map_iff in He. destruct He as ([i x] & <- & _). cbn [key pfx fst snd].
      rewrite <- app_assoc. rewrite sw_app. change (bang :: col_tag i) with ([bang] ++ col_tag i). rewrite app_assoc. apply sw_self.
    + assert (Q := next_entry n its top start rest bang [] Gn N G' (or_intror eq_refl) B). unfold bnd in Q. rewrite app_assoc in Q.
      destruct (map (pfx start) (ents its) ++ rest) as [|[[k v] f] r]; [exact I|]. apply Q.
  - destruct (IHs n cc sub (or_introl eq_refl)) as [Ws Us]. destruct (meta_root cc sub Ws) as [R1 R2].
    change (flat_map (fun p => ent (fst p) (snd p)) sub) with (ents sub) in *. cbn [ent length] in Hf. rewrite map_length in Hf.
    change (flat_map (fun p => ent (fst p) (snd p)) sub) with (ents sub) in Hf.
    assert (Epfx : map (pfx start) (map (pfx (n ++ sep)) (ents sub)) = map (pfx (start ++ n ++ sep)) (ents sub)).
    { rewrite map_map. apply map_ext. intros [[k v] f]. cbn. now rewrite <- !app_assoc. }
    rewrite Epfx. rewrite (Us fuel false (start ++ n ++ sep) _ cc [] (map (pfx start) (ents its) ++ rest)); [|exact R1|exact R2|intros ? ? []| |].
    + cbn [app]. replace (firstn _ (n ++ sep)) with n; [apply Go; lia|].
      destruct sep_hd as (s0 & s1 & E). rewrite E. cbn [length]. rewrite app_length. cbn [length].
      replace (length n + S (length s1) - S (length s1)) with (length n + 0) by lia. rewrite firstn_app_2. cbn. now rewrite app_nil_r.
    + destruct sep_hd as (s0 & s1 & E). rewrite E. eapply next_entry; eauto. left. rewrite E. now left.
    + rewrite app_length, map_length. lia.
Qed.
Lemma undo_all its : well_named sep its -> undoes its.
Proof using sep_ne. induction 1 as [its N G W IH]. apply undo_list; auto. intros n c sub H. split; [eapply W|eapply IH]; exact H. Qed.

Theorem round_trip (s : struct A M C) : well_named sep (snd s) -> flatten_undo sep (flatten sep col_tag s) = Some s.
Proof using sep_ne tag_inj.
  destruct s as [c its]. cbn [snd]. intros W. unfold flatten. cbn [fst snd].
  rewrite flat_items_eq; [|exact W|intros ? ? []|intros ? ? []]. cbn [app]. unfold flatten_undo.
  replace (map _ (combine (map kv (ents its)) (map snd (ents its)))) with (map (pfx []) (ents its) ++ []).
  - destruct (meta_root c its W) as [R1 R2]. rewrite (undo_all its W _ true [] _ c [] []); auto; cbn; [|rewrite app_length, map_length; cbn; lia]. exact I.
  - rewrite app_nil_r. clear. induction (ents its) as [|[[k v] f] l IH]; [reflexivity|]. cbn. now rewrite IH.
Qed.
(** the flattened names are distinct, so nothing is overwritten *)
Theorem flat_names (s : struct A M C) : well_named sep (snd s) -> NoDup (map fst (fst (fst (flatten sep col_tag s)))).
Proof using sep_ne tag_inj.
  destruct s as [c its]. cbn [snd]. intros W. unfold flatten. cbn [fst snd]. rewrite flat_items_eq; [|exact W|intros ? ? []|intros ? ? []].
  cbn [app fst]. rewrite map_fst_kv. now apply ents_nodup.
Qed.
End Proofs.
