(** Proofs about the Dataset container (3): construction, filtering, cell stores, histories. *)
From Coq Require Import List Arith Bool ZArith Lia.
From Verif Require Import FlattenModel FlattenProofs MergeModel MergeFacts DsModel DsProofs DsProofs3 TabModel TabSpec TabProofs TabProofs2.
Import ListNotations.

Section Tab.
Context {V : Type}.
Variable junk inv : V.
Variable c : pyclass.
Hypothesis PY : python_class c.
Notation read := (read junk).
Implicit Types w : world V.

(** stores change no lengths *)
Lemma store_block w a rows vals b : length (block (store w a rows vals) b) = length (block w b).
Proof.
  unfold block, store. cbn [mem]. destruct (Nat.ltb_spec (base a) (length (mem w))) as [L|L].
  - destruct (Nat.eq_dec b (base a)) as [->|N].
    + rewrite nth_upd, Nat.eqb_refl by assumption. apply scatter_len.
    + destruct (Nat.ltb_spec b (length (mem w))).
      * rewrite nth_upd by assumption. destruct (Nat.eqb_spec b (base a)); [congruence|reflexivity].
      * now rewrite !nth_overflow by (rewrite ?upd_len; assumption).
  - unfold upd. now rewrite (proj2 (Nat.ltb_ge _ _)).
Qed.
Lemma store_mem w a rows vals : length (mem (store w a rows vals)) = length (mem w).
Proof. cbn. apply upd_len. Qed.
Lemma inside_store w a rows vals x : inside w x -> inside (store w a rows vals) x.
Proof. intros (A & B & C). repeat split; auto; [now rewrite store_mem|]. intros p H. rewrite store_block. auto. Qed.
Definition same_shape w w' := forall x, inside w x -> inside w' x.
Lemma same_refl w : same_shape w w. Proof. easy. Qed.
Lemma same_trans w1 w2 w3 : same_shape w1 w2 -> same_shape w2 w3 -> same_shape w1 w3. Proof. unfold same_shape. auto. Qed.
Lemma grows_same w w' : grows junk w w' -> same_shape w w'. Proof. intros G x I. now apply G. Qed.
Lemma good_shape w w' d : good c w d -> same_shape w w' -> good c w' d.
Proof. intros [A B S] H. constructor; auto. intros n it Hin. eauto. Qed.

Lemma assign_shape w a r vals : same_shape w (fst (assign w a r vals)).
Proof.
  unfold assign. destruct (row_positions (alen a) r) as [ps|]; [|apply same_refl]. destruct (length vals =? length ps); [intros x; apply inside_store|].
  destruct vals as [|y [|z q]]; cbn [fst]; try apply same_refl. intros x. apply inside_store.
Qed.
Lemma assign_scalar_shape d r x : forall cols w, same_shape w (fst (assign_scalar w d r cols x)).
Proof.
  induction cols as [|n cols IH]; intros w; cbn [assign_scalar]; [apply same_refl|]. destruct (dget n (items d)) as [it|]; [|apply same_refl].
  pose proof (assign_shape w (arr it) r [x]) as A. destruct (assign w (arr it) r [x]) as [w1 [e|]]; cbn [fst] in *; [assumption|].
  eapply same_trans; [exact A|apply IH].
Qed.
Lemma assign_columns_shape d r : forall cols src w, same_shape w (fst (assign_columns junk w d r cols src)).
Proof.
  induction cols as [|n cols IH]; intros src w; cbn [assign_columns]; [apply same_refl|].
  destruct (dget n (items d)) as [it|]; [|apply same_refl]. destruct src as [|a src]; [apply same_refl|].
  pose proof (assign_shape w (arr it) r (read w a)) as A. destruct (assign w (arr it) r (read w a)) as [w1 [e|]]; cbn [fst] in *; [assumption|].
  eapply same_trans; [exact A|apply IH].
Qed.
Lemma put_all_shape m : forall dst src w, same_shape w (put_all junk w m dst src).
Proof.
  induction dst as [|a dst IH]; intros [|b src] w; cbn [put_all]; try apply same_refl. eapply same_trans; [|apply IH]. intros x. apply inside_store.
Qed.

(** labels touch neither arrays nor names *)
Lemma label_remove_mem w (d : dataset) : mem (label_remove w d) = mem w.
Proof.
  unfold label_remove. generalize w. induction (items d) as [|p r IH]; intros w0; cbn [fold_left]; [reflexivity|]. rewrite IH. now destruct (attr (snd p)).
Qed.
Definition same_columns (d d' : dataset) : Prop :=
  nrows d' = nrows d /\ ncols d' = ncols d /\ locked d' = locked d /\
  map (fun p => (fst p, arr (snd p))) (items d') = map (fun p => (fst p, arr (snd p))) (items d).
Lemma dset_attr n it a (l : list (name * item)) : dget n l = Some it ->
  map (fun p => (fst p, arr (snd p))) (dset n (Item (arr it) a) l) = map (fun p => (fst p, arr (snd p))) l.
Proof.
  induction l as [|[m y] l IH]; cbn [dget dset]; [discriminate|]. destruct (name_dec m n) as [->|]; [intros [= ->]; reflexivity|].
  intros H. cbn [map]. now rewrite IH.
Qed.
Lemma set_labels_spec l : forall w (d : dataset) k, mem (fst (set_labels w d l k)) = mem w /\ same_columns d (snd (set_labels w d l k)).
Proof.
  induction l as [|n l IH]; intros w d k; cbn [set_labels]; [repeat split|].
  unfold set_label. destruct (dget n (items d)) as [it|] eqn:E; [|apply IH]. destruct (attr it).
  - destruct (IH (World (mem w) (upd n0 (Some k) (attrs w))) d (S k)) as [A B]. auto.
  - destruct (IH (World (mem w) (attrs w ++ [Some k]))
      (Ds (nrows d) (ncols d) (dset n (Item (arr it) (Some (length (attrs w)))) (items d)) (locked d)) (S k)) as [A (B1 & B2 & B3 & B4)].
    split; [exact A|]. cbn [nrows ncols locked items] in *. repeat split; auto. rewrite B4. now apply dset_attr.
Qed.
Lemma label_set_spec w (d : dataset) l : mem (fst (label_set_names w d l)) = mem w /\ same_columns d (snd (label_set_names w d l)).
Proof. unfold label_set_names. destruct (set_labels_spec l (label_remove w d) d 0) as [A B]. rewrite label_remove_mem in A. auto. Qed.
Lemma mem_inside w w' : mem w' = mem w -> forall x, inside w x -> inside w' x.
Proof. intros E x (A & B & C). unfold inside, block in *. rewrite E. auto. Qed.
Lemma mem_read w w' : mem w' = mem w -> forall x, read w' x = read w x.
Proof. intros E x. unfold TabModel.read, block. now rewrite E. Qed.
Lemma same_in (d d' : dataset) n it' : same_columns d d' -> In (n, it') (items d') -> exists it, In (n, it) (items d) /\ arr it = arr it'.
Proof.
  intros (_ & _ & _ & E) H. assert (Q : In (n, arr it') (map (fun p => (fst p, arr (snd p))) (items d'))) by exact (in_map (fun p => (fst p, arr (snd p))) _ _ H).
  rewrite E in Q. apply in_map_iff in Q. destruct Q as ([m it] & Eq & Hin). cbn in Eq. exists it. split; congruence.
Qed.
Lemma same_keys (d d' : dataset) : same_columns d d' -> keys d' = keys d.
Proof.
  intros (_ & _ & _ & E). unfold keys. assert (F : forall l : list (name * item), map fst l = map fst (map (fun p => (fst p, arr (snd p))) l)) by (intros; now rewrite map_map).
  now rewrite (F (items d')), E, <- F.
Qed.
Lemma same_read w w' (d d' : dataset) : mem w' = mem w -> same_columns d d' -> columns junk w' d' = columns junk w d.
Proof.
  intros M (_ & _ & _ & E). unfold columns.
  assert (F : forall l : list (name * item), map (fun p => (fst p, read w' (arr (snd p)))) l = map (fun q => (fst q, read w' (snd q))) (map (fun p => (fst p, arr (snd p))) l)) by (intros; now rewrite map_map).
  rewrite F, E, map_map. apply map_ext. intros p. cbn. now rewrite (mem_read w w' M).
Qed.
Lemma good_same w w' d d' : good c w d -> mem w' = mem w -> same_columns d d' -> good c w' d'.
Proof.
  intros [(A & B & R) I S] M SC. pose proof (same_keys _ _ SC) as K. pose proof SC as (N1 & N2 & N3 & N4). constructor.
  - split; [now rewrite K|]. split; [now rewrite K, N2|]. intros n it' H. destruct (same_in _ _ _ _ SC H) as (it & Hin & <-). rewrite N1. eauto.
  - intros n it' H. destruct (same_in _ _ _ _ SC H) as (it & Hin & <-). apply (mem_inside w w' M). eauto.
  - intros n H. apply S. now rewrite <- K.
Qed.

(** ** construction *)
Lemma stored_idem n : stored_name c (stored_name c n) = stored_name c n.
Proof.
  unfold stored_name at 2 3. destruct (valid_colname c n) eqn:E; unfold stored_name.
  - now rewrite E.
  - destruct (valid_colname c (rename c n)); [reflexivity|]. apply PY.
Qed.
Lemma possibly_spec w v : value_inside w v -> exists w' r, possibly_convert w v = (w', r) /\ grows junk w w' /\
  match r with inl a => inside w' a /\ (forall l, v = VList l -> read w' a = l) /\ (forall x, v = VScalar x -> read w' a = [x]) /\ (forall b, v = VArr b -> a = b /\ w' = w) | inr _ => True end.
Proof.
  intros I. destruct v as [a|l|x|n|]; cbn [possibly_convert].
  - exists w, (inl a). split; [reflexivity|]. split; [apply grows_refl|]. split; [assumption|]. repeat split; congruence.
  - change (alloc w l) with (fst (alloc w l), snd (alloc w l)). cbv iota beta. eexists _, _. split; [reflexivity|]. split; [apply grows_alloc|].
    split; [apply alloc_inside|]. rewrite alloc_read. repeat split; congruence.
  - change (alloc w [x]) with (fst (alloc w [x]), snd (alloc w [x])). cbv iota beta. eexists _, _. split; [reflexivity|]. split; [apply grows_alloc|].
    split; [apply alloc_inside|]. rewrite alloc_read. repeat split; congruence.
  - eexists _, _. split; [reflexivity|]. split; [apply grows_refl|easy].
  - eexists _, _. split; [reflexivity|]. split; [apply grows_refl|easy].
Qed.
Definition items_ok w (its : list (name * item)) : Prop :=
  NoDup (map fst its) /\ (forall n it, In (n, it) its -> inside w (arr it)) /\ (forall n, In n (map fst its) -> stored_name c n = n).
Lemma item_set_ok w its n a : items_ok w its -> inside w a -> stored_name c n = n -> items_ok w (item_set n a its).
Proof.
  intros (A & B & S) I Sn. unfold item_set. set (it := Item a _). assert (ND : NoDup (map fst (dset n it its))) by now apply dset_nodup.
  split; [assumption|]. split.
  - intros m x H. apply in_dget_nodup in H; [|assumption]. rewrite dget_dset in H. destruct (name_dec n m); [|eapply B, dget_some_in, H].
    assert (x = it) by congruence. now subst.
  - intros m H. rewrite dset_names in H. destruct (DsModel.mem n (map fst its)); [auto|]. apply in_app_iff in H. destruct H as [H|[<-|[]]]; auto.
Qed.
Lemma items_ok_grows w w' its : items_ok w its -> grows junk w w' -> items_ok w' its.
Proof. intros (A & B & S) G. split; [assumption|]. split; [|assumption]. intros n it H. apply G. eapply B, H. Qed.
Lemma add_all_ok l : forall w its, items_ok w its -> (forall n v, In (n, v) l -> value_inside w v) ->
  exists w' r, add_all c w l its = (w', r) /\ grows junk w w' /\ match r with inl its' => items_ok w' its' | inr _ => True end.
Proof.
  induction l as [|[n v] l IH]; intros w its Ok Iv; cbn [add_all].
  - exists w, (inl its). split; [reflexivity|]. split; [apply grows_refl|assumption].
  - destruct (possibly_spec w v (Iv n v (or_introl eq_refl))) as (w1 & r & -> & G & H). destruct r as [a|e].
    + destruct (IH w1 (item_set (stored_name c n) a its)) as (w2 & r & E & G2 & H2).
      * apply item_set_ok; [now apply items_ok_grows with w|apply H|apply stored_idem].
      * intros m x Hx. pose proof (Iv m x (or_intror Hx)) as Q. destruct x; cbn in *; auto. now apply G.
      * exists w2, r. split; [assumption|]. split; [now apply grows_trans with w1|assumption].
    + exists w1, (inr e). auto.
Qed.
Lemma check_all_ok : forall its nr nr', check_all nr its = (nr', None) ->
  (forall n it, In (n, it) its -> nr' = Some (alen (arr it))) /\ (forall k, nr = Some k -> nr' = Some k) /\ (its = [] -> nr' = nr).
Proof.
  induction its as [|[n it] its IH]; intros nr nr'; cbn [check_all].
  - intros H. assert (nr' = nr) by congruence. subst. split; [easy|]. split; auto.
  - destruct nr as [k|]; cbn [check_add_dimensions].
    + destruct (Nat.eqb_spec k (alen (arr it))) as [Ek|]; [|discriminate]. intros H. destruct (IH _ _ H) as (A & B & _). pose proof (B k eq_refl) as Bk.
      split; [|split; [|discriminate]].
      * intros m x [E|Hin]; [|eauto]. congruence.
      * congruence.
    + intros H. destruct (IH _ _ H) as (A & B & _). split; [|split; discriminate]. intros m x [E|Hin]; [|eauto].
      rewrite (B _ eq_refl). congruence.
Qed.
Lemma construct_good w l : (forall n v, In (n, v) l -> value_inside w v) ->
  exists w' r, construct c w l = (w', r) /\ grows junk w w' /\ match r with inl d => good c w' d /\ locked d = false | inr _ => True end.
Proof.
  intros Iv. unfold construct.
  assert (Ok0 : items_ok w []) by (repeat split; [constructor|easy..]).
  destruct (add_all_ok l w [] Ok0 Iv) as (w1 & r & -> & G & H). destruct r as [its|e]; [|exists w1, (inr e); auto].
  destruct (check_all None its) as [nr [e|]] eqn:E; [exists w1, (inr e); auto|].
  eexists w1, (inl _). split; [reflexivity|]. split; [assumption|]. split; [|reflexivity]. destruct H as (A & B & S). destruct (check_all_ok _ _ _ E) as (C & _ & _).
  constructor; auto. split; [assumption|]. split; [|assumption]. cbn [ncols]. unfold keys. cbn [items]. now rewrite map_length.
Qed.

(** ** taking rows *)
Definition taken1 (l : list V) (idx : list Z) : list V := map (at_index inv l) idx.
Lemma resolve_at (l : list V) n i : n = length l -> match resolve n i with Some r => nth r l junk | None => inv end = at_index inv l i.
Proof.
  intros ->. unfold resolve, at_index. set (j := if (i <? 0)%Z then _ else _). destruct (Z.leb_spec 0 j) as [A|A]; cbn [andb]; [|reflexivity].
  destruct (Z.ltb_spec j (Z.of_nat (length l))) as [B|B].
  - apply nth_indep. lia.
  - symmetry. apply nth_overflow. lia.
Qed.
Lemma take_spec w a idx : exists w' a', take junk inv w a idx = (w', a') /\ grows junk w w' /\ inside w' a' /\ attrs w' = attrs w /\ alen a' = length idx /\ read w' a' = taken1 (read w a) idx.
Proof.
  unfold take. set (l := map _ idx). exists (fst (alloc w l)), (snd (alloc w l)). split; [reflexivity|]. split; [apply grows_alloc|].
  split; [apply alloc_inside|]. split; [reflexivity|]. rewrite alloc_alen, alloc_read. unfold l. rewrite map_length. split; [reflexivity|].
  apply map_ext. intros i. apply resolve_at. now rewrite read_length.
Qed.
Lemma take_all_spec idx : forall its w, (forall n it, In (n, it) its -> inside w (arr it)) ->
  exists w' its', take_all junk inv w its idx = (w', its') /\ grows junk w w' /\ attrs w' = attrs w /\
   map (fun p => (fst p, attr (snd p))) its' = map (fun p => (fst p, attr (snd p))) its /\
   (forall n it, In (n, it) its' -> inside w' (arr it) /\ alen (arr it) = length idx) /\
   map (fun p => (fst p, read w' (arr (snd p)))) its' = map (fun p => (fst p, taken1 (read w (arr (snd p))) idx)) its.
Proof.
  induction its as [|[n it] its IH]; intros w I; cbn [take_all].
  - exists w, []. split; [reflexivity|]. split; [apply grows_refl|]. repeat split; easy.
  - destruct (take_spec w (arr it) idx) as (w1 & a & -> & G1 & I1 & At1 & L1 & R1).
    destruct (IH w1) as (w2 & its' & -> & G2 & At2 & N2 & I2 & R2).
    { intros m x H. apply G1. eapply I. right. exact H. }
    exists w2, ((n, Item a (attr it)) :: its'). split; [reflexivity|]. split; [now apply grows_trans with w1|]. split; [congruence|].
    cbn [map fst snd attr arr]. split; [congruence|]. split.
    + intros m x [E|H]; [|eauto]. assert (x = Item a (attr it)) by congruence. subst x. cbn [arr]. split; [now apply G2|assumption].
    + destruct (G2 a I1) as [_ ->]. rewrite R1, R2. f_equal. apply map_ext_in. intros [m x] H. cbn. destruct (G1 (arr x)) as [_ ->]; [|reflexivity]. eapply I. right. exact H.
Qed.
Lemma mask_taken (l : list V) m : length m = length l -> taken1 l (mask_idx m) = compress m l.
Proof.
  intros E. unfold taken1, mask_idx. rewrite map_map. unfold bool_to_fancy.
  assert (Q : forall (m : list bool) s (l' l : list V), l = l' ++ skipn (length l') l -> s = length l' -> length m + s = length l ->
     map (fun x => at_index inv l (Z.of_nat x)) (compress m (seq s (length m))) = compress m (skipn s l)).
  { induction m0 as [|b m0 IH]; intros s l' l0 E1 E2 E3; [reflexivity|]. cbn [length seq compress] in *.
    destruct (skipn s l0) as [|x r] eqn:Es.
    { exfalso. pose proof (f_equal (@length V) Es) as Q. rewrite skipn_length in Q. cbn in Q. lia. }
    assert (Er : skipn (S s) l0 = r).
    { replace (S s) with (1 + s) by lia. rewrite <- (firstn_skipn s l0) at 1. rewrite Es. rewrite skipn_app, firstn_length.
      rewrite Nat.min_l by lia. replace (1 + s - s) with 1 by lia. rewrite skipn_all2 by (rewrite firstn_length; lia). reflexivity. }
    assert (IHs := IH (S s) (l' ++ [x]) l0). rewrite Er in IHs.
    assert (R : map (fun x0 => at_index inv l0 (Z.of_nat x0)) (compress m0 (seq (S s) (length m0))) = compress m0 r).
    { apply IHs; [|rewrite app_length; cbn; lia|lia]. rewrite app_length. cbn [length]. replace (length l' + 1) with (S s) by lia. rewrite Er.
      rewrite <- app_assoc. cbn. rewrite <- Es, E2. exact E1. }
    destruct b; [|exact R]. cbn [map]. rewrite R. f_equal. unfold at_index.
    destruct (Z.ltb_spec (Z.of_nat s) 0); [lia|]. destruct (Z.leb_spec 0 (Z.of_nat s)); [|lia]. rewrite Nat2Z.id.
    rewrite <- (firstn_skipn s l0), Es, app_nth2; rewrite firstn_length, Nat.min_l by lia; [|lia]. now rewrite Nat.sub_diag. }
  specialize (Q m 0 [] l eq_refl eq_refl). rewrite Nat.add_0_r in Q. rewrite (Q E). reflexivity.
Qed.
Lemma filter_inplace_good w d r : good c w d -> good c (fst (fst (filter_inplace junk inv w d r))) (snd (fst (filter_inplace junk inv w d r))) /\
  same_shape w (fst (fst (filter_inplace junk inv w d r))).
Proof.
  intros Gd. unfold filter_inplace. destruct (selector d r) as [idx|e]; [|split; [assumption|apply same_refl]].
  pose proof Gd as [(A & B & R) I S]. destruct (take_all_spec idx (items d) w I) as (w1 & its & -> & G & At & N & Il & Rd). cbn [fst snd].
  split; [|now apply grows_same].
  assert (K : map fst its = map fst (items d)).
  { assert (F : forall l : list (name * item), map fst l = map fst (map (fun p => (fst p, attr (snd p))) l)) by (intros; now rewrite map_map).
    now rewrite (F its), N, <- F. }
  constructor; unfold keys; cbn [items nrows ncols].
  - split; [unfold keys; cbn [items]; now rewrite K|]. split; [unfold keys; cbn [items ncols]; now rewrite K|]. cbn [items nrows]. intros n it H.
    destruct (Il n it H) as [_ ->]. reflexivity.
  - intros n it H. cbn [items] in H. now apply (Il n it).
  - intros n H. cbn [items] in H. apply S. unfold keys. now rewrite <- K.
Qed.

(** ** histories *)
Lemma set_columns_good : forall cols src w d, good c w d -> (forall a, In a src -> inside w a) -> (forall n, In n cols -> In n (keys d)) ->
  good c (fst (fst (set_columns junk c w d cols src))) (snd (fst (set_columns junk c w d cols src))) /\
  same_shape w (fst (fst (set_columns junk c w d cols src))).
Proof.
  induction cols as [|n cols IH]; intros src w d Gd Is Hk; cbn [set_columns]; [split; [assumption|apply same_refl]|].
  destruct src as [|a src]; [split; [assumption|apply same_refl]|].
  destruct (locked d) eqn:Lk.
  - unfold setattr. rewrite Lk. split; [assumption|apply same_refl].
  - destruct (setattr_spec junk c PY w d n (VArr a) Gd (Is a (or_introl eq_refl)) Lk) as (w1 & d1 & e & -> & G & Gd1 & _ & _ & H).
    { left. apply has_in. apply Hk. now left. }
    destruct e as [e|]; [split; [assumption|now apply grows_same]|]. destruct H as (K & _).
    assert (K1 : keys d1 = keys d) by (rewrite K; replace (has d n) with true; [reflexivity|symmetry; apply has_in, Hk; now left]).
    destruct (IH src w1 d1 Gd1) as [A B].
    { intros b Hb. apply G. apply Is. now right. }
    { intros m Hm. rewrite K1. apply Hk. now right. }
    split; [assumption|]. eapply same_trans; [apply grows_same; exact G|exact B].
Qed.
Lemma exec_good w d o : good c w d -> (forall a, In a (op_arrays o) -> inside w a) -> ordinary c o ->
  good c (fst (fst (exec junk inv c w d o))) (snd (fst (exec junk inv c w d o))) /\ same_shape w (fst (fst (exec junk inv c w d o))).
Proof.
  intros Gd Ia Or. destruct o as [n v|n v|n|r|cols src|r cols src|r cols x|m a|l| | |l]; cbn [exec].
  - destruct (locked d) eqn:Lk; [unfold setattr; rewrite Lk; split; [assumption|apply same_refl]|].
    destruct (setattr_spec junk c PY w d n v Gd) as (w1 & d1 & e & -> & G & Gd1 & _); auto.
    { destruct v; cbn in *; auto. }
    split; [assumption|now apply grows_same].
  - unfold setitem. destruct (has d n) eqn:Hh; [|destruct (valid_colname c n) eqn:Vn; [|split; [assumption|apply same_refl]]].
    + destruct (locked d) eqn:Lk; [unfold setattr; rewrite Lk; split; [assumption|apply same_refl]|].
      destruct (setattr_spec junk c PY w d n v Gd) as (w1 & d1 & e & -> & G & Gd1 & _); auto.
      { destruct v; cbn in *; auto. }
      split; [assumption|now apply grows_same].
    + destruct (locked d) eqn:Lk; [unfold setattr; rewrite Lk; split; [assumption|apply same_refl]|].
      destruct (setattr_spec junk c PY w d n v Gd) as (w1 & d1 & e & -> & G & Gd1 & _); auto.
      { destruct v; cbn in *; auto. }
      { right. unfold valid_colname in Vn. destruct n; [discriminate|]. split; [discriminate|]. now destruct (restricted c (n :: n0)). }
      split; [assumption|now apply grows_same].
  - pose proof (delattr_good c w d n Gd) as H. destruct (delattr d n) as [d1 e]. cbn in *. split; [assumption|apply same_refl].
  - now apply filter_inplace_good.
  - destruct (forallb (has d) cols) eqn:F; [|split; [assumption|apply same_refl]]. apply set_columns_good; auto.
    intros n H. apply has_in. rewrite forallb_forall in F. now apply F.
  - pose proof (assign_columns_shape d r cols src w) as H. destruct (assign_columns junk w d r cols src) as [w1 e]. cbn in *.
    split; [now apply good_shape with w|assumption].
  - pose proof (assign_scalar_shape d r x cols w) as H. destruct (assign_scalar w d r cols x) as [w1 e]. cbn in *.
    split; [now apply good_shape with w|assumption].
  - unfold putmask_arr. assert (H : same_shape w (put_all junk w m (arrays d) (repeat a (length (items d))))) by apply put_all_shape.
    destruct (nrows d) as [k|]; [|split; [assumption|apply same_refl]]. destruct (length m =? k); [|split; [assumption|apply same_refl]].
    destruct (alen a =? k); [|split; [assumption|apply same_refl]]. cbn. split; [now apply good_shape with w|assumption].
  - destruct (label_set_spec w d l) as [M SC]. destruct (label_set_names w d l) as [w1 d1]. cbn in *. split; [now apply good_same with w d|].
    intros x. now apply mem_inside.
  - cbn. split; [|apply same_refl]. destruct Gd. constructor; auto.
  - cbn. split; [|apply same_refl]. destruct Gd. constructor; auto.
  - cbn [fst snd]. split; [|apply grows_same, grows_alloc]. apply (good_grows junk c w); [exact Gd|apply grows_alloc].
Qed.
Lemma run_good : forall l w d, good c w d -> legal junk inv c w d l ->
  good c (fst (run junk inv c w d l)) (snd (run junk inv c w d l)).
Proof.
  induction l as [|o l IH]; intros w d Gd; cbn [run legal]; [auto|]. intros (Ia & Or & Lg).
  destruct (exec_good w d o Gd Ia Or) as [A B]. destruct (exec junk inv c w d o) as [[w1 d1] e]. cbn in *. now apply IH.
Qed.
End Tab.
