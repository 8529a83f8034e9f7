(** Proofs about the Dataset container (10): failing operations, contents after construction and
    assignment. *)
From Coq Require Import List Arith Bool ZArith Lia.
From Verif Require Import FlattenModel FlattenProofs MergeModel MergeFacts DsModel DsProofs3 DsProofs4 TabModel TabSpec TabProofs TabProofs2 TabProofs3 TabProofs4 TabProofs5 TabProofs7 TabProofs8 TabProofs9.
Import ListNotations.

Section Tab.
Context {V : Type}.
Variable junk inv : V.
Variable c : pyclass.
Hypothesis PY : python_class c.
Notation read := (read junk).
Implicit Types w : world V.

Lemma with_nrows_same d : with_nrows d (nrows d) = d. Proof. now destruct d. Qed.
Lemma setattr_fails w d n v w' d' e : value_inside w v -> nrows d <> None -> setattr junk c w d n v = (w', d', Some e) -> d' = d /\ grows junk w w'.
Proof.
  intros Iv Nn. unfold setattr. destruct (locked d); [intros [= <- <- _]; split; [reflexivity|apply grows_refl]|].
  destruct (check_addtype_spec junk w (nrows d) v Iv) as (w1 & r & E & G & _).
  assert (R : rows_after (nrows d) v = nrows d) by (destruct (nrows d); [reflexivity|easy]). rewrite R in E.
  destruct (has d n).
  - rewrite E. destruct r; [discriminate|]. intros [= <- <- _]. rewrite with_nrows_same. auto.
  - destruct (kind c n).
    + rewrite E. destruct r; [discriminate|]. intros [= <- <- _]. rewrite with_nrows_same. auto.
    + discriminate.
    + destruct (raw junk w v). discriminate.
Qed.
Lemma assign_fails w a r vals w' e : assign w a r vals = (w', Some e) -> w' = w.
Proof.
  unfold assign. destruct (row_positions _ _); [|congruence]. destruct (_ =? _); [discriminate|]. destruct vals as [|x [|y q]]; congruence.
Qed.
Lemma exec_fails w d o w' d' e : (forall a, In a (op_arrays o) -> inside w a) -> nrows d <> None -> one_column o ->
  exec junk inv c w d o = (w', d', Some e) -> d' = d /\ grows junk w w'.
Proof.
  intros Ia Nn One. assert (Same : forall w2 (d2 : dataset) e2, (w2, d2, e2) = (w', d', Some e) -> w2 = w -> d2 = d -> d' = d /\ grows junk w w').
  { intros w2 d2 e2 H -> ->. injection H as <- <- _. split; [reflexivity|apply grows_refl]. }
  destruct o as [n v|n v|n|r|cols src|r cols src|r cols x|m a|l| | |l]; cbn [exec]; intros H.
  - apply (setattr_fails w d n v w' d' e); auto. destruct v; cbn in *; auto.
  - unfold setitem in H. destruct (has d n); [|destruct (valid_colname c n); [|eapply Same; eauto]]; apply (setattr_fails w d n v w' d' e); auto; destruct v; cbn in *; auto.
  - unfold delattr in H. destruct (locked d); [eapply Same; eauto|]. destruct (has d n); [discriminate|eapply Same; eauto].
  - unfold filter_inplace in H. destruct (selector d r) as [idx|]; [destruct (take_all junk inv w (items d) idx); discriminate|eapply Same; eauto].
  - destruct (forallb (has d) cols); [|eapply Same; eauto]. destruct cols as [|n [|m cols]]; cbn [one_column length] in One; [discriminate| |lia]. cbn [set_columns] in H.
    destruct src as [|a src]; [eapply Same; eauto|]. destruct (setattr junk c w d n (VArr a)) as [[w1 d1] [e1|]] eqn:Es; [|discriminate]. injection H as <- <- <-.
    eapply setattr_fails; [|exact Nn|exact Es]. cbn. apply Ia. now left.
  - destruct cols as [|n [|m cols]]; cbn [one_column length] in One; [discriminate| |lia]. cbn [assign_columns] in H.
    destruct (dget n (items d)) as [it|]; [|eapply Same; eauto]. destruct src as [|a src]; [eapply Same; eauto|].
    destruct (assign w (arr it) r (read w a)) as [w1 [e1|]] eqn:Es; [|discriminate]. eapply Same; eauto. eapply assign_fails, Es.
  - destruct cols as [|n [|m cols]]; cbn [one_column length] in One; [discriminate| |lia]. cbn [assign_scalar] in H.
    destruct (dget n (items d)) as [it|]; [|eapply Same; eauto].
    destruct (assign w (arr it) r [x]) as [w1 [e1|]] eqn:Es; [|discriminate]. eapply Same; eauto. eapply assign_fails, Es.
  - unfold putmask_arr in H. destruct (nrows d); [|eapply Same; eauto]. destruct (length m =? n); [|eapply Same; eauto]. destruct (alen a =? n); [discriminate|eapply Same; eauto].
  - destruct (label_set_names w d l). discriminate.
  - discriminate.
  - discriminate.
  - discriminate.
Qed.

Lemma columns_dget w d n : dget n (columns junk w d) = match dget n (items d) with Some it => Some (read w (arr it)) | None => None end.
Proof. unfold columns. exact (dget_map_val (fun p => read w (arr (snd p))) n (items d)). Qed.
Lemma columns_keys w d : map fst (columns junk w d) = keys d.
Proof. unfold columns, keys. rewrite map_map. reflexivity. Qed.
Lemma setattr_columns w d n v : good c w d -> value_inside w v -> locked d = false -> (has d n = true \/ (n <> [] /\ restricted c n = false)) ->
  exists w' d' e, setattr junk c w d n v = (w', d', e) /\ grows junk w w' /\
   match nrows d with
   | Some k => match as_column junk w k v with
               | Some col => e = None /\ nrows d' = Some k /\ keys d' = (if has d n then keys d else keys d ++ [n]) /\
                   dget n (columns junk w' d') = Some col /\ (forall m, m <> n -> dget m (columns junk w' d') = dget m (columns junk w d))
               | None => e <> None /\ d' = d
               end
   | None => keys d = [] /\ forall col, content junk w v = Some col -> e = None /\ nrows d' = Some (length col) /\ columns junk w' d' = [(n, col)]
   end.
Proof.
  intros Gd Iv Lk Hn. destruct (setattr_spec junk c PY w d n v Gd Iv Lk Hn) as (w' & d' & e & E & G & Gd' & N & _ & A). exists w', d', e. split; [exact E|]. split; [assumption|].
  destruct (nrows d) as [k|] eqn:En.
  - cbn [rows_after] in *. destruct e as [e|].
    + destruct A as (A1 & A2 & A3). rewrite (A3 k eq_refl). split; [discriminate|]. eapply setattr_fails; [exact Iv|rewrite En; discriminate|exact E].
    + destruct A as (A1 & (a & at_ & D & _ & L & As) & Oth). injection L as L. rewrite L in As. rewrite As. split; [reflexivity|]. split; [assumption|]. split; [assumption|]. split.
      * rewrite columns_dget, D. reflexivity.
      * intros m Hm. rewrite !columns_dget, Oth by assumption. destruct (dget m (items d)) as [it|] eqn:Em; [|reflexivity]. f_equal. apply G. apply dget_some_in in Em. eapply Gd, Em.
  - assert (K : keys d = []). { destruct (keys d) eqn:Ek; [reflexivity|]. destruct (good_rows c w d Gd) as [k Hk]; [rewrite Ek; discriminate|congruence]. }
    split; [assumption|]. intros col Hc. destruct e as [e|].
    + exfalso. unfold setattr in E. rewrite Lk in E. assert (H0 : has d n = false) by (apply has_false; rewrite K; easy). rewrite H0 in E. destruct Hn as [Hn|[Hn1 Hn2]]; [congruence|].
      assert (Kd : kind c n = ANone). { destruct PY as [P _]. destruct (kind c n) eqn:Q; [reflexivity| |]; rewrite (P n) in Hn2; congruence. }
      rewrite Kd, En in E. destruct v as [a|l|x|q|]; cbn in Hc; try discriminate; cbn in E.
      * destruct l as [|y [|z l]]; cbn in E; try discriminate. rewrite ?Nat.eqb_refl in E. cbn in E. unfold alen in E. cbn in E. rewrite ?seq_length, ?Nat.eqb_refl in E. discriminate.
    + destruct A as (A1 & (a & at_ & D & _ & L & As) & Oth). assert (H0 : has d n = false) by (apply has_false; rewrite K; easy). rewrite H0, K in A1. cbn in A1.
      assert (Ec : columns junk w' d' = [(n, read w' a)]).
      { unfold keys in A1. destruct (items d') as [|[m x] [|y q]] eqn:Ei; cbn in A1; try discriminate. injection A1 as ->. unfold columns. rewrite Ei. cbn. cbn [dget] in D. destruct (name_dec n n); [|easy]. injection D as ->. reflexivity. }
      assert (Rc : read w' a = col).
      { destruct v as [b|l|x|q|]; cbn in Hc; try discriminate; cbn [rows_after] in L; injection L as L; injection Hc as <-.
        - cbn in As. rewrite L, Nat.eqb_refl in As. congruence.
        - cbn in As. rewrite L in As. destruct l as [|y [|z l]]; cbn in As; try congruence. rewrite Nat.eqb_refl in As. congruence.
        - cbn in As. rewrite L in As. cbn in As. congruence. }
      split; [reflexivity|]. rewrite <- Rc. split; [|exact Ec]. rewrite N, read_length, <- L. reflexivity.
Qed.

(** *** construction *)
Lemma add_all_contents : forall l w its, items_ok c w its -> (forall n v, In (n, v) l -> value_inside w v) -> NoDup (map fst l) ->
  (forall n, In n (map fst l) -> stored_name c n = n /\ ~ In n (map fst its)) ->
  forall w' its', add_all c w l its = (w', inl its') ->
  exists cols, map (fun p => content junk w (snd p)) l = map Some cols /\
   map (fun p => (fst p, read w' (arr (snd p)))) its' = map (fun p => (fst p, read w (arr (snd p)))) its ++ combine (map fst l) cols.
Proof.
  induction l as [|[n v] l IH]; intros w its Ok Iv ND Fr w' its' E; cbn [add_all] in E.
  - injection E as <- <-. exists []. cbn. rewrite app_nil_r. auto.
  - destruct (possibly_spec junk w v (Iv n v (or_introl eq_refl))) as (w1 & r & Ep & G & S). rewrite Ep in E. destruct r as [a|]; [|discriminate]. destruct S as (Ia & S1 & S2 & S3).
    destruct (Fr n (or_introl eq_refl)) as [Sn Nn]. rewrite Sn in E. cbn in ND. inversion ND as [|? ? Nl NDl]; subst.
    assert (Ei : item_set n a its = its ++ [(n, Item a None)]).
    { unfold item_set. assert (D : dget n its = None) by now apply dget_none. rewrite D. now apply dset_fresh. }
    destruct (IH w1 (item_set n a its)) with (w' := w') (its' := its') as (cols & C1 & C2).
    + apply item_set_ok; auto. eapply items_ok_grows; eauto.
    + intros m x Hm. pose proof (Iv m x (or_intror Hm)) as H. destruct x; cbn in *; auto. now apply G.
    + assumption.
    + intros m Hm. split; [apply Fr; now right|]. rewrite Ei, map_app, in_app_iff. cbn. intros [H|[<-|[]]]; [|contradiction]. apply (Fr m); [now right|assumption].
    + exact E.
    + assert (Cv : content junk w v = Some (read w1 a)).
      { destruct v as [b|x|x|k|]; cbn in *.
        - destruct (S3 b eq_refl) as [-> ->]. reflexivity.
        - now rewrite (S1 x eq_refl).
        - now rewrite (S2 x eq_refl).
        - discriminate.
        - discriminate. }
      assert (Cl : forall p, In p l -> content junk w1 (snd p) = content junk w (snd p)).
      { intros [m x] Hm. cbn. pose proof (Iv m x (or_intror Hm)) as H. destruct x; cbn in *; auto. f_equal. now apply G. }
      exists (read w1 a :: cols). split.
      * cbn [map snd]. rewrite Cv. f_equal. rewrite <- C1. apply map_ext_in. intros p Hp. now rewrite Cl.
      * rewrite C2, Ei, map_app. cbn [map fst snd arr combine]. rewrite <- app_assoc. cbn [app]. f_equal. apply map_ext_in. intros [m x] Hm. cbn. f_equal. apply G. destruct Ok as (_ & Ok & _). eauto.
Qed.
Lemma check_all_iff : forall its nr, (snd (check_all nr its) = None <-> exists k, (forall k', nr = Some k' -> k' = k) /\ forall n it, In (n, it) its -> alen (arr it) = k).
Proof.
  induction its as [|[n it] its IH]; intros nr; cbn [check_all].
  - split; [|reflexivity]. intros _. destruct nr as [k|]; [exists k; split; [congruence|easy]|exists 0; split; [discriminate|easy]].
  - unfold check_add_dimensions. destruct nr as [k|].
    + destruct (Nat.eqb_spec k (alen (arr it))) as [E|N].
      * rewrite IH. split; intros (k0 & A & B); exists k0; (split; [assumption|]); intros m x Hm.
        -- destruct Hm as [[= <- <-]|Hm]; [rewrite <- E; now apply A|eauto].
        -- apply (B m). now right.
      * cbn. split; [discriminate|]. intros (k0 & A & B). exfalso. apply N. rewrite (B n it (or_introl eq_refl)). now apply A.
    + rewrite IH. split; intros (k0 & A & B).
      * exists k0. split; [discriminate|]. intros m x [[= <- <-]|Hm]; [now apply A|eauto].
      * exists k0. split; [intros k' [= <-]; apply (B n it); now left|]. intros m x Hm. apply (B m). now right.
Qed.
Lemma add_all_total : forall l w its, (forall p, In p l -> content junk w (snd p) <> None) -> exists w' its', add_all c w l its = (w', inl its').
Proof.
  assert (Q : forall (l : list (name * value V)) w its, (forall n v, In (n, v) l -> match v with VObjects _ | VSet => False | _ => True end) -> exists w' its', add_all c w l its = (w', inl its')).
  { induction l as [|[n v] l IH]; intros w its H; cbn [add_all]; [eauto|]. pose proof (H n v (or_introl eq_refl)) as Hv. destruct v; try easy; cbn; apply IH; intros m y Hm; apply (H m y); now right. }
  intros l w its H. apply Q. intros n v Hv. specialize (H (n, v) Hv). destruct v; cbn in H; easy.
Qed.
Lemma construct_spec w l cols : (forall n v, In (n, v) l -> value_inside w v) -> NoDup (map fst l) -> (forall n, In n (map fst l) -> stored_name c n = n) ->
  map (fun p => content junk w (snd p)) l = map Some cols ->
  exists w', grows junk w w' /\
   ((exists k, forall x, In x cols -> length x = k) -> exists d, construct c w l = (w', inl d) /\ columns junk w' d = combine (map fst l) cols) /\
   (~ (exists k, forall x, In x cols -> length x = k) -> construct c w l = (w', inr EValue)).
Proof.
  intros Iv ND St Hc. assert (Ok : items_ok c w []) by (split; [constructor|]; split; easy).
  destruct (add_all_total l w []) as (w' & its & E).
  { intros p Hp Q. assert (In (content junk w (snd p)) (map (fun p => content junk w (snd p)) l)) by (apply in_map_iff; eauto). rewrite Hc in H. apply in_map_iff in H. destruct H as (x & Ex & _). congruence. }
  destruct (add_all_ok junk c PY l w [] Ok Iv) as (w1 & r & E1 & G & _). rewrite E in E1. injection E1 as <- <-.
  destruct (add_all_contents l w [] Ok Iv ND) with (w' := w') (its' := its) as (cols' & C1 & C2); [intros n Hn; split; [auto|easy]|exact E|].
  assert (cols' = cols). { rewrite Hc in C1. clear - C1. revert cols' C1. induction cols as [|x cols IH]; intros [|y q] H; try discriminate; [reflexivity|]. cbn in H. injection H as <- H. f_equal. now apply IH. }
  subst cols'. cbn in C2. exists w'. split; [assumption|].
  assert (Lc : length cols = length (map fst l)) by (rewrite map_length, <- (map_length Some cols), <- Hc, map_length; reflexivity).
  assert (Eqv : (exists k, forall x, In x cols -> length x = k) <-> snd (check_all None its) = None).
  { rewrite check_all_iff. split; intros (k & H).
    - exists k. split; [discriminate|]. intros n it Hi. assert (Hr : In (n, read w' (arr it)) (combine (map fst l) cols)) by (rewrite <- C2; apply in_map_iff; exists (n, it); auto).
      apply in_combine_r in Hr. apply H in Hr. now rewrite read_length in Hr.
    - exists k. intros x Hx. destruct H as [_ H].
      assert (Hr : exists n, In (n, x) (combine (map fst l) cols)). { clear - Lc Hx. revert Lc. generalize (map fst l). induction cols as [|y cols IH]; intros [|n q] Lc; try easy. destruct Hx as [->|Hx]; [exists n; now left|]. destruct (IH Hx q) as [m Hm]; [cbn in Lc; lia|]. exists m. now right. }
      destruct Hr as [n Hr]. rewrite <- C2 in Hr. apply in_map_iff in Hr. destruct Hr as ([m it] & Em & Hi). cbn in Em. injection Em as -> <-. rewrite read_length. eauto. }
  unfold construct. rewrite E. split.
  - intros H. apply Eqv in H. destruct (check_all None its) as [nr e]. cbn in H. subst e. eexists. split; [reflexivity|]. exact C2.
  - intros H. destruct (check_all None its) as [nr [e|]] eqn:Q; [|exfalso; apply H, Eqv; reflexivity].
    assert (e = EValue); [|now subst]. clear - Q. revert Q. generalize (@None nat) as n0. induction its as [|[n it] its IH]; intros n0; cbn; [discriminate|].
    unfold check_add_dimensions. destruct n0 as [k|]; [destruct (k =? alen (arr it)); [apply IH|congruence]|apply IH].
Qed.

(** *** the same value in every selected row of several columns *)
Lemma assign_scalar_spec d r x : forall cols w w', assign_scalar w d r cols x = (w', None) ->
  (forall n it, In (n, it) (items d) -> inside w (arr it)) -> separate (dests d cols) ->
  (forall n, In n cols -> exists it, dget n (items d) = Some it /\
     exists ps, row_positions (alen (arr it)) r = Some ps /\ overwritten (read w (arr it)) (read w' (arr it)) ps (repeat x (length ps))) /\
  (forall b, apart (dests d cols) [b] -> read w' b = read w b).
Proof.
  induction cols as [|n cols IH]; intros w w'; cbn [assign_scalar].
  - intros H _ _. assert (w' = w) by congruence. subst. split; [easy|reflexivity].
  - destruct (dget n (items d)) as [it|] eqn:En; [|discriminate].
    destruct (assign w (arr it) r [x]) as [w1 [e|]] eqn:Ea; [discriminate|]. intros H I Sep.
    assert (Hit : In (n, it) (items d)) by now apply dget_some_in.
    assert (ED : dests d (n :: cols) = arr it :: dests d cols) by (unfold dests; cbn [flat_map]; now rewrite En).
    rewrite ED in *. unfold separate in Sep. cbn [map] in Sep. inversion Sep as [|? ? Nb Sp]; subst.
    destruct (assign_spec junk w (arr it) r [x] w1 (I n it Hit) Ea) as ((ps & Ep & Lp & Ov) & Oth & Ins). cbn [spread] in *.
    destruct (IH w1 w' H) as [Cells Rest].
    { intros m y Hm. apply Ins. eauto. }
    { exact Sp. }
    assert (Ri : read w' (arr it) = read w1 (arr it)).
    { apply Rest. intros y z Hy [<-|[]] E. apply Nb. rewrite <- E. now apply in_map. }
    split.
    + intros m [<-|Hm].
      * exists it. split; [assumption|]. exists ps. rewrite Ri. auto.
      * destruct (Cells m Hm) as (it' & Em & ps' & Ep' & Ov'). exists it'. split; [assumption|].
        exists ps'. split; [assumption|].
        assert (Hd : In (arr it') (dests d cols)).
        { unfold dests. apply in_flat_map. exists m. split; [assumption|]. rewrite Em. now left. }
        rewrite <- (Oth (arr it')); [assumption|]. intros E. apply Nb. rewrite <- E. now apply in_map.
    + intros b Hb. rewrite Rest; [apply Oth|].
      * intros E. apply (Hb (arr it) b); [now left|now left|congruence].
      * intros y z Hy Hz. apply Hb; [now right|assumption].
Qed.
End Tab.
