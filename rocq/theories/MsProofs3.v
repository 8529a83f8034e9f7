(** Proofs about loading several files, continued: the whole Dataset, masks, lists of paths. *)
From Coq Require Import List Arith ZArith Bool Lia Sorted.
From Verif Require Import GroupModel GroupFacts FlattenModel DsModel GroupingModel GroupingSpec PdsModel DsProofs3 FlattenProofs StSpec StProofs FootProofs MsModel MsSpec MsProofs MsProofs2.
From Verif Require TmProofs3.
Import ListNotations.

Lemma mem_cons n k seen : mem k (n :: seen) = (if name_dec k n then true else false) || mem k seen.
Proof. unfold mem. cbn [existsb]. f_equal. destruct (name_dec n k); destruct (name_dec k n); congruence. Qed.
Lemma filter_filter {X} (p q : X -> bool) l : filter p (filter q l) = filter (fun x => q x && p x) l.
Proof. induction l as [|x l IH]; [reflexivity|]. cbn [filter]. destruct (q x); cbn [filter andb]; rewrite IH; reflexivity. Qed.
Lemma firsts_of_keys : forall (l : list (name * bool)) seen,
  (forall n, In (n, true) l -> ~ In bang n) -> (forall n, In (n, false) l -> In bang n) ->
  map fst (filter snd (first_names l seen)) = filter (fun k => negb (mem k seen)) (firsts (map fst (filter snd l))).
Proof.
  induction l as [|[n o] l IH]; intros seen T F; [reflexivity|]. cbn [first_names filter snd].
  assert (T' : forall n, In (n, true) l -> ~ In bang n) by (intros; apply T; now right).
  assert (F' : forall n, In (n, false) l -> In bang n) by (intros; apply F; now right).
  destruct (mem n seen) eqn:E.
  - rewrite (IH seen T' F'). destruct o; [|reflexivity]. cbn [map fst firsts filter]. rewrite E. cbn [negb]. rewrite filter_filter.
    apply filter_ext. intros k. destruct (name_dec k n) as [->|]; cbn [andb]; [now rewrite E|reflexivity].
  - destruct o; cbn [filter snd map fst firsts].
    + rewrite E. cbn [negb]. f_equal. rewrite (IH (n :: seen) T' F'), filter_filter. apply filter_ext. intros k. rewrite mem_cons.
      destruct (name_dec k n); reflexivity.
    + rewrite (IH (n :: seen) T' F'). apply filter_ext_in. intros k Ik. rewrite mem_cons. destruct (name_dec k n) as [->|]; [|reflexivity].
      exfalso. apply (T n); [right|apply F; now left]. apply (proj1 (firsts_in _ _)) in Ik. apply in_map_iff in Ik as [[k b] [Ek Ik]].
      apply filter_In in Ik as [Ik Eb]. cbn in *. subst. exact Ik.
Qed.

Section P.
Context {V B M : Type}.
Variable crc : list B -> Z.
Variable grp : list B -> list B * list nat.
Variable junk : nat.
Notation file := (file V B M). Notation column := (column V B M). Notation cell := (@cell V B).
Implicit Types (f : file) (fs : list file).
Hypothesis grp_ok : forall l, grouping_of (map Some l) (fst (grp l)) (snd (grp l)).

Lemma true_keys fs : map fst (filter snd (keys fs)) = all_names fs.
Proof.
  unfold keys, all_names. induction fs as [|f fs IH]; [reflexivity|]. cbn [flat_map].
  assert (FA : forall (a b : list (name * bool)), filter snd (a ++ b) = filter snd a ++ filter snd b) by (intros; induction a as [|x a IHa]; [reflexivity|]; cbn [app filter]; destruct (snd x); cbn [app]; now rewrite IHa).
  rewrite FA, map_app, IH. f_equal. clear -FA.
  unfold items. induction (f_cols f) as [|[k c] cols IH]; [reflexivity|]. cbn [flat_map].
  rewrite map_app, FA, map_app, IH. destruct c; reflexivity.
Qed.
Lemma key_bang fs : Forall (@file_ok V B M) fs -> (forall n, In (n, true) (keys fs) -> ~ In bang n) /\ (forall n, In (n, false) (keys fs) -> In bang n).
Proof.
  intros F. split; intros n I; destruct (keys_in fs n _ F I) as [f [If [[E Q]|[E Q]]]]; try discriminate.
  - rewrite Forall_forall in F. pose proof (ok_bang f (F f If)) as W. rewrite Forall_forall in W.
    apply in_map_iff in Q as [p [<- Ip]]. exact (W p Ip).
  - destruct Q as [m [b [k [u [-> _]]]]]. apply cat_bang.
Qed.
Lemma names_order fs : Forall (@file_ok V B M) fs -> map fst (filter snd (first_names (keys fs) [])) = firsts (all_names fs).
Proof.
  intros F. destruct (key_bang fs F) as [T Fl]. rewrite (firsts_of_keys (keys fs) [] T Fl), true_keys. apply filter_id. reflexivity.
Qed.
Definition stk fs (k : name * bool) : name * bool * (list cell * list nat) :=
  (k, (concat (map (part (fst k) (snd k)) fs), cumsum (map (@length cell) (map (part (fst k) (snd k)) fs)))).
Definition col_good fs (n : name) (o : outcol V B M) : Prop :=
  forall f c, In f fs -> dget n (f_cols f) = Some c ->
    out_shows o = concat (map (contributes n c) fs) /\
    match c, o with Plain m _, OPlain m' _ => m = m' | Cat b _ _, OCat b' _ _ => b = b' | _, _ => False end.

Lemma build_all_ok fs : Forall (@file_ok V B M) fs -> agree fs -> base0_everywhere fs -> crc_ok crc fs ->
  forall ks, (forall k, In k ks -> In k (first_names (keys fs) [])) ->
  exists cols, build_all crc grp junk fs (multi_stack fs) (map (stk fs) ks) = Some cols /\
    map fst cols = map fst (filter snd ks) /\ (forall n o, In (n, o) cols -> col_good fs n o).
Proof using grp_ok.
  intros F A B0 CR. induction ks as [|[n o] ks IH]; intros H.
  - exists []. split; [reflexivity|]. split; [reflexivity|]. intros ? ? [].
  - destruct IH as [cols [E [Nm G]]]; [intros; apply H; now right|]. cbn [map build_all stk fst snd].
    destruct o.
    + assert (I : In (n, true) (keys fs)) by (apply (first_sub (keys fs) []), H; now left).
      destruct (keys_in fs n true F I) as [f [If [[_ Q]|[Q _]]]]; [|discriminate].
      assert (exists c, dget n (f_cols f) = Some c) as [c D].
      { apply in_map_iff in Q as [[n' c] [En Ic]]. cbn in En. subst n'. exists c. apply dget_in; [|exact Ic]. rewrite Forall_forall in F. apply (F f If). }
      destruct (build_ok crc grp junk grp_ok n fs f c F A B0 CR If D) as [oc [Eb _]].
      rewrite Eb, E. exists ((n, oc) :: cols). split; [reflexivity|]. split; [cbn; f_equal; exact Nm|].
      intros n' o' [I'|I']; [|apply G; exact I']. inversion I'; subst n' o'. intros g d Ig Dg.
      destruct (build_ok crc grp junk grp_ok n fs g d F A B0 CR Ig Dg) as [oc' [Eb' R]]. rewrite Eb in Eb'. inversion Eb'; subst oc'. exact R.
    + exists cols. split; [exact E|]. split; [exact Nm|exact G].
Qed.
Lemma st_stk fs : multi_stack fs = map (stk fs) (first_names (keys fs) []).
Proof. reflexivity. Qed.

Theorem stacked_ok fs : Forall (@file_ok V B M) fs -> agree fs -> base0_everywhere fs -> crc_ok crc fs -> all_names fs <> [] ->
  exists cols, load_stacked crc grp junk fs = Some (cols, cumsum (map f_rows fs)) /\
    map fst cols = firsts (all_names fs) /\ (forall n o, In (n, o) cols -> col_good fs n o).
Proof using grp_ok.
  intros F A B0 CR NE.
  destruct (build_all_ok fs F A B0 CR (first_names (keys fs) []) (fun k H => H)) as [cols [E [Nm G]]].
  rewrite (names_order fs F) in Nm.
  exists cols. split; [|split; [exact Nm|exact G]].
  unfold load_stacked. destruct fs as [|f0 fs0]; [now destruct NE|]. set (fs := f0 :: fs0) in *.
  cbv zeta. rewrite st_stk in E |- *. rewrite E.
  assert (Q : filter (fun k : name * bool * (list cell * list nat) => snd (fst k)) (map (stk fs) (first_names (keys fs) [])) = map (stk fs) (filter snd (first_names (keys fs) []))).
  { clear. induction (first_names (keys fs) []) as [|k l IH]; [reflexivity|]. cbn [map filter stk fst snd]. destruct (snd k) eqn:Ek; cbn [map]; rewrite IH; reflexivity. }
  rewrite Q. pose proof (names_order fs F) as No.
  destruct (filter snd (first_names (keys fs) [])) as [|[n o] r] eqn:Ef.
  - exfalso. destruct (all_names fs) as [|x r]; [now apply NE|discriminate No].
  - cbn [map stk fst snd]. do 3 f_equal.
    assert (I : In (n, o) (filter snd (first_names (keys fs) []))) by (rewrite Ef; now left).
    apply filter_In in I as [I Eo]. cbn in Eo. subst o. apply first_sub in I as [I _]. destruct (key_bang fs F) as [T _]. specialize (T n I).
    rewrite map_map. apply map_ext_in. intros f If. apply part_length; [|exact T]. rewrite Forall_forall in F. auto.
Qed.

(** refusal *)
Lemma build_all_none fs st n a : forall todo, In (n, true, a) todo -> build crc grp junk fs st n a = None -> build_all crc grp junk fs st todo = None.
Proof.
  induction todo as [|[[m o] x] todo IH]; intros I H; [destruct I|]. cbn [build_all]. destruct I as [I|I].
  - inversion I; subst. now rewrite H.
  - rewrite (IH I H). destruct o; [|reflexivity]. now destruct (build crc grp junk fs st m x).
Qed.
Theorem refused fs f g n b k u d : Forall (@file_ok V B M) fs -> In f fs -> In g fs ->
  dget n (f_cols f) = Some (Cat b k u) -> dget n (f_cols g) = Some d ->
  (match d with Cat b' _ _ => b' <> b | Plain (Some _) _ => True | Plain None _ => False end) ->
  (forall m ms, metas n fs = inl m :: ms -> False) ->
  load_stacked crc grp junk fs = None.
Proof.
  intros F If Ig Df Dg W First.
  assert (Bn : ~ In bang n) by (rewrite Forall_forall in F; apply (get_ok f n _ (F f If) Df)).
  unfold load_stacked. destruct fs as [|f0 fs0]; [reflexivity|]. set (fs := f0 :: fs0) in *. cbv zeta.
  assert (I : In (n, true) (first_names (keys fs) [])).
  { destruct (in_keys fs f n _ If Df) as [I _]. destruct (first_has (keys fs) [] n true I) as [o Q]; [auto|]. destruct o; [exact Q|].
    apply first_sub in Q as [Q _]. exfalso. apply Bn. now apply (key_bang fs F). }
  rewrite (build_all_none fs (multi_stack fs) n (snd (stk fs (n, true))) (multi_stack fs)); [reflexivity| |].
  - rewrite st_stk. apply in_map_iff. exists (n, true). split; [reflexivity|exact I].
  - unfold build. pose proof (metas_has n fs f _ If Df) as Hf. cbv iota in Hf. pose proof (metas_has n fs g _ Ig Dg) as Hg.
    destruct (metas n fs) as [|[m|b0] ms] eqn:E; [destruct Hf|exfalso; eapply First; reflexivity|].
    unfold stack_cat. match goal with |- match ?l with _ => _ end = None => destruct l as [|[u0 c0] [|? ?]]; try reflexivity end.
    match goal with |- (if ?c then _ else _) = None => destruct c eqn:Fb; [|reflexivity] end. exfalso.
    rewrite forallb_forall in Fb. pose proof (Fb _ Hf) as E1. cbn in E1. apply Nat.eqb_eq in E1. subst b0.
    destruct d as [[m|] l|b' k' u']; cbv iota in Hg.
    + specialize (Fb _ Hg). discriminate.
    + exact W.
    + specialize (Fb _ Hg). cbn in Fb. apply Nat.eqb_eq in Fb. contradiction.
Qed.
End P.

(** ** masks *)
Lemma nth_map_seq {X} (q : nat -> X) : forall n s j, nth_error (map q (seq s n)) j = if j <? n then Some (q (s + j)) else None.
Proof.
  induction n as [|n IH]; intros s [|j]; cbn [seq map nth_error]; [reflexivity|reflexivity|now rewrite Nat.add_0_r|].
  rewrite IH. replace (S s + j) with (s + S j) by lia. reflexivity.
Qed.
Lemma set_true_map q n i : (0 <= i < Z.of_nat n)%Z ->
  set_true (map q (seq 0 n)) i = Some (map (fun j => q j || (j =? Z.to_nat i)) (seq 0 n)).
Proof.
  intros H. unfold set_true. rewrite map_length, seq_length.
  assert (E1 : (- Z.of_nat n <=? i)%Z = true) by (apply Z.leb_le; lia). assert (E2 : (i <? Z.of_nat n)%Z = true) by (apply Z.ltb_lt; lia).
  assert (E3 : (i <? 0)%Z = false) by (apply Z.ltb_ge; lia). rewrite E1, E2, E3. cbn [andb]. f_equal.
  set (k := Z.to_nat i). assert (K : k < n) by lia. clearbody k. apply TmProofs3.nth_error_same. intros j.
  rewrite FootProofs.nth_upd by (rewrite map_length, seq_length; exact K). rewrite !nth_map_seq. cbn [plus].
  destruct (Nat.eqb_spec j k) as [->|]; [|now rewrite orb_false_r]. destruct (Nat.ltb_spec k n); [|lia]. now rewrite orb_true_r.
Qed.
Lemma set_all_map n : forall l q, Forall (fun i => 0 <= i < Z.of_nat n)%Z l ->
  set_all (map q (seq 0 n)) l = Some (map (fun j => q j || existsb (Z.eqb (Z.of_nat j)) l) (seq 0 n)).
Proof.
  induction l as [|i l IH]; intros q F; cbn [set_all existsb].
  - f_equal. apply map_ext. intros. now rewrite orb_false_r.
  - inversion F as [|? ? F1 F2]; subst. rewrite (set_true_map q n i F1), (IH _ F2). f_equal. apply map_ext. intros j.
    rewrite <- orb_assoc. f_equal. f_equal. destruct (Nat.eqb_spec j (Z.to_nat i)); destruct (Z.eqb_spec (Z.of_nat j) i); auto; lia.
Qed.
Lemma max_le : forall l a, (a <= fold_left Z.max l a)%Z /\ Forall (fun i => i <= fold_left Z.max l a)%Z l.
Proof.
  induction l as [|i l IH]; intros a; cbn [fold_left]; [split; [lia|constructor]|].
  destruct (IH (Z.max a i)) as [H1 H2]. split; [lia|]. constructor; [lia|exact H2].
Qed.
Lemma max_in : forall l a, (0 <= a)%Z -> Forall (fun i => 0 <= i)%Z l -> (0 <= fold_left Z.max l a)%Z.
Proof. intros l a H F. destruct (max_le l a). lia. Qed.
Lemma masked_none {X} (q : nat -> bool) : forall (rows : list X) s, (forall j, s <= j -> q j = false) ->
  map snd (filter (fun p : nat * X => q (fst p)) (combine (seq s (length rows)) rows)) = [].
Proof.
  induction rows as [|x rows IH]; intros s H; [reflexivity|]. cbn [length seq combine filter fst]. rewrite (H s) by lia. apply IH. intros; apply H; lia.
Qed.
Lemma masked_map {X} (q : nat -> bool) : forall n s (rows : list X), (forall j, s + n <= j -> q j = false) ->
  masked_rows (map q (seq s n)) rows = map snd (filter (fun p : nat * X => q (fst p)) (combine (seq s (length rows)) rows)).
Proof.
  unfold masked_rows. induction n as [|n IH]; intros s rows H.
  - cbn [seq map combine filter]. symmetry. apply masked_none. intros; apply H; lia.
  - destruct rows as [|x rows]; [reflexivity|]. cbn [seq map combine length filter fst].
    assert (E : forall j, S s + n <= j -> q j = false) by (intros; apply H; lia). specialize (IH (S s) rows E).
    destruct (q s); cbn [map snd]; [f_equal|]; exact IH.
Qed.
Theorem filter_ints {X} (l : list Z) (rows : list X) : Forall (fun i => 0 <= i)%Z l -> load_filtered (SInts l) rows = Some (rows_named l rows).
Proof.
  intros F. unfold load_filtered, convert_to_mask. destruct l as [|i r].
  - unfold masked_rows, rows_named. cbn [combine filter map existsb]. f_equal. symmetry. apply (masked_none (fun _ => false)). reflexivity.
  - destruct (max_le r i) as [M1 M2]. inversion F as [|? ? F1 F2]; subst. set (mx := fold_left Z.max r i) in *. clearbody mx.
    assert (E : (mx + 1 <? 0)%Z = false) by (apply Z.ltb_ge; lia). rewrite E.
    assert (R : repeat false (Z.to_nat (mx + 1)) = map (fun _ => false) (seq 0 (Z.to_nat (mx + 1)))).
    { generalize 0. induction (Z.to_nat (mx + 1)); intros s; cbn; f_equal; auto. }
    rewrite R, set_all_map.
    + f_equal. unfold rows_named. apply (masked_map (fun j => existsb (Z.eqb (Z.of_nat j)) (i :: r))). intros j Hj. cbn [orb]. cbn [plus] in Hj. clear E R. destruct (existsb (Z.eqb (Z.of_nat j)) (i :: r)) eqn:E; [|reflexivity].
      apply existsb_exists in E as [x [Ix Ex]]. apply Z.eqb_eq in Ex. subst x. rewrite Forall_forall in M2. destruct Ix as [->|Ix]; [lia|]. specialize (M2 _ Ix). lia.
    + rewrite Z2Nat.id by lia. constructor; [lia|]. rewrite Forall_forall in *. intros x Ix. specialize (M2 x Ix). specialize (F2 x Ix). lia.
Qed.
Lemma named_rise {X} : forall (rows : list X) s l, Forall (fun i => Z.of_nat s <= i < Z.of_nat (s + length rows))%Z l -> StronglySorted Z.lt l ->
  map Some (map snd (filter (fun p : nat * X => existsb (Z.eqb (Z.of_nat (fst p))) l) (combine (seq s (length rows)) rows)))
  = map (fun i => nth_error rows (Z.to_nat i - s)) l.
Proof.
  induction rows as [|x rows IH]; intros s l F S.
  - destruct l as [|i l]; [reflexivity|]. inversion F; subst. cbn in *. lia.
  - cbn [length seq combine filter fst]. destruct l as [|i l]; cbn [existsb].
    + specialize (IH (Datatypes.S s) [] (Forall_nil _) S). cbn [existsb] in IH. exact IH.
    + inversion F as [|? ? F1 F2]; subst. inversion S as [|? ? S1 S2]; subst. cbn [length] in *.
      destruct (Z.eqb_spec (Z.of_nat s) i) as [E|E].
      * subst i. cbn [orb map snd]. rewrite Nat2Z.id, Nat.sub_diag. cbn [nth_error]. f_equal.
        rewrite (filter_ext_in _ (fun p : nat * X => existsb (Z.eqb (Z.of_nat (fst p))) l)).
        -- rewrite (IH (Datatypes.S s) l); [| |exact S1].
           ++ apply map_ext_in. intros j Ij. rewrite Forall_forall in S2. specialize (S2 j Ij). replace (Z.to_nat j - s) with (Datatypes.S (Z.to_nat j - Datatypes.S s)) by lia. reflexivity.
           ++ rewrite Forall_forall in *. intros j Ij. specialize (S2 j Ij). specialize (F2 j Ij). lia.
        -- intros [j y] Ij. apply in_combine_l in Ij. apply in_seq in Ij. cbn [fst]. destruct (Z.eqb_spec (Z.of_nat j) (Z.of_nat s)); [lia|]. reflexivity.
      * assert (X1 : existsb (Z.eqb (Z.of_nat s)) l = false).
        { destruct (existsb (Z.eqb (Z.of_nat s)) l) eqn:Q; [|reflexivity]. apply existsb_exists in Q as [y [Iy Ey]]. apply Z.eqb_eq in Ey. subst y.
          rewrite Forall_forall in S2. specialize (S2 _ Iy). lia. }
        rewrite X1. cbn [orb]. rewrite (filter_ext _ (fun p : nat * X => existsb (Z.eqb (Z.of_nat (fst p))) (i :: l))) by reflexivity.
        rewrite (IH (Datatypes.S s) (i :: l)); [| |exact S].
        -- apply map_ext_in. intros j Ij. assert (Z.of_nat s < j)%Z.
           { destruct Ij as [<-|Ij]; [lia|]. rewrite Forall_forall in S2. specialize (S2 _ Ij). lia. }
           replace (Z.to_nat j - s) with (Datatypes.S (Z.to_nat j - Datatypes.S s)) by lia. reflexivity.
        -- constructor; [lia|]. rewrite Forall_forall in *. intros j Ij. specialize (S2 j Ij). specialize (F2 j Ij). lia.
Qed.

(** ** lists of paths *)
Section L.
Context {P R : Type}.
Variables (kind_of : P -> path_kind) (load_dir load_file : P -> R) (appended : P -> bool).
Lemma from_list me : forall ps, (me = true -> Forall (fun p => kind_of p <> IsMissing) ps) ->
  exists names single, dir_from_list kind_of me ps = Some (names, single) /\
    single = filter (fun p => match kind_of p with IsFile => true | _ => false end) ps /\
    place load_dir load_file names single = Some (map (one_result kind_of load_dir load_file) (filter (found kind_of) ps)).
Proof.
  induction ps as [|p ps IH]; intros H.
  - exists [], []. repeat split.
  - destruct IH as [names [single [E [S Pl]]]]; [intros Em; specialize (H Em); now inversion H|].
    cbn [dir_from_list filter]. unfold found at 1. destruct (kind_of p) eqn:K; cbn [map].
    + rewrite E. exists (Some p :: names), single. split; [reflexivity|]. split; [exact S|]. cbn [place]. rewrite Pl. unfold one_result at 2. now rewrite K.
    + rewrite E. exists (None :: names), (p :: single). split; [reflexivity|]. split; [now rewrite S|]. cbn [place]. rewrite Pl. unfold one_result at 2. now rewrite K.
    + destruct me; [exfalso; specialize (H eq_refl); inversion H; subst; congruence|]. exists names, single. auto.
Qed.
Lemma from_list_missing : forall ps, Exists (fun p => kind_of p = IsMissing) ps -> dir_from_list kind_of true ps = None.
Proof.
  induction 1 as [p ps K|p ps Ex IH]; cbn [dir_from_list]; [now rewrite K|]. rewrite IH. destruct (kind_of p); reflexivity.
Qed.
End L.
