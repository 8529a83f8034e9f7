(** merge2: column names and columns of the result. *)
From Coq Require Import List Arith Bool Lia String Permutation.
From Verif Require Import Sched GroupModel GroupFacts MergeSpec MergeModel MergeFacts MergeProofs MergeProofs2 MergeProofs3 MergeProofs4 MergeColsModel.
Import ListNotations.
Local Open Scope list_scope.

Lemma smem_in c l : smem c l = true <-> In c l.
Proof.
  unfold smem. rewrite existsb_exists. split.
  - intros (x & Hx & E). apply String.eqb_eq in E. now subst.
  - intros H. exists c. split; [exact H|apply String.eqb_refl].
Qed.
Lemma smem_not c l : smem c l = false <-> ~ In c l.
Proof. rewrite <- smem_in. destruct (smem c l); split; congruence. Qed.
Lemma append_inj_l a b s : (a ++ s)%string = (b ++ s)%string -> a = b.
Proof.
  assert (L : forall x y : string, String.length (x ++ y)%string = String.length x + String.length y).
  { induction x as [|z x IH]; cbn; intros y; [reflexivity|]. now rewrite IH. }
  revert b. induction a as [|x a IH]; intros b H.
  - destruct b as [|y b]; [reflexivity|]. cbn in H. assert (E := f_equal String.length H). cbn in E. rewrite L in E. lia.
  - destruct b as [|y b].
    + assert (E := f_equal String.length H). cbn in E. rewrite L in E. lia.
    + cbn in H. injection H as -> H. f_equal. now apply IH.
Qed.
Lemma NoDup_app_disj {X} (l l' : list X) : NoDup l -> NoDup l' -> (forall x, In x l -> ~ In x l') -> NoDup (l ++ l').
Proof.
  induction 1 as [|x l Hx N IH]; cbn; intros N' D; [exact N'|]. constructor.
  - intros H. apply in_app_or in H. destruct H as [H|H]; [contradiction|]. elim (D x); [now left|exact H].
  - apply IH; [exact N'|]. intros y Hy. apply D. now right.
Qed.
Lemma existsb_false {X} (f : X -> bool) l : existsb f l = false <-> forall x, In x l -> f x = false.
Proof.
  induction l as [|y l IH]; cbn; [split; [intros _ x []|reflexivity]|]. rewrite orb_false_iff, IH. split.
  - intros [H1 H2] x [<-|Hx]; auto.
  - intros H. split; [apply H; now left|]. intros x Hx. apply H. now right.
Qed.

(** *** one side *)
Section Side.
Variables (on_set only overlap : list string) (suffix : option string).
Hypothesis Nd : NoDup only.
Hypothesis Ov : forall c, In c overlap -> In c only.
Variable nl : list string.
Hypothesis R : remap_cols on_set only overlap suffix = Some nl.
Lemma remap_length : List.length nl = List.length only.
Proof using R.
  unfold remap_cols in R. destruct suffix as [s|]; [|now injection R as <-]. destruct (String.eqb s ""); [now injection R as <-|].
  destruct (existsb _ _); [discriminate|]. destruct (existsb _ _); [discriminate|]. injection R as <-. apply map_length.
Qed.
Lemma remap_cases : nl = only \/ exists s, suffix = Some s /\ s <> ""%string /\
   nl = map (fun c => if smem c overlap then (c ++ s)%string else c) only /\
   (forall c, In c overlap -> ~ In (c ++ s)%string on_set /\ ~ In (c ++ s)%string only).
Proof using R.
  unfold remap_cols in R. destruct suffix as [s|]; [|left; now injection R as <-]. destruct (String.eqb_spec s ""); [left; now injection R as <-|].
  destruct (existsb _ _) eqn:E1 in R; [discriminate|]. destruct (existsb _ _) eqn:E2 in R; [discriminate|]. injection R as <-.
  right. exists s. split; [reflexivity|]. split; [assumption|]. split; [reflexivity|]. intros c Hc.
  rewrite existsb_false in E1, E2. split.
  - apply smem_not. apply E1. now apply in_map with (f := fun c => (c ++ s)%string).
  - apply smem_not. apply E2. now apply in_map with (f := fun c => (c ++ s)%string).
Qed.
Lemma remap_nodup : NoDup nl.
Proof using Nd R Ov.
  destruct remap_cases as [-> | (s & _ & _ & -> & F)]; [exact Nd|].
  apply NoDup_map_in; [exact Nd|]. intros x y Hx Hy E.
  destruct (smem x overlap) eqn:Ex, (smem y overlap) eqn:Ey; auto.
  - now apply append_inj_l in E.
  - apply smem_in in Ex. destruct (F x Ex) as [_ F2]. elim F2. now rewrite E.
  - apply smem_in in Ey. destruct (F y Ey) as [_ F2]. elim F2. now rewrite <- E.
Qed.
Lemma remap_fresh keys : (forall c, In c keys -> In c on_set) -> (forall c, In c only -> ~ In c keys) -> forall c, In c nl -> ~ In c keys.
Proof using R.
  intros K D c Hc. destruct remap_cases as [E | (s & _ & _ & E & F)]; [subst; now apply D|].
  rewrite E in Hc. apply in_map_iff in Hc. destruct Hc as (x & <- & Hx). destruct (smem x overlap) eqn:Ex.
  - apply smem_in in Ex. intros H. apply K in H. destruct (F x Ex) as [F1 _]. contradiction.
  - now apply D.
Qed.
(** each new name is the old one, or the old one with the suffix *)
Lemma remap_names o n : In (o, n) (combine only nl) -> n = o \/ exists s, suffix = Some s /\ s <> ""%string /\ In o overlap /\ n = (o ++ s)%string.
Proof using R.
  intros H. destruct remap_cases as [E | (s & S1 & S2 & E & F)].
  - left. subst nl. clear -H. induction only as [|x l IH]; cbn in H; [contradiction|]. destruct H as [H|H]; [congruence|]. now apply IH.
  - subst nl. clear R. assert (G : n = if smem o overlap then (o ++ s)%string else o).
    { clear -H. induction only as [|x l IH]; cbn in H; [contradiction|]. destruct H as [H|H]; [injection H as <- <-; reflexivity|]. now apply IH. }
    destruct (smem o overlap) eqn:Eo; [|now left]. right. exists s. apply smem_in in Eo. auto.
Qed.
End Side.
Lemma combine_fst {X Y} (l : list X) (l' : list Y) : List.length l' = List.length l -> map fst (combine l l') = l.
Proof. revert l'. induction l as [|x l IH]; intros [|y l'] H; cbn in *; try lia; [reflexivity|]. rewrite IH by lia. reflexivity. Qed.
Lemma combine_snd {X Y} (l : list X) (l' : list Y) : List.length l' = List.length l -> map snd (combine l l') = l'.
Proof. revert l'. induction l as [|x l IH]; intros [|y l'] H; cbn in *; try lia; [reflexivity|]. rewrite IH by lia. reflexivity. Qed.

Section Names.
Variables (left_on right_on : list string) (suffixes : suffix_pair) (cl cr : list string).
Hypothesis NL : NoDup cl.
Hypothesis NR : NoDup cr.
Let inter := nodup string_dec (filter (fun c => smem c right_on) left_on).
Let lo := filter (fun c => negb (smem c inter)) cl.
Let ro := filter (fun c => negb (smem c inter)) cr.
Let overlap := filter (fun c => smem c ro) lo.
Lemma inter_in c : In c inter <-> In c left_on /\ In c right_on.
Proof using. unfold inter. rewrite nodup_In, filter_In, smem_in. reflexivity. Qed.
Lemma lo_in c : In c lo <-> In c cl /\ ~ In c inter.
Proof using. unfold lo. rewrite filter_In, negb_true_iff, smem_not. reflexivity. Qed.
Lemma ro_in c : In c ro <-> In c cr /\ ~ In c inter.
Proof using. unfold ro. rewrite filter_In, negb_true_iff, smem_not. reflexivity. Qed.
Lemma overlap_in c : In c overlap <-> In c lo /\ In c ro.
Proof using. unfold overlap. rewrite filter_In, smem_in. reflexivity. Qed.

Lemma mapping_inv cm : construct_colname_mapping left_on right_on suffixes cl cr = Some cm ->
  exists nl nr, remap_cols left_on lo overlap (suffix_of true suffixes) = Some nl /\
    remap_cols right_on ro overlap (suffix_of false suffixes) = Some nr /\
    (forall c, In c nl -> ~ In c nr) /\ cm = mkCM (combine lo nl) (combine ro nr) inter.
Proof using.
  unfold construct_colname_mapping. fold inter. fold lo. fold ro. fold overlap. intros H.
  destruct (match overlap with [] => false | _ => _ end); [discriminate|].
  replace (match suffixes with Some (a, _) => a | None => Some ""%string end) with (suffix_of true suffixes) in H by (destruct suffixes as [[? ?]|]; reflexivity).
  replace (match suffixes with Some (_, b) => b | None => Some ""%string end) with (suffix_of false suffixes) in H by (destruct suffixes as [[? ?]|]; reflexivity).
  destruct (remap_cols left_on lo overlap _) as [nl|] eqn:E1; [|discriminate]. destruct (remap_cols right_on ro overlap _) as [nr|] eqn:E2; [|discriminate].
  destruct (existsb _ _) eqn:E3 in H; [discriminate|]. injection H as <-. exists nl, nr. split; [reflexivity|]. split; [reflexivity|]. split; [|reflexivity].
  intros c Hc. rewrite existsb_false in E3. apply smem_not. now apply E3.
Qed.
Theorem names_distinct cm : construct_colname_mapping left_on right_on suffixes cl cr = Some cm ->
  NoDup (cm_keys cm ++ map snd (cm_left cm) ++ map snd (cm_right cm)).
Proof using NL NR.
  intros H. apply mapping_inv in H. destruct H as (nl & nr & R1 & R2 & D & ->). cbn [cm_keys cm_left cm_right].
  rewrite !combine_snd by (eapply remap_length; eassumption).
  assert (Nlo : NoDup lo) by (apply NoDup_filter, NL). assert (Nro : NoDup ro) by (apply NoDup_filter, NR).
  assert (F1 : forall c, In c nl -> ~ In c inter).
  { eapply remap_fresh; [exact R1| |]; intros c Hc; [now apply inter_in in Hc|now apply lo_in in Hc]. }
  assert (F2 : forall c, In c nr -> ~ In c inter).
  { eapply remap_fresh; [exact R2| |]; intros c Hc; [now apply inter_in in Hc|now apply ro_in in Hc]. }
  apply NoDup_app_disj; [apply NoDup_nodup| |].
  - apply NoDup_app_disj; [| |exact D].
    + eapply remap_nodup; [exact Nlo| |exact R1]. intros c Hc. now apply overlap_in in Hc.
    + eapply remap_nodup; [exact Nro| |exact R2]. intros c Hc. now apply overlap_in in Hc.
  - intros c Hc Hin. apply in_app_or in Hin. destruct Hin as [Hin|Hin]; [now apply (F1 c)|now apply (F2 c)].
Qed.
Theorem names_complete cm : construct_colname_mapping left_on right_on suffixes cl cr = Some cm ->
  (forall c, In c (cm_keys cm) <-> In c left_on /\ In c right_on) /\
  (forall c, In c (map fst (cm_left cm)) <-> In c cl /\ ~ In c (cm_keys cm)) /\
  (forall c, In c (map fst (cm_right cm)) <-> In c cr /\ ~ In c (cm_keys cm)) /\
  (forall o n, In (o, n) (cm_left cm) -> n = o \/ (In o cr /\ exists s, suffix_of true suffixes = Some s /\ n = (o ++ s)%string)) /\
  (forall o n, In (o, n) (cm_right cm) -> n = o \/ (In o cl /\ exists s, suffix_of false suffixes = Some s /\ n = (o ++ s)%string)).
Proof using.
  intros H. apply mapping_inv in H. destruct H as (nl & nr & R1 & R2 & D & ->). cbn [cm_keys cm_left cm_right].
  rewrite !combine_fst by (eapply remap_length; eassumption). split; [exact inter_in|]. split; [exact lo_in|]. split; [exact ro_in|]. split.
  - intros o n Hn. destruct (remap_names _ _ _ _ _ R1 o n Hn) as [E|(s & E1 & _ & E3 & E4)]; [now left|]. right.
    apply overlap_in in E3. destruct E3 as [_ E3]. apply ro_in in E3. split; [apply E3|]. exists s. auto.
  - intros o n Hn. destruct (remap_names _ _ _ _ _ R2 o n Hn) as [E|(s & E1 & _ & E3 & E4)]; [now left|]. right.
    apply overlap_in in E3. destruct E3 as [E3 _]. apply lo_in in E3. split; [apply E3|]. exists s. auto.
Qed.
(** it raises only when a non-key column name is in both tables *)
Theorem raises_shared : construct_colname_mapping left_on right_on suffixes cl cr = None ->
  exists c, In c cl /\ In c cr /\ ~ (In c left_on /\ In c right_on).
Proof using.
  intros H. destruct overlap as [|c l] eqn:E.
  - exfalso. unfold construct_colname_mapping in H. fold inter in H. fold lo in H. fold ro in H. fold overlap in H. rewrite E in H. cbv zeta in H.
    assert (M : forall on only s, remap_cols on only [] s = Some only).
    { intros on only [s|]; [|reflexivity]. cbn. destruct (String.eqb s ""); [reflexivity|]. now rewrite map_id. }
    rewrite !M in H. destruct (existsb _ _) eqn:E3 in H; [|discriminate]. apply existsb_exists in E3. destruct E3 as (c & H1 & H2).
    apply smem_in in H2. assert (Hin : In c overlap) by (apply overlap_in; auto). rewrite E in Hin. contradiction.
  - exists c. assert (Hin : In c overlap) by (rewrite E; now left). apply overlap_in in Hin. destruct Hin as [H1 H2].
    apply lo_in in H1. apply ro_in in H2. rewrite <- inter_in. tauto.
Qed.
(** fresh, different suffixed names are accepted *)
Theorem fresh_suffixes s1 s2 : suffixes = Some (Some s1, Some s2) -> s1 <> ""%string -> s2 <> ""%string -> s1 <> s2 ->
  (forall c, In c cl -> In c cr -> ~ In (c ++ s1)%string (left_on ++ cl ++ cr) /\ ~ In (c ++ s2)%string (right_on ++ cl ++ cr)) ->
  (forall c c', In c cl -> In c' cr -> (c ++ s1)%string <> (c' ++ s2)%string) ->
  exists cm, construct_colname_mapping left_on right_on suffixes cl cr = Some cm.
Proof using.
  intros Es N1 N2 N12 F C. unfold construct_colname_mapping. fold inter. fold lo. fold ro. fold overlap. cbv zeta.
  rewrite Es. cbn [opt_eqb]. assert (Eq : String.eqb s1 s2 = false) by (now apply String.eqb_neq). rewrite Eq.
  replace (match overlap with [] => false | _ :: _ => false end) with false by (destruct overlap; reflexivity).
  assert (Ho : forall c, In c overlap -> In c cl /\ In c cr).
  { intros c Hc. apply overlap_in in Hc. destruct Hc as [H1 H2]. apply lo_in in H1. apply ro_in in H2. tauto. }
  assert (M1 : remap_cols left_on lo overlap (Some s1) = Some (map (fun c => if smem c overlap then (c ++ s1)%string else c) lo)).
  { unfold remap_cols. destruct (String.eqb_spec s1 ""); [congruence|].
    assert (A : forall l, (forall c, In c l -> In c (left_on ++ cl ++ cr)) -> existsb (fun c => smem c l) (map (fun c => (c ++ s1)%string) overlap) = false).
    { intros l Hl. apply existsb_false. intros x Hx. apply in_map_iff in Hx. destruct Hx as (c & <- & Hc). apply smem_not. intros Hin.
      destruct (Ho c Hc) as [H1 H2]. destruct (F c H1 H2) as [F1 _]. apply F1. now apply Hl. }
    rewrite A by (intros; apply in_or_app; now left). rewrite A; [reflexivity|]. intros c Hc. apply lo_in in Hc.
    apply in_or_app. right. apply in_or_app. now left. }
  assert (M2 : remap_cols right_on ro overlap (Some s2) = Some (map (fun c => if smem c overlap then (c ++ s2)%string else c) ro)).
  { unfold remap_cols. destruct (String.eqb_spec s2 ""); [congruence|].
    assert (A : forall l, (forall c, In c l -> In c (right_on ++ cl ++ cr)) -> existsb (fun c => smem c l) (map (fun c => (c ++ s2)%string) overlap) = false).
    { intros l Hl. apply existsb_false. intros x Hx. apply in_map_iff in Hx. destruct Hx as (c & <- & Hc). apply smem_not. intros Hin.
      destruct (Ho c Hc) as [H1 H2]. destruct (F c H1 H2) as [_ F1]. apply F1. now apply Hl. }
    rewrite A by (intros; apply in_or_app; now left). rewrite A; [reflexivity|]. intros c Hc. apply ro_in in Hc.
    apply in_or_app. right. apply in_or_app. now right. }
  rewrite M1, M2. destruct (existsb _ _) eqn:E; [|eauto]. exfalso. apply existsb_exists in E. destruct E as (x & H1 & H2). apply smem_in in H2.
  apply in_map_iff in H1. destruct H1 as (c & <- & Hc). apply in_map_iff in H2. destruct H2 as (c' & E & Hc').
  assert (Hcl := proj1 (proj1 (lo_in c) Hc)). assert (Hcr := proj1 (proj1 (ro_in c') Hc')).
  destruct (smem c' overlap) eqn:E', (smem c overlap) eqn:E0.
  - elim (C c c' Hcl Hcr). congruence.
  - apply smem_in in E'. destruct (Ho c' E') as [Q1 Q2]. destruct (F c' Q1 Q2) as [_ F2]. apply F2. rewrite E. apply in_or_app. right. apply in_or_app. now left.
  - apply smem_in in E0. destruct (Ho c E0) as [Q1 Q2]. destruct (F c Q1 Q2) as [F1 _]. apply F1. rewrite <- E. apply in_or_app. right. apply in_or_app. now right.
  - subst c'. apply smem_not in E'. apply E'. apply overlap_in. auto.
Qed.
(** shared non-key columns without usable suffixes raise *)
Theorem no_suffix_raises c : In c cl -> In c cr -> ~ (In c left_on /\ In c right_on) ->
  (suffixes = None \/ exists s, suffixes = Some (s, s)) -> construct_colname_mapping left_on right_on suffixes cl cr = None.
Proof using.
  intros H1 H2 H3 Hs. unfold construct_colname_mapping. fold inter. fold lo. fold ro. fold overlap.
  rewrite <- inter_in in H3. assert (Hin : In c overlap) by (apply overlap_in; rewrite lo_in, ro_in; auto).
  destruct overlap as [|c0 ov]; [contradiction|]. destruct Hs as [-> | [s ->]]; [reflexivity|].
  replace (opt_eqb s s) with true by (destruct s; cbn; [symmetry; apply String.eqb_refl|reflexivity]). reflexivity.
Qed.
End Names.
