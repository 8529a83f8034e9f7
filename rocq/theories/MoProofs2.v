(** The columns of rt.merge. *)
From Coq Require Import List Arith Bool Lia String Permutation.
From Verif Require Import MergeSpec MergeModel MergeColsModel MergeColsProofs MergeColsProofs2 MergeColsProofs3 MoModel MoSpec MoProofs.
Import ListNotations.
Local Open Scope list_scope.

Lemma append_nil s : (s ++ "")%string = s.
Proof. induction s as [|c s IH]; [reflexivity|]. cbn. now rewrite IH. Qed.

Section Assembled.
Context {V : Type}.
Variable inv : V.
Variables left right : @dataset V.
Variables left_on right_on cl cr : list string.
Hypothesis Ncl : NoDup cl.
Hypothesis Ncr : NoDup cr.
Variable suffixes : option string * option string.
Variable sfx : suffix_pair.
Hypothesis S1 : forall s, suffix_of true sfx = Some s -> s = ""%string \/ fst suffixes = Some s.
Hypothesis S2 : forall s, suffix_of false sfx = Some s -> s = ""%string \/ snd suffixes = Some s.
Variable cm : colmap.
Hypothesis CM : construct_colname_mapping left_on right_on sfx cl cr = Some cm.
Variable h : how.
Variable rows : list row.
Variables Kf Lf Rf : string -> list V.
Hypothesis HK : forall c, shared_key left_on right_on c -> Kf c = map (key_cell inv h (getcol left c) (getcol right c)) rows.
Hypothesis HL : forall c, In c cl -> Lf c = map (fun r => cell inv (getcol left c) (fst r)) rows.
Hypothesis HR : forall c, In c cr -> Rf c = map (fun r => cell inv (getcol right c) (snd r)) rows.
Notation out := (map (fun f => (f, Kf f)) (cm_keys cm) ++ map (fun p => (snd p, Lf (fst p))) (cm_left cm) ++ map (fun p => (snd p, Rf (fst p))) (cm_right cm)).
Lemma assembled : merged inv left right left_on right_on cl cr suffixes h rows out.
Proof using Ncl Ncr S1 S2 CM HK HL HR.
  destruct (names_complete left_on right_on sfx cl cr cm CM) as (C1 & C2 & C3 & C4 & C5).
  assert (ND := names_distinct left_on right_on sfx cl cr Ncl Ncr cm CM).
  assert (N1 : forall o n, In (o, n) (cm_left cm) -> new_name cr (fst suffixes) o n).
  { intros o n H. destruct (C4 o n H) as [->|(A & s & B & ->)]; [now left|]. destruct (S1 s B) as [->|Q]; [left; apply append_nil|]. right. split; [exact A|]. now exists s. }
  assert (N2 : forall o n, In (o, n) (cm_right cm) -> new_name cl (snd suffixes) o n).
  { intros o n H. destruct (C5 o n H) as [->|(A & s & B & ->)]; [now left|]. destruct (S2 s B) as [->|Q]; [left; apply append_nil|]. right. split; [exact A|]. now exists s. }
  assert (Nout : names out = cm_keys cm ++ map snd (cm_left cm) ++ map snd (cm_right cm)).
  { unfold names. rewrite !map_app, !map_map. cbn [fst]. now rewrite map_id. }
  rewrite <- Nout in ND.
  assert (IL : forall o n, In (o, n) (cm_left cm) -> In o cl /\ ~ shared_key left_on right_on o).
  { intros o n H. apply in_map with (f := fst) in H. apply C2 in H. rewrite C1 in H. exact H. }
  assert (IR : forall o n, In (o, n) (cm_right cm) -> In o cr /\ ~ shared_key left_on right_on o).
  { intros o n H. apply in_map with (f := fst) in H. apply C3 in H. rewrite C1 in H. exact H. }
  split; [|split; [|split; [|split; [exact ND|split]]]].
  - intros c Sc. rewrite <- HK by exact Sc. apply col_in; [exact ND|]. apply in_or_app. left. apply in_map_iff. exists c. split; [reflexivity|]. now apply C1.
  - intros c Hc Nc. assert (H : In c (map fst (cm_left cm))) by (apply C2; split; [exact Hc|]; now rewrite C1).
    apply in_map_iff in H. destruct H as ([o n] & Q & H). cbn in Q. subst o. exists n. split; [now apply N1|]. rewrite <- HL by exact Hc. apply col_in; [exact ND|].
    apply in_or_app. right. apply in_or_app. left. apply in_map_iff. now exists (c, n).
  - intros c Hc Nc. assert (H : In c (map fst (cm_right cm))) by (apply C3; split; [exact Hc|]; now rewrite C1).
    apply in_map_iff in H. destruct H as ([o n] & Q & H). cbn in Q. subst o. exists n. split; [now apply N2|]. rewrite <- HR by exact Hc. apply col_in; [exact ND|].
    apply in_or_app. right. apply in_or_app. right. apply in_map_iff. now exists (c, n).
  - intros n c H. apply in_app_or in H. destruct H as [H|H]; [|apply in_app_or in H; destruct H as [H|H]]; apply in_map_iff in H.
    + destruct H as (f & Q & H). injection Q as <- <-. rewrite HK by (now apply C1). apply map_length.
    + destruct H as ([o m] & Q & H). injection Q as <- <-. apply IL in H. cbn [fst]. rewrite HL by apply H. apply map_length.
    + destruct H as ([o m] & Q & H). injection Q as <- <-. apply IR in H. cbn [fst]. rewrite HR by apply H. apply map_length.
  - intros n H. rewrite Nout in H. apply in_app_or in H. destruct H as [H|H]; [left; now apply C1|]. right. apply in_app_or in H. destruct H as [H|H]; apply in_map_iff in H; destruct H as ([o m] & Q & H); cbn [snd] in Q; subst m.
    + exists o. destruct (IL o n H) as [A B]. split; [exact B|]. left. split; [exact A|now apply N1].
    + exists o. destruct (IR o n H) as [A B]. split; [exact B|]. right. split; [exact A|now apply N2].
Qed.
Lemma assembled_key c : shared_key left_on right_on c -> In c (names out).
Proof using CM. 
  intros H. destruct (names_complete left_on right_on sfx cl cr cm CM) as (C1 & _). unfold names. rewrite map_app. apply in_or_app. left. rewrite map_map, map_id. now apply C1.
Qed.
End Assembled.

Lemma plain_left s : forall t, suffix_of true (plain_suffixes s) = Some t -> t = ""%string \/ fst s = Some t.
Proof. destruct s as [a b]. unfold plain_suffixes. intros t. destruct (_ && _); cbn; [intros [= <-]; now left|now right]. Qed.
Lemma plain_right s : forall t, suffix_of false (plain_suffixes s) = Some t -> t = ""%string \/ snd s = Some t.
Proof. destruct s as [a b]. unfold plain_suffixes. intros t. destruct (_ && _); cbn; [intros [= <-]; now left|now right]. Qed.

Lemma indicator_map rows : merge_indicator (map fst rows) (map snd rows) = map indicator_of rows.
Proof.
  unfold merge_indicator. induction rows as [|[a b] rows IH]; [reflexivity|]. cbn [map fst snd combine]. rewrite IH. f_equal. destruct a, b; reflexivity.
Qed.

Section Merge.
Context {V : Type}.
Variable veqb : V -> V -> bool.
Hypothesis veqb_eq : forall a b, veqb a b = true <-> a = b.
Variable inv : V.
Notation teqb := (tuple_eqb veqb).
Variables left right : @dataset V.
Hypothesis WL : well_formed left.
Hypothesis WR : well_formed right.
Variables left_on right_on cl cr : list string.
Hypothesis Ncl : NoDup cl.
Hypothesis Ncr : NoDup cr.
Variable suffixes : option string * option string.
Notation L := (tuples inv left left_on (nrows left)).
Notation R := (tuples inv right right_on (nrows right)).
Notation M := (merge veqb inv left right left_on right_on).
(** [h] right: the row's right side; else the left side where there is one *)
Definition rows_for (h : how) (rows : list row) : Prop :=
  map fst rows = p_left veqb h L R /\ map snd rows = p_right veqb h L R /\
  (h = HInner -> forall r, In r rows -> fst r <> None).
Lemma merge_rows h indicator out ind rows : rows_for h rows -> M h suffixes cl cr indicator = Some (out, ind) ->
  merged inv left right left_on right_on cl cr suffixes h rows out /\ indicated indicator rows out ind.
Proof using WL WR Ncl Ncr.
  intros (R1 & R2 & R3) H. unfold merge in H. destruct (_ || _); [discriminate|].
  destruct (negb _) eqn:Pr; [discriminate|]. apply negb_false_iff, andb_true_iff in Pr. destruct Pr as [PL PR]. rewrite forallb_forall in PL, PR.
  assert (PL' : forall c, In c (left_on ++ cl) -> List.length (getcol left c) = nrows left) by (intros c Hc; apply getcol_length; [exact WL|apply smem_in, PL, Hc]).
  assert (PR' : forall c, In c (right_on ++ cr) -> List.length (getcol right c) = nrows right) by (intros c Hc; apply getcol_length; [exact WR|apply smem_in, PR, Hc]).
  clear PL PR. destruct (construct_colname_mapping _ _ _ _ _) as [cm|] eqn:CM; [|discriminate]. cbv zeta in H. rewrite <- R1, <- R2 in H.
  assert (CL : forall c, List.length (getcol left c) = nrows left -> left_column inv h (map fst rows) (getcol left c) = map (fun r => cell inv (getcol left c) (fst r)) rows).
  { intros c Hc. unfold left_column. rewrite <- mbget_map. destruct h; try reflexivity. rewrite R1. cbn [p_left]. rewrite tuples_length, <- Hc.
    symmetry. rewrite mbget_map. apply map_nth_all. }
  assert (CR : forall c, List.length (getcol right c) = nrows right -> right_column inv h (map snd rows) (getcol right c) = map (fun r => cell inv (getcol right c) (snd r)) rows).
  { intros c Hc. unfold right_column. rewrite <- mbget_map. destruct h; try reflexivity. rewrite R2. cbn [p_right]. rewrite tuples_length, <- Hc.
    symmetry. rewrite mbget_map. apply map_nth_all. }
  set (o := map _ (cm_keys cm) ++ _) in H.
  assert (E : out = o /\ indicated indicator rows out ind).
  { destruct indicator as [n|]; cbn [indicated].
    - destruct (smem n (names o)) eqn:Sm; [discriminate|]. injection H as <- <-. apply smem_not in Sm. rewrite indicator_map. auto.
    - injection H as <- <-. auto. }
  destruct E as [-> E]. split; [|exact E]. unfold o.
  apply (assembled inv left right left_on right_on cl cr Ncl Ncr suffixes (plain_suffixes suffixes) (plain_left _) (plain_right _) cm CM h rows
    (fun f => shared_column inv h (map fst rows) (map snd rows) (getcol left f) (getcol right f))
    (fun c => left_column inv h (map fst rows) (getcol left c)) (fun c => right_column inv h (map snd rows) (getcol right c))).
  - intros c [Sc1 Sc2]. assert (Q1 := PL' c ltac:(apply in_or_app; now left)). assert (Q2 := PR' c ltac:(apply in_or_app; now left)). destruct h; cbn [shared_column].
    + transitivity (map (fun r => cell inv (getcol left c) (fst r)) rows); [exact (CL c Q1)|]. apply map_ext_in. intros r Hr. unfold key_cell.
      assert (F : exists i, fst r = Some i). { apply in_map with (f := fst) in Hr. rewrite R1 in Hr. cbn [p_left] in Hr. apply in_map_iff in Hr. destruct Hr as (i & Q & _). eauto. }
      destruct F as [i ->]. reflexivity.
    + exact (CR c Q2).
    + rewrite mbget_map. apply map_ext_in. intros r Hr. unfold key_cell. specialize (R3 eq_refl r Hr). destruct (fst r); [reflexivity|congruence].
    + clear. unfold key_cell. induction rows as [|[a b] t IH]; [reflexivity|]. cbn [map fst snd combine]. rewrite IH. f_equal. destruct a, b; reflexivity.
  - intros c Hc. apply CL, PL', in_or_app. now right.
  - intros c Hc. apply CR, PR', in_or_app. now right.
Qed.

(** when it raises *)
Notation columns_known := (columns_known left right left_on right_on cl cr).
Lemma known_dec : (forallb (fun c => smem c (names left)) (left_on ++ cl) && forallb (fun c => smem c (names right)) (right_on ++ cr)) = true <-> columns_known.
Proof using.
  rewrite andb_true_iff, !forallb_forall. unfold columns_known. split; intros [A B]; split; intros c Hc.
  - apply smem_in, A, Hc. - apply smem_in, B, Hc. - apply smem_in, A, Hc. - apply smem_in, B, Hc.
Qed.
Lemma merge_none h : M h suffixes cl cr None = None <->
  List.length left_on <> List.length right_on \/ left_on = [] \/ ~ columns_known \/ construct_colname_mapping left_on right_on (plain_suffixes suffixes) cl cr = None.
Proof using.
  unfold merge. destruct (Nat.eqb_spec (List.length left_on) (List.length right_on)) as [E|E]; cbn [negb orb]; [|split; [now left|reflexivity]].
  destruct (Nat.eqb_spec (List.length left_on) 0) as [E0|E0].
  { split; [|reflexivity]. intros _. right. left. now apply length_zero_iff_nil. }
  destruct (forallb _ _ && _) eqn:K; cbn [negb].
  - apply known_dec in K. destruct (construct_colname_mapping _ _ _ _ _) as [cm|]; cbv zeta.
    + split; [discriminate|]. intros [Q|[Q|[Q|Q]]]; try contradiction; [|discriminate]. rewrite Q in E0. now elim E0.
    + split; [tauto|reflexivity].
  - split; [|reflexivity]. intros _. right. right. left. rewrite <- known_dec. congruence.
Qed.
Lemma merge_indicator_none h n : M h suffixes cl cr (Some n) = None <->
  M h suffixes cl cr None = None \/ exists out, M h suffixes cl cr None = Some (out, None) /\ In n (names out).
Proof using.
  unfold merge. destruct (_ || _); [split; auto|]. destruct (negb _); [split; auto|]. destruct (construct_colname_mapping _ _ _ _ _) as [cm|]; [|split; auto]. cbv zeta.
  match goal with |- context [smem n (names ?o)] => set (out := o) end. destruct (smem n (names out)) eqn:Sm.
  - split; [|reflexivity]. intros _. right. exists out. split; [reflexivity|]. now apply smem_in.
  - split; [discriminate|]. intros [Q|(o & Q & Hn)]; [discriminate|]. injection Q as <-. apply smem_not in Sm. contradiction.
Qed.
End Merge.
