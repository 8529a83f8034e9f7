(** merge_lookup. *)
From Coq Require Import List Arith Bool Lia String Permutation.
From Verif Require Import Sched SchedFacts GroupModel GroupFacts MergeSpec MergeModel MergeFacts MergeProofs MergeProofs2 MergeProofs3 MergeProofs4 MergeColsModel MergeColsProofs MergeColsProofs2.
Import ListNotations.
Local Open Scope list_scope.

Section Partner.
Context {B : Type}.
Variable eqb : B -> B -> bool.
Hypothesis eqb_eq : forall a b, eqb a b = true <-> a = b.
Lemma unique_match (keys : list (option B)) o : unique_keys keys -> forall x y l, matching eqb o keys (all_rows keys) <> x :: y :: l.
Proof using eqb_eq.
  intros U x y l E. assert (N : NoDup (x :: y :: l)).
  { rewrite <- E. apply NoDup_filter, seq_NoDup. }
  assert (G : forall z, In z (x :: y :: l) -> exists b, o = Some b /\ nth_error keys z = Some (Some b)).
  { intros z Hz. rewrite <- E in Hz. apply filter_In in Hz. destruct Hz as [Hz J]. unfold all_rows in Hz. apply in_seq in Hz.
    destruct o as [b|]; [|discriminate]. exists b. split; [reflexivity|]. cbn [joins] in J. destruct (nth z keys None) as [b'|] eqn:Ez; [|discriminate].
    apply eqb_eq in J. subst b'. rewrite <- Ez. apply nth_error_nth'. lia. }
  destruct (G x) as (b & -> & Hx); [now left|]. destruct (G y) as (b' & Q & Hy); [right; now left|]. injection Q as <-.
  assert (x = y) by (eapply U; eassumption). subst. inversion N as [|? ? N1]; subst. apply N1. now left.
Qed.
Lemma matching_partner k keys o : (k = None -> unique_keys keys) ->
  matching eqb o keys (kept eqb k keys) = match partner eqb k o keys with Some j => [j] | None => [] end.
Proof using eqb_eq.
  intros U. rewrite <- cand_spec by exact eqb_eq. unfold cand, partner. fold (rrows eqb keys o).
  destruct k as [[]|].
  - destruct (rrows eqb keys o); reflexivity.
  - destruct (rrows eqb keys o) as [|x l] eqn:E; [reflexivity|]. cbn [pick].
    assert (G : forall z zs, last (map Some (z :: zs)) None = Some (last (z :: zs) 0)).
    { intros z zs. revert z. induction zs as [|w zs IH]; intros z; [reflexivity|]. exact (IH w). }
    now rewrite G.
  - assert (Q := unique_match keys o (U eq_refl)). unfold rrows in *. destruct (matching eqb o keys (all_rows keys)) as [|x [|y l]]; try reflexivity.
    exfalso. now apply (Q x y l).
Qed.
Lemma left_join_partner k lkeys rkeys ls : (k = None -> unique_keys rkeys) ->
  left_join eqb lkeys rkeys ls (kept eqb k rkeys) = map (fun i => (Some i, partner eqb k (nth i lkeys None) rkeys)) ls.
Proof using eqb_eq.
  intros U. unfold left_join. rewrite flat_map_concat_map. erewrite map_ext; [apply concat_map_one|]. intros i. cbn beta. rewrite matching_partner by exact U.
  destruct (partner _ _ _ _); reflexivity.
Qed.
End Partner.

Section Lookup.
Context {V : Type}.
Variable veqb : V -> V -> bool.
Hypothesis veqb_eq : forall a b, veqb a b = true <-> a = b.
Variable null : V -> bool.
Variable inv : V.
Variable sched : list (list (store (option nat))) -> list (store (option nat)).
Hypothesis HS : forall its, interleave its (sched its).
Variable junk : mem (option nat).
Variable group : list (option (list V)) -> @keygroup (list V).
Hypothesis HG : forall keys, groups_keys keys (group keys).
Variable strcol : string -> bool.
Notation teqb := (tuple_eqb veqb).
Notation hn := (has_null null).
Variables left right : @dataset V.
Hypothesis WL : well_formed left.
Hypothesis WR : well_formed right.
Variables left_on right_on : list string.
Hypothesis Lon : List.length left_on = List.length right_on.
Variable suffixes : suffix_pair.
Variables cl cr : list string.
Hypothesis Ncl : NoDup cl.
Hypothesis Ncr : NoDup cr.
Notation L := (tuples inv left left_on (nrows left)).
Notation R := (tuples inv right right_on (nrows right)).
Notation shared c := (In c left_on /\ In c right_on).
Notation ML := (merge_lookup veqb null inv sched junk group strcol left right left_on right_on).

(** the arguments name existing columns, and the names of the result do not clash *)
Definition arguments_ok : Prop :=
  left_on <> [] /\ (forall c, In c (left_on ++ cl) -> In c (names left)) /\ (forall c, In c (right_on ++ cr) -> In c (names right)) /\
  construct_colname_mapping left_on right_on suffixes cl cr <> None.

Notation JK := (create_indices teqb sched junk (group (join_keys null inv left left_on false)) (group (join_keys null inv right right_on true)) None HLeft None).
Lemma lookup_unfold rm k : ML rm suffixes cl cr k = None <->
  (~ arguments_ok \/ (k = None /\ ~ unique_keys (nullable hn R)) \/
   (rm = true /\ exists i, In (Some i) (map Some (seq 0 (nrows left))) /\ matching teqb (nth i (nullable hn L) None) (nullable hn R) (kept teqb k (nullable hn R)) = [])).
Proof using veqb_eq HS HG Lon.
  unfold merge_lookup, merge2. destruct (combine_maps left_on right_on Lon) as [E1 E2].
  destruct (match left_on with [] => true | _ => match right_on with [] => true | _ => false end end) eqn:En.
  { split; [|reflexivity]. intros _. left. intros (Q & _). destruct left_on; [congruence|]. destruct right_on; [cbn in Lon; lia|discriminate]. }
  assert (Nl : left_on <> []) by (destruct left_on; discriminate). clear En.
  destruct (negb _) eqn:Pr.
  { split; [|reflexivity]. intros _. left. intros (_ & P1 & P2 & _). apply negb_true_iff, andb_false_iff in Pr.
    destruct Pr as [Pr|Pr]; apply not_true_iff_false in Pr; apply Pr, forallb_forall; intros c Hc; apply smem_in; auto. }
  apply negb_false_iff, andb_true_iff in Pr. destruct Pr as [PL PR]. rewrite forallb_forall in PL, PR.
  destruct (construct_colname_mapping left_on right_on suffixes cl cr) as [cm|] eqn:CM.
  2: { split; [|reflexivity]. intros _. left. intros (_ & _ & _ & Q). congruence. }
  assert (AOK : arguments_ok).
  { split; [exact Nl|]. split; [intros c Hc; apply smem_in; now apply PL|]. split; [intros c Hc; apply smem_in; now apply PR|congruence]. }
  rewrite E1, E2. cbn [merge_indices_keep_ok negb is_left is_right is_outer andb].
  set (lk := join_keys null inv left left_on false). set (rk := join_keys null inv right right_on true).
  assert (UK : unique_ok (group rk) = true <-> unique_keys (nullable hn R)).
  { rewrite (unique_ok_iff rk) by apply HG. reflexivity. }
  assert (Ll : List.length lk = nrows left) by (unfold lk, join_keys; rewrite key_options_length; apply tuples_length).
  destruct (match match k with None => Some Vm1 | Some _ => None end with None => true | Some w => validate_groupings (group lk) (group rk) w None k end) eqn:VG.
  2: { split; [|reflexivity]. intros _. right. left. destruct k as [k|]; [discriminate|]. split; [reflexivity|]. intros Q. apply UK in Q.
       unfold validate_groupings in VG. cbn [is_some negb andb orb] in VG. rewrite Q in VG. discriminate. }
  assert (U : k = None -> unique_keys (nullable hn R)).
  { intros ->. apply UK. unfold validate_groupings in VG. cbn [is_some negb andb orb] in VG. exact VG. }
  cbv zeta.
  destruct (left_rows teqb (teqb_eq veqb veqb_eq) sched HS junk lk rk (group lk) (group rk) None None k (HG lk) (HG rk) (or_intror (or_introl eq_refl)))
    as (ls & _ & E & I1 & I2). specialize (E eq_refl). subst ls.
  set (j := create_indices _ _ _ _ _ _ _ _ _) in *. destruct (right_index j) as [ri|] eqn:Eri; [|unfold j in Eri; discriminate].
  cbn [resolve] in I2. unfold lk, rk, join_keys in I2. rewrite (key_options_force hn false R) in I2. rewrite (left_join_keys teqb (teqb_eq veqb veqb_eq) hn false false L R) in I2.
  rewrite left_join_partner in I2; [|apply teqb_eq, veqb_eq|exact U]. rewrite map_map in I2. cbn [snd] in I2.
  assert (Al : forall x : list nat, all_rows lk = seq 0 (nrows left)) by (intros; unfold all_rows; now rewrite Ll). 
  fold (join_keys null inv left left_on false) in I2. fold lk in I2. rewrite (Al []) in I2.
  destruct rm; cbn [andb].
  - destruct (forallb is_some ri) eqn:F; cbn [negb].
    + split; [discriminate|]. intros [Q|[[Q1 Q2]|(_ & i & Hi & Q)]]; [contradiction|elim Q2; auto|]. exfalso.
      apply in_map_iff in Hi. destruct Hi as (i' & Q' & Hi). injection Q' as ->. rewrite forallb_forall in F.
      rewrite matching_partner in Q; [|apply teqb_eq, veqb_eq|exact U].
      specialize (F (partner teqb k (nth i (nullable hn L) None) (nullable hn R))). rewrite I2 in F.
      destruct (partner _ _ _ _) eqn:Ep; [discriminate|]. cbn [is_some] in F. discriminate F. apply in_map_iff. exists i. split; [exact Ep|exact Hi].
    + split; [|reflexivity]. intros _. right. right. split; [reflexivity|]. apply not_true_iff_false in F. rewrite forallb_forall in F.
      assert (X : exists i, In i (seq 0 (nrows left)) /\ partner teqb k (nth i (nullable hn L) None) (nullable hn R) = None).
      { subst ri. clear -F. set (f := fun i => partner teqb k (nth i (nullable hn L) None) (nullable hn R)) in *.
        change (exists i, In i (seq 0 (nrows left)) /\ f i = None). clearbody f. induction (seq 0 (nrows left)) as [|i l IH].
        - elim F. intros x [].
        - destruct (f i) eqn:Ep; [|exists i; split; [now left|exact Ep]].
          destruct IH as (i' & Hi & Q); [|exists i'; split; [now right|exact Q]]. intros H. apply F. intros x Hx. cbn in Hx. destruct Hx as [Hx|Hx]; [subst x; now rewrite Ep|now apply H]. }
      destruct X as (i & Hi & Q). exists i. split; [now apply in_map|]. rewrite matching_partner; [|apply teqb_eq, veqb_eq|exact U]. now rewrite Q.
  - split; [discriminate|]. intros [Q|[[Q1 Q2]|(Q & _)]]; [contradiction|elim Q2; auto|discriminate].
Qed.

(** when the arguments are sound, it raises exactly when a key of the right table is ambiguous, or
    a match is required and missing *)
Lemma partner_kept k o : (k = None -> unique_keys (nullable hn R)) ->
  (matching teqb o (nullable hn R) (kept teqb k (nullable hn R)) = [] <-> partner teqb k o (nullable hn R) = None).
Proof using veqb_eq. intros U. rewrite matching_partner by (auto; apply teqb_eq, veqb_eq). destruct (partner _ _ _ _); split; congruence. Qed.
Lemma partner_none k o keys : partner teqb k o keys = None <-> matching teqb o keys (all_rows keys) = [].
Proof using.
  unfold partner. destruct (matching teqb o keys (all_rows keys)) as [|x l].
  - destruct k as [[]|]; split; reflexivity.
  - assert (G : forall z zs, last (map Some (z :: zs)) None <> @None nat).
    { intros z zs. revert z. induction zs as [|w zs IH]; intros z; [discriminate|]. exact (IH w). }
    destruct k as [[]|]; split; try discriminate. intros Q. elim (G x l Q).
Qed.
Theorem lookup_raises rm k : arguments_ok ->
  (ML rm suffixes cl cr k = None <->
   (k = None /\ ~ unique_keys (nullable hn R)) \/
   (rm = true /\ exists i, i < nrows left /\ matching teqb (nth i (nullable hn L) None) (nullable hn R) (all_rows (nullable hn R)) = [])).
Proof using veqb_eq HS HG Lon.
  intros A. rewrite lookup_unfold. split.
  - intros [Q|[Q|(-> & i & Hi & Q)]]; [contradiction|now left|]. right. split; [reflexivity|]. exists i.
    apply in_map_iff in Hi. destruct Hi as (i' & Q' & Hi). injection Q' as ->. apply in_seq in Hi. split; [lia|].
    destruct k as [[]|]; [| |exact Q].
    + apply partner_none with (k := Some KFirst). apply partner_kept; [discriminate|exact Q].
    + apply partner_none with (k := Some KLast). apply partner_kept; [discriminate|exact Q].
  - intros [Q|(-> & i & Hi & Q)]; [auto|]. right. right. split; [reflexivity|]. exists i. split; [apply in_map, in_seq; lia|].
    destruct k as [k|]; [|exact Q]. apply partner_kept; [discriminate|]. now apply partner_none.
Qed.
Theorem lookup_columns rm k out ind : ML rm suffixes cl cr k = Some (out, ind) ->
    (forall c, shared c -> col c out = Some (getcol left c)) /\
    (forall c, In c cl -> ~ shared c -> exists n, (n = c \/ (In c cr /\ exists s, suffix_of true suffixes = Some s /\ n = (c ++ s)%string)) /\
       col n out = Some (getcol left c)) /\
    (forall c, In c cr -> ~ shared c -> exists n, (n = c \/ (In c cl /\ exists s, suffix_of false suffixes = Some s /\ n = (c ++ s)%string)) /\
       col n out = Some (map (fun i => cell inv (getcol right c) (partner teqb k (nth i (nullable hn L) None) (nullable hn R))) (seq 0 (nrows left)))) /\
    NoDup (names out) /\ ind = None.
Proof using veqb_eq HS HG WL WR Lon Ncl Ncr.
  intros H. assert (H' := H). unfold merge_lookup in H. destruct (merge2_columns veqb veqb_eq null inv sched HS junk group HG strcol left right WL WR left_on right_on Lon suffixes cl cr Ncl Ncr
    HLeft _ _ _ _ _ _ _ H ltac:(discriminate)) as (ls & rs & _ & E1 & P2 & _ & C1 & C2 & C3 & N & _ & _).
  specialize (E1 eq_refl). subst ls.
  assert (U : k = None -> unique_keys (nullable hn R)).
  { intros ->. assert (Q : ~ (ML rm suffixes cl cr None = None)) by congruence. rewrite lookup_unfold in Q.
    assert (Un : unique_ok (group (join_keys null inv right right_on true)) = true).
    { unfold merge2 in H. destruct (match left_on with [] => true | _ => match right_on with [] => true | _ => false end end); [discriminate|].
      destruct (negb _); [discriminate|]. destruct (construct_colname_mapping _ _ _ _ _); [|discriminate]. destruct (combine_maps left_on right_on Lon) as [E3 E4]. rewrite E3, E4 in H.
      cbn [merge_indices_keep_ok negb is_left is_right is_outer andb] in H. cbv zeta in H.
      unfold validate_groupings in H. cbn [is_some negb andb orb] in H. destruct (unique_ok _); [reflexivity|discriminate]. }
    apply (unique_ok_iff (join_keys null inv right right_on true)) in Un; [exact Un|apply HG]. }
  assert (ER : rs = kept teqb k (nullable hn R) \/ Permutation rs (kept teqb k (nullable hn R))) by (right; exact P2).
  cbn [join_rows] in C1, C2, C3.
  assert (Rows : left_join teqb (nullable hn L) (nullable hn R) (seq 0 (nrows left)) rs = map (fun i => (Some i, partner teqb k (nth i (nullable hn L) None) (nullable hn R))) (seq 0 (nrows left))).
  { rewrite <- left_join_partner by (auto; apply teqb_eq, veqb_eq). unfold left_join. apply flat_map_ext. intros i.
    assert (Pm : Permutation (matching teqb (nth i (nullable hn L) None) (nullable hn R) rs) (matching teqb (nth i (nullable hn L) None) (nullable hn R) (kept teqb k (nullable hn R)))) by (now apply perm_filter).
    rewrite matching_partner in Pm |- * by (auto; apply teqb_eq, veqb_eq). destruct (partner _ _ _ _).
    - apply Permutation_sym, Permutation_length_1_inv in Pm. now rewrite Pm.
    - apply Permutation_sym, Permutation_nil in Pm. now rewrite Pm. }
  rewrite Rows in C1, C2, C3.
  assert (GLc : forall c, In c (names left) -> map (fun i => nth i (getcol left c) inv) (seq 0 (nrows left)) = getcol left c).
  { intros c Hc. rewrite <- (getcol_length left c WL Hc). apply map_nth_all. }
  assert (PL : forall c, In c (left_on ++ cl) -> In c (names left)).
  { unfold merge2 in H. destruct (match left_on with [] => true | _ => match right_on with [] => true | _ => false end end); [discriminate|].
    destruct (negb _) eqn:Pr; [discriminate|]. apply negb_false_iff, andb_true_iff in Pr. destruct Pr as [PL _]. rewrite forallb_forall in PL.
    intros c Hc. apply smem_in. now apply PL. }
  split. { intros c Sc. rewrite (C1 c Sc). f_equal. rewrite map_map. cbn [key_cell fst]. apply GLc, PL, in_or_app. left. apply Sc. }
  split. { intros c Hc Nc. destruct (C2 c Hc Nc) as (n & A & E). exists n. split; [exact A|]. rewrite E. f_equal. rewrite map_map. cbn [cell fst]. apply GLc, PL, in_or_app. now right. }
  split. { intros c Hc Nc. destruct (C3 c Hc Nc) as (n & A & E). exists n. split; [exact A|]. rewrite E. f_equal. rewrite map_map. reflexivity. }
  split; [exact N|]. destruct ind as [[nm cd]|]; [|reflexivity]. unfold merge2 in H. exfalso. clear -H.
  destruct (match left_on with [] => true | _ => match right_on with [] => true | _ => false end end); [discriminate|]. destruct (negb _); [discriminate|].
  destruct (construct_colname_mapping _ _ _ _ _); [|discriminate]. destruct (negb _); [discriminate|]. cbv zeta in H. destruct (match match k with None => _ | _ => _ end with None => _ | _ => _ end); [|discriminate].
  destruct (rm && _); discriminate.
Qed.

(** validate= *)
Notation M2 := (merge2 veqb null inv sched junk group strcol left right left_on right_on).
Definition one_left (v : validate) : bool := match v with V11 | V1m => true | _ => false end.
Definition one_right (v : validate) : bool := match v with V11 | Vm1 => true | _ => false end.
Definition valid_join (v : validate) (h : how) (kl kr : keep) : Prop :=
  (one_left v = true -> kl = None -> unique_keys (keep_keys hn (is_left h) L)) /\
  (one_right v = true -> kr = None -> unique_keys (keep_keys hn (is_right h) R)).
Theorem validate_raises h v kl kr : arguments_ok -> (h = HOuter -> kl = None) ->
  (M2 h suffixes cl cr (Some v) kl kr None false = None <-> ~ valid_join v h kl kr).
Proof using HG Lon.
  intros (A1 & A2 & A3 & A4) Ho. unfold merge2.
  destruct (match left_on with [] => true | _ => match right_on with [] => true | _ => false end end) eqn:En.
  { destruct left_on; [congruence|]. destruct right_on; [cbn in Lon; lia|discriminate]. } clear En.
  destruct (negb _) eqn:Pr.
  { exfalso. apply negb_true_iff, andb_false_iff in Pr. destruct Pr as [Pr|Pr]; apply not_true_iff_false in Pr; apply Pr, forallb_forall; intros c Hc; apply smem_in; auto. } clear Pr.
  destruct (construct_colname_mapping left_on right_on suffixes cl cr) as [cm|]; [|congruence].
  destruct (combine_maps left_on right_on Lon) as [E1 E2]. rewrite E1, E2.
  destruct (negb (merge_indices_keep_ok h kl)) eqn:KO.
  { exfalso. destruct h; try discriminate. rewrite (Ho eq_refl) in KO. discriminate. } clear KO.
  cbv zeta. assert (Ul := unique_ok_iff (join_keys null inv left left_on (negb (is_left h))) (group (join_keys null inv left left_on (negb (is_left h)))) (HG _)).
  assert (Ur := unique_ok_iff (join_keys null inv right right_on (negb (is_right h))) (group (join_keys null inv right right_on (negb (is_right h)))) (HG _)).
  unfold join_keys at 2 in Ul. rewrite keep_keys_eq in Ul. unfold join_keys at 2 in Ur. rewrite keep_keys_eq in Ur.
  match goal with |- (if ?b then _ else _) = None <-> _ => assert (VB : b = true <-> valid_join v h kl kr) end.
  { unfold validate_groupings, valid_join. rewrite andb_true_iff, <- Ul, <- Ur.
    destruct v, kl as [kl|], kr as [kr|]; cbn [one_left one_right is_some negb orb]; rewrite ?orb_true_l, ?orb_false_l; split; intros [Q1 Q2]; split; intros; try discriminate; auto. }
  destruct (validate_groupings _ _ _ _ _).
  - split; [discriminate|]. intros Q. elim Q. now apply VB.
  - split; [|reflexivity]. intros _ Q. apply VB in Q. discriminate.
Qed.
End Lookup.
