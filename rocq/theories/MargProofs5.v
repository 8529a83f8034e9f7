From Coq Require Import List Arith Bool ZArith Lia.
From Verif Require Import FlattenModel FlattenProofs DsModel DsProofs3 DsProofs5 GroupingProofs AggModel AggProofs2 Acc2Model MargModel MargSpec MargProofs MargProofs2 MargProofs3 MargProofs4.
Import ListNotations.

Section G.
Context {V : Type}.
Variable blank : V -> bool.
Notation mds := (mds (V := V)).
Notation cols := (list (name * list V)).

Lemma first_once_nodup l : NoDup (first_once l).
Proof. unfold first_once. apply NoDup_rev. apply NoDup_nodup. Qed.
Lemma then_nodup pick l o : NoDup l -> NoDup (then_names (V := V) pick l o).
Proof.
  intros H. unfold then_names. destruct (pick o); [apply first_once_nodup|]. destruct o as [k d|k|l'|l'|nm b]; try exact H. destruct (in_dec name_dec k l) as [D|D]; [exact H|]. apply nodup_cat; [exact H|repeat constructor; intros []|]. intros x I [J|[]]. subst. contradiction.
Qed.
Lemma names_nodup pick ops : forall l, NoDup l -> NoDup (fold_left (then_names (V := V) pick) ops l).
Proof. induction ops as [|o ops IH]; intros l H; [exact H|]. cbn [fold_left]. apply IH. now apply then_nodup. Qed.

(** the margins *)
Lemma add_margins_ok n' mask inner (F : name -> list V) l : forall clean : mds,
  (forall c v, In (c, v) (m_cols clean) -> length v = n') -> NoDup (map fst (m_cols clean) ++ l) ->
  (forall k, In k l -> exists d v, dget k inner = Some d /\ dget k (m_cols d) = Some v /\ apply_mask mask v = F k /\ length (F k) = n') ->
  add_margins l inner mask clean = Some (mkM (m_cols clean ++ map (fun k => (k, F k)) l) (m_labels clean) (m_sums clean) (m_foot clean)).
Proof.
  induction l as [|k l IH]; intros clean LN ND H; cbn [add_margins map]; [rewrite app_nil_r; now destruct clean|].
  destruct (H k (or_introl eq_refl)) as (d & v & E1 & E2 & E3 & E4). rewrite E1, E2. unfold assign. rewrite E3.
  assert (OK : isnil (m_cols clean) || (length (F k) =? nrows clean) = true).
  { unfold nrows. destruct (m_cols clean) as [|[c w] r] eqn:EC; [reflexivity|]. cbn [isnil orb]. apply Nat.eqb_eq. rewrite E4. symmetry. apply (LN c). now left. }
  rewrite OK. assert (NI : ~ In k (map fst (m_cols clean))) by (intros I; exact (proj2 (proj2 (nodup_app _ _ ND)) k I (or_introl eq_refl))). rewrite dset_fresh by exact NI.
  rewrite IH; cbn [m_cols m_labels m_sums m_foot].
  - now rewrite <- app_assoc.
  - intros c w I. apply in_app_or in I. destruct I as [I|[I|[]]]; [now apply (LN c)|]. now injection I as _ <-.
  - rewrite map_app, <- app_assoc. exact ND.
  - intros j I. apply H. now right.
Qed.
Lemma add_margins_missing mask inner l : forall clean : mds, (exists k, In k l /\ dget k inner = None) -> add_margins l inner mask clean = None.
Proof.
  induction l as [|k l IH]; intros clean (j & I & E); [destruct I|]. cbn [add_margins]. destruct (dget k inner) as [d|] eqn:D; [|reflexivity]. destruct I as [->|I]; [congruence|]. destruct (dget k (m_cols d)); [|reflexivity]. destruct (assign k _ clean); [|reflexivity]. apply IH. now exists j.
Qed.
Lemma once_last_id l : NoDup l -> once_last l = l.
Proof. induction 1 as [|k l NI ND IH]; [reflexivity|]. cbn [once_last]. apply mem_not in NI. now rewrite NI, IH. Qed.

(** the footers *)
Lemma add_footers_ok inner (G : name -> list (name * V)) l : forall clean : mds,
  NoDup (map fst (m_foot clean) ++ l) ->
  (forall k, In k l -> exists d, dget k inner = Some d /\ dget k (m_foot d) = Some (G k) /\ NoDup (map fst (G k))) ->
  add_footers l inner clean = Some (mkM (m_cols clean) (m_labels clean) (m_sums clean) (m_foot clean ++ map (fun k => (k, filter (fun p => mem (fst p) (names (m_cols clean))) (G k))) l)).
Proof.
  induction l as [|k l IH]; intros clean ND H; cbn [add_footers map]; [rewrite app_nil_r; now destruct clean|].
  destruct (H k (or_introl eq_refl)) as (d & E1 & E2 & E3). rewrite E1, E2. unfold footer_set.
  assert (OK : forallb (fun p => mem (fst p) (names (m_cols clean))) (filter (fun p => mem (fst p) (names (m_cols clean))) (G k)) = true) by (apply forallb_forall; intros p I; apply filter_In in I; apply I).
  rewrite OK. assert (NI : ~ In k (map fst (m_foot clean))) by (intros I; exact (proj2 (proj2 (nodup_app _ _ ND)) k I (or_introl eq_refl))).
  assert (DN : dget k (m_foot clean) = None) by (now apply dget_none). rewrite DN, dset_fresh by exact NI.
  assert (NF : NoDup (map fst (filter (fun p => mem (fst p) (names (m_cols clean))) (G k)))).
  { clear -E3. induction (G k) as [|[c v] r IH]; [constructor|]. cbn [map fst] in E3. inversion E3 as [|? ? N1 N2]; subst. cbn [filter fst]. destruct (mem c (names (m_cols clean))); [|now apply IH]. cbn [map fst]. constructor; [|now apply IH]. intros I. apply N1. apply in_map_iff in I. destruct I as (p & <- & I). apply in_map. apply filter_In in I. apply I. }
  rewrite (dset_all_fresh _ NF). rewrite IH; cbn [m_cols m_labels m_sums m_foot].
  - now rewrite <- app_assoc.
  - rewrite map_app, <- app_assoc. exact ND.
  - intros j I. apply H. now right.
Qed.
Lemma add_footers_missing inner l : forall clean : mds, (exists k, In k l /\ dget k inner = None) -> add_footers l inner clean = None.
Proof.
  induction l as [|k l IH]; intros clean (j & I & E); [destruct I|]. cbn [add_footers]. destruct (dget k inner) as [d|] eqn:D; [|reflexivity]. destruct I as [->|I]; [congruence|]. destruct (dget k (m_foot d)); [|reflexivity]. destruct (footer_set k _ clean); [|reflexivity]. apply IH. now exists j.
Qed.

Variables (KN CN : list name) (n : nat).
Variable ops : list (top (V := V)).
Hypothesis FITS : Forall (fits KN CN n) ops.

Lemma others_in t l k : In k (others t l) <-> In k l /\ k <> t.
Proof. unfold others. rewrite filter_In. destruct (name_dec k t); intuition congruence. Qed.
Lemma nodup_others t l : NoDup l -> NoDup (others t l).
Proof. apply NoDup_filter. Qed.
Lemma dget_map {X} (F : name -> X) l k : dget k (map (fun k => (k, F k)) l) = if mem k l then Some (F k) else None.
Proof.
  induction l as [|j l IH]; [reflexivity|]. cbn [map dget]. destruct (name_dec j k) as [E|E].
  - subst. assert (M : mem k (k :: l) = true) by (apply mem_in; now left). now rewrite M.
  - rewrite IH. destruct (mem k l) eqn:M; [apply mem_in in M|apply mem_not in M].
    + assert (M' : mem k (j :: l) = true) by (apply mem_in; now right). now rewrite M'.
    + assert (M' : mem k (j :: l) = false) by (apply mem_not; intros [?|?]; congruence). now rewrite M'.
Qed.

Theorem gen_ok nm rb t d : subject ops nm = Some t -> given ops t = Some d ->
  (forall k, In k (margins_of ops) \/ In k (footers_of ops) -> given ops k <> None) ->
  exists r f keep, snd (gen blank nm rb (tfinal blank ops)) = Some r /\
    (rb = false -> (forall c, f c = true) /\ keep = repeat true n) /\
    (rb = true -> (forall c v, In c CN -> col c d = Some v -> (f c = false <-> blank_col blank v)) /\ (forall v, row_totals d = Some v -> (f t = false <-> blank_col blank v)) /\ keeps_rows blank n (data_of d) keep) /\
    laid_out KN (filter f CN) (filter f [t] ++ besides t (margins_of ops)) (kept keep) r /\
    (forall c v, In c (KN ++ filter f CN) -> col c d = Some v -> col c r = Some (chosen keep v)) /\
    (forall k d' v, In k (filter f [t] ++ besides t (margins_of ops)) -> given ops k = Some d' -> row_totals d' = Some v -> col k r = Some (chosen keep v)) /\
    map fst (m_foot r) = t :: besides t (footers_of ops) /\
    (forall k d', In k (t :: besides t (footers_of ops)) -> given ops k = Some d' ->
      (forall c, In c (filter f CN) -> foot k r c = col_total d' c) /\
      (forall j, In j (filter f [t] ++ besides t (margins_of ops)) -> foot k r j = if name_dec j k then grand_total d' else None)) /\ footed r.
Proof using FITS.
  intros SH GT GM. destruct (tfinal_inv blank KN CN n ops FITS) as (HR & HC & HD & HI).
  assert (HT := HI t). rewrite GT in HT. destruct HT as (NT & r0 & E0 & NMD). assert (NMD' := NMD). destruct NMD' as ((LR0 & fd & FE & FND & FI) & _ & N3 & N4 & N5 & N6 & N7).
  unfold gen. assert (TN : match nm with Some k => Some k | None => t_def (tfinal blank ops) end = Some t) by (rewrite HD; destruct nm; exact SH). rewrite TN. cbn [snd]. rewrite E0, HC, HR.
  (* the table itself *)
  assert (BASE : exists clean mask f keep, (if rb then trim blank r0 else (r0, None)) = (clean, mask) /\
    (rb = false -> (forall c, f c = true) /\ keep = repeat true n) /\
    (rb = true -> (forall c v, In c CN -> col c d = Some v -> (f c = false <-> blank_col blank v)) /\ (forall v, row_totals d = Some v -> (f t = false <-> blank_col blank v)) /\ keeps_rows blank n (data_of d) keep) /\
    length keep = n /\ (forall v : list V, length v = n -> apply_mask mask v = chosen keep v) /\
    laid_out KN (filter f CN) (filter f [t]) (kept keep) clean /\
    (forall c v, In c (KN ++ filter f CN ++ filter f [t]) -> col c r0 = Some v -> col c clean = Some (chosen keep v)) /\
    exists g : name -> bool, m_foot clean = [(t, filter (fun q => g (fst q)) fd)] /\ (forall c, In c (KN ++ filter f CN ++ filter f [t]) -> g c = true) /\ forall c, In c (map fst (filter (fun q => g (fst q)) fd)) -> In c (KN ++ filter f CN ++ filter f [t])).
  { destruct rb.
    - destruct (trim_ok blank KN CN [t] n r0 LR0) as (clean & mask & f & keep & H1 & H2 & H3 & H4 & H5 & H6 & H7 & H8 & g & G1 & G2). exists clean, mask, f, keep. split; [exact H1|]. split; [discriminate|]. split; [|split; [apply H3|]].
      + intros _. split; [|split; [|rewrite <- N7; exact H3]].
        * intros c v I G. apply H2; [apply in_or_app; now left|]. rewrite N3; [exact G|apply in_or_app; now right].
        * intros v G. apply H2; [apply in_or_app; right; now left|]. now rewrite N4.
      + split; [exact H4|]. split; [exact H5|]. split; [exact H6|]. exists g. rewrite G1, FE. split; [reflexivity|]. split; [intros c I; rewrite G2; now apply mem_in|]. intros c I. apply in_map_iff in I. destruct I as (q & <- & I). apply filter_In in I. destruct I as [_ I]. rewrite G2 in I. now apply mem_in in I.
    - exists r0, None, (fun _ => true), (repeat true n). split; [reflexivity|]. split; [easy|]. split; [discriminate|]. split; [apply repeat_length|]. split; [|split; [|split]].
      + intros v H. cbn [apply_mask]. rewrite <- H. symmetry. apply chosen_all.
      + unfold kept. rewrite filter_true, !filter_all by reflexivity. exact LR0.
      + intros c v _ G. rewrite G. f_equal. assert (Hv : length v = n) by (exact (col_len _ _ _ _ _ _ _ LR0 G)). rewrite <- Hv. symmetry. apply chosen_all.
      + exists (fun _ => true). rewrite FE. split; [do 2 f_equal; symmetry; apply filter_all; reflexivity|]. split; [reflexivity|]. intros c I. rewrite filter_all in I by reflexivity. rewrite !filter_all by reflexivity. apply in_or_app. right. now apply FI. }
  destruct BASE as (clean & mask & f & keep & EB & B1 & B2 & LK & BM & LC & BC & g & BF & BG & BI). rewrite EB. cbv iota beta.
  set (ms := others t (margins_of ops)). set (fs := others t (footers_of ops)).
  assert (MND : NoDup ms) by (apply nodup_others, names_nodup; constructor). assert (FSND : NoDup fs) by (apply nodup_others, names_nodup; constructor).
  assert (MG : forall k, In k ms -> exists d', given ops k = Some d' /\ k <> t) by (intros k I; apply others_in in I; destruct I as [I D]; destruct (given ops k) as [d'|] eqn:G; [now exists d'|exfalso; exact (GM k (or_introl I) G)]).
  assert (FG : forall k, In k fs -> exists d', given ops k = Some d' /\ k <> t) by (intros k I; apply others_in in I; destruct I as [I D]; destruct (given ops k) as [d'|] eqn:G; [now exists d'|exfalso; exact (GM k (or_intror I) G)]).
  (* margins *)
  set (F := fun k => match dget k (t_inner (tfinal blank ops)) with Some d' => match dget k (m_cols d') with Some v => chosen keep v | None => [] end | None => [] end).
  assert (FK : forall k d', given ops k = Some d' -> exists r', dget k (t_inner (tfinal blank ops)) = Some r' /\ named KN CN n k d' r' /\ exists v, dget k (m_cols r') = Some v /\ row_totals d' = Some v /\ length v = n /\ F k = chosen keep v).
  { intros k d' G. specialize (HI k). rewrite G in HI. destruct HI as (NK & r' & E & NMk). exists r'. split; [exact E|]. split; [exact NMk|]. destruct NMk as ((LRk & _) & _ & _ & Q & _). destruct (col_some _ _ _ _ _ k LRk) as (v & Ev); [apply in_or_app; right; apply in_or_app; right; now left|]. exists v. split; [exact Ev|]. split; [congruence|]. split; [exact (col_len _ _ _ _ _ _ _ LRk Ev)|]. unfold F. unfold col in Ev. now rewrite E, Ev. }
  assert (LC' := LC). destruct LC' as (CNM & CND & CLB & CSM & CLN).
  assert (DISJ : NoDup (map fst (m_cols clean) ++ ms)).
  { rewrite CNM. apply nodup_cat; [exact CND|exact MND|]. intros x I J. destruct (MG x J) as (d' & G & D). specialize (HI x). rewrite G in HI. destruct HI as (NK & _). apply NK. apply in_app_or in I. apply in_or_app. destruct I as [I|I]; [now left|]. rewrite <- filter_app in I. apply filter_In in I. destruct I as [I _]. apply in_app_or in I. destruct I as [I|[I|[]]]; [now right|congruence]. }
  rewrite (add_margins_ok (kept keep) mask (t_inner (tfinal blank ops)) F ms clean CLN DISJ).
  2:{ intros k I. destruct (MG k I) as (d' & G & _). destruct (FK k d' G) as (r' & E & _ & v & Ev & _ & Hv & EF). exists r', v. split; [exact E|]. split; [exact Ev|]. rewrite EF. split; [now apply BM|]. apply chosen_len. congruence. }
  unfold set_sums. cbn [m_cols m_labels m_sums m_foot]. rewrite CSM.
  assert (NM' : map fst (m_cols clean ++ map (fun k => (k, F k)) ms) = KN ++ filter f CN ++ filter f [t] ++ ms) by (rewrite map_app, CNM, map_map; cbn [fst]; rewrite map_id, <- !app_assoc; reflexivity).
  assert (ND' : NoDup (KN ++ filter f CN ++ filter f [t] ++ ms)) by (rewrite <- NM', map_app, map_map; cbn [fst]; now rewrite map_id).
  assert (SS : once_last (filter (fun k => mem k (names (m_cols clean ++ map (fun k => (k, F k)) ms))) (filter f [t] ++ ms)) = filter f [t] ++ ms).
  { rewrite filter_all; [apply once_last_id; rewrite app_assoc in ND'; now apply nodup_app in ND'|]. intros k I. apply mem_in. unfold names. rewrite NM'. apply in_or_app. right. apply in_or_app. now right. }
  rewrite SS.
  (* footers *)
  set (G := fun k => match dget k (t_inner (tfinal blank ops)) with Some d' => match dget k (m_foot d') with Some v => v | None => [] end | None => [] end).
  assert (GK : forall k d', given ops k = Some d' -> exists r', dget k (t_inner (tfinal blank ops)) = Some r' /\ named KN CN n k d' r' /\ dget k (m_foot r') = Some (G k) /\ NoDup (map fst (G k)) /\ (forall c, foot k r' c = dget c (G k)) /\ incl (map fst (G k)) (CN ++ [k])).
  { intros k d' E. specialize (HI k). rewrite E in HI. destruct HI as (NK & r' & E' & NMk). exists r'. split; [exact E'|]. split; [exact NMk|]. destruct NMk as ((LRk & fk & FEk & FNk & FIk) & _). assert (X : dget k (m_foot r') = Some fk) by (rewrite FEk; cbn [dget]; destruct (name_dec k k); congruence). assert (GE : G k = fk) by (unfold G; now rewrite E', X). rewrite GE. split; [exact X|]. split; [exact FNk|]. split; [|exact FIk]. intros c. unfold foot. now rewrite X. }
  rewrite (add_footers_ok (t_inner (tfinal blank ops)) G fs); cbn [m_cols m_labels m_sums m_foot].
  2:{ rewrite BF. cbn [map fst app]. constructor; [|exact FSND]. intros I. apply FG in I. destruct I as (? & _ & X). congruence. }
  2:{ intros k I. destruct (FG k I) as (d' & E & _). destruct (GK k d' E) as (r' & E1 & _ & E2 & E3 & _). now exists r'. }
  eexists. exists f, keep. split; [reflexivity|]. split; [exact B1|]. split; [exact B2|].
  fold (besides t (margins_of ops)) in ms. fold (besides t (footers_of ops)) in fs.
  change (besides t (margins_of ops)) with ms. change (besides t (footers_of ops)) with fs. split.
  { split; [exact NM'|]. split; [exact ND'|]. split; [exact CLB|]. split; [reflexivity|]. cbn [m_cols]. intros c v I. apply in_app_or in I. destruct I as [I|I]; [now apply (CLN c)|]. apply in_map_iff in I. destruct I as (k & E & I). injection E as <- <-. destruct (MG k I) as (d' & E & _). destruct (FK k d' E) as (r' & _ & _ & w & _ & _ & Hw & EF). rewrite EF. apply chosen_len. congruence. }
  split.
  { intros c v I E. unfold col. cbn [m_cols]. rewrite dget_app. assert (X : dget c (m_cols clean) = Some (chosen keep v)); [|now rewrite X]. apply BC; [rewrite app_assoc; apply in_or_app; now left|]. rewrite N3; [exact E|]. apply in_app_or in I. apply in_or_app. destruct I as [I|I]; [now left|right]. apply filter_In in I. apply I. }
  split.
  { intros k d' v I E1 E2. destruct (FK k d' E1) as (r' & E & _ & w & Ew & Rw & _ & EF). assert (w = v) by congruence. subst w. unfold col. cbn [m_cols]. rewrite dget_app. apply in_app_or in I. destruct I as [I|I].
    - assert (kt : k = t) by (apply filter_In in I; destruct I as [[I|[]] _]; congruence). subst k. assert (X : dget t (m_cols clean) = Some (chosen keep v)); [|now rewrite X]. apply BC; [apply in_or_app; right; apply in_or_app; now right|]. rewrite N4. congruence.
    - assert (X : dget k (m_cols clean) = None). { apply dget_none. intros J. exact (proj2 (proj2 (nodup_app _ _ DISJ)) k J I). } rewrite X, dget_map. apply mem_in in I. now rewrite I, EF. }
  cbn [m_foot]. rewrite BF. cbn [map fst app]. split; [f_equal; rewrite map_map; apply map_id|].
  assert (INN : forall c, In c (KN ++ filter f CN ++ filter f [t] ++ ms) -> mem c (names (m_cols clean ++ map (fun k => (k, F k)) ms)) = true) by (intros c I; apply mem_in; unfold names; now rewrite NM').
  assert (FTD : footed (mkM (m_cols clean ++ map (fun k => (k, F k)) ms) (m_labels clean) (filter f [t] ++ ms) ((t, filter (fun q => g (fst q)) fd) :: map (fun k => (k, filter (fun p => mem (fst p) (names (m_cols clean ++ map (fun k => (k, F k)) ms))) (G k))) fs))).
  { assert (NDF : forall (u : name -> bool) (l : list (name * V)), NoDup (map fst l) -> NoDup (map fst (filter (fun q => u (fst q)) l))).
    { clear. intros u. induction l as [|[c v] l IH]; intros ND; [constructor|]. cbn [map fst] in ND. inversion ND as [|? ? N1 N2]; subst. cbn [filter fst]. destruct (u c); [|now apply IH]. cbn [map fst]. constructor; [|now apply IH]. intros I. apply N1. apply in_map_iff in I. destruct I as (p & <- & I). apply in_map. apply filter_In in I. apply I. }
    intros l fd' I. cbn [m_foot m_cols] in *. destruct I as [I|I].
    - injection I as <- <-. split; [now apply (NDF g)|]. intros c J. apply BI in J. rewrite NM'. rewrite app_assoc in J. rewrite app_assoc. apply in_app_or in J. apply in_or_app. destruct J as [J|J]; [now left|right; apply in_or_app; now left].
    - apply in_map_iff in I. destruct I as (k & E & I). injection E as <- <-. destruct (FG k I) as (dk & Gk & _). destruct (GK k dk Gk) as (r' & _ & _ & _ & Nk & _). split; [now apply (NDF (fun c => mem c (names (m_cols clean ++ map (fun k => (k, F k)) ms))))|]. intros c J. apply in_map_iff in J. destruct J as (q & <- & J). apply filter_In in J. destruct J as [_ J]. now apply mem_in in J. }
  split; [|exact FTD].
  intros k d' I E. destruct I as [<-|I].
  - (* the row of the table itself *)
    assert (d' = d) by congruence. subst d'. assert (FT : forall c, foot t r0 c = dget c fd) by (intros c; unfold foot; rewrite FE; cbn [dget]; destruct (name_dec t t); congruence).
    unfold foot at 1 2. cbn [m_foot dget]. destruct (name_dec t t); [|congruence]. split.
    + intros c I. rewrite (dget_filter g), BG, <- FT by (apply in_or_app; right; apply in_or_app; now left). apply N5. apply filter_In in I. apply I.
    + intros j I. rewrite (dget_filter g). destruct (name_dec j t) as [D|D].
      * subst j. apply in_app_or in I. destruct I as [I|I]; [|apply MG in I; destruct I as (? & _ & X); congruence]. rewrite BG, <- FT by (apply in_or_app; right; apply in_or_app; now right). exact N6.
      * destruct (g j); [|reflexivity]. apply dget_none. intros J. apply FI in J. apply in_app_or in I. destruct I as [I|I]; [apply filter_In in I; destruct I as [[I|[]] _]; congruence|]. destruct (MG j I) as (dj & Gj & _). specialize (HI j). rewrite Gj in HI. destruct HI as (NK & _). apply NK. apply in_app_or in J. destruct J as [J|[J|[]]]; [apply in_or_app; now right|congruence].
  - destruct (FG k I) as (_ & _ & D). destruct (GK k d' E) as (r' & _ & NMk & _ & _ & GF & GI). destruct NMk as (_ & _ & _ & _ & M5 & M6 & _).
    assert (FT : forall c, foot k (mkM (m_cols clean ++ map (fun k => (k, F k)) ms) (m_labels clean) (filter f [t] ++ ms) ((t, filter (fun q => g (fst q)) fd) :: map (fun k => (k, filter (fun p => mem (fst p) (names (m_cols clean ++ map (fun k => (k, F k)) ms))) (G k))) fs)) c = if mem c (names (m_cols clean ++ map (fun k => (k, F k)) ms)) then foot k r' c else None).
    { intros c. unfold foot at 1. cbn [m_foot dget]. destruct (name_dec t k) as [X|_]; [congruence|]. rewrite (dget_map (fun k => filter (fun p => mem (fst p) (names (m_cols clean ++ map (fun k => (k, F k)) ms))) (G k))). apply mem_in in I. rewrite I. rewrite GF. apply (dget_filter (fun c => mem c (names (m_cols clean ++ map (fun k => (k, F k)) ms)))). }
    split.
    + intros c J. rewrite FT, INN by (apply in_or_app; right; apply in_or_app; now left). apply M5. apply filter_In in J. apply J.
    + intros j J. rewrite FT, INN by (apply in_or_app; right; apply in_or_app; now right). destruct (name_dec j k) as [X|X]; [subst; exact M6|]. rewrite GF. apply dget_none. intros Q. apply GI in Q. apply in_app_or in Q. destruct Q as [Q|[Q|[]]]; [|congruence].
      apply in_app_or in J. destruct J as [J|J].
      * apply filter_In in J. destruct J as [[J|[]] _]. subst j. apply NT. apply in_or_app. now right.
      * destruct (MG j J) as (dj & Gj & _). specialize (HI j). rewrite Gj in HI. destruct HI as (NK & _). apply NK. apply in_or_app. now right.
Qed.

Theorem gen_missing nm rb : (subject ops nm = None \/ exists t, subject ops nm = Some t /\
    (given ops t = None \/ exists k, k <> t /\ (In k (margins_of ops) \/ In k (footers_of ops)) /\ given ops k = None)) ->
  snd (gen blank nm rb (tfinal blank ops)) = None.
Proof using FITS.
  intros H. destruct (tfinal_inv blank KN CN n ops FITS) as (HR & HC & HD & HI). unfold gen.
  assert (TN : match nm with Some k => Some k | None => t_def (tfinal blank ops) end = subject ops nm) by (rewrite HD; reflexivity). rewrite TN.
  destruct H as [H|(t & H & C)]; rewrite H; [reflexivity|]. cbn [snd]. destruct C as [C|(k & D & I & C)]; [specialize (HI t); rewrite C in HI; now rewrite HI|].
  destruct (dget t (t_inner (tfinal blank ops))) as [r0|]; [|reflexivity]. destruct (if rb then trim blank r0 else (r0, None)) as [clean mask]. assert (X : dget k (t_inner (tfinal blank ops)) = None) by (specialize (HI k); now rewrite C in HI). rewrite HC, HR. destruct I as [I|I].
  - rewrite add_margins_missing; [reflexivity|]. exists k. split; [now apply others_in|exact X].
  - destruct (add_margins _ _ _ _); [|reflexivity]. apply add_footers_missing. exists k. split; [now apply others_in|exact X].
Qed.
End G.
