From Coq Require Import List Arith Bool ZArith Permutation Lia.
From Verif Require Import FlattenModel FlattenProofs DsModel DsProofs3 DsProofs5 GroupingModel GroupingSpec AggModel AggSpec AggProofs AggProofs2 AggProofs3
  Acc2Model Acc2Spec Acc2Proofs Acc2Proofs2 Acc2Proofs3 Acc2Proofs4 Acc2Proofs5 MargModel MargSpec MargProofs MargProofs2 MargProofs3 MargProofs4 MargProofs5 MargProofs6.
Import ListNotations.

Section A.
Context {V : Type}.
Variable inv : V.
Variable vlt : V -> V -> Prop.
Variable lexsort : list (list V) -> list nat.
Variable LS : lexsort_ok inv vlt lexsort.
Variable binname : list V -> V.
Variable label : list V -> name.
Variable inv_label : nat -> name.
Variable zero : V.
Variable blank : V -> bool.
Variables (tr tc : table (V := V)) (R C : nat) (sdr prer sdc prec : bool).
Notation sr := (sdr && negb prer).
Notation sc := (sdc && negb prec).
Notation pr := (order lexsort sr tr R).
Notation pc := (order lexsort sc tc C).
Variable a0 : acc2 (V := V).
Notation ylab := (a_ylab a0).
Notation KN := (key_names ylab tr).
Notation CN := (col_labels inv label inv_label tc pc).
Notation lab := (col_label inv label inv_label tc).
Notation tab := (tab inv lexsort label inv_label tr tc R C sdr prer sdc prec a0).
Notation presents := (presents inv label inv_label ylab tr tc pr pc).
Notation without_blanks := (without_blanks inv blank label inv_label tc pr pc).

Lemma lab_in j k : nth_error pc j = Some k -> In (lab j k) CN.
Proof.
  intros H. apply nth_error_In with j. unfold col_labels. rewrite combine_seq_map. assert (L : j < length pc) by (apply nth_error_Some; congruence). erewrite map_nth_error; [|rewrite (nth_error_nth' _ 0) by (rewrite seq_length; exact L); rewrite seq_nth by exact L; reflexivity]. cbn [fst snd Nat.add]. now rewrite (nth_error_nth _ _ 0 H).
Qed.
Lemma in_lab c : In c CN -> exists j k, nth_error pc j = Some k /\ c = lab j k.
Proof.
  unfold col_labels. rewrite combine_seq_map. intros I. apply in_map_iff in I. destruct I as (j & E & I). apply in_seq in I. cbn [fst snd] in E. exists j, (nth j pc 0). split; [|now symmetry]. apply nth_error_nth'. lia.
Qed.
Lemma rowwise_map (op : V -> V -> V) (g h : nat -> V) l : forall w, rowwise op (map g l) (map h l) w -> w = map (fun i => op (g i) (h i)) l.
Proof.
  induction l as [|i l IH]; intros w (L & H); [destruct w; [reflexivity|discriminate]|]. destruct w as [|x w]; [discriminate|]. cbn [map]. f_equal.
  - specialize (H 0 (g i) (h i) eq_refl eq_refl). cbn in H. congruence.
  - apply IH. split; [cbn in L; lia|]. intros k a b Ha Hb. exact (H (S k) a b Ha Hb).
Qed.

Lemma binop_tab (op : V -> V -> V) d1 d2 c1 r1 l1 t1 c2 r2 l2 t2 : ~ In (summary_name 0) (KN ++ CN) -> tab c1 r1 l1 t1 d1 -> tab c2 r2 l2 t2 d2 ->
  exists b, binop inv op d1 d2 = Some b /\ tab (fun i k => op (c1 i k) (c2 i k)) (fun i => op (r1 i) (r2 i)) (fun k => op (l1 k) (l2 k)) (op t1 t2) b.
Proof.
  intros NS ((s1 & f1 & T1) & K1 & C1 & R1 & L1 & G1) ((s2 & f2 & T2) & K2 & C2 & R2 & L2 & G2).
  destruct T1 as (LA & fd1 & FE1 & FN1 & FI1). destruct T2 as (LB & fd2 & FE2 & FN2 & FI2).
  destruct (binop_ok inv op KN CN [s1] [s2] R d1 d2 LA LB eq_refl) as (b & E & LO & BK & BC & BS & BF & BFV); [now rewrite FE1, FE2|intros i Hi; cbn [length] in Hi; assert (i = 0) by lia; now subst|].
  exists b. split; [exact E|]. cbn [length seq map] in LO. rewrite FE1 in BF. cbn [length seq map] in BF.
  destruct (BFV 0 f1 f2 fd1 fd2) as (f & NF & FN & FC & FS); [now rewrite FE1|now rewrite FE2|]. cbn [length seq map] in FN.
  assert (MF : m_foot b = [(footer_name 0, f)]) by (destruct (m_foot b) as [|x [|y q]]; cbn [map nth_error] in BF, NF; [discriminate|congruence|discriminate]).
  assert (SM1 : m_sums d1 = [s1]) by apply LA. assert (SM2 : m_sums d2 = [s2]) by apply LB. assert (SMB : m_sums b = [summary_name 0]) by apply LO.
  unfold row_totals in R1, R2. rewrite SM1 in R1. rewrite SM2 in R2. unfold grand_total, col_total in G1, G2. rewrite SM1, FE1 in G1. rewrite SM2, FE2 in G2. unfold col_total in L1, L2. rewrite FE1 in L1. rewrite FE2 in L2.
  split; [|split; [|split; [|split; [|split]]]].
  - exists (summary_name 0), (footer_name 0). split; [exact LO|]. exists f. split; [exact MF|]. rewrite FN. destruct LO as (_ & ND & _). split; [now apply nodup_app in ND|apply incl_refl].
  - intros q k u H. destruct (K1 q k u H) as (k' & E1 & E2). exists k'. split; [exact E1|]. rewrite BK; [exact E2|]. eapply nth_error_In; eauto.
  - intros j k H. destruct (BC (lab j k) _ _ (lab_in j k H) (C1 j k H) (C2 j k H)) as (w & Ew & RW). rewrite Ew. f_equal. now apply rowwise_map.
  - unfold row_totals. rewrite SMB. destruct (BS 0 s1 s2 _ _ eq_refl eq_refl R1 R2) as (w & Ew & RW). rewrite Ew. f_equal. now apply rowwise_map.
  - intros j k H. unfold col_total. rewrite MF. rewrite (FC (lab j k) (lab_in j k H)). unfold value. now rewrite (L1 j k H), (L2 j k H).
  - unfold grand_total, col_total. rewrite SMB, MF. rewrite (FS 0 s1 s2 eq_refl eq_refl). unfold value. now rewrite G1, G2.
Qed.

(** all the data columns of a table *)
Lemma snd_get (m : list (name * list V)) l : (forall c v, In (c, v) l -> dget c m = Some v) -> map snd l = map (fun c => match dget c m with Some v => v | None => [] end) (map fst l).
Proof. intros H. rewrite map_map. apply map_ext_in. intros [c v] I. cbn [fst snd]. now rewrite (H c v I). Qed.
Lemma tab_data cellv rowt colt tot d : tab cellv rowt colt tot d -> data_of d = map (fun k => map (fun i => cellv i k) pr) pc ++ [map rowt pr].
Proof.
  intros ((s & f & T & _) & _ & C1 & R1 & _). rewrite (data_laid _ _ _ _ _ T). destruct (split_layout _ _ _ _ _ T) as (key & cells & sums & E & K & C0 & S0). rewrite E, <- K, map_length, skipn_app, skipn_all, Nat.sub_diag. cbn [skipn app]. rewrite map_app.
  assert (G : forall c v, In (c, v) (cells ++ sums) -> dget c (m_cols d) = Some v) by (intros c v I; apply (col_in _ _ _ _ _ c v T); rewrite E; apply in_or_app; now right).
  rewrite (snd_get (m_cols d) cells), (snd_get (m_cols d) sums) by (intros c v I; apply G; apply in_or_app; (now left) || (now right)). rewrite C0, S0. f_equal.
  - unfold col_labels. rewrite map_map, combine_seq_map.
    transitivity (map (fun j => map (fun i => cellv i (nth j pc 0)) pr) (seq 0 (length pc))).
    + apply map_ext_in. intros j I. apply in_seq in I. cbn [fst snd]. assert (H : nth_error pc j = Some (nth j pc 0)) by (apply nth_error_nth'; lia). specialize (C1 j _ H). unfold col in C1. now rewrite C1.
    + rewrite <- (map_map (fun j => nth j pc 0) (fun k => map (fun i => cellv i k) pr)). f_equal. clear. induction pc as [|x l IH]; [reflexivity|]. cbn [length seq map nth]. f_equal. rewrite <- seq_shift, map_map. exact IH.
  - cbn [map]. unfold row_totals in R1. assert (SM : m_sums d = [s]) by apply T. rewrite SM in R1. unfold col in R1. now rewrite R1.
Qed.

(** ** gen *)
Lemma gen_presents ops nm rb t d cellv rowt colt tot marg footers : Forall (fits KN CN R) ops -> subject ops nm = Some t -> given ops t = Some d -> tab cellv rowt colt tot d ->
  map fst marg = besides t (margins_of ops) -> map fst footers = besides t (footers_of ops) ->
  (forall m g, In (m, g) marg -> exists d', given ops m = Some d' /\ row_totals d' = Some (map g pr)) ->
  (forall m g tt, In (m, (g, tt)) footers -> exists d', given ops m = Some d' /\ (forall j k, nth_error pc j = Some k -> col_total d' (lab j k) = Some (g k)) /\ grand_total d' = Some tt) ->
  exists r f keep, snd (gen blank nm rb (tfinal blank ops)) = Some r /\ without_blanks rb R f keep t cellv rowt /\ presents f keep t cellv rowt colt tot marg footers r.
Proof.
  intros FT SU GT TB MM FF HM HF.
  assert (GM : forall k, In k (margins_of ops) \/ In k (footers_of ops) -> given ops k <> None).
  { intros k I. destruct (name_dec k t) as [D|D]; [subst; congruence|]. destruct I as [I|I].
    - assert (J : In k (map fst marg)) by (rewrite MM; apply others_in; now split). apply in_map_iff in J. destruct J as ([k' g] & E & J). cbn [fst] in E. subst k'. destruct (HM k g J) as (d' & E & _). congruence.
    - assert (J : In k (map fst footers)) by (rewrite FF; apply others_in; now split). apply in_map_iff in J. destruct J as ([k' [g tt]] & E & J). cbn [fst] in E. subst k'. destruct (HF k g tt J) as (d' & E & _). congruence. }
  destruct (gen_ok blank KN CN R ops FT nm rb t d SU GT GM) as (r & f & keep & E & B1 & B2 & LO & GC & GS & FN & GF & FTD).
  assert (TD := tab_data _ _ _ _ _ TB). destruct TB as ((s & fo & T & _) & K1 & C1 & R1 & L1 & G1). exists r, f, keep. split; [exact E|]. split.
  - unfold MargSpec.without_blanks. destruct rb; [|now apply B1]. destruct (B2 eq_refl) as (P1 & P2 & P3). split; [|split].
    + intros j k H. apply P1; [now apply lab_in|now apply C1].
    + now apply P2.
    + now rewrite <- TD.
  - unfold MargSpec.presents. rewrite MM, FF. split; [exact LO|]. split; [|split; [|split; [|split; [|split; [|split; [|exact FTD]]]]]].
    + intros q k u H. destruct (K1 q k u H) as (k' & E1 & E2). exists k'. split; [exact E1|]. apply GC; [apply in_or_app; left; eapply nth_error_In; eauto|exact E2].
    + intros j k H Fl. apply GC; [apply in_or_app; right; apply filter_In; split; [now apply lab_in|exact Fl]|now apply C1].
    + intros Fl. apply (GS t d); [apply in_or_app; left; cbn [filter]; rewrite Fl; now left|exact GT|exact R1].
    + intros m g I. destruct (HM m g I) as (d' & E1 & E2). apply (GS m d'); [apply in_or_app; right; rewrite <- MM; now apply (in_map fst) in I|exact E1|exact E2].
    + exact FN.
    + intros m g tt I. assert (X : exists d', given ops m = Some d' /\ (forall j k, nth_error pc j = Some k -> col_total d' (lab j k) = Some (g k)) /\ grand_total d' = Some tt).
      { destruct I as [I|I]; [|now apply HF]. exists d. assert (m = t) by congruence. assert (g = colt) by congruence. assert (tt = tot) by congruence. subst m g tt. split; [exact GT|]. now split. }
      destruct X as (d' & E1 & E2 & E3). destruct (GF m d') as (Q1 & Q2); [destruct I as [I|I]; [left; congruence|right; rewrite <- FF; now apply (in_map fst) in I]|exact E1|]. split.
      * intros j k H Fl. rewrite Q1 by (apply filter_In; split; [now apply lab_in|exact Fl]). now apply E2.
      * intros s' J. rewrite Q2 by exact J. destruct (name_dec s' m); [exact E3|reflexivity].
Qed.
Lemma at_set_ok ops k d : Forall (fits KN CN R) ops -> ~ In k (KN ++ CN) -> (exists s f, totalled KN CN R s f d) ->
  at_set' k (Some d) (Some (tfinal blank ops)) = Some (tfinal blank (ops ++ [TSet k d])) /\ Forall (fits KN CN R) (ops ++ [TSet k d]).
Proof.
  intros F N (s & f & T). split; [|apply Forall_app; split; [exact F|]; constructor; [|constructor]; split; [exact N|now exists s, f]].
  unfold at_set', tfinal. rewrite fold_left_app. cbn [fold_left tstep]. unfold at_set. destruct (rename_summary_ok _ _ _ _ _ _ _ T N) as (r & E & _). rewrite E. reflexivity.
Qed.
Lemma at_get_ok ops k d cellv rowt colt tot : Forall (fits KN CN R) ops -> given ops k = Some d -> tab cellv rowt colt tot d ->
  exists r, at_get k (tfinal blank ops) = (tfinal blank (ops ++ [TGet k]), Some r) /\ tab cellv rowt colt tot r /\ Forall (fits KN CN R) (ops ++ [TGet k]).
Proof.
  intros F G TB. destruct (tfinal_inv blank KN CN R ops F) as (_ & _ & _ & HI). specialize (HI k). rewrite G in HI. destruct HI as (_ & r & E & NM). exists r. split; [|split].
  - unfold at_get. rewrite E. unfold tfinal at 4. rewrite fold_left_app. reflexivity.
  - now apply (tab_named inv lexsort label inv_label tr tc R C sdr prer sdc prec a0 k d).
  - apply Forall_app. split; [exact F|]. repeat constructor.
Qed.
End A.
