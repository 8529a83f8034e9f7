From Coq Require Import List Arith Bool ZArith Permutation Lia.
From Verif Require Import FlattenModel FlattenProofs DsModel DsProofs3 DsProofs5 GroupingModel GroupingSpec AggModel AggSpec AggProofs AggProofs2 AggProofs3
  Acc2Model Acc2Spec Acc2Proofs Acc2Proofs2 Acc2Proofs3 Acc2Proofs4 Acc2Proofs5 MargModel MargSpec MargProofs MargProofs2 MargProofs3 MargProofs4 MargProofs5 MargProofs6 MargProofs7 MargProofs8 MargProofs9.
Import ListNotations.

Section A.
Context {V : Type}.
Variable inv : V.
Variable lexsort : list (list V) -> list nat.
Variable label : list V -> name.
Variable inv_label : nat -> name.
Variables (tr tc : table (V := V)) (R C : nat) (sdr prer sdc prec : bool).
Variable ylab : name.
Notation sr := (sdr && negb prer).
Notation sc := (sdc && negb prec).
Notation pr := (order lexsort sr tr R).
Notation pc := (order lexsort sc tc C).
Notation KN := (key_names ylab tr).
Notation CN := (col_labels inv label inv_label tc pc).
Notation lab := (col_label inv label inv_label tc).
Notation presents := (presents inv label inv_label ylab tr tc pr pc).

Lemma presents_map (h : name -> list V -> list V) (hf : V -> V) f keep cellv rowt colt tot cellv' rowt' colt' tot' marg footers r r' :
  f total_ratio = true -> NoDup (total_ratio :: map fst footers) -> key_table inv tr R ->
  presents f keep total_ratio cellv rowt colt tot marg footers r ->
  map fst (m_cols r') = map fst (m_cols r) -> m_labels r' = m_labels r -> m_sums r' = m_sums r -> (forall c v, In (c, v) (m_cols r') -> length v = kept keep) ->
  (forall c v, dget c (m_cols r) = Some v -> dget c (m_cols r') = Some (if mem c (filter f CN ++ [total_ratio]) then h c v else v)) ->
  map fst (m_foot r') = map fst (m_foot r) -> footed r' ->
  (forall l c, foot l r' c = if name_dec total_ratio l then option_map hf (foot l r c) else foot l r c) ->
  (forall j k, nth_error pc j = Some k -> f (lab j k) = true -> h (lab j k) (chosen keep (map (fun i => cellv i k) pr)) = chosen keep (map (fun i => cellv' i k) pr)) ->
  h total_ratio (chosen keep (map rowt pr)) = chosen keep (map rowt' pr) -> (forall k, hf (colt k) = colt' k) -> hf tot = tot' ->
  presents f keep total_ratio cellv' rowt' colt' tot' marg footers r'.
Proof.
  intros FT NF KR (LO & PK & PC & PT & PM & PF & PV & _) N1 N2 N3 N4 HC N5 FTD HF H1 H2 H3 H4.
  destruct LO as (L1 & L2 & L3 & L4 & L5). cbn [filter] in *. rewrite FT in *. cbn [app] in *.
  assert (IN : forall c, In c (filter f CN ++ [total_ratio]) -> mem c (filter f CN ++ [total_ratio]) = true) by (intros c I; now apply mem_in).
  assert (OUT1 : forall c, In c KN -> mem c (filter f CN ++ [total_ratio]) = false).
  { intros c I. apply mem_not. intros J. apply (proj2 (proj2 (nodup_app _ _ L2)) c I). apply in_app_or in J. apply in_or_app. destruct J as [J|[J|[]]]; [now left|subst; right; now left]. }
  assert (OUT2 : forall c, In c (map fst marg) -> mem c (filter f CN ++ [total_ratio]) = false).
  { intros c I. apply mem_not. intros J. apply nodup_app in L2. destruct L2 as (_ & L2 & _). replace (filter f CN ++ total_ratio :: map fst marg) with ((filter f CN ++ [total_ratio]) ++ map fst marg) in L2 by (rewrite <- app_assoc; reflexivity). exact (proj2 (proj2 (nodup_app _ _ L2)) c J I). }
  unfold MargSpec.presents. cbn [filter]. rewrite FT. cbn [app].
  split; [unfold laid_out; rewrite N1, N2, N3; auto|]. split; [|split; [|split; [|split; [|split; [|split; [|exact FTD]]]]]].
  - intros q k u H. destruct (PK q k u H) as (k' & E1 & E2). exists k'. split; [exact E1|]. unfold col in *. rewrite (HC _ _ E2), OUT1; [reflexivity|]. eapply nth_error_In; eauto.
  - intros j k H J. specialize (PC j k H J). unfold col in *. rewrite (HC _ _ PC), IN by (apply in_or_app; left; apply filter_In; split; [now apply (lab_in inv lexsort label inv_label tc C sdc prec)|exact J]). f_equal. now apply H1.
  - intros _. specialize (PT eq_refl). unfold col in *. rewrite (HC _ _ PT), IN by (apply in_or_app; right; now left). f_equal. exact H2.
  - intros m g I. specialize (PM m g I). unfold col in *. rewrite (HC _ _ PM), OUT2; [reflexivity|]. apply in_map_iff. now exists (m, g).
  - now rewrite N5.
  - intros m g tt I. destruct I as [I|I].
    + injection I as <- <- <-. destruct (PV total_ratio colt tot (or_introl eq_refl)) as (A & B). split.
      * intros j k H J. rewrite HF. destruct (name_dec total_ratio total_ratio) as [_|X]; [|congruence]. rewrite (A j k H J). cbn [option_map]. now rewrite H3.
      * intros s I. rewrite HF. destruct (name_dec total_ratio total_ratio) as [_|X]; [|congruence]. rewrite (B s I). destruct (name_dec s total_ratio); [cbn [option_map]; now rewrite H4|reflexivity].
    + assert (D : total_ratio <> m) by (intros D; subst m; inversion NF as [|? ? Z _]; apply Z; apply in_map_iff; exists (total_ratio, (g, tt)); now split).
      destruct (PV m g tt (or_intror I)) as (A & B). split.
      * intros j k H J. rewrite HF. destruct (name_dec total_ratio m) as [X|_]; [congruence|]. now apply A.
      * intros s J. rewrite HF. destruct (name_dec total_ratio m) as [X|_]; [congruence|]. now apply B.
Qed.

Lemma filter_not (l : list name) : forall q, (forall c, In c q -> ~ In c l) -> filter (fun k => negb (mem k l)) q = q.
Proof. induction q as [|c q IH]; intros H; [reflexivity|]. cbn [filter]. replace (mem c l) with false by (symmetry; apply mem_not; apply H; now left). cbn [negb]. f_equal. apply IH. intros x I. apply H. now right. Qed.
Lemma filter_gone (l : list name) : forall q, incl q l -> filter (fun k => negb (mem k l)) q = [].
Proof. induction q as [|c q IH]; intros H; [reflexivity|]. cbn [filter]. replace (mem c l) with true by (symmetry; apply mem_in; apply H; now left). cbn [negb]. apply IH. intros x I. apply H. now right. Qed.

Theorem normalize_ok pct hundred n f keep cellv rowt colt tot marg footers r :
  f total_ratio = true -> NoDup (total_ratio :: map fst footers) -> key_table inv tr R ->
  presents f keep total_ratio cellv rowt colt tot marg footers r ->
  exists r', normalize pct hundred n r = Some r' /\
    presents f keep total_ratio (percent_cell pct n cellv rowt colt tot) (percent_row pct n rowt tot) (fun k => percent_total pct hundred n tot (colt k)) (percent_total pct hundred n tot tot) marg footers r'.
Proof.
  intros FT NF KR P. pose proof P as (LO & PK & PC & PT & PM & PF & PV & FTD). destruct LO as (L1 & L2 & L3 & L4 & L5). cbn [filter] in L1, L2, L4, PV. rewrite FT in *. cbn [app] in *.
  set (KS := filter f CN ++ [total_ratio]). set (ms := map fst marg) in *.
  assert (CT : filter f CN ++ total_ratio :: ms = KS ++ ms) by (unfold KS; rewrite <- app_assoc; reflexivity).
  assert (LA : KN ++ filter f CN ++ total_ratio :: ms = KN ++ KS ++ ms) by now rewrite CT.
  assert (D1 : forall c, In c KN -> ~ In c (KS ++ ms)) by (rewrite LA in L2; exact (proj2 (proj2 (nodup_app _ _ L2)))).
  assert (D2 : forall c, In c KS -> ~ In c ms) by (rewrite LA in L2; exact (proj2 (proj2 (nodup_app _ _ (proj1 (proj2 (nodup_app _ _ L2))))))).
  assert (NK : NoDup KS) by (rewrite LA in L2; exact (proj1 (nodup_app _ _ (proj1 (proj2 (nodup_app _ _ L2)))))).
  assert (NC : NoDup (map fst (m_cols r))) by (rewrite L1; exact L2).
  assert (KI : incl KS (map fst (m_cols r))) by (rewrite L1, LA; intros c I; apply in_or_app; right; apply in_or_app; now left).
  assert (TK : In total_ratio KS) by (unfold KS; apply in_or_app; right; now left).
  (* the columns to normalise *)
  assert (KEYS : filter (fun k => negb (mem k (others total_ratio (m_labels r ++ m_sums r)))) (names (m_cols r)) = KS).
  { assert (OE : others total_ratio (m_labels r ++ m_sums r) = KN ++ ms).
    { rewrite L3, L4. unfold others. rewrite filter_app. cbn [filter]. destruct (name_dec total_ratio total_ratio) as [_|X]; [|congruence]. f_equal; apply filter_all; intros c I; destruct (name_dec c total_ratio) as [D|D]; try reflexivity; exfalso; subst c.
      - apply (D1 _ I). apply in_or_app. now left.
      - exact (D2 _ TK I). }
    rewrite OE. unfold names. rewrite L1, LA. rewrite !filter_app. rewrite (filter_gone _ KN) by (intros c I; apply in_or_app; now left). rewrite (filter_gone _ ms) by (intros c I; apply in_or_app; now right). rewrite app_nil_r. cbn [app]. apply filter_not.
    intros c I J. apply in_app_or in J. destruct J as [J|J]; [apply (D1 c J); apply in_or_app; now left|exact (D2 c I J)]. }
  assert (FTOT : exists fd, dget total_ratio (m_foot r) = Some fd).
  { apply dget_has. rewrite PF. now left. }
  destruct FTOT as (fd & FD). assert (NFR : NoDup (map fst (m_foot r))) by now rewrite PF.
  assert (FA : forall c (d : mds (V := V)), footer_at c d = foot total_ratio d c) by reflexivity.
  assert (TT : footer_at total_ratio r = Some tot).
  { rewrite FA. destruct (PV total_ratio colt tot (or_introl eq_refl)) as (_ & B). rewrite (B total_ratio) by (now left). now destruct (name_dec total_ratio total_ratio). }
  assert (TC : forall j k, nth_error pc j = Some k -> f (lab j k) = true -> footer_at (lab j k) r = Some (colt k)).
  { intros j k H J. rewrite FA. destruct (PV total_ratio colt tot (or_introl eq_refl)) as (A & _). exact (A j k H J). }
  assert (INK : forall c, In c KS -> footer_at c r = Some (match footer_at c r with Some x => x | None => tot end)).
  { intros c I. unfold KS in I. apply in_app_or in I. destruct I as [I|[<-|[]]]; [|now rewrite TT]. apply filter_In in I. destruct I as [I J]. apply (in_lab inv lexsort label inv_label tc C sdc prec) in I. destruct I as (j & k & H & ->). now rewrite (TC j k H J). }
  unfold normalize. rewrite KEYS. destruct n.
  - (* by the grand total *)
    rewrite TT. destruct (set_footer_ok (fun x => pct x tot) r fd FTD NFR FD) as (d1 & E1 & C1 & B1 & S1 & M1 & F1 & T1). rewrite E1.
    destruct (fold_cols (fun d k => map_col k (fun v => Some (map (fun x => pct x tot) v)) d) (fun _ v => map (fun x => pct x tot) v) KS (kept keep) d1) with (ks := KS) (cur := d1) as (r' & ER & GR & HR); try assumption; try apply incl_refl.
    + now rewrite C1.
    + now rewrite C1.
    + intros cur k v _ _ HV. split; [now rewrite map_length|]. unfold map_col. now rewrite HV.
    + repeat split. intros c v I. rewrite C1 in I. now apply (L5 c).
    + exists r'. split; [exact ER|]. destruct GR as (G1 & G2 & G3 & G4 & G5 & G6).
      eapply (presents_map (fun _ v => map (fun x => pct x tot) v) (fun x => pct x tot)) with (r := r); try eassumption; try congruence.
      * intros c v Hc. rewrite C1 in HR. now apply HR.
      * intros l q I. rewrite G4 in I. rewrite G1. now apply (T1 l).
      * intros l c. unfold foot at 1. rewrite G4. apply F1.
      * intros j k H J. rewrite chosen_map, map_map. reflexivity.
      * rewrite chosen_map, map_map. reflexivity.
      * reflexivity.
      * reflexivity.
  - (* by the totals of the rows *)
    rewrite TT. destruct (set_footer_ok (fun x => pct x tot) r fd FTD NFR FD) as (d1 & E1 & C1 & B1 & S1 & M1 & F1 & T1). rewrite E1. unfold KS at 1. rewrite fold_left_app.
    set (u := chosen keep (map rowt pr)). assert (U : dget total_ratio (m_cols r) = Some u) by (apply (PT eq_refl)).
    assert (LU : length u = kept keep) by (apply (L5 total_ratio); now apply dget_some_in).
    assert (TN : ~ In total_ratio (filter f CN)) by (unfold KS in NK; intros I; apply (proj2 (proj2 (nodup_app _ _ NK)) total_ratio I); now left).
    set (stepf := fun (d : option (mds (V := V))) k => match d with None => None | Some d' => map_col k (fun v => match dget total_ratio (m_cols d') with Some u => Some (zip_with pct v u) | None => None end) d end).
    assert (KI1 : incl (filter f CN) (map fst (m_cols d1))) by (rewrite C1; intros c I; apply KI; unfold KS; apply in_or_app; now left).
    destruct (fold_cols stepf (fun _ v => if length v =? length u then zip_with pct v u else v) (filter f CN) (kept keep) d1) with (ks := filter f CN) (cur := d1) as (r1 & ER & GR & HR); try assumption; try apply incl_refl.
    + now rewrite C1.
    + intros cur k v I G HV. assert (LV : length v = length u) by (rewrite LU; destruct G as (_ & _ & _ & _ & _ & G6); apply (G6 k); now apply dget_some_in). rewrite LV, Nat.eqb_refl. split.
      * unfold zip_with. rewrite map_length, combine_length. lia.
      * unfold stepf, map_col. rewrite HV. destruct G as (_ & _ & _ & _ & G5 & _). rewrite (G5 total_ratio TN), C1, U. reflexivity.
    + exact (proj1 (nodup_app _ _ NK)).
    + repeat split. intros c v I. rewrite C1 in I. now apply (L5 c).
    + rewrite ER. cbn [fold_left]. assert (U1 : dget total_ratio (m_cols r1) = Some u) by (destruct GR as (_ & _ & _ & _ & G5 & _); now rewrite (G5 total_ratio TN), C1).
      unfold stepf, map_col. rewrite U1. destruct GR as (G1 & G2 & G3 & G4 & G5 & G6).
      destruct (assign_good KS (kept keep) r1 r1 total_ratio (zip_with pct u u)) as (r' & EA & (Q1 & Q2 & Q3 & Q4 & Q5 & Q6) & HD).
      * rewrite G1, C1. exact NC.
      * repeat split. exact G6.
      * exact TK.
      * rewrite G1, C1. now apply KI.
      * unfold zip_with. rewrite map_length, combine_length, LU. lia.
      * exists r'. split; [exact EA|].
        eapply (presents_map (fun _ v => if length v =? length u then zip_with pct v u else v) (fun x => pct x tot)) with (r := r); try eassumption; try congruence.
        -- intros c v Hc. rewrite HD. assert (LV : length v = length u) by (rewrite LU; apply (L5 c); now apply dget_some_in). rewrite LV, Nat.eqb_refl. destruct (name_dec total_ratio c) as [D|D].
           ++ subst c. replace (mem total_ratio (filter f CN ++ [total_ratio])) with true by (symmetry; now apply mem_in). congruence.
           ++ rewrite C1 in HR. rewrite (HR c v Hc), LV, Nat.eqb_refl. f_equal. destruct (mem c (filter f CN)) eqn:M.
              ** apply mem_in in M. replace (mem c (filter f CN ++ [total_ratio])) with true; [reflexivity|]. symmetry. apply mem_in. apply in_or_app. now left.
              ** apply mem_not in M. replace (mem c (filter f CN ++ [total_ratio])) with false; [reflexivity|]. symmetry. apply mem_not. intros I. apply in_app_or in I. destruct I as [I|[I|[]]]; [now apply M|congruence].
        -- intros l q I. rewrite Q4, G4 in I. rewrite Q1, G1. now apply (T1 l).
        -- intros l c. unfold foot at 1. rewrite Q4, G4. apply F1.
        -- intros j k H J. assert (LV : length (chosen keep (map (fun i => cellv i k) pr)) = length u) by (rewrite LU; apply (L5 (lab j k)); apply dget_some_in; exact (PC j k H J)). rewrite LV, Nat.eqb_refl. exact (chosen_zip pct (fun i => cellv i k) rowt keep pr).
        -- fold u. rewrite Nat.eqb_refl. exact (chosen_zip pct rowt rowt keep pr).
        -- reflexivity.
        -- reflexivity.
  - (* by the totals of the columns *)
    set (h := fun c v => map (fun x => pct x (match footer_at c r with Some x => x | None => tot end)) v).
    destruct (fold_cols (fun (d : option (mds (V := V))) k => match d with None => None | Some d' => match footer_at k d' with None => None | Some tot => map_col k (fun v => Some (map (fun x => pct x tot) v)) d end end)
      h KS (kept keep) r) with (ks := KS) (cur := r) as (r1 & ER & GR & HR); try assumption; try apply incl_refl.
    + intros cur k v I G HV. split; [unfold h; now rewrite map_length|]. destruct G as (_ & _ & _ & G4 & _). replace (footer_at k cur) with (footer_at k r) by (unfold footer_at; now rewrite G4). rewrite (INK k I). unfold map_col. rewrite HV. reflexivity.
    + repeat split. exact L5.
    + rewrite ER. destruct GR as (G1 & G2 & G3 & G4 & G5 & G6).
      destruct (set_footer_ok (fun _ => hundred) r1 fd) as (r' & E1 & C1 & B1 & S1 & M1 & F1 & T1).
      * intros l q I. rewrite G4 in I. rewrite G1. now apply (FTD l).
      * now rewrite G4.
      * now rewrite G4.
      * exists r'. split; [exact E1|].
        eapply (presents_map h (fun _ => hundred)) with (r := r); try eassumption; try congruence.
        -- intros c v I. rewrite C1 in I. now apply (G6 c).
        -- intros c v Hc. rewrite C1. now apply HR.
        -- intros l c. rewrite F1. unfold foot. now rewrite G4.
        -- intros j k H J. unfold h. rewrite (TC j k H J), chosen_map, map_map. reflexivity.
        -- unfold h. rewrite TT, chosen_map, map_map. reflexivity.
        -- reflexivity.
        -- reflexivity.
Qed.
End A.
