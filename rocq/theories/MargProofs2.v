From Coq Require Import List Arith Bool ZArith Lia.
From Verif Require Import FlattenModel FlattenProofs DsModel DsProofs3 DsProofs5 GroupingProofs AggModel AggProofs2 Acc2Model MargModel MargSpec MargProofs.
Import ListNotations.

Section B.
Context {V : Type}.
Variable inv : V.
Variable op : V -> V -> V.
Notation cols := (list (name * list V)).
Notation mds := (mds (V := V)).

Lemma split_layout KN CN SN n (m : mds) : laid_out KN CN SN n m -> exists key cells sums, m_cols m = key ++ cells ++ sums /\ map fst key = KN /\ map fst cells = CN /\ map fst sums = SN.
Proof.
  intros (NM & _). apply map_eq_app in NM. destruct NM as (key & r & E & K & NM). apply map_eq_app in NM. destruct NM as (cells & sums & E' & C & S). subst r. now exists key, cells, sums.
Qed.
Lemma col_in KN CN SN n (m : mds) c v : laid_out KN CN SN n m -> In (c, v) (m_cols m) -> col c m = Some v.
Proof. intros (NM & ND & _) I. apply dget_nodup; [now rewrite NM|exact I]. Qed.
Lemma col_len KN CN SN n (m : mds) c v : laid_out KN CN SN n m -> col c m = Some v -> length v = n.
Proof. intros (_ & _ & _ & _ & L) H. apply L with c. now apply dget_some_in. Qed.
Lemma col_some KN CN SN n (m : mds) c : laid_out KN CN SN n m -> In c (KN ++ CN ++ SN) -> exists v, col c m = Some v.
Proof. intros (NM & _) I. apply dget_has. now rewrite NM. Qed.

Lemma nth_zip_cols l : forall l' i c u v, map fst l = map fst l' -> nth_error l i = Some (c, u) -> nth_error l' i = Some (c, v) -> nth_error (zip_cols op l l') i = Some (c, zip_with op u v).
Proof.
  induction l as [|[k x] l IH]; intros [|[k' y] l'] i c u v E H H'; try (destruct i; discriminate). cbn [map fst] in E. injection E as E0 E. destruct i as [|i]; cbn in *.
  - injection H as -> ->. injection H' as -> ->. reflexivity.
  - now apply IH.
Qed.
Lemma nth_combine {A B} (l : list A) : forall (l' : list B) i x y, nth_error l i = Some x -> nth_error l' i = Some y -> nth_error (combine l l') i = Some (x, y).
Proof. induction l as [|a l IH]; intros [|b l'] [|i] x y H H'; try discriminate; cbn in *; [congruence|]. now apply IH. Qed.
Lemma nth_seq k n i : i < n -> nth_error (seq k n) i = Some (k + i).
Proof. revert k i. induction n as [|n IH]; intros k [|i] H; try lia; cbn [seq nth_error]; [now rewrite Nat.add_0_r|]. rewrite IH by lia. f_equal. lia. Qed.
Lemma same_place l : forall l' (c : name) (u v : list V), map fst l = map fst l' -> NoDup (map fst l) -> In (c, u) l -> In (c, v) l' -> exists i, nth_error l i = Some (c, u) /\ nth_error l' i = Some (c, v).
Proof.
  intros l' c u v E ND I I'. apply In_nth_error in I, I'. destruct I as (i & I). destruct I' as (j & J). assert (i = j); [|subst; now exists j].
  apply (proj1 (NoDup_nth_error (map fst l)) ND); [rewrite map_length; apply nth_error_Some; congruence|]. rewrite (map_nth_error fst i l I). rewrite E, (map_nth_error fst j l' J). reflexivity.
Qed.

Variables (KN CN SN SN' : list name) (n : nat) (a b : mds).
Hypothesis LA : laid_out KN CN SN n a.
Hypothesis LB : laid_out KN CN SN' n b.
Hypothesis LS : length SN = length SN'.
Hypothesis LF : length (m_foot a) = length (m_foot b).
Hypothesis FR : forall i, i < length SN -> ~ In (summary_name i) (KN ++ CN).

Notation TN := (map summary_name (seq 0 (length SN))).
Lemma tn_nodup : NoDup (KN ++ CN ++ TN).
Proof using FR LA.
  clear LB LS LF. rewrite app_assoc. apply nodup_cat.
  - destruct LA as (_ & ND & _). rewrite app_assoc in ND. now apply nodup_app in ND.
  - apply FinFun.Injective_map_NoDup; [intros x y; apply summary_inj|apply seq_NoDup].
  - intros x I J. apply in_map_iff in J. destruct J as (i & <- & J). apply in_seq in J. exact (FR i ltac:(lia) I).
Qed.
Theorem binop_ok : exists r, binop inv op a b = Some r /\ laid_out KN CN TN n r /\
  (forall c, In c KN -> col c r = col c a) /\
  (forall c u v, In c CN -> col c a = Some u -> col c b = Some v -> exists w, col c r = Some w /\ rowwise op u v w) /\
  (forall i s s' u v, nth_error SN i = Some s -> nth_error SN' i = Some s' -> col s a = Some u -> col s' b = Some v -> exists w, col (summary_name i) r = Some w /\ rowwise op u v w) /\
  map fst (m_foot r) = map footer_name (seq 0 (length (m_foot a))) /\
  forall i l l' fa fb, nth_error (m_foot a) i = Some (l, fa) -> nth_error (m_foot b) i = Some (l', fb) -> exists f, nth_error (m_foot r) i = Some (footer_name i, f) /\ map fst f = CN ++ TN /\
    (forall c, In c CN -> dget c f = Some (op (value inv fa c) (value inv fb c))) /\
    (forall j s s', nth_error SN j = Some s -> nth_error SN' j = Some s' -> dget (summary_name j) f = Some (op (value inv fa s) (value inv fb s'))).
Proof using LA LB LS LF FR.
  destruct (split_layout _ _ _ _ _ LA) as (key & cells & sums & EA & KA & CA & SA). destruct (split_layout _ _ _ _ _ LB) as (key' & cells' & sums' & EB & KB & CB & SB).
  assert (LA' := LA). destruct LA' as (NA & DA & LBA & SMA & LNA). assert (LB' := LB). destruct LB' as (NB & DB & LBB & SMB & LNB).
  pose proof (conform_ok _ _ _ _ _ _ _ LA LB LS LF) as CF. unfold binop. rewrite CF. cbv zeta. cbn [andb].
  assert (NR : (existsb (fun c => mem c (names (m_cols b))) (names (m_cols a)) || negb (isnil (m_sums a))) && negb (nrows a =? nrows b) = false).
  { assert (E : nrows a = nrows b); [|rewrite E, Nat.eqb_refl; apply andb_false_r]. unfold nrows.
    assert (LC : length (m_cols a) = length (m_cols b)) by (rewrite <- (map_length fst (m_cols a)), <- (map_length fst (m_cols b)), NA, NB, !app_length; lia).
    destruct (m_cols a) as [|[c v] ra] eqn:XA; destruct (m_cols b) as [|[c' v'] rb] eqn:XB; try discriminate; [reflexivity|]. rewrite (LNA c v (or_introl eq_refl)), (LNB c' v' (or_introl eq_refl)). reflexivity. }
  rewrite NR. clear NR.
  destruct (nodup_app _ _ DA) as (DK & DCS & KX). destruct (nodup_app _ _ DCS) as (DC & DS & CX).
  assert (KS : forall c, In c KN -> ~ In c (m_sums a)) by (intros c I J; rewrite SMA in J; apply (KX c I), in_or_app; now right).
  assert (CS : forall c, In c CN -> ~ In c (m_sums a)) by (intros c I J; rewrite SMA in J; exact (CX c I J)).
  assert (CL : forall c, In c CN -> ~ In c (m_labels a)) by (intros c I J; rewrite LBA in J; apply (KX c J), in_or_app; now left).
  assert (SL : forall c, In c SN -> ~ In c (m_labels a)) by (intros c I J; rewrite LBA in J; apply (KX c J), in_or_app; now right).
  assert (LSU : length sums = length sums') by (rewrite <- (map_length fst sums), <- (map_length fst sums'), SA, SB; exact LS).
  assert (LCE : length cells = length cells') by (rewrite <- (map_length fst cells), <- (map_length fst cells'), CA, CB; reflexivity).
  assert (LSN : length SN = length sums) by (rewrite <- SA; apply map_length).
  assert (OD : binop_cols op true a b (m_cols a) 0 [] = key ++ zip_cols op cells cells' ++ zip_sums op 0 sums sums').
  { rewrite EA. rewrite bc_app by (rewrite KA; exact KS). rewrite bc_app by (rewrite CA; exact CS).
    rewrite (bc_key op true a b key) by (cbn [map app]; rewrite KA; first [exact DK|intros c I; split; [now rewrite LBA|now apply KS]]). cbn [app].
    rewrite (bc_cells op true a b cells cells').
    - rewrite (bc_sums op true a b sums eq_refl sums' 0); [now rewrite <- app_assoc|exact LSU| | |].
      + intros i [c v] I. cbn [fst snd Nat.add]. split; [rewrite SMB; rewrite <- SB; apply nth_error_nth; now rewrite (map_nth_error fst i sums' I)|]. apply (col_in _ _ _ _ _ c v LB). rewrite EB. apply in_or_app. right. apply in_or_app. right. now apply nth_error_In with i.
      + rewrite SA. intros c I. split; [now apply SL|now rewrite SMA].
      + intros i. destruct (Nat.lt_ge_cases i (length SN)) as [L|L]; [left|right; lia]. rewrite map_app, zip_cols_names, KA, CA by exact LCE. now apply FR.
    - now rewrite CA, CB.
    - intros c v I. apply (col_in _ _ _ _ _ c v LB). rewrite EB. apply in_or_app. right. apply in_or_app. now left.
    - rewrite CA. intros c I. split; [now apply CL|now apply CS].
    - rewrite KA, CA. rewrite app_assoc in DA. now apply nodup_app in DA. }
  rewrite OD.
  assert (NMS : map fst (key ++ zip_cols op cells cells' ++ zip_sums op 0 sums sums') = KN ++ CN ++ TN) by (rewrite !map_app, zip_cols_names, zip_sums_names, KA, CA, LSN by assumption; reflexivity).
  rewrite SMA. eexists. split; [reflexivity|]. unfold col. cbn [m_cols m_foot].
  assert (LAY : NoDup (map fst (key ++ zip_cols op cells cells' ++ zip_sums op 0 sums sums'))) by (rewrite NMS; exact tn_nodup).
  assert (ZL : forall c u d v, In (c, u) (cells ++ sums) -> In (d, v) (cells' ++ sums') -> length u = n /\ length v = n).
  { intros c u d v I J. split; [apply (LNA c)|apply (LNB d)]; [rewrite EA|rewrite EB]; apply in_or_app; now right. }
  split; [split; [cbn [m_cols]; exact NMS|]; split; [exact tn_nodup|]; split; [exact LBA|]; split; [reflexivity|]|].
  { cbn [m_cols]. intros c v I. apply in_app_or in I. destruct I as [I|I]; [apply (LNA c); rewrite EA; apply in_or_app; now left|]. apply in_app_or in I. destruct I as [I|I].
    - unfold zip_cols in I. apply in_map_iff in I. destruct I as ([[c1 u] [c2 w]] & E & I). cbn [fst snd] in E. injection E as <- <-. assert (I2 := I). apply in_combine_l in I. apply in_combine_r in I2. destruct (ZL c1 u c2 w) as [Z1 Z2]; [apply in_or_app; now left|apply in_or_app; now left|]. rewrite zip_length; congruence.
    - unfold zip_sums in I. apply in_map_iff in I. destruct I as ([k [[c1 u] [c2 w]]] & E & I). cbn [fst snd] in E. injection E as <- <-. apply in_combine_r in I. assert (I2 := I). apply in_combine_l in I. apply in_combine_r in I2. destruct (ZL c1 u c2 w) as [Z1 Z2]; [apply in_or_app; now right|apply in_or_app; now right|]. rewrite zip_length; congruence. }
  split.
  { intros c I. rewrite <- KA in I. destruct (dget_has c key I) as (v & E). rewrite dget_app, E. rewrite EA, dget_app, E. reflexivity. }
  split.
  { intros c u v I Hu Hv. exists (zip_with op u v).
    assert (IU : In (c, u) cells). { apply dget_some_in in Hu. rewrite EA in Hu. apply in_app_or in Hu. destruct Hu as [H|H]; [exfalso; apply (in_map fst) in H; rewrite KA in H; apply (KX c H), in_or_app; now left|]. apply in_app_or in H. destruct H as [H|H]; [exact H|]. exfalso. apply (in_map fst) in H. rewrite SA in H. exact (CX c I H). }
    assert (IV : In (c, v) cells'). { apply dget_some_in in Hv. rewrite EB in Hv. destruct (nodup_app _ _ DB) as (_ & DB1 & KX'). destruct (nodup_app _ _ DB1) as (_ & _ & CX'). apply in_app_or in Hv. destruct Hv as [H|H]; [exfalso; apply (in_map fst) in H; rewrite KB in H; apply (KX' c H), in_or_app; now left|]. apply in_app_or in H. destruct H as [H|H]; [exact H|]. exfalso. apply (in_map fst) in H. rewrite SB in H. exact (CX' c I H). }
    split; [|apply zip_rowwise; destruct (ZL c u c v); [apply in_or_app; now left|apply in_or_app; now left|congruence]].
    destruct (same_place cells cells' c u v) as (i & I1 & I2); [congruence|now rewrite CA|exact IU|exact IV|]. apply dget_nodup; [exact LAY|]. apply in_or_app. right. apply in_or_app. left. apply nth_error_In with i. apply nth_zip_cols; [congruence|exact I1|exact I2]. }
  split.
  { intros i s s' u v Hs Hs' Hu Hv. exists (zip_with op u v). destruct (nth_error sums i) as [[s1 u1]|] eqn:E1; [|apply nth_error_None in E1; assert (i < length SN) by (apply nth_error_Some; congruence); lia]. destruct (nth_error sums' i) as [[s2 u2]|] eqn:E2; [|apply nth_error_None in E2; assert (i < length SN) by (apply nth_error_Some; congruence); lia].
    assert (s1 = s) by (rewrite <- SA, (map_nth_error fst i sums E1) in Hs; cbn in Hs; congruence). assert (s2 = s') by (rewrite <- SB, (map_nth_error fst i sums' E2) in Hs'; cbn in Hs'; congruence). subst s1 s2.
    assert (IU : In (s, u1) (cells ++ sums)) by (apply in_or_app; right; now apply nth_error_In with i). assert (IV : In (s', u2) (cells' ++ sums')) by (apply in_or_app; right; now apply nth_error_In with i).
    assert (u1 = u). { assert (X : col s a = Some u1) by (apply (col_in _ _ _ _ _ s u1 LA); rewrite EA; apply in_or_app; now right). unfold col in X. congruence. }
    assert (u2 = v). { assert (X : col s' b = Some u2) by (apply (col_in _ _ _ _ _ s' u2 LB); rewrite EB; apply in_or_app; now right). unfold col in X. congruence. } subst u1 u2.
    split; [|apply zip_rowwise; destruct (ZL s u s' v IU IV); congruence]. apply dget_nodup; [exact LAY|]. apply in_or_app. right. apply in_or_app. right. unfold zip_sums. apply in_map_iff. exists (i, ((s, u), (s', v))). split; [reflexivity|]. apply nth_error_In with i. apply nth_combine; [rewrite nth_seq; [reflexivity|apply nth_error_Some; congruence]|]. now apply nth_combine. }
  assert (LFC : length (combine (seq 0 (length (m_foot a))) (combine (m_foot a) (m_foot b))) = length (m_foot a)) by (rewrite !combine_length, seq_length; lia).
  split.
  { rewrite map_map. cbn [fst]. clear -LF. revert LF. generalize (m_foot b). generalize 0. induction (m_foot a) as [|x l IH]; intros k [|y l'] E; try discriminate; [reflexivity|]. cbn [length seq combine map fst]. f_equal. apply IH. now injection E. }
  intros i l l' fa fb Ha Hb.
  assert (NC : nth_error (combine (seq 0 (length (m_foot a))) (combine (m_foot a) (m_foot b))) i = Some (i, ((l, fa), (l', fb)))) by (apply nth_combine; [rewrite nth_seq; [reflexivity|apply nth_error_Some; congruence]|now apply nth_combine]).
  eexists. split; [rewrite (map_nth_error _ i _ NC); cbn [fst snd]; reflexivity|].
  (* the values *)
  assert (SK : forall (m : mds) S vals, map fst (m_cols m) = KN ++ CN ++ S -> skipn (length (m_labels a)) (footer_row inv m vals) = map (value inv vals) CN ++ map (value inv vals) S).
  { intros m S vals E. unfold footer_row, names. rewrite E, LBA, map_app, skipn_app, map_length, Nat.sub_diag, skipn_all2 by (rewrite map_length; lia). cbn [skipn app]. rewrite map_app. reflexivity. }
  rewrite (SK a SN fa NA), (SK b SN' fb NB). unfold names. rewrite NA, LBA, skipn_app, skipn_all, Nat.sub_diag. cbn [skipn app].
  assert (ZW : zip_with op (map (value inv fa) CN ++ map (value inv fa) SN) (map (value inv fb) CN ++ map (value inv fb) SN') = map (fun c => op (value inv fa c) (value inv fb c)) CN ++ map (fun p => op (value inv fa (fst p)) (value inv fb (snd p))) (combine SN SN')).
  { unfold zip_with. generalize CN. induction CN0 as [|c r IH]; cbn [map app combine fst snd]; [|now rewrite IH]. clear -LS. revert SN' LS. induction SN as [|s r IH]; intros [|s' r'] E; try discriminate; [reflexivity|]. cbn [map combine fst snd]. f_equal. apply IH. now injection E. }
  rewrite ZW. rewrite nf_cells by first [exact CS|exact DC|symmetry; apply map_length]. cbn [app].
  rewrite nf_sums.
  2:{ rewrite map_length, combine_length. lia. }
  2:{ intros c I. now rewrite SMA. }
  2:{ intros j. destruct (Nat.lt_ge_cases j (length SN)) as [L|L]; [left|right; exact L]. intros I. apply in_map_iff in I. destruct I as ([x y] & E & I). cbn [fst plus] in E. subst x. apply in_combine_l in I. apply (FR j L), in_or_app. now right. }
  assert (ND : NoDup (CN ++ TN)) by (pose proof tn_nodup as T; now apply nodup_app in T).
  assert (NF : map fst (combine CN (map (fun c => op (value inv fa c) (value inv fb c)) CN) ++ combine TN (map (fun p => op (value inv fa (fst p)) (value inv fb (snd p))) (combine SN SN'))) = CN ++ TN).
  { assert (CF1 : forall {X Y} (p : list X) (q : list Y), length p = length q -> map fst (combine p q) = p) by (clear; intros X Y p; induction p as [|x p IH]; intros [|y q] E; try discriminate; [reflexivity|cbn; f_equal; apply IH; now injection E]). rewrite map_app, !CF1; [reflexivity| |]; rewrite ?map_length, ?combine_length, ?seq_length; lia. }
  split; [exact NF|]. split.
  { intros c I. apply dget_nodup; [rewrite NF; exact ND|]. apply in_or_app. left. apply In_nth_error in I. destruct I as (j & J). apply nth_error_In with j. apply nth_combine; [exact J|]. now apply (map_nth_error (fun c => op (value inv fa c) (value inv fb c))). }
  { intros j s s' Hs Hs'. apply dget_nodup; [rewrite NF; exact ND|]. apply in_or_app. right. apply nth_error_In with j. assert (j < length SN) by (apply nth_error_Some; congruence). apply nth_combine; [apply map_nth_error; now rewrite nth_seq|]. rewrite (map_nth_error _ j (combine SN SN') (nth_combine SN SN' j s s' Hs Hs')). reflexivity. }
Qed.
End B.
