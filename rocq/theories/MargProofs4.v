From Coq Require Import List Arith Bool ZArith Lia.
From Verif Require Import FlattenModel FlattenProofs DsModel DsProofs3 DsProofs5 GroupingProofs AggModel AggProofs2 Acc2Model MargModel MargSpec MargProofs MargProofs2 MargProofs3.
Import ListNotations.

Section T.
Context {V : Type}.
Variable blank : V -> bool.
Notation mds := (mds (V := V)).
Notation cols := (list (name * list V)).

Lemma pick_chosen {A} keep : forall l : list A, pick keep l = chosen keep l.
Proof.
  unfold pick. induction keep as [|b keep IH]; intros [|x l]; try reflexivity. cbn [combine filter fst chosen]. destruct b; cbn [map snd]; now rewrite IH.
Qed.
Lemma chosen_len {A} keep : forall l : list A, length l = length keep -> length (chosen keep l) = length (filter (fun b => b) keep).
Proof. induction keep as [|b keep IH]; intros [|x l] E; try discriminate; [reflexivity|]. injection E as E. cbn [chosen filter]. destruct b; cbn [length]; rewrite IH; auto. Qed.
Lemma chosen_all {A} : forall l : list A, chosen (repeat true (length l)) l = l.
Proof. induction l as [|x l IH]; [reflexivity|]. cbn [length repeat chosen]. now rewrite IH. Qed.
Lemma filter_true n : length (filter (fun b : bool => b) (repeat true n)) = n.
Proof. induction n; cbn; congruence. Qed.

Lemma filter_keys (f : name -> bool) (l : cols) : map fst (filter (fun p => f (fst p)) l) = filter f (map fst l).
Proof. induction l as [|[c v] l IH]; [reflexivity|]. cbn [filter map fst]. destruct (f c); cbn [map fst]; now rewrite IH. Qed.
Lemma filter_none {A} (f : A -> bool) l : (forall x, In x l -> f x = false) -> filter f l = [].
Proof. induction l as [|x l IH]; intros H; [reflexivity|]. cbn [filter]. rewrite (H x (or_introl eq_refl)). apply IH. intros y I. apply H. now right. Qed.
Lemma filter_all {A} (f : A -> bool) l : (forall x, In x l -> f x = true) -> filter f l = l.
Proof. induction l as [|x l IH]; intros H; [reflexivity|]. cbn [filter]. rewrite (H x (or_introl eq_refl)). f_equal. apply IH. intros y I. apply H. now right. Qed.
Lemma dget_filter {X} (f : name -> bool) c : forall l : list (name * X), dget c (filter (fun p => f (fst p)) l) = if f c then dget c l else None.
Proof.
  induction l as [|[k v] l IH]; [now destruct (f c)|]. cbn [filter fst]. destruct (f k) eqn:Fk; cbn [dget]; rewrite IH; destruct (name_dec k c) as [E|E]; try reflexivity; subst; rewrite Fk; reflexivity.
Qed.
Lemma filter_len_all {A} (f : A -> bool) (l : list A) : (length (filter f l) =? length l) = forallb f l.
Proof.
  assert (LE : length (filter f l) <= length l) by (induction l as [|x l IH]; cbn; [lia|destruct (f x); cbn; lia]).
  induction l as [|x l IH]; [reflexivity|]. cbn [filter forallb]. assert (LE' : length (filter f l) <= length l) by (clear; induction l as [|x l IH]; cbn; [lia|destruct (f x); cbn; lia]). destruct (f x); cbn [andb]; [cbn [length Nat.eqb]; now apply IH|]. apply Nat.eqb_neq. cbn [length]. lia.
Qed.

(** the mask of the blank rows *)
Definition andmask (m : list bool) (v : list V) := map (fun q => fst q && blank (snd q)) (combine m v).
Lemma fold_mask (r : cols) : forall m i, (forall p, In p r -> length (snd p) = length m) ->
  (nth_error (fold_left (fun m p => map (fun q => fst q && blank (snd q)) (combine m (snd p))) r m) i = Some true <->
   nth_error m i = Some true /\ forall p x, In p r -> nth_error (snd p) i = Some x -> blank x = true) /\
  length (fold_left (fun m p => map (fun q => fst q && blank (snd q)) (combine m (snd p))) r m) = length m.
Proof.
  induction r as [|p r IH]; intros m i H; cbn [fold_left]; [split; [|reflexivity]; split; [intros X; split; [exact X|intros ? ? []]|tauto]|].
  assert (Hp := H p (or_introl eq_refl)). assert (LM : length (map (fun q => fst q && blank (snd q)) (combine m (snd p))) = length m) by (rewrite map_length, combine_length; lia).
  destruct (IH (map (fun q => fst q && blank (snd q)) (combine m (snd p))) i) as (I1 & I2); [intros q I; rewrite LM; apply H; now right|]. split; [|congruence]. rewrite I1. clear IH I1 I2.
  assert (NE : nth_error (map (fun q => fst q && blank (snd q)) (combine m (snd p))) i = Some true <-> nth_error m i = Some true /\ (forall x, nth_error (snd p) i = Some x -> blank x = true)).
  { destruct (nth_error m i) as [bm|] eqn:Em.
    - assert (LI : i < length m) by (apply nth_error_Some; congruence). destruct (nth_error (snd p) i) as [x|] eqn:Ex; [|apply nth_error_None in Ex; lia]. rewrite (map_nth_error _ i _ (nth_combine m (snd p) i bm x Em Ex)). cbn [fst snd]. split.
      + intros [= E]. apply andb_true_iff in E. destruct E as [-> E]. split; [reflexivity|]. intros x' [= <-]. exact E.
      + intros ([= ->] & E). now rewrite (E x eq_refl).
    - split; [|intros [E _]; discriminate]. intros E. assert (X : nth_error (map (fun q => fst q && blank (snd q)) (combine m (snd p))) i <> None) by congruence. apply nth_error_Some in X. rewrite LM in X. apply nth_error_None in Em. lia. }
  rewrite NE. split.
  - intros ((A & B) & C). split; [exact A|]. intros q x [<-|I] E; [now apply B|now apply (C q)].
  - intros (A & B). split; [split; [exact A|]|]; [intros x E; apply (B p); [now left|exact E]|intros q x I E; apply (B q); [now right|exact E]].
Qed.

Variables (KN CN SN : list name) (n : nat) (d : mds).
Hypothesis L : laid_out KN CN SN n d.

Theorem trim_ok : exists r mask f keep, trim blank d = (r, mask) /\
  (forall c v, In c (CN ++ SN) -> col c d = Some v -> (f c = false <-> blank_col blank v)) /\
  keeps_rows blank n (data_of d) keep /\ (forall v : list V, length v = n -> apply_mask mask v = chosen keep v) /\
  laid_out KN (filter f CN) (filter f SN) (length (filter (fun b => b) keep)) r /\
  (forall c v, In c (KN ++ filter f CN ++ filter f SN) -> col c d = Some v -> col c r = Some (chosen keep v)) /\
  map fst (m_foot r) = map fst (m_foot d) /\
  (forall l c, foot l r c = if mem c (KN ++ filter f CN ++ filter f SN) then foot l d c else None) /\
  (exists g : name -> bool, m_foot r = map (fun p => (fst p, filter (fun q => g (fst q)) (snd p))) (m_foot d) /\ forall c, g c = mem c (KN ++ filter f CN ++ filter f SN)).
Proof using L.
  destruct (split_layout _ _ _ _ _ L) as (key & cells & sums & E & K & C & S). assert (L' := L). destruct L' as (NM & ND & LB & SM & LN).
  set (f := fun c => match dget c (m_cols d) with Some v => negb (forallb blank v) | None => false end).
  destruct (nodup_app _ _ ND) as (DK & DCS & KX).
  assert (GD : forall c v, In (c, v) (m_cols d) -> dget c (m_cols d) = Some v) by (intros c v I; apply dget_nodup; [now rewrite NM|exact I]).
  assert (DATA : filter (fun p => negb (mem (fst p) (m_labels d))) (m_cols d) = cells ++ sums).
  { rewrite E, filter_app, filter_none, filter_all; [reflexivity| |].
    - intros [c v] I. apply negb_true_iff, mem_not. rewrite LB. intros J. apply (in_map fst) in I. rewrite map_app, C, S in I. exact (KX c J I).
    - intros [c v] I. apply negb_false_iff, mem_in. rewrite LB. apply (in_map fst) in I. now rewrite K in I. }
  assert (KEPT : filter (fun p => negb (length (filter blank (snd p)) =? length (snd p))) (cells ++ sums) = filter (fun p => f (fst p)) (cells ++ sums)).
  { apply filter_ext_in. intros [c v] I. cbn [fst snd]. unfold f. rewrite (GD c v) by (rewrite E; apply in_or_app; now right). now rewrite filter_len_all. }
  assert (KNM : names (filter (fun p => f (fst p)) (cells ++ sums)) = filter f CN ++ filter f SN) by (unfold names; rewrite filter_keys, map_app, C, S, filter_app; reflexivity).
  set (cs := KN ++ filter f CN ++ filter f SN).
  assert (CSQ : map fst (filter (fun p => mem (fst p) (m_labels d) || mem (fst p) (names (filter (fun p => f (fst p)) (cells ++ sums)))) (m_cols d)) = cs).
  { unfold cs. rewrite (filter_keys (fun c => mem c (m_labels d) || mem c (names (filter (fun p => f (fst p)) (cells ++ sums))))), NM, KNM, LB, !filter_app. f_equal.
    - apply filter_all. intros c I. apply orb_true_iff. left. now apply mem_in.
    - rewrite <- !filter_app. apply filter_ext_in. intros c I. assert (N1 : mem c KN = false) by (apply mem_not; intros J; exact (KX c J I)). rewrite N1. cbn [orb]. destruct (f c) eqn:Fc; [apply mem_in|apply mem_not]; rewrite filter_In; [now split|intros [_ X]; congruence]. }
  assert (NC : NoDup cs).
  { unfold cs. apply nodup_cat; [exact DK|rewrite <- filter_app; now apply NoDup_filter|]. intros c I J. rewrite <- filter_app in J. apply filter_In in J. exact (KX c I (proj1 J)). }
  assert (INC : forall c, In c (KN ++ CN ++ SN) -> mem c cs = (mem c KN || f c)).
  { intros c I. destruct (mem c KN) eqn:M; cbn [orb].
    - apply mem_in. unfold cs. apply in_or_app. left. now apply mem_in.
    - apply mem_not in M. apply in_app_or in I. destruct I as [I|I]; [contradiction|]. destruct (f c) eqn:Fc; [apply mem_in|apply mem_not]; unfold cs; rewrite <- filter_app; [apply in_or_app; right; apply filter_In; now split|]. intros J. apply in_app_or in J. destruct J as [J|J]; [contradiction|]. apply filter_In in J. destruct J; congruence. }
  set (d1 := keep_cols cs d).
  assert (D1C : m_cols d1 = key ++ filter (fun p => f (fst p)) (cells ++ sums)).
  { unfold d1, keep_cols, only. cbn [m_cols]. rewrite E, (filter_app _ key). f_equal.
    - apply filter_all. intros [c v] I. cbn [fst]. apply mem_in. unfold cs. apply in_or_app. left. rewrite <- K. now apply (in_map fst) in I.
    - apply filter_ext_in. intros [c v] I. cbn [fst]. apply (in_map fst) in I. rewrite map_app, C, S in I. cbn [fst] in I. rewrite INC by (apply in_or_app; now right). assert (N1 : mem c KN = false) by (apply mem_not; intros J; exact (KX c J I)). now rewrite N1. }
  assert (D1N : map fst (m_cols d1) = cs) by (rewrite D1C, map_app, K; fold (names (filter (fun p => f (fst p)) (cells ++ sums))); rewrite KNM; reflexivity).
  assert (D1L : m_labels d1 = KN) by (unfold d1, keep_cols; cbn [m_labels]; rewrite LB; apply filter_all; intros c I; apply mem_in; unfold cs; apply in_or_app; now left).
  assert (D1S : m_sums d1 = filter f SN).
  { unfold d1, keep_cols. cbn [m_sums]. rewrite SM. apply filter_ext_in. intros c I. assert (I2 : In c (CN ++ SN)) by (apply in_or_app; now right). rewrite INC by (apply in_or_app; now right). assert (N1 : mem c KN = false) by (apply mem_not; intros J; exact (KX c J I2)). now rewrite N1. }
  assert (D1G : forall c, dget c (m_cols d1) = if mem c cs then dget c (m_cols d) else None) by (intros c; unfold d1, keep_cols, only; cbn [m_cols]; apply (dget_filter (fun c => mem c cs))).
  assert (D1F : m_foot d1 = map (fun p => (fst p, filter (fun q => mem (fst q) cs) (snd p))) (m_foot d)) by reflexivity.
  assert (FOOT : forall (r : mds), m_foot r = m_foot d1 -> map fst (m_foot r) = map fst (m_foot d) /\ (forall l c, foot l r c = if mem c cs then foot l d c else None) /\ exists g : name -> bool, m_foot r = map (fun p => (fst p, filter (fun q => g (fst q)) (snd p))) (m_foot d) /\ forall c, g c = mem c cs).
  { intros r ER. rewrite ER, D1F. split; [rewrite map_map; reflexivity|]. split; [|exists (fun c => mem c cs); now split]. intros l c. unfold foot. rewrite ER, D1F. assert (X : forall F : list (name * list (name * V)), dget l (map (fun p => (fst p, filter (fun q => mem (fst q) cs) (snd p))) F) = match dget l F with Some fd => Some (filter (fun q => mem (fst q) cs) fd) | None => None end) by (induction F as [|[k y] F IH]; [reflexivity|]; cbn [map fst snd dget]; destruct (name_dec k l); [reflexivity|exact IH]).
    rewrite X. destruct (dget l (m_foot d)) as [fd|]; [|now destruct (mem c cs)]. apply (dget_filter (fun c => mem c cs)). }
  assert (FB : forall c v, In c (CN ++ SN) -> col c d = Some v -> (f c = false <-> blank_col blank v)).
  { intros c v I G. unfold f. unfold col in G. rewrite G. unfold blank_col. split.
    - intros X. apply negb_false_iff in X. now apply forallb_forall.
    - intros X. apply negb_false_iff. now apply forallb_forall. }
  assert (DO : data_of d = map snd (cells ++ sums)) by (rewrite (data_laid _ _ _ _ _ L), E, <- K, map_length, skipn_app, skipn_all, Nat.sub_diag; reflexivity).
  assert (LCS : forall p, In p (cells ++ sums) -> length (snd p) = n) by (intros [c v] I; apply (LN c); rewrite E; apply in_or_app; now right).
  (* a row is blank in the kept columns iff it is in all *)
  assert (BK : forall i, blank_row blank (data_of d) i <-> forall p x, In p (filter (fun p => f (fst p)) (cells ++ sums)) -> nth_error (snd p) i = Some x -> blank x = true).
  { intros i. rewrite DO. unfold blank_row. split.
    - intros H p x I. apply filter_In in I. apply H. apply in_map. apply I.
    - intros H v x I. apply in_map_iff in I. destruct I as ([c v'] & EV & I). cbn [snd] in EV. subst v'. intros G. destruct (f c) eqn:Fc; [apply (H (c, v) x); [apply filter_In; now split|exact G]|]. assert (I2 : In c (CN ++ SN)) by (rewrite <- C, <- S, <- map_app; now apply (in_map fst) in I). assert (GV : col c d = Some v) by (apply GD; rewrite E; apply in_or_app; now right). apply (proj1 (FB c v I2 GV) Fc). now apply nth_error_In with i. }
  assert (NB : (exists v, In v (data_of d) /\ ~ blank_col blank v) <-> filter (fun p => f (fst p)) (cells ++ sums) <> []).
  { rewrite DO. split.
    - intros (v & I & H). apply in_map_iff in I. destruct I as ([c v'] & EV & I). cbn [snd] in EV. subst v'. assert (I2 : In c (CN ++ SN)) by (rewrite <- C, <- S, <- map_app; now apply (in_map fst) in I). assert (GV : col c d = Some v) by (apply GD; rewrite E; apply in_or_app; now right). assert (Fc : f c = true) by (destruct (f c) eqn:X; [reflexivity|exfalso; apply H; now apply (FB c v I2 GV)]).
      intros X. assert (J : In (c, v) (filter (fun p => f (fst p)) (cells ++ sums))) by (apply filter_In; now split). rewrite X in J. exact J.
    - intros X. destruct (filter (fun p => f (fst p)) (cells ++ sums)) as [|[c v] q] eqn:Q; [congruence|]. assert (I : In (c, v) (filter (fun p => f (fst p)) (cells ++ sums))) by (rewrite Q; now left). apply filter_In in I. destruct I as [I Fc]. cbn [fst] in Fc. assert (I2 : In c (CN ++ SN)) by (rewrite <- C, <- S, <- map_app; now apply (in_map fst) in I). assert (GV : col c d = Some v) by (apply GD; rewrite E; apply in_or_app; now right). exists v. split; [now apply (in_map snd) in I|]. intros B. apply (FB c v I2 GV) in B. congruence. }
  unfold trim. cbv zeta. rewrite DATA, KEPT, CSQ. fold d1.
  assert (WHOLE : (forall i, i < n -> ~ (blank_row blank (data_of d) i /\ exists v, In v (data_of d) /\ ~ blank_col blank v)) ->
    exists r mask f keep, (d1, @None (list bool)) = (r, mask) /\ (forall c v, In c (CN ++ SN) -> col c d = Some v -> (f c = false <-> blank_col blank v)) /\
      keeps_rows blank n (data_of d) keep /\ (forall v : list V, length v = n -> apply_mask mask v = chosen keep v) /\ laid_out KN (filter f CN) (filter f SN) (length (filter (fun b => b) keep)) r /\
      (forall c v, In c (KN ++ filter f CN ++ filter f SN) -> col c d = Some v -> col c r = Some (chosen keep v)) /\ map fst (m_foot r) = map fst (m_foot d) /\ (forall l c, foot l r c = if mem c (KN ++ filter f CN ++ filter f SN) then foot l d c else None) /\
      exists g : name -> bool, m_foot r = map (fun p => (fst p, filter (fun q => g (fst q)) (snd p))) (m_foot d) /\ forall c, g c = mem c (KN ++ filter f CN ++ filter f SN)).
  { intros H. exists d1, None, f, (repeat true n). split; [reflexivity|]. split; [exact FB|]. split.
    - split; [apply repeat_length|]. intros i Hi. split; [|intros X; exfalso; exact (H i Hi X)]. intros X. apply nth_error_In in X. apply repeat_spec in X. discriminate.
    - split; [intros v Hv; cbn [apply_mask]; rewrite <- Hv; symmetry; apply chosen_all|]. split; [|split; [|apply FOOT; reflexivity]].
      + rewrite filter_true. split; [exact D1N|]. split; [exact NC|]. split; [exact D1L|]. split; [exact D1S|]. intros c v I. rewrite D1C in I. apply (LN c). rewrite E. apply in_app_or in I. apply in_or_app. destruct I as [I|I]; [now left|right]. apply filter_In in I. apply I.
      + intros c v I G. unfold col. rewrite D1G. assert (M : mem c cs = true) by (now apply mem_in). rewrite M. unfold col in G. rewrite G. f_equal. assert (Hv : length v = n) by (apply (LN c); now apply dget_some_in). rewrite <- Hv. symmetry. apply chosen_all. }
  destruct (filter (fun p => f (fst p)) (cells ++ sums)) as [|[c0 v0] q] eqn:Q.
  { apply WHOLE. intros i _ (_ & X). apply NB in X. congruence. }
  assert (LQ : forall p, In p ((c0, v0) :: q) -> length (snd p) = n) by (intros p I; apply LCS; rewrite <- Q in I; apply filter_In in I; apply I).
  assert (Lv0 : length v0 = n) by (apply (LQ (c0, v0)); now left).
  set (rm := fold_left (fun m p => map (fun q => fst q && blank (snd q)) (combine m (snd p))) q (map blank v0)).
  assert (RMN : forall i, i < n -> (nth_error rm i = Some true <-> blank_row blank (data_of d) i /\ exists v, In v (data_of d) /\ ~ blank_col blank v)).
  { intros i Hi. destruct (fold_mask q (map blank v0) i) as (H1 & _); [intros p I; rewrite map_length, Lv0; apply LQ; now right|]. unfold rm. rewrite H1. rewrite BK. assert (X : exists v, In v (data_of d) /\ ~ blank_col blank v) by (apply NB; congruence). split.
    - intros (A & B). split; [|exact X]. intros p x [<-|I] G; [|now apply (B p)]. cbn [snd] in G. rewrite (map_nth_error blank i v0 G) in A. congruence.
    - intros (A & _). split; [|intros p x I; apply A; now right]. destruct (nth_error v0 i) as [x|] eqn:G; [|apply nth_error_None in G; lia]. rewrite (map_nth_error blank i v0 G). f_equal. apply (A (c0, v0) x); [now left|exact G]. }
  assert (RML : length rm = n) by (unfold rm; destruct (fold_mask q (map blank v0) 0) as (_ & H2); [intros p I; rewrite map_length, Lv0; apply LQ; now right|]; rewrite H2, map_length; exact Lv0).
  destruct (existsb (fun b => b) rm) eqn:EX.
  2:{ apply WHOLE. intros i Hi X. apply RMN in X; [|exact Hi]. apply nth_error_In in X. assert (Y : existsb (fun b => b) rm = true) by (apply existsb_exists; now exists true). congruence. }
  exists (mkM (map (fun p => (fst p, pick (map negb rm) (snd p))) (m_cols d1)) (m_labels d1) (m_sums d1) (m_foot d1)), (Some (map negb rm)), f, (map negb rm). split; [reflexivity|]. split; [exact FB|]. split.
  - split; [now rewrite map_length|]. intros i Hi. rewrite <- RMN by exact Hi. destruct (nth_error rm i) as [b|] eqn:G; [|apply nth_error_None in G; lia]. rewrite (map_nth_error negb i rm G). destruct b; cbn [negb]; split; congruence.
  - split; [intros v Hv; apply pick_chosen|]. split; [|split; [|apply FOOT; reflexivity]].
    + split; [cbn [m_cols]; rewrite map_map; cbn [fst]; exact D1N|]. split; [exact NC|]. split; [exact D1L|]. split; [exact D1S|]. cbn [m_cols]. intros c v I. apply in_map_iff in I. destruct I as ([c' v'] & EV & I). cbn [fst snd] in EV. injection EV as _ <-. rewrite pick_chosen. apply chosen_len. rewrite map_length, RML. rewrite D1C in I. apply (LN c'). rewrite E. apply in_or_app. apply in_app_or in I. destruct I as [I|I]; [now left|right]. rewrite <- Q in I. apply filter_In in I. apply I.
    + intros c v I G. unfold col. cbn [m_cols]. assert (X : forall l : cols, dget c (map (fun p => (fst p, pick (map negb rm) (snd p))) l) = match dget c l with Some w => Some (pick (map negb rm) w) | None => None end) by (induction l as [|[k y] l IH]; [reflexivity|]; cbn [map fst snd dget]; destruct (name_dec k c); [reflexivity|exact IH]). rewrite X, D1G. assert (M : mem c cs = true) by (now apply mem_in). rewrite M. unfold col in G. rewrite G. now rewrite pick_chosen.
Qed.
End T.
