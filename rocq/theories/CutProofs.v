(** cut: edges, the search, the labels. *)
From Coq Require Import List Arith Bool ZArith QArith Lia Lqa Sorted.
From Verif Require Import FlattenModel ArrModel ArrSpec CutModel CutSpec.
Import ListNotations.
Open Scope nat_scope.

Lemma ltb_spec a b : fl_ltb a b = true <-> flt a b.
Proof.
  destruct a, b; cbn [fl_ltb flt]; try tauto; try (split; [discriminate|tauto]). rewrite negb_true_iff. split.
  - intros H. destruct (Qlt_le_dec q q0) as [L|L]; [exact L|]. apply Qle_bool_iff in L. congruence.
  - intros H. destruct (Qle_bool q0 q) eqn:E; [|reflexivity]. apply Qle_bool_iff in E. lra.
Qed.
Lemma ltb_false a b : fl_ltb a b = false <-> ~ flt a b.
Proof. rewrite <- ltb_spec. destruct (fl_ltb a b); split; congruence. Qed.
Lemma eqb_spec a b : fl_eqb a b = true <-> feq a b.
Proof. destruct a, b; cbn [fl_eqb feq]; try tauto; try (split; [discriminate|tauto]). apply Qeq_bool_iff. Qed.
Lemma flt_trans a b c : flt a b -> flt b c -> flt a c.
Proof. destruct a, b, c; cbn [flt]; try tauto. intros; lra. Qed.
Lemma flt_irr a : ~ flt a a.
Proof. destruct a; cbn [flt]; try tauto. lra. Qed.
Lemma tri a b : a <> NaN -> b <> NaN -> flt a b \/ feq a b \/ flt b a.
Proof. destruct a, b; cbn [flt feq]; try tauto. intros _ _. destruct (Q_dec q q0) as [[L|L]|L]; auto. Qed.
Lemma flt_feq a b c : flt a b -> feq b c -> flt a c.
Proof. destruct a, b, c; cbn [flt feq]; try tauto. intros; lra. Qed.
Lemma feq_flt a b c : feq a b -> flt b c -> flt a c.
Proof. destruct a, b, c; cbn [flt feq]; try tauto. intros; lra. Qed.
Lemma feq_sym a b : feq a b -> feq b a.
Proof. destruct a, b; cbn [feq]; try tauto. intros; lra. Qed.
Lemma feq_refl a : a <> NaN -> feq a a.
Proof. destruct a; cbn [feq]; try tauto. intros; lra. Qed.
Lemma feq_trans a b c : feq a b -> feq b c -> feq a c.
Proof. destruct a, b, c; cbn [feq]; try tauto. intros; lra. Qed.
Lemma flt_nan a b : flt a b -> a <> NaN /\ b <> NaN.
Proof. destruct a, b; cbn [flt]; try tauto; split; discriminate. Qed.
Lemma feq_nan a b : feq a b -> a <> NaN /\ b <> NaN.
Proof. destruct a, b; cbn [feq]; try tauto; split; discriminate. Qed.
Lemma feq_not_flt a b : feq a b -> ~ flt a b /\ ~ flt b a.
Proof. destruct a, b; cbn [flt feq]; try tauto. intros; split; lra. Qed.
Lemma not_flt a b : a <> NaN -> b <> NaN -> ~ flt a b -> fle b a.
Proof. intros A B N. destruct (tri a b A B) as [H|[H|H]]; [contradiction|right; now apply feq_sym|now left]. Qed.
Lemma fle_not a b : fle a b -> ~ flt b a.
Proof. intros [H|H] G; [exact (flt_irr a (flt_trans a b a H G))|]. now apply (proj2 (feq_not_flt a b H)). Qed.

(** *** the search *)
Lemma sorted_pair e i j a b : StronglySorted flt e -> i < j -> nth_error e i = Some a -> nth_error e j = Some b -> flt a b.
Proof.
  intros SS. revert i j. induction SS as [|x l S1 IH F]; intros i j L EI EJ; [destruct i; discriminate|]. destruct j as [|j]; [lia|]. destruct i as [|i]; cbn [nth_error] in *.
  - injection EI as <-. rewrite Forall_forall in F. apply F. now apply nth_error_In with j.
  - apply (IH i j); [lia|exact EI|exact EJ].
Qed.
Lemma below_le e v : below e v <= length e.
Proof. unfold below. induction e as [|a e IH]; cbn [filter length]; [lia|]. destruct (fl_ltb a v); cbn [length]; lia. Qed.
Lemma below_nth e v : StronglySorted flt e -> forall j a, nth_error e j = Some a -> (flt a v <-> j < below e v).
Proof.
  unfold below. induction e as [|x e IH]; intros SS j a E; [destruct j; discriminate|]. inversion SS as [|? ? S1 S2]; subst. cbn [filter]. destruct (fl_ltb x v) eqn:B.
  - cbn [length]. destruct j as [|j]; cbn [nth_error] in E; [injection E as <-; apply ltb_spec in B; split; [lia|auto]|]. rewrite (IH S1 j a E). lia.
  - assert (Z : filter (fun e0 => fl_ltb e0 v) e = []).
    { clear IH SS S1 E. induction e as [|y e IH]; [reflexivity|]. inversion S2 as [|? ? F1 F2]; subst. cbn [filter]. destruct (fl_ltb y v) eqn:C; [|now apply IH]. apply ltb_spec in C. apply ltb_false in B. exfalso. apply B. exact (flt_trans x y v F1 C). }
    rewrite Z. cbn [length]. split; [|lia]. intros G. exfalso. apply ltb_false in B. apply B. destruct j as [|j]; cbn [nth_error] in E; [now injection E as <-|]. apply nth_error_In in E. rewrite Forall_forall in S2. exact (flt_trans x a v (S2 a E) G).
Qed.
Lemma last_nth {A} (l : list A) d : l <> [] -> nth_error l (length l - 1) = Some (last l d).
Proof.
  induction l as [|a l IH]; [congruence|]. intros _. destruct l as [|b l]; [reflexivity|]. specialize (IH ltac:(discriminate)). cbn [length] in *. replace (S (S (length l)) - 1) with (S (S (length l) - 1)) by lia. cbn [nth_error]. exact IH.
Qed.
Lemma is_nan_spec v : is_nan v = true <-> v = NaN.
Proof. destruct v; cbn; split; congruence. Qed.
Lemma bsearch_bin e v : edges_ok e -> forall i, 1 <= i -> (bsearch true e v = i <-> in_bin e i v).
Proof.
  intros (LE & SS & NN) i Hi. unfold bsearch. destruct (is_nan v) eqn:NV.
  { apply is_nan_spec in NV. subst v. split; [lia|]. intros (a & b & _ & _ & _ & [H|H] & _); destruct b; cbn in H; contradiction. }
  assert (VN : v <> NaN) by (intros ->; discriminate). destruct e as [|e0 e']; [cbn in LE; lia|]. set (e := e0 :: e') in *. pose proof (below_nth e v SS) as BN. pose proof (below_le e v) as BL.
  assert (IN : forall j a, nth_error e j = Some a -> a <> NaN) by (intros j a E Q; subst a; apply NN; now apply nth_error_In with j).
  assert (E0 : nth_error e 0 = Some e0) by reflexivity. assert (HD : hd NaN e = e0) by reflexivity. rewrite HD.
  split.
  - intros H. destruct (below e v =? 0) eqn:K0.
    + apply Nat.eqb_eq in K0. destruct (fl_eqb v e0) eqn:Q; [|lia]. apply eqb_spec in Q. subst i. destruct (nth_error e 1) as [b|] eqn:E1; [|apply nth_error_None in E1; lia].
      exists e0, b. split; [reflexivity|]. split; [exact E1|]. split; [lia|]. split; [|right; split; [reflexivity|exact Q]]. left. assert (L : flt e0 b) by (exact (sorted_pair e 0 1 e0 b SS ltac:(lia) E0 E1)). exact (feq_flt v e0 b Q L).
    + apply Nat.eqb_neq in K0. destruct (below e v =? length e) eqn:KL; [lia|]. apply Nat.eqb_neq in KL. subst i.
      destruct (nth_error e (below e v - 1)) as [a|] eqn:EA; [|apply nth_error_None in EA; lia]. destruct (nth_error e (below e v)) as [b|] eqn:EB; [|apply nth_error_None in EB; lia].
      exists a, b. split; [exact EA|]. split; [exact EB|]. split; [lia|]. split.
      * apply not_flt; [exact (IN _ _ EB)|exact VN|]. intros G. apply (BN _ b EB) in G. lia.
      * left. apply (BN _ a EA). lia.
  - intros (a & b & EA & EB & _ & Hb & Ha). assert (NB : ~ flt b v) by (now apply fle_not). assert (B1 : below e v <= i). { destruct (Nat.le_gt_cases (below e v) i) as [|G]; [assumption|]. exfalso. apply NB. now apply (BN i b EB). }
    assert (Li : i < length e) by (apply nth_error_Some; congruence).
    destruct Ha as [Ha|[-> Ha]].
    + apply (BN _ a EA) in Ha. assert (below e v = i) by lia. destruct (below e v =? 0) eqn:K0; [apply Nat.eqb_eq in K0; lia|]. destruct (below e v =? length e) eqn:KL; [apply Nat.eqb_eq in KL; lia|]. assumption.
    + cbn [Nat.sub] in EA. assert (a = e0) by congruence. subst a.
      assert (below e v = 0). { destruct (below e v) eqn:K; [reflexivity|]. exfalso. assert (flt e0 v) by (apply (BN 0 e0 E0); lia). now apply (proj2 (feq_not_flt v e0 Ha)). }
      rewrite H. cbn [Nat.eqb]. apply eqb_spec in Ha. now rewrite Ha.
Qed.
Lemma bsearch_out e v : edges_ok e -> (bsearch true e v = 0 <-> outside e v).
Proof.
  intros (LE & SS & NN). unfold bsearch. destruct (is_nan v) eqn:NV.
  { apply is_nan_spec in NV. subst v. split; [intros _; now left|reflexivity]. }
  assert (VN : v <> NaN) by (intros ->; discriminate). destruct e as [|e0 e']; [cbn in LE; lia|]. set (e := e0 :: e') in *. pose proof (below_nth e v SS) as BN. pose proof (below_le e v) as BL.
  assert (E0 : nth_error e 0 = Some e0) by reflexivity. assert (HD : hd NaN e = e0) by reflexivity. unfold outside. rewrite HD.
  assert (EL : nth_error e (length e - 1) = Some (last e NaN)) by (apply last_nth; discriminate).
  assert (N0 : e0 <> NaN) by (intros ->; apply NN; now left).
  destruct (below e v =? 0) eqn:K0.
  - apply Nat.eqb_eq in K0. assert (NF : ~ flt e0 v) by (intros G; apply (BN 0 e0 E0) in G; lia). destruct (fl_eqb v e0) eqn:Q.
    + split; [discriminate|]. intros [H|[H|H]]; [congruence| |].
      * apply eqb_spec in Q. exfalso. now apply (proj1 (feq_not_flt v e0 Q)).
      * apply (BN _ _ EL) in H. lia.
    + split; [|reflexivity]. intros _. right. left. destruct (tri v e0 VN N0) as [H|[H|H]]; [exact H| |contradiction]. apply eqb_spec in H. congruence.
  - apply Nat.eqb_neq in K0. destruct (below e v =? length e) eqn:KL.
    + apply Nat.eqb_eq in KL. split; [|reflexivity]. intros _. right. right. apply (BN _ _ EL). lia.
    + apply Nat.eqb_neq in KL. split; [lia|]. intros [H|[H|H]]; [congruence| |].
      * exfalso. assert (G : flt e0 v) by (apply (BN 0 e0 E0); lia). exact (flt_irr v (flt_trans v e0 v H G)).
      * apply (BN _ _ EL) in H. lia.
Qed.
Lemma below_mono e v w : StronglySorted flt e -> v <> NaN -> w <> NaN -> fle v w -> below e v <= below e w.
Proof.
  intros SS V W L. unfold below. induction e as [|a e IH]; [apply Nat.le_refl|]. inversion SS as [|? ? S1 S2]; subst. specialize (IH S1). cbn [filter]. destruct (fl_ltb a v) eqn:A; destruct (fl_ltb a w) eqn:B; cbn [length]; try lia.
  apply ltb_spec in A. apply ltb_false in B. exfalso. apply B. destruct L as [L|L]; [exact (flt_trans a v w A L)|exact (flt_feq a v w A L)].
Qed.

(** *** unique *)
Lemma insert_sorted v l : v <> NaN -> ~ In NaN l -> StronglySorted flt l -> StronglySorted flt (insert v l).
Proof.
  intros V. induction l as [|w l IH]; intros N SS; cbn [insert]; [repeat constructor|]. inversion SS as [|? ? S1 S2]; subst.
  assert (W : w <> NaN) by (intros ->; apply N; now left). destruct (fl_ltb v w) eqn:A.
  - apply ltb_spec in A. constructor; [exact SS|]. constructor; [exact A|]. rewrite Forall_forall in *. intros x I. exact (flt_trans v w x A (S2 x I)).
  - destruct (fl_eqb v w) eqn:B; [exact SS|]. apply ltb_false in A. constructor; [apply IH; [intros I; apply N; now right|exact S1]|].
    assert (G : flt w v). { destruct (tri v w V W) as [H|[H|H]]; [contradiction|apply eqb_spec in H; congruence|exact H]. }
    clear -S2 G. induction l as [|x l IH]; cbn [insert]; [repeat constructor; exact G|]. inversion S2 as [|? ? F1 F2]; subst. destruct (fl_ltb v x); [repeat constructor; assumption|]. destruct (fl_eqb v x); [exact S2|]. constructor; [exact F1|now apply IH].
Qed.
Lemma insert_in v l x : In x (insert v l) -> x = v \/ In x l.
Proof.
  induction l as [|w l IH]; cbn [insert]; [intros [<-|[]]; now left|]. destruct (fl_ltb v w); [intros [<-|I]; [now left|now right]|]. destruct (fl_eqb v w); [intros I; now right|]. intros [<-|I]; [right; now left|]. destruct (IH I); [now left|right; now right].
Qed.
Lemma in_insert v l : v <> NaN -> (exists x, In x (insert v l) /\ feq x v) /\ (forall x, In x l -> In x (insert v l)).
Proof.
  intros V. induction l as [|w l [[x [I E]] IH]]; cbn [insert]; [split; [exists v; split; [now left|now apply feq_refl]|intros x []]|].
  destruct (fl_ltb v w); [split; [exists v; split; [now left|now apply feq_refl]|intros y J; now right]|]. destruct (fl_eqb v w) eqn:B.
  - split; [exists w; split; [now left|apply feq_sym; now apply eqb_spec]|auto].
  - split; [exists x; split; [now right|exact E]|]. intros y [<-|J]; [now left|right; auto].
Qed.
Lemma uniq_ok e : ~ In NaN e -> StronglySorted flt (uniq e) /\ ~ In NaN (uniq e) /\ (forall x, In x (uniq e) -> In x e) /\ (forall x, In x e -> exists y, In y (uniq e) /\ feq y x).
Proof.
  induction e as [|v e IH]; intros N; cbn [uniq fold_right]; [repeat split; [constructor|intros []|intros x []|intros x []]|].
  assert (V : v <> NaN) by (intros ->; apply N; now left). destruct IH as (A & B & C & D); [intros I; apply N; now right|]. fold (uniq e).
  split; [now apply insert_sorted|]. split; [intros I; apply insert_in in I; destruct I as [I|I]; [congruence|contradiction]|]. split.
  - intros x I. apply insert_in in I. destruct I as [->|I]; [now left|right; auto].
  - destruct (in_insert v (uniq e) V) as [E F]. intros x [<-|I]; [exact E|]. destruct (D x I) as (y & J & K). exists y. split; [auto|exact K].
Qed.
Lemma uniq_id e : StronglySorted flt e -> uniq e = e.
Proof.
  induction e as [|v e IH]; intros SS; [reflexivity|]. inversion SS as [|? ? S1 S2]; subst. cbn [uniq fold_right]. fold (uniq e). rewrite (IH S1). destruct e as [|w e]; [reflexivity|]. cbn [insert]. inversion S2 as [|? ? F1 F2]; subst. apply ltb_spec in F1. now rewrite F1.
Qed.
Lemma insert_length v l : length (insert v l) <= S (length l).
Proof. induction l as [|w l IH]; cbn [insert length]; [lia|]. destruct (fl_ltb v w); cbn [length]; [lia|]. destruct (fl_eqb v w); cbn [length]; lia. Qed.
Lemma insert_same v l : v <> NaN -> ~ In NaN l -> StronglySorted flt l -> (exists x, In x l /\ feq x v) -> length (insert v l) = length l.
Proof.
  intros V. induction l as [|w l IH]; intros N SS (x & I & E); [destruct I|]. inversion SS as [|? ? S1 S2]; subst. cbn [insert].
  assert (XE : forall y, In y l -> flt w y) by (now rewrite Forall_forall in S2).
  destruct (fl_ltb v w) eqn:A.
  - exfalso. apply ltb_spec in A. assert (flt v x). { destruct I as [<-|I]; [exact A|exact (flt_trans v w x A (XE x I))]. } now apply (proj2 (feq_not_flt x v E)).
  - destruct (fl_eqb v w) eqn:B; [reflexivity|]. cbn [length]. f_equal. apply IH; [intros J; apply N; now right|exact S1|]. destruct I as [<-|I]; [|now exists x]. apply feq_sym, eqb_spec in E. congruence.
Qed.
Lemma uniq_length e : length (uniq e) <= length e.
Proof. induction e as [|v e IH]; cbn [uniq fold_right length]; [lia|]. fold (uniq e). pose proof (insert_length v (uniq e)). lia. Qed.
Lemma uniq_dup e i j a b : ~ In NaN e -> i < j -> nth_error e i = Some a -> nth_error e j = Some b -> feq a b -> length (uniq e) < length e.
Proof.
  revert i j. induction e as [|v e IH]; intros i j N L EI EJ F; [destruct i; discriminate|]. cbn [uniq fold_right length]. fold (uniq e).
  assert (N' : ~ In NaN e) by (intros I; apply N; now right). assert (V : v <> NaN) by (intros ->; apply N; now left). destruct (uniq_ok e N') as (A & B & C & D).
  destruct i as [|i].
  - cbn [nth_error] in EI. injection EI as ->. destruct j as [|j]; [lia|]. cbn [nth_error] in EJ. apply nth_error_In in EJ. destruct (D b EJ) as (y & J & K).
    rewrite insert_same; [pose proof (uniq_length e); lia|exact V|exact B|exact A|]. exists y. split; [exact J|]. exact (feq_trans y b a K (feq_sym a b F)).
  - destruct j as [|j]; [lia|]. cbn [nth_error] in EI, EJ. specialize (IH i j N' ltac:(lia) EI EJ F). pose proof (insert_length v (uniq e)). lia.
Qed.
Lemma sorted_decreases e : StronglySorted flt e -> decreases e = false.
Proof.
  induction e as [|a e IH]; intros SS; [reflexivity|]. inversion SS as [|? ? S1 S2]; subst. destruct e as [|b e]; [reflexivity|]. change (fl_ltb b a || decreases (b :: e) = false). rewrite (IH S1). inversion S2 as [|? ? F1 F2]; subst. rewrite orb_false_r. apply ltb_false. intros G. exact (flt_irr a (flt_trans a b a F1 G)).
Qed.
Lemma no_nan e : ~ In NaN e -> existsb is_nan e = false.
Proof. intros N. destruct (existsb is_nan e) eqn:E; [|reflexivity]. apply existsb_exists in E. destruct E as (x & I & H). apply is_nan_spec in H. subst x. contradiction. Qed.

(** *** labels *)
Lemma between_length l : length (between l) = length l - 1.
Proof. induction l as [|a l IH]; [reflexivity|]. destruct l as [|b l]; [reflexivity|]. change (S (length (between (b :: l))) = S (S (length l)) - 1). rewrite IH. cbn [length]. lia. Qed.
Lemma between_nth l i a b : nth_error l i = Some a -> nth_error l (S i) = Some b -> nth_error (between l) i = Some (a ++ arrow ++ b).
Proof.
  revert i. induction l as [|x l IH]; intros i EA EB; [destruct i; discriminate|]. destruct l as [|y l]; [destruct i as [|[|i]]; discriminate|].
  change (nth_error ((x ++ arrow ++ y) :: between (y :: l)) i = Some (a ++ arrow ++ b)). destruct i as [|i].
  - cbn [nth_error] in *. injection EA as ->. injection EB as ->. reflexivity.
  - cbn [nth_error]. apply IH; [exact EA|exact EB].
Qed.

(** *** the codes of good edges *)
Lemma codes_ok rnd text x e sorted labels precision dups : edges_ok e -> labels_fit labels e -> dups <> DOther ->
  exists cats, bins_to_cuts rnd text x e sorted true labels precision dups = Cut (map (if sorted then bsearch_sorted e else bsearch true e) x) cats e /\
    match labels with
    | LOff => cats = None
    | LGiven l => cats = Some ((if sorted then [clipped_name] else []) ++ l)
    | LAuto => cats = Some (format_labels rnd text e precision sorted)
    end.
Proof.
  intros (LE & SS & NN) LF DU. unfold bins_to_cuts. rewrite (no_nan e NN), (uniq_id e SS).
  replace (length e <? length e) with false by (symmetry; apply Nat.ltb_irrefl). cbv zeta. cbn [andb]. rewrite (sorted_decreases e SS). replace (length e <? 2) with false by (symmetry; apply Nat.ltb_ge; lia). cbn [andb orb].
  destruct dups; try congruence; destruct labels as [| |l]; try (eexists; split; reflexivity); rewrite (LF l eq_refl), Nat.eqb_refl; eexists; split; reflexivity.
Qed.
Lemma masked_ok filt x : filter_fits filt x -> length (masked filt x) = length x /\ forall r, r < length x -> nth r (masked filt x) NaN = value_at filt x r.
Proof.
  intros F. destruct filt as [f|]; cbn [masked value_at]; [|split; [reflexivity|reflexivity]]. specialize (F f eq_refl). split; [rewrite map_length, combine_length; lia|].
  intros r H. clear -F H. revert f r F H. induction x as [|a x IH]; intros [|b f] r F H; cbn [length] in *; try lia. destruct r as [|r]; [reflexivity|]. cbn [combine map nth]. apply IH; lia.
Qed.
Lemma nth_map_codes (g : fl -> nat) x r : r < length x -> nth r (map g x) 0 = g (nth r x NaN).
Proof. intros H. rewrite (nth_indep _ 0 (g NaN)) by (now rewrite map_length). apply map_nth. Qed.
