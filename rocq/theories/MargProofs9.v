From Coq Require Import List Arith Bool ZArith Permutation Lia.
From Verif Require Import FlattenModel FlattenProofs DsModel DsProofs3 DsProofs5 GroupingModel GroupingSpec AggModel AggSpec AggProofs AggProofs2 AggProofs3
  Acc2Model Acc2Spec Acc2Proofs Acc2Proofs2 Acc2Proofs3 Acc2Proofs4 Acc2Proofs5 MargModel MargSpec MargProofs MargProofs2 MargProofs3 MargProofs4 MargProofs5 MargProofs6 MargProofs7 MargProofs8.
Import ListNotations.

Section A.
Context {V : Type}.
Notation mds := (mds (V := V)).

Lemma chosen_map {X Y} (g : X -> Y) keep : forall l, map g (chosen keep l) = chosen keep (map g l).
Proof. induction keep as [|b k IH]; intros [|x l]; try reflexivity. cbn [chosen map]. destruct b; cbn [map]; now rewrite IH. Qed.
Lemma chosen_zip (op : V -> V -> V) (g h : nat -> V) keep : forall l, zip_with op (chosen keep (map g l)) (chosen keep (map h l)) = chosen keep (map (fun i => op (g i) (h i)) l).
Proof. induction keep as [|b k IH]; intros [|x l]; try reflexivity. cbn [chosen map]. destruct b; [|apply IH]. change (op (g x) (h x) :: zip_with op (chosen k (map g l)) (chosen k (map h l)) = op (g x) (h x) :: chosen k (map (fun i => op (g i) (h i)) l)). now rewrite IH. Qed.

(** one column after the other *)
Definition good (ks0 : list name) (n : nat) (d cur : mds) : Prop :=
  map fst (m_cols cur) = map fst (m_cols d) /\ m_labels cur = m_labels d /\ m_sums cur = m_sums d /\ m_foot cur = m_foot d /\
  (forall c, ~ In c ks0 -> dget c (m_cols cur) = dget c (m_cols d)) /\ (forall c v, In (c, v) (m_cols cur) -> length v = n).
Lemma assign_good ks0 n d cur k w : NoDup (map fst (m_cols d)) -> good ks0 n d cur -> In k ks0 -> In k (map fst (m_cols d)) -> length w = n ->
  exists cur', assign k w cur = Some cur' /\ good ks0 n d cur' /\ forall c, dget c (m_cols cur') = if name_dec k c then Some w else dget c (m_cols cur).
Proof.
  intros ND (G1 & G2 & G3 & G4 & G5 & G6) I K L. unfold assign.
  assert (X : isnil (m_cols cur) || (length w =? nrows cur) = true).
  { unfold nrows. destruct (m_cols cur) as [|[c v] q] eqn:Q; [reflexivity|]. cbn [isnil orb]. apply Nat.eqb_eq. rewrite (G6 c v) by (left; reflexivity). exact L. }
  rewrite X. eexists. split; [reflexivity|]. split; [|intros c; cbn [m_cols]; apply dget_dset].
  assert (NM : map fst (dset k w (m_cols cur)) = map fst (m_cols cur)) by (rewrite dset_names; replace (mem k (map fst (m_cols cur))) with true; [reflexivity|symmetry; apply mem_in; now rewrite G1]).
  split; [cbn [m_cols]; now rewrite NM|]. split; [exact G2|]. split; [exact G3|]. split; [exact G4|]. split.
  - intros c J. cbn [m_cols]. rewrite dget_dset. destruct (name_dec k c) as [D|D]; [now subst|now apply G5].
  - cbn [m_cols]. intros c v J. apply dget_in in J; [|rewrite NM, G1; exact ND]. rewrite dget_dset in J. destruct (name_dec k c) as [D|D]; [congruence|]. apply dget_some_in in J. now apply (G6 c).
Qed.
Lemma fold_cols (stepf : option mds -> name -> option mds) (h : name -> list V -> list V) ks0 n d : NoDup (map fst (m_cols d)) -> incl ks0 (map fst (m_cols d)) ->
  (forall cur k v, In k ks0 -> good ks0 n d cur -> dget k (m_cols cur) = Some v -> length (h k v) = length v /\ stepf (Some cur) k = assign k (h k v) cur) ->
  forall ks cur, NoDup ks -> incl ks ks0 -> good ks0 n d cur ->
  exists res, fold_left stepf ks (Some cur) = Some res /\ good ks0 n d res /\
    forall c v, dget c (m_cols cur) = Some v -> dget c (m_cols res) = Some (if mem c ks then h c v else v).
Proof.
  intros ND I0 ST. induction ks as [|k ks IH]; intros cur NK IK G.
  - exists cur. split; [reflexivity|]. split; [exact G|]. intros c v H. exact H.
  - inversion NK as [|? ? N1 N2]; subst. assert (K0 : In k ks0) by (apply IK; now left).
    assert (HK : exists v, dget k (m_cols cur) = Some v).
    { destruct (dget k (m_cols cur)) as [v|] eqn:E; [now exists v|]. apply dget_none in E. exfalso. apply E. rewrite (proj1 G). now apply I0. }
    destruct HK as (v & HV). destruct (ST cur k v K0 G HV) as (LH & ES). cbn [fold_left]. rewrite ES.
    destruct (assign_good ks0 n d cur k (h k v) ND G K0 (I0 k K0)) as (cur' & EA & G' & HD).
    { rewrite LH. destruct G as (_ & _ & _ & _ & _ & G6). apply (G6 k). now apply dget_some_in. }
    rewrite EA. destruct (IH cur' N2 (fun x J => IK x (or_intror J)) G') as (res & E & GR & HR). exists res. split; [exact E|]. split; [exact GR|].
    intros c u HC. cbn [mem existsb]. specialize (HD c). destruct (name_dec k c) as [D|D].
    + subst c. rewrite (HR _ _ HD). replace (mem k ks) with false by (symmetry; now apply mem_not). destruct (name_dec k k) as [_|X]; [cbn [orb]|congruence]. congruence.
    + rewrite HC in HD. rewrite (HR _ _ HD). destruct (name_dec c k) as [X|X]; [congruence|]. reflexivity.
Qed.

Lemma dget_map_val (h : V -> V) k (l : list (name * V)) : dget k (map (fun p => (fst p, h (snd p))) l) = option_map h (dget k l).
Proof. induction l as [|[c v] l IH]; [reflexivity|]. cbn [map dget fst snd]. destruct (name_dec c k); [reflexivity|exact IH]. Qed.

Lemma set_footer_ok (h : V -> V) d fd : footed d -> NoDup (map fst (m_foot d)) -> dget total_ratio (m_foot d) = Some fd ->
  exists d', set_footer_map h (Some d) = Some d' /\ m_cols d' = m_cols d /\ m_labels d' = m_labels d /\ m_sums d' = m_sums d /\
    map fst (m_foot d') = map fst (m_foot d) /\ (forall l c, foot l d' c = if name_dec total_ratio l then option_map h (foot l d c) else foot l d c) /\ footed d'.
Proof.
  intros FT NF E. unfold set_footer_map. rewrite E. unfold footer_set. rewrite E. destruct (FT total_ratio fd (dget_some_in _ _ _ E)) as (ND & IN).
  assert (X : forallb (fun p => mem (fst p) (names (m_cols d))) (map (fun p => (fst p, h (snd p))) fd) = true).
  { apply forallb_forall. intros q J. apply in_map_iff in J. destruct J as (p & <- & J). cbn [fst]. apply mem_in. apply IN. now apply in_map. }
  rewrite X. eexists. split; [reflexivity|]. cbn [m_cols m_labels m_sums m_foot].
  assert (NM : map fst (map (fun p : name * V => (fst p, h (snd p))) fd) = map fst fd) by (rewrite map_map; now apply map_ext).
  assert (ND' : NoDup (map fst (map (fun p : name * V => (fst p, h (snd p))) fd))) by now rewrite NM.
  assert (KF : mem total_ratio (map fst (m_foot d)) = true) by (apply mem_in; apply in_map_iff; exists (total_ratio, fd); split; [reflexivity|now apply dget_some_in]).
  assert (GD : forall c, dget c (dset_all (map (fun p => (fst p, h (snd p))) fd) fd) = option_map h (dget c fd)).
  { intros c. rewrite dget_dset_all by exact ND'. rewrite dget_map_val. destruct (dget c fd); reflexivity. }
  repeat split.
  - rewrite dset_names, KF. reflexivity.
  - intros l c. unfold foot. cbn [m_foot]. rewrite dget_dset. destruct (name_dec total_ratio l) as [D|D]; [subst l; rewrite E; apply GD|reflexivity].
  - cbn [m_foot] in H. apply dget_in in H; [|rewrite dset_names, KF; exact NF]. rewrite dget_dset in H. destruct (name_dec total_ratio l) as [D|D].
    + injection H as <-. assert (Y : forall q : list (name * V), NoDup (map fst q) -> forall o, NoDup (map fst o) -> NoDup (map fst (dset_all q o))).
      { clear. induction q as [|[c v] q IH]; intros NQ o NO; [exact NO|]. unfold dset_all. cbn [fold_left fst snd]. inversion NQ; subst. apply IH; [assumption|]. now apply DsProofs3.dset_nodup. }
      now apply Y.
    + apply dget_some_in in H. now apply (FT l).
  - cbn [m_foot m_cols] in *. apply dget_in in H; [|rewrite dset_names, KF; exact NF]. rewrite dget_dset in H. destruct (name_dec total_ratio l) as [D|D].
    + injection H as <-. intros c J. destruct (dget c (dset_all (map (fun p => (fst p, h (snd p))) fd) fd)) as [x|] eqn:Q; [|apply dget_none in Q; contradiction].
      rewrite GD in Q. destruct (dget c fd) as [y|] eqn:Q2; [|discriminate]. apply IN. apply dget_some_in in Q2. apply in_map_iff. now exists (c, y).
    + apply dget_some_in in H. now apply (FT l).
Qed.
End A.
