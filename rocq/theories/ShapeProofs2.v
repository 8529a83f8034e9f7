(** An executable way to make a Categorical of key columns, and pivot followed by melt. *)
From Coq Require Import List Arith Bool ZArith Lia.
From Verif Require Import FlattenModel FlattenProofs GroupModel GroupFacts GroupingModel DsModel DsSpec DsProofs3 DsProofs4 AggModel AggSpec AggProofs AggProofs2 AggProofs5 Acc2Proofs ShapeModel ShapeSpec ShapeProofs DsProps.
Import ListNotations.

Section Cat.
Context {V : Type}.
Variable inv : V.
Variable dec : forall a b : V, {a = b} + {a <> b}.
Variable missing : list V -> bool.
Definition leqb (a b : list V) : bool := if list_eq_dec dec a b then true else false.
Lemma leqb_spec a b : leqb a b = true <-> a = b.
Proof. unfold leqb. destruct (list_eq_dec dec a b); split; congruence. Qed.
(** keys in order of first appearance *)
Definition row_keys (d : list (name * list V)) : list (option (list V)) :=
  let n := match d with (_, c) :: _ => length c | [] => 0 end in
  map (fun r => present missing (row inv d r)) (seq 0 n).
Definition cat_first (d : list (name * list V)) : grp (V := V) :=
  let us := uniques leqb (row_keys d) in
  mkG (ikeys leqb (row_keys d)) (length us) (map (fun p => (snd p, map (fun u => nth (fst p) u inv) us)) (combine (seq 0 (length d)) (map fst d))).
Lemma row_length (d : list (name * list V)) k : length (row inv d k) = length d.
Proof. apply map_length. Qed.
Lemma present_some k u : present missing k = Some u -> k = u /\ missing k = false.
Proof. unfold present. destruct (missing k); [discriminate|]. intros E. now injection E as ->. Qed.
Lemma uniques_from keys u : In u (uniques leqb keys) -> In (Some u) keys.
Proof.
  unfold uniques. assert (G : forall ks us, In u (fold_left (add_unique leqb) ks us) -> In u us \/ In (Some u) ks).
  { induction ks as [|k ks IH]; intros us I; cbn [fold_left] in I; [now left|]. destruct (IH _ I) as [J|J]; [|right; now right].
    destruct k as [b|]; cbn [add_unique] in J; [|now left]. destruct (index_of leqb b us); [now left|]. apply in_app_or in J. destruct J as [J|[->|[]]]; [now left|right; now left]. }
  intros I. destruct (G keys [] I) as [[]|H]; exact H.
Qed.
Lemma map_snd_combine {X Y} (a : list X) (b : list Y) : length a = length b -> map snd (combine a b) = b.
Proof. revert b. induction a as [|x a IH]; intros [|y b] H; cbn in *; try lia; [reflexivity|]. f_equal. apply IH. lia. Qed.
Lemma cat_first_ok : cat_ok inv missing cat_first.
Proof.
  intros d N NE [ND LEN]. set (us := uniques leqb (row_keys d)).
  assert (HN : match d with (_, c) :: _ => length c | [] => 0 end = N) by (destruct d as [|[n c] d]; [congruence|]; apply (LEN n); now left).
  pose proof (ikeys_grouping leqb leqb_spec (row_keys d)) as [G1 G2 G3 G4]. fold us in G1, G4.
  assert (UL : forall u, In u us -> length u = length d).
  { intros u I. apply uniques_from in I. unfold row_keys in I. apply in_map_iff in I. destruct I as (r & E & _). apply present_some in E. destruct E as [<- _]. apply row_length. }
  assert (RW : forall k, k < length us -> row inv (g_dict (cat_first d)) k = nth k us []).
  { intros k Hk. unfold cat_first, row. cbn [g_dict]. fold us. rewrite map_map. cbn [snd].
    transitivity (map (fun p => nth (fst p) (nth k us []) inv) (combine (seq 0 (length d)) (map fst d))).
    - apply map_ext. intros [j n]. cbn [fst]. rewrite (nth_map _ _ _ _ []) by exact Hk. reflexivity.
    - rewrite <- (map_map fst (fun j => nth j (nth k us []) inv)).
      assert (E : map fst (combine (seq 0 (length d)) (map fst d)) = seq 0 (length (nth k us []))).
      { rewrite (UL _ (nth_In us [] Hk)). clear. assert (G : forall (a : list nat) (b : list name), length a = length b -> map fst (combine a b) = a) by (induction a as [|y0 a IHa]; intros [|y b] H; cbn in *; try lia; [reflexivity|f_equal; apply IHa; lia]). apply G. now rewrite seq_length, map_length. }
      rewrite E. clear. generalize (nth k us []) as l. intros l. apply (nth_ext _ _ inv inv); rewrite map_length, seq_length; [reflexivity|]. intros n H. rewrite (nth_map _ _ _ _ 0) by (now rewrite seq_length). now rewrite seq_nth. }
  assert (NM : map fst (g_dict (cat_first d)) = map fst d).
  { unfold cat_first. cbn [g_dict]. rewrite map_map. cbn [fst]. rewrite map_snd_combine by (now rewrite seq_length, map_length). reflexivity. }
  assert (LR : length (row_keys d) = N) by (unfold row_keys; now rewrite map_length, seq_length).
  split; [exact NM|]. split; [|split].
  - split; [|split; [|split]].
    + intros E. rewrite E in NM. destruct d; [congruence|discriminate].
    + rewrite NM. exact ND.
    + intros p I. unfold cat_first in I. cbn [g_dict] in I. apply in_map_iff in I. destruct I as (q & <- & _). cbn [snd]. rewrite map_length. reflexivity.
    + intros i j Hi Hj. unfold cat_first in Hi, Hj. cbn [g_n] in Hi, Hj. fold us in Hi, Hj. rewrite !RW by assumption. rewrite NoDup_nth in G1. now apply G1.
  - unfold cat_first. cbn [g_code]. rewrite G2. exact LR.
  - intros r Hr. assert (E : nth_error (row_keys d) r = Some (present missing (row inv d r))).
    { unfold row_keys. rewrite HN, nth_error_map. rewrite (nth_error_nth' _ 0) by (now rewrite seq_length). now rewrite seq_nth. }
    unfold present in E. destruct (missing (row inv d r)) eqn:M.
    + unfold cat_first. cbn [g_code]. apply nth_error_nth, G3, E.
    + destruct (G4 r _ E) as (k & K1 & K2). assert (Hk : k < length us) by (apply nth_error_Some; congruence).
      exists k. split; [exact Hk|]. split; [apply nth_error_nth, K1|]. rewrite RW by exact Hk. now apply nth_error_nth.
Qed.
End Cat.

Section Melt.
Context {V : Type}.
Variable inv : V.
Variable str : V -> name.
Variable of_name : name -> V.
Variable blank : V -> bool.
Variable dec : forall a b : V, {a = b} + {a <> b}.
Variable missing : list V -> bool.
Lemma app_disjoint {X} (a b : list X) : NoDup (a ++ b) -> forall x, In x a -> ~ In x b.
Proof. induction a as [|y a IH]; intros ND x I J; [destruct I|]. cbn in ND. apply NoDup_cons_iff in ND. destruct ND as [NI ND]. destruct I as [->|I]; [apply NI, in_or_app; now right|exact (IH ND x I J)]. Qed.
Lemma app_nodup_l {X} (a b : list X) : NoDup (a ++ b) -> NoDup a.
Proof. induction a as [|y a IH]; intros ND; [constructor|]. cbn in ND. apply NoDup_cons_iff in ND. destruct ND as [NI ND]. constructor; [intros I; apply NI, in_or_app; now left|now apply IH]. Qed.
Lemma key_at_cells (t t' : list (name * list V)) ns q i : (forall n, In n ns -> cell_of t n q = cell_of t' n i) -> (forall n, In n ns -> cell_of t' n i <> None) -> key_at inv t ns q = key_at inv t' ns i.
Proof.
  intros H HN. unfold key_at. apply map_ext_in. intros n I. specialize (H n I). specialize (HN n I). unfold cell_of in H, HN.
  destruct (dget n t') as [c'|]; [|congruence]. destruct (nth_error c' i) as [x'|] eqn:E'; [|congruence].
  destruct (dget n t) as [c|]; [|discriminate]. rewrite (nth_error_nth _ _ inv H), (nth_error_nth _ _ inv E'). reflexivity.
Qed.
Lemma pivot_melt_ok (d t : list (name * list V)) N labels columns flt lk ck v var_name value_name :
  pivot_table inv str missing d N labels columns flt lk ck v t -> NoDup (labels ++ map (text str) ck) ->
  ck <> [] -> ~ In var_name labels -> ~ In value_name labels -> var_name <> value_name ->
  exists tm, melt of_name blank t (length lk) labels None var_name value_name false = Some tm /\
    map fst tm = labels ++ [var_name; value_name] /\
    (forall n c, In (n, c) tm -> length c = length ck * length lk) /\
    (forall i j kr kc, nth_error lk i = Some kr -> nth_error ck j = Some kc ->
      key_at inv tm labels (j * length lk + i) = kr /\
      cell_of tm var_name (j * length lk + i) = Some (of_name (text str kc)) /\
      cell_of tm value_name (j * length lk + i) = cell_of t (text str kc) i) /\
    exists tm', melt of_name blank t (length lk) labels None var_name value_name true = Some tm' /\
      taken tm' tm (filter (fun r => match cell_of tm value_name r with Some v => negb (blank v) | None => false end) (seq 0 (length ck * length lk))) (map fst tm).
Proof.
  intros (T1 & T2 & T3 & T4 & T5) ND NC NV1 NV2 NV3.
  assert (VV : filter (fun n => negb (mem n labels)) (map fst t) = map (text str) ck).
  { rewrite T1, filter_app. rewrite (filter_nil _ labels), filter_all.
    - reflexivity.
    - intros n I. apply negb_true_iff, mem_not. intros J. exact (app_disjoint _ _ ND n J I).
    - intros n I. apply negb_false_iff, mem_in, I. }
  destruct (C56_melt of_name blank t (length lk) labels None var_name value_name) as (tm & M1 & M2 & M3 & M4 & M5); auto.
  - now rewrite T1.
  - now apply app_nodup_l in ND.
  - intros c I. rewrite T1. apply in_or_app. now left.
  - discriminate.
  - rewrite VV. destruct ck; [congruence|discriminate].
  - rewrite VV in M3, M4, M5. rewrite map_length in M3, M5. exists tm. split; [exact M1|]. split; [exact M2|]. split; [exact M3|]. split; [|exact M5].
    intros i j kr kc Hi Hj. assert (Li : i < length lk) by (apply nth_error_Some; congruence).
    destruct (M4 j i (text str kc)) as (Q1 & Q2 & Q3); [now rewrite nth_error_map, Hj|exact Li|].
    split; [|split; assumption]. rewrite <- (T3 i kr Hi). apply key_at_cells; [exact Q1|].
    intros n I. unfold cell_of. destruct (dget_has n t) as [c E]; [rewrite T1; apply in_or_app; now left|]. rewrite E. apply nth_error_Some. rewrite (T2 n c); [exact Li|]. now apply dget_some_in.
Qed.
(** the rows that a melt with trim keeps are the rows of [d] with a value *)
Lemma pivot_melt_trim (d t : list (name * list V)) N labels columns flt lk ck v var_name value_name :
  rect d N -> In v (map fst d) ->
  pivot_table inv str missing d N labels columns flt lk ck v t -> NoDup (labels ++ map (text str) ck) ->
  NoDup lk -> ck <> [] -> ~ In var_name labels -> ~ In value_name labels -> var_name <> value_name -> blank inv = true ->
  exists tm, melt of_name blank t (length lk) labels None var_name value_name true = Some tm /\
    map fst tm = labels ++ [var_name; value_name] /\
    (forall r kr kc x, r < N -> target inv missing d labels columns flt r = (Some kr, Some kc) -> cell_of d v r = Some x -> blank x = false ->
       exists q, key_at inv tm labels q = kr /\ cell_of tm var_name q = Some (of_name (text str kc)) /\ cell_of tm value_name q = Some x) /\
    (forall q x, cell_of tm value_name q = Some x ->
       exists r kr kc, r < N /\ target inv missing d labels columns flt r = (Some kr, Some kc) /\ cell_of d v r = Some x /\ blank x = false /\
         key_at inv tm labels q = kr /\ cell_of tm var_name q = Some (of_name (text str kc))).
Proof.
  intros [RD RL] IV PT ND NL NC NV1 NV2 NV3 BI. pose proof PT as (T1 & T2 & T3 & T4 & T5).
  destruct (pivot_melt_ok d t N labels columns flt lk ck v var_name value_name PT ND NC NV1 NV2 NV3) as (tm & M1 & M2 & M3 & M4 & tm' & M5 & [K1 K2]).
  exists tm'. split; [exact M5|]. split; [now rewrite K1, M2|].
  set (rs := filter _ _) in K2. rewrite M2 in K2.
  assert (LD : forall n i, In n labels -> i < length lk -> cell_of t n i <> None).
  { intros n i I Hi. unfold cell_of. destruct (dget_has n t) as [c E]; [rewrite T1; apply in_or_app; now left|]. rewrite E. apply nth_error_Some. rewrite (T2 n c); [exact Hi|]. now apply dget_some_in. }
  assert (RQ : forall q i j kr kc, nth_error rs q = Some (j * length lk + i) -> nth_error lk i = Some kr -> nth_error ck j = Some kc ->
     key_at inv tm' labels q = kr /\ cell_of tm' var_name q = Some (of_name (text str kc)) /\ cell_of tm' value_name q = cell_of t (text str kc) i).
  { intros q i j kr kc Eq Ei Ej. destruct (M4 i j kr kc Ei Ej) as (Q1 & Q2 & Q3). split; [|split].
    - rewrite <- Q1. apply key_at_cells.
      + intros n I. rewrite K2 by (apply in_or_app; now left). now rewrite Eq.
      + intros n I. unfold cell_of. destruct (dget_has n tm) as [c E]; [rewrite M2; apply in_or_app; now left|]. rewrite E. apply nth_error_Some.
        rewrite (M3 n c) by now apply dget_some_in. assert (i < length lk) by (apply nth_error_Some; congruence). assert (j < length ck) by (apply nth_error_Some; congruence). nia.
    - rewrite K2 by (apply in_or_app; right; now left). rewrite Eq. exact Q2.
    - rewrite K2 by (apply in_or_app; right; right; now left). rewrite Eq. exact Q3. }
  split.
  - intros r kr kc x Hr T Ex Bx. destruct (T4 r kr kc Hr T) as [Ik Ic]. apply In_nth_error in Ik, Ic. destruct Ik as [i Ei], Ic as [j Ej].
    assert (CV : cell_of t (text str kc) i = Some x) by (rewrite <- Ex; apply (proj1 (T5 i kr kc Ei (nth_error_In _ _ Ej)) r Hr T)).
    destruct (M4 i j kr kc Ei Ej) as (Q1 & Q2 & Q3).
    assert (II : In (j * length lk + i) rs).
    { unfold rs. apply filter_In. split; [|rewrite Q3, CV, Bx; reflexivity]. apply in_seq. assert (i < length lk) by (apply nth_error_Some; congruence). assert (j < length ck) by (apply nth_error_Some; congruence). nia. }
    apply In_nth_error in II. destruct II as [q Eq]. destruct (RQ q i j kr kc Eq Ei Ej) as (A & B & C). exists q. rewrite <- CV. auto.
  - intros q x Ex. pose proof Ex as Ex'. rewrite K2 in Ex' by (apply in_or_app; right; right; now left).
    destruct (nth_error rs q) as [m|] eqn:Eq; [|discriminate]. pose proof (nth_error_In _ _ Eq) as Im. unfold rs in Im. apply filter_In in Im. destruct Im as [Im Bm]. rewrite Ex' in Bm. apply negb_true_iff in Bm. apply in_seq in Im.
    assert (L0 : length lk <> 0) by lia. pose proof (Nat.div_mod m (length lk) L0) as DM. set (j := m / length lk) in *. set (i := m mod length lk) in *.
    assert (Hi : i < length lk) by (apply Nat.mod_upper_bound; exact L0). assert (Hj : j < length ck) by nia.
    destruct (nth_error lk i) as [kr|] eqn:Ei; [|apply nth_error_None in Ei; lia]. destruct (nth_error ck j) as [kc|] eqn:Ej; [|apply nth_error_None in Ej; lia].
    assert (Em : nth_error rs q = Some (j * length lk + i)) by (rewrite Eq; f_equal; lia).
    destruct (RQ q i j kr kc Em Ei Ej) as (A & B & C). rewrite Ex in C. destruct (T5 i kr kc Ei (nth_error_In _ _ Ej)) as [U1 U2].
    assert (DEC : (exists r, r < N /\ target inv missing d labels columns flt r = (Some kr, Some kc)) \/ forall r, r < N -> target inv missing d labels columns flt r <> (Some kr, Some kc)).
    { assert (TD : forall a b : option (list V) * option (list V), {a = b} + {a <> b}) by (repeat decide equality).
      destruct (Exists_dec (fun r => target inv missing d labels columns flt r = (Some kr, Some kc)) (seq 0 N) (fun r => TD _ _)) as [H|H].
      - left. apply Exists_exists in H. destruct H as (r & I & T). apply in_seq in I. exists r. split; [lia|exact T].
      - right. intros r Hr T. apply H, Exists_exists. exists r. split; [apply in_seq; lia|exact T]. }
    destruct DEC as [(r & Hr & T)|H].
    + exists r, kr, kc. rewrite (U1 r Hr T) in C. symmetry in C. repeat (split; [assumption|]). exact B.
    + rewrite (U2 H) in C. injection C as ->. congruence.
Qed.
End Melt.
