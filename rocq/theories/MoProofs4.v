(** rt.merge_asof: the columns. *)
From Coq Require Import List Arith ZArith Bool Lia String Permutation.
From Verif Require Import AsofSpec MergeSpec MergeModel MergeColsModel MergeColsProofs MergeColsProofs2 MoModel MoSpec MoProofs MoProofs2 MoProofs3.
Import ListNotations.
Local Open Scope list_scope.
Local Open Scope nat_scope.

Lemma sides_left s : forall t, suffix_of true s = Some t -> t = ""%string \/ fst (sides s) = Some t.
Proof. destruct s as [[a b]|]; cbn; intros t H; [now right|]. injection H as <-. now left. Qed.
Lemma sides_right s : forall t, suffix_of false s = Some t -> t = ""%string \/ snd (sides s) = Some t.
Proof. destruct s as [[a b]|]; cbn; intros t H; [now right|]. injection H as <-. now left. Qed.

Section Asof.
Context {V : Type}.
Variable inv : V.
Variable num : V -> Z.
Variable argsort : list Z -> list nat.
Hypothesis HA : forall l, stable_order l (argsort l).
Variable align : bool -> bool -> list (list V) -> list (list V) -> list Z -> list Z -> list (option nat).
Hypothesis HAl : align_ok align.
Variables left right : @dataset V.
Hypothesis WL : well_formed left.
Hypothesis WR : well_formed right.
Variables left_on right_on : string.
Variables left_by right_by : list string.
Variable suffixes : suffix_pair.
Variables cl cr : list string.
Hypothesis Ncl : NoDup cl.
Hypothesis Ncr : NoDup cr.
Notation lon := (map num (getcol left left_on)).
Notation ron := (map num (getcol right right_on)).
Notation lby := (tuples inv left left_by (nrows left)).
Notation rby := (tuples inv right right_by (nrows right)).
Notation MA := (merge_asof inv num argsort align left right left_on right_on left_by right_by suffixes cl cr).
Lemma asof_rows_fst n m : List.length m = n -> map fst (asof_rows n m) = map Some (seq 0 n).
Proof. intros H. unfold asof_rows. apply combine_fst. rewrite map_length, seq_length. exact H. Qed.
Lemma asof_rows_snd n m : List.length m = n -> map snd (asof_rows n m) = m.
Proof. intros H. unfold asof_rows. apply combine_snd. rewrite map_length, seq_length. exact H. Qed.

Lemma merge_asof_columns exact d sort matched_on out : MA exact d sort matched_on = Some out ->
  exists matches base, List.length matches = nrows left /\
    (forall i x r, nth_error lon i = Some x -> nth_error matches i = Some r ->
       asof_match d (same_by inv left right left_by right_by i) ron exact x r) /\
    merged inv left right (left_on :: left_by) (right_on :: right_by) cl cr (sides suffixes) HLeft (asof_rows (nrows left) matches) base /\
    with_matched inv (getcol right right_on) matched_on (asof_rows (nrows left) matches) base out.
Proof using HA HAl WL WR Ncl Ncr.
  intros H. unfold merge_asof in H. destruct (negb (List.length left_by =? _)); [discriminate|].
  destruct (negb _) eqn:Pr; [discriminate|]. apply negb_false_iff, andb_true_iff in Pr. destruct Pr as [PL PR]. rewrite forallb_forall in PL, PR.
  assert (PL' : forall c, In c ((left_on :: left_by) ++ cl) -> List.length (getcol left c) = nrows left) by (intros c Hc; apply getcol_length; [exact WL|apply smem_in, PL, Hc]).
  assert (PR' : forall c, In c ((right_on :: right_by) ++ cr) -> List.length (getcol right c) = nrows right) by (intros c Hc; apply getcol_length; [exact WR|apply smem_in, PR, Hc]).
  clear PL PR. destruct (construct_colname_mapping _ _ _ _ _) as [cm|] eqn:CM; [|discriminate]. cbv zeta in H. destruct (negb _); [discriminate|].
  fold (order_of argsort lon) in H. fold (order_of argsort ron) in H.
  assert (LL : List.length lon = nrows left) by (rewrite map_length; apply PL'; now left).
  assert (LR : List.length ron = nrows right) by (rewrite map_length; apply PR'; now left).
  assert (EL : List.length lby = List.length lon) by (rewrite tuples_length; now symmetry).
  assert (ER : List.length rby = List.length ron) by (rewrite tuples_length; now symmetry).
  set (go := fun fwd => asof_indices align fwd exact lby rby lon ron (order_of argsort lon) (order_of argsort ron)) in *.
  set (pr := match d with Backward => _ | Forward => _ | Nearest => _ end) in H.
  assert (PLn : List.length pr = nrows left).
  { transitivity (List.length lon); [|exact LL]. unfold pr. destruct d.
    - apply (idx_nth argsort HA align HAl exact lby rby lon ron EL ER false).
    - apply (idx_nth argsort HA align HAl exact lby rby lon ron EL ER true).
    - apply (nearest_length argsort HA align HAl exact lby rby lon ron EL ER). }
  assert (KB : forall i, i < nrows left -> nth_error lby i = Some (map (fun c => nth i (getcol left c) inv) left_by)).
  { intros i Hi. unfold tuples. rewrite nth_error_map. rewrite (proj2 (nth_error_seq0 (nrows left) i i)) by auto. reflexivity. }
  set (rows := asof_rows (nrows left) pr).
  exists pr, (map (fun f => (f, getcol left f)) (cm_keys cm) ++ map (fun p => (snd p, getcol left (fst p))) (cm_left cm) ++ map (fun p => (snd p, mbget inv (getcol right (fst p)) pr)) (cm_right cm)).
  split; [exact PLn|]. split; [|split].
  - intros i x r Hx Hr. assert (Hi : i < nrows left) by (rewrite <- LL; apply nth_error_Some; congruence). specialize (KB i Hi). unfold pr in Hr. destruct d; cbn [asof_match].
    + exact (idx_match argsort HA align HAl exact lby rby lon ron EL ER false i x _ r Hx KB Hr).
    + exact (idx_match argsort HA align HAl exact lby rby lon ron EL ER true i x _ r Hx KB Hr).
    + exact (nearest_match_ok argsort HA align HAl exact lby rby lon ron EL ER i x _ r Hx KB Hr).
  - assert (CL : forall c, List.length (getcol left c) = nrows left -> getcol left c = map (fun r => cell inv (getcol left c) (fst r)) rows).
    { intros c Hc. rewrite <- mbget_map. unfold rows. rewrite asof_rows_fst by exact PLn. rewrite mbget_map, <- Hc. symmetry. apply map_nth_all. }
    apply (assembled inv left right _ _ cl cr Ncl Ncr (sides suffixes) suffixes (sides_left _) (sides_right _) cm CM HLeft rows (fun f => getcol left f)
      (fun f => getcol left f) (fun f => mbget inv (getcol right f) pr)).
    + intros c [Sc _]. rewrite (CL c) at 1 by (apply PL', in_or_app; now left). apply map_ext_in. intros r Hr. unfold key_cell.
      apply in_map with (f := fst) in Hr. unfold rows in Hr. rewrite asof_rows_fst in Hr by exact PLn. apply in_map_iff in Hr. destruct Hr as (i & Q & _). rewrite <- Q. reflexivity.
    + intros c Hc. apply CL, PL', in_or_app. now right.
    + intros c Hc. rewrite <- mbget_map. unfold rows. now rewrite asof_rows_snd.
  - destruct matched_on as [m|]; cbn [with_matched].
    + match type of H with context [names ?o] => set (base := o) in * end. destruct (smem m (names base)) eqn:Sm; [discriminate|]. injection H as <-. apply smem_not in Sm. split; [exact Sm|].
      rewrite <- mbget_map. unfold rows. now rewrite asof_rows_snd.
    + now injection H as <-.
Qed.
(** when it raises *)
Lemma merge_asof_none exact d sort : MA exact d sort None = None <->
  List.length left_by <> List.length right_by \/ ~ columns_known left right (left_on :: left_by) (right_on :: right_by) cl cr \/
  construct_colname_mapping (left_on :: left_by) (right_on :: right_by) suffixes cl cr = None \/ (sort = false /\ (unsorted lon \/ unsorted ron)).
Proof using.
  unfold merge_asof. destruct (Nat.eqb_spec (List.length left_by) (List.length right_by)) as [E|E]; cbn [negb]; [|split; [now left|reflexivity]].
  destruct (forallb _ _ && _) eqn:K; cbn [negb].
  2: { split; [|reflexivity]. intros _. right. left. rewrite <- known_dec. congruence. }
  apply known_dec in K. destruct (construct_colname_mapping _ _ _ _ _) as [cm|]; [|split; [tauto|reflexivity]]. cbv zeta.
  assert (D : negb (sort || (issorted lon && issorted ron)) = true <-> sort = false /\ (unsorted lon \/ unsorted ron)).
  { rewrite negb_true_iff, orb_false_iff, andb_false_iff. unfold unsorted. rewrite <- !issorted_spec, !not_true_iff_false. reflexivity. }
  destruct (negb _).
  - split; [|reflexivity]. intros _. right. right. right. now apply D.
  - split; [discriminate|]. intros [Q|[Q|[Q|Q]]]; try contradiction; [discriminate|]. apply D in Q. discriminate.
Qed.
Lemma merge_asof_matched_none exact d sort m : MA exact d sort (Some m) = None <->
  MA exact d sort None = None \/ exists out, MA exact d sort None = Some out /\ In m (names out).
Proof using.
  unfold merge_asof. destruct (negb _); [split; auto|]. destruct (negb _); [split; auto|]. destruct (construct_colname_mapping _ _ _ _ _) as [cm|]; [|split; auto]. cbv zeta.
  destruct (negb _); [split; auto|]. match goal with |- context [smem m (names ?o)] => set (out := o) end. destruct (smem m (names out)) eqn:Sm.
  - split; [|reflexivity]. intros _. right. exists out. split; [reflexivity|]. now apply smem_in.
  - split; [discriminate|]. intros [Q|(o & Q & Hn)]; [discriminate|]. injection Q as <-. apply smem_not in Sm. contradiction.
Qed.
End Asof.
