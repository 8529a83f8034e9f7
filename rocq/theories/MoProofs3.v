(** rt.merge_asof: the matches. *)
From Coq Require Import List Arith ZArith Bool Lia String Permutation.
From Verif Require Import AsofSpec MergeSpec MergeModel MergeColsModel MergeColsProofs MergeColsProofs2 MoModel MoSpec MoProofs MoProofs2.
Import ListNotations.
Local Open Scope list_scope.
Local Open Scope nat_scope.

(** ** sorting *)
Lemma issorted_spec l : issorted l = true <-> sorted_on anyrow l.
Proof.
  induction l as [|x [|y r] IH].
  - split; [|reflexivity]. intros _ i j a b _ _ _ H. destruct i; discriminate.
  - split; [|reflexivity]. intros _ i j a b _ _ H H1 H2. destruct j as [|[|j]]; cbn in H2; try discriminate. lia.
  - change (issorted (x :: y :: r)) with ((x <=? y)%Z && issorted (y :: r)). rewrite andb_true_iff, IH. split.
    + intros [A B] i j a b _ _ H H1 H2. destruct j as [|j]; [lia|]. cbn [nth_error] in H2. destruct i as [|i].
      * injection H1 as <-. apply Z.leb_le in A. destruct j as [|j]; [injection H2 as <-; exact A|].
        assert (Q := B 0 (Datatypes.S j) y b I I ltac:(lia) eq_refl H2). lia.
      * cbn [nth_error] in H1. exact (B i j a b I I ltac:(lia) H1 H2).
    + intros H. split.
      * apply Z.leb_le. exact (H 0 1 x y I I ltac:(lia) eq_refl eq_refl).
      * intros i j a b _ _ Hij H1 H2. exact (H (Datatypes.S i) (Datatypes.S j) a b I I ltac:(lia) H1 H2).
Qed.
Lemma nth_error_seq0 n a i : nth_error (seq 0 n) a = Some i <-> a < n /\ i = a.
Proof.
  split.
  - intros H. assert (a < n). { assert (Q : nth_error (seq 0 n) a <> None) by congruence. apply nth_error_Some in Q. now rewrite seq_length in Q. }
    split; [assumption|]. apply nth_error_nth with (d := 0) in H. rewrite seq_nth in H by assumption. now subst.
  - intros [H ->]. rewrite (nth_error_nth' _ 0) by (now rewrite seq_length). now rewrite seq_nth.
Qed.
Lemma stable_seq l : sorted_on anyrow l -> stable_order l (seq 0 (List.length l)).
Proof.
  intros S. split; [apply Permutation_refl|]. intros a b i j H H1 H2. apply nth_error_seq0 in H1, H2. destruct H1 as [H1 ->], H2 as [H2 ->].
  assert (Q := S a b _ _ I I H (nth_error_nth' l 0%Z H1) (nth_error_nth' l 0%Z H2)). lia.
Qed.
Definition perm_of (n : nat) (p : option (list nat)) : list nat := match p with Some p => p | None => seq 0 n end.
Lemma permuted_perm {X} (d : X) p l : permuted d p l = map (fun i => nth i l d) (perm_of (List.length l) p).
Proof. destruct p; [reflexivity|]. symmetry. apply map_nth_all. Qed.

Section Perm.
Variables (l : list Z) (p : list nat).
Hypothesis ST : stable_order l p.
Lemma st_length : List.length p = List.length l.
Proof using ST. destruct ST as [P _]. apply Permutation_length in P. now rewrite seq_length in P. Qed.
Lemma st_nodup : NoDup p.
Proof using ST. destruct ST as [P _]. apply Permutation_sym in P. eapply Permutation_NoDup; [exact P|apply seq_NoDup]. Qed.
Lemma st_bound a i : nth_error p a = Some i -> i < List.length l.
Proof using ST. intros H. apply nth_error_In in H. destruct ST as [P _]. eapply Permutation_in in H; [|exact P]. apply in_seq in H. lia. Qed.
Lemma st_place i : i < List.length l -> exists a, nth_error p a = Some i.
Proof using ST. intros H. apply In_nth_error. destruct ST as [P _]. eapply Permutation_in; [apply Permutation_sym, P|]. apply in_seq. lia. Qed.
Lemma st_nth {X} (d : X) (m : list X) a : List.length m = List.length l -> nth_error (map (fun i => nth i m d) p) a = match nth_error p a with Some i => nth_error m i | None => None end.
Proof using ST.
  intros E. rewrite nth_error_map. destruct (nth_error p a) as [i|] eqn:Q; [|reflexivity]. cbn. symmetry. apply nth_error_nth'. rewrite E. eapply st_bound, Q.
Qed.
Lemma st_sorted : sorted_on anyrow (map (fun i => nth i l 0%Z) p).
Proof using ST.
  intros a b x y _ _ H H1 H2. rewrite nth_error_map in H1, H2. destruct (nth_error p a) as [i|] eqn:E1; [|discriminate]. destruct (nth_error p b) as [j|] eqn:E2; [|discriminate].
  injection H1 as <-. injection H2 as <-. destruct ST as [_ Q]. specialize (Q a b i j H E1 E2). lia.
Qed.
End Perm.

(** ** scatter *)
Lemma store_nth {X} (l : list X) i x j : i < List.length l -> nth_error (store_at l i x) j = if j =? i then Some x else nth_error l j.
Proof.
  unfold store_at. revert i j. induction l as [|y l IH]; intros i j H; [cbn in H; lia|]. destruct i as [|i]; [destruct j; reflexivity|].
  destruct j as [|j]; [reflexivity|]. cbn in H. cbn [firstn app skipn nth_error Nat.eqb]. apply IH. lia.
Qed.
Lemma store_length {X} (l : list X) i x : i < List.length l -> List.length (store_at l i x) = List.length l.
Proof. intros H. unfold store_at. rewrite app_length, firstn_length. cbn [List.length]. rewrite skipn_length. lia. Qed.
Lemma scatter_gen {X} (p : list nat) : NoDup p -> forall (v l : list X), List.length v = List.length p -> (forall i, In i p -> i < List.length l) ->
  List.length (scatter p v l) = List.length l /\
  (forall i, ~ In i p -> nth_error (scatter p v l) i = nth_error l i) /\
  (forall a i, nth_error p a = Some i -> nth_error (scatter p v l) i = nth_error v a).
Proof.
  unfold scatter. induction p as [|i p IH]; intros N v l E B.
  - destruct v; [|discriminate]. cbn. split; [reflexivity|]. split; [reflexivity|]. intros [|a] i H; discriminate.
  - destruct v as [|x v]; [discriminate|]. inversion N as [|? ? N1 N2]; subst. cbn [combine fold_left fst snd].
    assert (Bi : i < List.length l) by (apply B; now left).
    destruct (IH N2 v (store_at l i x)) as (A1 & A2 & A3).
    { now injection E. } { intros k Hk. rewrite store_length by exact Bi. apply B. now right. }
    rewrite store_length in A1 by exact Bi. split; [exact A1|]. split.
    + intros k Hk. rewrite A2 by (intros Q; apply Hk; now right). rewrite store_nth by exact Bi. destruct (Nat.eqb_spec k i); [|reflexivity]. elim Hk. now left.
    + intros [|a] k H; cbn [nth_error] in *.
      * injection H as <-. rewrite A2 by exact N1. rewrite store_nth by exact Bi. now rewrite Nat.eqb_refl.
      * now apply A3.
Qed.

(** ** one direction *)
Section Direction.
Context {V : Type}.
Variable argsort : list Z -> list nat.
Hypothesis HA : forall l, stable_order l (argsort l).
Variable align : bool -> bool -> list (list V) -> list (list V) -> list Z -> list Z -> list (option nat).
Hypothesis HAl : align_ok align.
Variables (exact : bool) (lby rby : list (list V)) (lon ron : list Z).
Hypothesis EL : List.length lby = List.length lon.
Hypothesis ER : List.length rby = List.length ron.
Definition order_of (l : list Z) : option (list nat) := if issorted l then None else Some (argsort l).
Lemma order_stable l : stable_order l (perm_of (List.length l) (order_of l)).
Proof using HA. unfold order_of. destruct (issorted l) eqn:E; [|apply HA]. apply stable_seq. now apply issorted_spec. Qed.
Notation lp := (perm_of (List.length lon) (order_of lon)).
Notation rp := (perm_of (List.length ron) (order_of ron)).
Notation res fwd := (align fwd exact (permuted [] (order_of lon) lby) (permuted [] (order_of ron) rby) (permuted 0%Z (order_of lon) lon) (permuted 0%Z (order_of ron) ron)).
Notation idx fwd := (asof_indices align fwd exact lby rby lon ron (order_of lon) (order_of ron)).
Lemma res_length fwd : List.length (res fwd) = List.length lon.
Proof using HA HAl EL ER.
  rewrite !permuted_perm, EL, ER. destruct (HAl fwd exact (map (fun i => nth i lby []) lp) (map (fun i => nth i rby []) rp) (map (fun i => nth i lon 0%Z) lp) (map (fun i => nth i ron 0%Z) rp)) as [H _].
  - apply st_sorted, order_stable. - apply st_sorted, order_stable. - now rewrite !map_length. - now rewrite !map_length.
  - rewrite H, map_length. apply st_length, order_stable.
Qed.
Lemma idx_nth fwd : List.length (idx fwd) = List.length lon /\
  forall a i, nth_error lp a = Some i -> nth_error (idx fwd) i = match nth_error (res fwd) a with
    | Some (Some j) => Some (nth_error rp j) | Some None => Some None | None => None end.
Proof using HA HAl EL ER.
  assert (RL := res_length fwd). assert (SL := order_stable lon). assert (SR := order_stable ron).
  assert (RB : forall a j, nth_error (res fwd) a = Some (Some j) -> exists k, nth_error rp j = Some k).
  { intros a j H.
    assert (LE : List.length (permuted [] (order_of lon) lby) = List.length (permuted 0%Z (order_of lon) lon)) by (rewrite !permuted_perm, EL, !map_length; reflexivity).
    assert (RE : List.length (permuted [] (order_of ron) rby) = List.length (permuted 0%Z (order_of ron) ron)) by (rewrite !permuted_perm, ER, !map_length; reflexivity).
    destruct (HAl fwd exact (permuted [] (order_of lon) lby) (permuted [] (order_of ron) rby) (permuted 0%Z (order_of lon) lon) (permuted 0%Z (order_of ron) ron)) as [L1 Q]; try assumption.
    { rewrite permuted_perm. now apply st_sorted. } { rewrite permuted_perm. now apply st_sorted. }
    assert (Ha : a < List.length (res fwd)) by (apply nth_error_Some; congruence). rewrite L1 in Ha.
    destruct (nth_error (permuted 0%Z (order_of lon) lon) a) as [x|] eqn:E1; [|apply nth_error_None in E1; lia].
    destruct (nth_error (permuted [] (order_of lon) lby) a) as [k|] eqn:E2; [|apply nth_error_None in E2; lia].
    specialize (Q a x k (Some j) E1 E2 H).
    assert (G : exists y, nth_error (permuted 0%Z (order_of ron) ron) j = Some y).
    { destruct fwd; cbn in Q; destruct Q as (y & (_ & Q & _) & _); now exists y. }
    destruct G as [y G]. rewrite permuted_perm, nth_error_map in G. destruct (nth_error rp j) as [i|]; [now exists i|discriminate]. }
  set (r1 := match order_of lon with None => res fwd | Some p => scatter p (res fwd) (res fwd) end).
  assert (H1 : List.length r1 = List.length lon /\ forall a i, nth_error lp a = Some i -> nth_error r1 i = nth_error (res fwd) a).
  { unfold r1. clear r1 RB. generalize dependent (res fwd). destruct (order_of lon) as [p|]; cbn [perm_of] in *; intros v RL.
    - destruct (scatter_gen p (st_nodup _ _ SL) v v) as (A1 & _ & A3).
      { rewrite RL. symmetry. exact (st_length _ _ SL). }
      { intros i Hi. rewrite RL. apply In_nth_error in Hi. destruct Hi as [a Ha]. exact (st_bound _ _ SL a i Ha). }
      rewrite A1. split; [exact RL|exact A3].
    - split; [exact RL|]. intros a i H. apply nth_error_seq0 in H. destruct H as [_ ->]. reflexivity. }
  destruct H1 as [L1 H1]. unfold asof_indices. cbv zeta. fold r1. split.
  - destruct (order_of ron); [now rewrite map_length|exact L1].
  - intros a i H. specialize (H1 a i H). destruct (order_of ron) as [p|] eqn:Eo; cbn [perm_of].
    + rewrite nth_error_map, H1. destruct (nth_error _ a) as [[j|]|]; reflexivity.
    + rewrite H1. destruct (nth_error _ a) as [[j|]|] eqn:E; try reflexivity. destruct (RB a j E) as [k Hk]. cbn [perm_of] in Hk. rewrite Hk.
      apply nth_error_seq0 in Hk. destruct Hk as [_ ->]. reflexivity.
Qed.
Lemma idx_match fwd i x k r : nth_error lon i = Some x -> nth_error lby i = Some k -> nth_error (idx fwd) i = Some r ->
  (if fwd then asof_forward else asof_backward) (fun j => nth_error rby j = Some k) ron exact x r.
Proof using HA HAl EL ER.
  intros Hx Hk Hr. assert (SL := order_stable lon). assert (SR := order_stable ron). destruct (idx_nth fwd) as [_ IN].
  assert (Hi : i < List.length lon) by (apply nth_error_Some; congruence). destruct (st_place _ _ SL i Hi) as [a Ha]. rewrite (IN a i Ha) in Hr. clear IN.
  destruct (nth_error (res fwd) a) as [ra|] eqn:Ea; [|discriminate].
  rewrite !permuted_perm, EL, ER in Ea.
  destruct (HAl fwd exact (map (fun i => nth i lby []) lp) (map (fun i => nth i rby []) rp) (map (fun i => nth i lon 0%Z) lp) (map (fun i => nth i ron 0%Z) rp)) as [_ M].
  { apply st_sorted, SL. } { apply st_sorted, SR. } { now rewrite !map_length. } { now rewrite !map_length. }
  specialize (M a x k ra). rewrite (st_nth _ _ SL 0%Z lon a eq_refl), (st_nth _ _ SL [] lby a EL), Ha in M. specialize (M Hx Hk Ea).
  assert (CB : forall b, nth_error (map (fun i => nth i rby []) rp) b = match nth_error rp b with Some i => nth_error rby i | None => None end) by (intros b; now apply st_nth with ron).
  assert (CO : forall b, nth_error (map (fun i => nth i ron 0%Z) rp) b = match nth_error rp b with Some i => nth_error ron i | None => None end) by (intros b; now apply st_nth with ron).
  assert (PL : forall q z, nth_error ron q = Some z -> exists b, nth_error rp b = Some q /\ nth_error (map (fun i => nth i ron 0%Z) rp) b = Some z).
  { intros q z Hq. assert (q < List.length ron) by (apply nth_error_Some; congruence). destruct (st_place _ _ SR q ltac:(assumption)) as [b Hb]. exists b. split; [exact Hb|]. now rewrite CO, Hb. }
  assert (OV : forall b q z, nth_error rp b = Some q -> nth_error ron q = Some z -> nth q ron 0%Z = z) by (intros b q z _ H; now apply nth_error_nth).
  destruct SR as [_ ORD].
  destruct fwd; cbn [forward_match backward_match] in M.
  - destruct ra as [j'|].
    + destruct M as (y & (C1 & C2 & C3 & C4) & _). rewrite CB in C1. rewrite CO in C2. destruct (nth_error rp j') as [j|] eqn:Ej; [|discriminate]. injection Hr as <-.
      exists y. split; [exact C1|]. split; [exact C2|]. split; [exact C3|]. intros q z Q1 Q2 Q3. destruct (PL q z Q2) as (b & Hb & Hz).
      destruct (lt_eq_lt_dec b j') as [[T|T]|T].
      * exfalso. apply (C4 b z); try assumption. now rewrite CB, Hb.
      * subst b. left. congruence.
      * right. specialize (ORD j' b j q T Ej Hb). rewrite (OV j' j y Ej C2), (OV b q z Hb Q2) in ORD. exact ORD.
    + injection Hr as <-. destruct M as [M|(j & y & _ & M)]; [|elim M; exact I]. intros q z Q1 Q2. destruct (PL q z Q2) as (b & Hb & Hz). apply (M b z); [|exact Hz]. now rewrite CB, Hb.
  - destruct ra as [j'|].
    + destruct M as (y & (C1 & C2 & C3 & C4) & _). rewrite CB in C1. rewrite CO in C2. destruct (nth_error rp j') as [j|] eqn:Ej; [|discriminate]. injection Hr as <-.
      exists y. split; [exact C1|]. split; [exact C2|]. split; [exact C3|]. intros q z Q1 Q2 Q3. destruct (PL q z Q2) as (b & Hb & Hz).
      destruct (lt_eq_lt_dec b j') as [[T|T]|T].
      * right. specialize (ORD b j' q j T Hb Ej). rewrite (OV j' j y Ej C2), (OV b q z Hb Q2) in ORD. exact ORD.
      * subst b. left. congruence.
      * exfalso. apply (C4 b z); try assumption. now rewrite CB, Hb.
    + injection Hr as <-. destruct M as [M|(j & y & _ & M)]; [|elim M; exact I]. intros q z Q1 Q2. destruct (PL q z Q2) as (b & Hb & Hz). apply (M b z); [|exact Hz]. now rewrite CB, Hb.
Qed.
Lemma combine3_nth {X Y} (a : list X) (b c : list Y) i : nth_error (combine a (combine b c)) i =
  match nth_error a i, nth_error b i, nth_error c i with Some x, Some y, Some z => Some (x, (y, z)) | _, _, _ => None end.
Proof.
  revert b c i. induction a as [|x a IH]; intros [|y b] [|z c] [|i]; cbn [combine nth_error]; try reflexivity; try (destruct (nth_error a i); try reflexivity; destruct (nth_error b i); reflexivity).
  apply IH.
Qed.
Lemma nearest_match_ok i x k r : nth_error lon i = Some x -> nth_error lby i = Some k ->
  nth_error (asof_nearest lon ron (idx false) (idx true)) i = Some r -> asof_closest (fun j => nth_error rby j = Some k) ron exact x r.
Proof using HA HAl EL ER.
  intros Hx Hk Hr. unfold asof_nearest in Hr. rewrite nth_error_map, combine3_nth, Hx in Hr.
  destruct (nth_error (idx false) i) as [b|] eqn:Eb; [|discriminate]. destruct (nth_error (idx true) i) as [f|] eqn:Ef; [|discriminate]. cbn [option_map] in Hr. injection Hr as Hr.
  assert (B := idx_match false i x k b Hx Hk Eb). assert (F := idx_match true i x k f Hx Hk Ef). cbn iota in B, F. clear Eb Ef.
  assert (PF : forall y z, precedes exact y x -> precedes exact z x -> (z <= y)%Z -> (Z.abs (x - y) <= Z.abs (x - z))%Z) by (unfold precedes; destruct exact; lia).
  assert (FF : forall y z, follows exact y x -> follows exact z x -> (y <= z)%Z -> (Z.abs (x - y) <= Z.abs (x - z))%Z) by (unfold follows; destruct exact; lia).
  destruct b as [j|].
  - destruct B as (y & C1 & C2 & C3 & C4). rewrite C2 in Hr. destruct f as [j'|].
    + destruct F as (y' & D1 & D2 & D3 & D4). rewrite D2 in Hr. destruct (Z.ltb_spec (Z.abs (x - y')) (Z.abs (x - y))) as [T|T]; subst r.
      * split; [right; exists y'; auto|]. intros y0 q z Q0 Q1 Q2 Q3. rewrite D2 in Q0. injection Q0 as <-.
        assert (P1 : precedes exact z x -> (Z.abs (x - y) <= Z.abs (x - z))%Z).
        { intros P. apply PF; try assumption. destruct (C4 q z Q1 Q2 P) as [->|G]; [rewrite C2 in Q2; injection Q2 as <-; lia|lia]. }
        split; [destruct Q3 as [Q3|Q3]|].
        -- specialize (P1 Q3). lia.
        -- apply FF; try assumption. destruct (D4 q z Q1 Q2 Q3) as [->|G]; [rewrite D2 in Q2; injection Q2 as <-; lia|lia].
        -- intros Q4 Q5. specialize (P1 Q5). exfalso. lia.
      * split; [left; exists y; auto|]. intros y0 q z Q0 Q1 Q2 Q3. rewrite C2 in Q0. injection Q0 as <-. split; [|intros _ _; exists y; auto]. destruct Q3 as [Q3|Q3].
        -- apply PF; try assumption. destruct (C4 q z Q1 Q2 Q3) as [->|G]; [rewrite C2 in Q2; injection Q2 as <-; lia|lia].
        -- assert (Z.abs (x - y') <= Z.abs (x - z))%Z; [|lia]. apply FF; try assumption. destruct (D4 q z Q1 Q2 Q3) as [->|G]; [rewrite D2 in Q2; injection Q2 as <-; lia|lia].
    + subst r. split; [left; exists y; auto|]. intros y0 q z Q0 Q1 Q2 Q3. rewrite C2 in Q0. injection Q0 as <-. split; [|intros _ _; exists y; auto]. destruct Q3 as [Q3|Q3].
      * apply PF; try assumption. destruct (C4 q z Q1 Q2 Q3) as [->|G]; [rewrite C2 in Q2; injection Q2 as <-; lia|lia].
      * exfalso. exact (F q z Q1 Q2 Q3).
  - destruct f as [j'|].
    + destruct F as (y' & D1 & D2 & D3 & D4). rewrite D2 in Hr. subst r. split; [right; exists y'; auto|]. intros y0 q z Q0 Q1 Q2 Q3. rewrite D2 in Q0. injection Q0 as <-.
      split; [destruct Q3 as [Q3|Q3]|].
      * exfalso. exact (B q z Q1 Q2 Q3).
      * apply FF; try assumption. destruct (D4 q z Q1 Q2 Q3) as [->|G]; [rewrite D2 in Q2; injection Q2 as <-; lia|lia].
      * intros _ Q5. exfalso. exact (B q z Q1 Q2 Q5).
    + subst r. split; [now left|]. intros q z Q1 Q2. split; [now apply (B q z)|now apply (F q z)].
Qed.
Lemma nearest_length : List.length (asof_nearest lon ron (idx false) (idx true)) = List.length lon.
Proof using HA HAl EL ER. unfold asof_nearest. rewrite map_length, !combine_length, !(proj1 (idx_nth _)). lia. Qed.
End Direction.
