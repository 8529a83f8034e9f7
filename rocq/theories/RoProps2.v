(* C220-C222: totals of rows and columns, masks of rows, outliers. *)
From Coq Require Import List ZArith Bool Lia.
From Verif Require Import FlattenModel FlattenProofs DsProofs3 RoSpec RoModel RoProofs RoProofs2.
Import ListNotations.

(* C220.  imatrix_totals, the first time it is called on a Dataset, adds a
   column with the sum of each row over the columns chosen, leaves the other
   columns, and sets a footer with the sum of each of those columns and the grand
   total, which is the sum of the new column and of the columns' sums. *)
Theorem C220_totals_partial :
  forall (d : mds) (colnames : option (list name)) (cs : list name) (cols : list (list Z)) (nm : name) (rows : nat),
  m_mat d = None ->
  cs = match colnames with Some l => l | None => filter (fun n => negb (mem n (m_labels d))) (map fst (m_cols d)) end ->
  cs <> [] -> NoDup cs -> ~ In nm cs ->
  Forall2 (fun n c => dget n (m_cols d) = Some c) cs cols ->
  (forall n c, In (n, c) (m_cols d) -> length c = rows) ->
  exists d' y foot, imatrix_totals colnames nm d = Some d' /\
    y = map (fun i => zsum (row_of cols i)) (seq 0 rows) /\
    dget nm (m_cols d') = Some y /\ In nm (m_sum d') /\
    (forall n, n <> nm -> dget n (m_cols d') = dget n (m_cols d)) /\
    dget nm (m_foot d') = Some foot /\
    (forall n c, In (n, c) (combine cs cols) -> dget n foot = Some (zsum c)) /\
    dget nm foot = Some (zsum y) /\ zsum y = zsum (map zsum cols) /\
    (forall label, label <> nm -> dget label (m_foot d') = dget label (m_foot d)).
Proof.
  intros d colnames cs cols nm rows M0 CS NE ND NN F L.
  assert (LC := forall2_len _ _ _ F). assert (AS := all_some_forall2 (fun n => dget n (m_cols d)) cs cols F).
  assert (FL : Forall (fun c => length c = rows) cols).
  { apply Forall_forall. intros c H. destruct (forall2_in _ _ _ F c H) as (n & N1 & N2). apply dget_some_in in N2. eauto. }
  set (y := map (fun i => zsum (row_of cols i)) (seq 0 rows)).
  assert (LY : length y = rows) by (unfold y; now rewrite map_length, seq_length).
  assert (MK : imatrix_make d colnames = Some (mkM (m_cols d) (m_labels d) (Some (combine cs cols)) (m_sum d) (m_foot d))).
  { unfold imatrix_make. rewrite <- CS. destruct cs as [|c0 cs']; [congruence|]. now rewrite AS. }
  assert (MR : mrows (combine cs cols) = rows).
  { destruct cs; [congruence|]. destruct cols; [discriminate|]. cbn. now inversion FL. }
  assert (YY : map (fun i => zsum (map (fun p => nth i (snd p) 0%Z) (combine cs cols))) (seq 0 (mrows (combine cs cols))) = y).
  { rewrite MR. unfold y. apply map_ext. intro i. unfold row_of. f_equal.
    rewrite <- (combine_snd cs cols LC) at 2. now rewrite map_map. }
  unfold imatrix_totals. rewrite M0, MK. unfold imatrix_xy, y_internal. cbn [m_mat m_cols].
  rewrite YY. unfold set_col. cbn [m_cols m_labels m_mat m_sum m_foot].
  rewrite (forallb_len (m_cols d) rows y L LY). cbn [m_mat m_cols m_labels m_sum m_foot].
  eexists. exists y. eexists. split; [reflexivity|]. split; [reflexivity|]. cbn [m_cols m_sum m_foot].
  split; [rewrite dget_dset; destruct (name_dec nm nm); congruence|].
  split. { destruct (mem nm (m_sum d)) eqn:E; [|apply in_or_app; right; now left]. unfold mem in E. apply existsb_exists in E as (x & X1 & X2). destruct (name_dec x nm) as [<-|]; [exact X1|discriminate]. }
  split. { intros n N. rewrite dget_dset. destruct (name_dec nm n); congruence. }
  split. { rewrite dget_dset. destruct (name_dec nm nm); [reflexivity|congruence]. }
  assert (LS : last (map (fun p => zsum (snd p)) (combine cs cols) ++ [zsum y]) 0%Z = zsum y) by apply last_last.
  rewrite LS. split.
  { intros n c H. rewrite dget_dset. destruct (name_dec nm n) as [->|_]; [exfalso; apply NN; apply (in_combine_l _ _ _ _ H)|].
    rewrite combine_fst by exact LC.
    apply dget_in.
    - rewrite foot_names by exact LC. exact ND.
    - exact (foot_in (fun p => zsum (snd p)) (zsum y) n c cs cols LC H). }
  split. { rewrite dget_dset. destruct (name_dec nm nm); [reflexivity|congruence]. }
  split. { now apply zsum_swap. }
  intros label N. rewrite dget_dset. destruct (name_dec nm label); congruence.
Qed.
Print Assumptions C220_totals_partial.

(* imatrix_y adds for each function a column with its value for each row of the
   matrix; with names=, for as many functions as there are names. *)
Theorem C220_y_partial :
  forall (fs : list ((list Z -> Z) * name)) (names : option (list name)) (d : mds) (m : list (name * list Z)) (rows : nat),
  m_mat d = Some m -> mrows m = rows -> (forall n c, In (n, c) (m_cols d) -> length c = rows) ->
  let todo := match names with Some ns => combine (map fst fs) ns | None => fs end in
  NoDup (map snd todo) ->
  exists d', imatrix_y fs names d = Some d' /\ m_mat d' = Some m /\
    (forall f n, In (f, n) todo -> dget n (m_cols d') = Some (map (fun i => f (row_of (map snd m) i)) (seq 0 rows))) /\
    (forall n, ~ In n (map snd todo) -> dget n (m_cols d') = dget n (m_cols d)).
Proof.
  intros fs names d m rows M R L todo ND. unfold imatrix_y. rewrite M. fold todo. clearbody todo. clear fs names.
  revert d M L. induction todo as [|[f n] todo IH]; intros d M L.
  - exists d. repeat split; auto. intros f n [].
  - cbn [map snd] in ND. inversion ND as [|? ? N1 N2]; subst. cbn [y_all]. unfold y_internal. rewrite M.
    set (y := map (fun i => f (map (fun p => nth i (snd p) 0%Z) m)) (seq 0 (mrows m))).
    assert (LY : length y = mrows m) by (unfold y; now rewrite map_length, seq_length).
    unfold set_col. rewrite (forallb_len (m_cols d) (mrows m) y L LY).
    set (d1 := mkM (dset n y (m_cols d)) (m_labels d) (m_mat d) (if mem n (m_sum d) then m_sum d else m_sum d ++ [n]) (m_foot d)).
    destruct (IH N2 d1) as (d' & D1 & D2 & D3 & D4).
    + exact M.
    + unfold d1. cbn [m_cols]. apply dset_lens; assumption.
    + exists d'. split; [exact D1|]. split; [exact D2|].
      unfold d1 in D4. cbn [m_cols] in D4. split.
      * intros g k [E|H]; [|now apply D3]. injection E as <- <-. rewrite D4 by exact N1. rewrite dget_dset.
        destruct (name_dec n n); [|congruence]. unfold y. f_equal. apply map_ext. intro i. unfold row_of. now rewrite map_map.
      * intros k H. cbn [map snd In] in H. rewrite D4 by tauto. rewrite dget_dset. destruct (name_dec n k); [exfalso; apply H; now left|reflexivity].
Qed.
Print Assumptions C220_y_partial.

(* Finding: once a Dataset has a matrix (also one left by an earlier
   ds.sum(axis=1)), imatrix_totals ignores the columns it is given, and the
   totals are those of the values at the time the matrix was made, not of the
   Dataset's: after column a = [1, 2] is replaced by [5, 6] the totals still are
   1 and 2. *)
Theorem C220_stale_refuted :
  (forall d m cn cn' nm, m_mat d = Some m -> imatrix_totals cn nm d = imatrix_totals cn' nm d) /\
  (let a := [97] in let b := [98] in let t := [116] in
   let d := mkM [(a, [1; 2]%Z); (b, [3; 4]%Z)] [] None [] [] in
   exists d1 d2 d3, imatrix_totals (Some [a]) t d = Some d1 /\ set_col a [5; 6]%Z d1 = Some d2 /\
     imatrix_totals (Some [a; b]) t d2 = Some d3 /\
     dget a (m_cols d3) = Some [5; 6]%Z /\ dget t (m_cols d3) = Some [1; 2]%Z /\ dget t (m_foot d3) = Some [(a, 3%Z); (t, 3%Z)]).
Proof.
  split.
  - intros d m cn cn' nm M. unfold imatrix_totals. now rewrite M.
  - cbv zeta. eexists; eexists; eexists. split; [vm_compute; reflexivity|]. split; [vm_compute; reflexivity|]. split; [vm_compute; reflexivity|]. repeat split.
Qed.
Print Assumptions C220_stale_refuted.

(* Finding: imatrix_y with several functions and fewer names silently leaves out
   the functions without a name. *)
Theorem C220_names_refuted :
  forall (fs : list ((list Z -> Z) * name)) (d : mds) (m : list (name * list Z)),
  m_mat d = Some m -> imatrix_y fs (Some []) d = Some d.
Proof. intros fs d m M. unfold imatrix_y. rewrite M. destruct (map fst fs); reflexivity. Qed.
Print Assumptions C220_names_refuted.

Example C220_case :
  let d := mkM [([97], [1; 2]%Z); ([98], [3; 4]%Z); ([107], [9; 9]%Z)] [[107]] None [] [] in
  exists d', imatrix_totals None [116] d = Some d' /\ m_mat d = None /\
  m_cols d' = [([97], [1; 2]%Z); ([98], [3; 4]%Z); ([107], [9; 9]%Z); ([116], [4; 6]%Z)] /\
  m_foot d' = [([116], [([97], 3%Z); ([98], 7%Z); ([116], 10%Z)])] /\ m_sum d' = [[116]].
Proof. cbv zeta. eexists. split; [vm_compute; reflexivity|]. repeat split. Qed.

(* C221.  mask_or_isnan and its kin: with R rows, the answer has R values; it is
   True for a row where the test holds in some (mask_or_) or every (mask_and_)
   column of numbers that is not a label; None if there is no such column. *)
Theorem C221_row_masks :
  forall (V : Type) (test : V -> bool) (is_or : bool) (labels : list name) (d : list (name * (bool * list V))) (rows : nat),
  (forall n b c, In (n, (b, c)) d -> length c = rows) ->
  let counts := fun n b => b = true /\ ~ In n labels in
  ((forall n b c, In (n, (b, c)) d -> ~ counts n b) -> mask_reduce test is_or labels d = None) /\
  (forall n0 b0 c0, In (n0, (b0, c0)) d -> counts n0 b0 ->
   exists m, mask_reduce test is_or labels d = Some m /\ length m = rows /\
   forall i v0, i < rows ->
     (nth i m false = true <->
      if is_or then exists n b c, In (n, (b, c)) d /\ counts n b /\ test (nth i c v0) = true
      else forall n b c, In (n, (b, c)) d -> counts n b -> test (nth i c v0) = true)).
Proof.
  intros V test is_or labels d rows L counts.
  assert (MEM : forall n, mem n labels = true <-> In n labels).
  { intro n. unfold mem. rewrite existsb_exists. split.
    - intros (x & X1 & X2). destruct (name_dec x n); [now subst|discriminate].
    - intro H. exists n. split; [exact H|]. destruct (name_dec n n); congruence. }
  set (rel := computable labels d).
  assert (REL : forall c, In c rel <-> exists n b, In (n, (b, c)) d /\ counts n b).
  { intro c. unfold rel, computable. rewrite in_map_iff. split.
    - intros ([n [b c']] & E & H). cbn in E. subst. apply filter_In in H as [H1 H2]. cbn in H2. apply andb_true_iff in H2 as [H2 H3].
      exists n, b. split; [exact H1|]. split; [exact H2|]. rewrite <- MEM. destruct (mem n labels); [discriminate|congruence].
    - intros (n & b & H & -> & N). exists (n, (true, c)). split; [reflexivity|]. apply filter_In. split; [exact H|]. cbn.
      rewrite <- MEM in N. destruct (mem n labels); [congruence|reflexivity]. }
  assert (RL : forall c, In c rel -> length c = rows) by (intros c H; apply REL in H as (n & b & H & _); eauto).
  unfold mask_reduce. fold rel. split.
  - intro NO. destruct rel as [|c r]; [reflexivity|]. exfalso. destruct (proj1 (REL c) (or_introl eq_refl)) as (n & b & H & C). eapply NO; eauto.
  - intros n0 b0 c0 H0 C0.
    assert (RN : rel <> []). { intro E. assert (H : In c0 rel) by (apply REL; eauto). rewrite E in H. destruct H. }
    assert (G : forall r m, length m = rows -> (forall c, In c r -> length c = rows) ->
       exists m', fold_left (fun mask c => match mask with None => Some (map test c) | Some m => Some (map2 (if is_or then orb else andb) m (map test c)) end) r (Some m) = Some m' /\ length m' = rows /\
       forall i v0, i < rows -> (nth i m' false = true <->
          if is_or then nth i m false = true \/ exists c, In c r /\ test (nth i c v0) = true
          else nth i m false = true /\ forall c, In c r -> test (nth i c v0) = true)).
    { induction r as [|c r IH]; intros m LM LR; cbn [fold_left].
      - exists m. split; [reflexivity|]. split; [exact LM|]. intros i v0 Hi. destruct is_or; split; intro X.
        + now left.
        + destruct X as [X|(c & [] & _)]; exact X.
        + split; [exact X|intros c []].
        + exact (proj1 X).
      - assert (LC := LR c (or_introl eq_refl)).
        destruct (IH (map2 (if is_or then orb else andb) m (map test c))) as (m' & M1 & M2 & M3).
        + rewrite map2_length; [exact LM|]. rewrite map_length. lia.
        + intros; apply LR; now right.
        + exists m'. split; [exact M1|]. split; [exact M2|]. intros i v0 Hi. rewrite (M3 i v0 Hi).
          rewrite map2_nth by (rewrite ?map_length; lia). rewrite (nth_map_in test c v0) by lia. destruct is_or.
          * rewrite orb_true_iff. split.
            -- intros [[A|A]|(x & X1 & X2)]; [now left|right; exists c; split; [now left|exact A]|right; exists x; split; [now right|exact X2]].
            -- intros [A|(x & [<-|X1] & X2)]; [now left; left|left; now right|right; eauto].
          * rewrite andb_true_iff. split.
            -- intros [[A B] X]. split; [exact A|]. intros x [<-|H]; auto.
            -- intros [A X]. split; [split; [exact A|apply X; now left]|]. intros x H. apply X. now right. }
    destruct rel as [|c r] eqn:ER; [congruence|]. cbn [fold_left].
    destruct (G r (map test c)) as (m & M1 & M2 & M3).
    + rewrite map_length. apply RL. now left.
    + intros x H. apply RL. now right.
    + exists m. split; [exact M1|]. split; [exact M2|]. intros i v0 Hi. rewrite (M3 i v0 Hi).
      rewrite (nth_map_in test c v0) by (rewrite RL by (now left); exact Hi). destruct is_or.
      * split.
        -- intros [A|(x & X1 & X2)].
           ++ destruct (proj1 (REL c) (or_introl eq_refl)) as (n & b & H & C). exists n, b, c. auto.
           ++ destruct (proj1 (REL x) (or_intror X1)) as (n & b & H & C). exists n, b, x. auto.
        -- intros (n & b & x & H & C & T). destruct (proj2 (REL x)) as [<-|X]; [eauto|now left|right; eauto].
      * split.
        -- intros [A B] n b x H C. destruct (proj2 (REL x)) as [<-|X]; eauto.
        -- intro A. split.
           ++ destruct (proj1 (REL c) (or_introl eq_refl)) as (n & b & H & C). eauto.
           ++ intros x X. destruct (proj1 (REL x) (or_intror X)) as (n & b & H & C). eauto.
Qed.
Print Assumptions C221_row_masks.

Example C221_case :
  let d := [([97], (true, [1; 0; 0]%Z)); ([98], (false, [0; 0; 0]%Z)); ([99], (true, [0; 0; 1]%Z)); ([100], (true, [0; 0; 0]%Z))] in
  mask_reduce (fun v => Z.eqb v 0) true [[100]] d = Some [true; true; true] /\
  mask_reduce (fun v => Z.eqb v 0) false [[100]] d = Some [false; true; false] /\
  mask_reduce (fun v => Z.eqb v 0) false [[97]; [99]; [100]] d = None.
Proof. repeat split. Qed.

(* C222.  outliers(col_keep) lists every other column, in order; for a column
   with numbers the smallest (largest) number, its first position and the value
   of col_keep there; for columns that are no numbers NaN, the default and -1. *)
Theorem C222_outliers_partial :
  forall (W : Type) (dflt : W) (keep : name) (kept : list W) (d : list (name * ocol)),
  let res := outliers dflt keep kept d in
  (forall part, In part [fst res; snd res] -> map (fun r => fst (fst (fst r))) part = filter (fun n => negb (if name_dec n keep then true else false)) (map fst d)) /\
  (forall n l v0, In (n, ONum l) d -> n <> keep -> In (Some v0) l -> length kept = length l ->
   (exists p v w, is_extreme Z.ge l p v /\ nth_error kept p = Some w /\ In (n, Some v, w, Z.of_nat p) (fst res)) /\
   (exists p v w, is_extreme Z.le l p v /\ nth_error kept p = Some w /\ In (n, Some v, w, Z.of_nat p) (snd res))) /\
  (forall n, In (n, OOther) d -> n <> keep -> In (n, None, dflt, (-1)%Z) (fst res) /\ In (n, None, dflt, (-1)%Z) (snd res)).
Proof.
  intros W dflt keep kept d res.
  assert (NM : forall gt, map (fun r => fst (fst (fst r))) (apply_outlier dflt gt keep kept d) = filter (fun n => negb (if name_dec n keep then true else false)) (map fst d)).
  { intro gt. unfold apply_outlier. rewrite map_map. subst res. induction d as [|[n c] d' IH]; [reflexivity|].
    cbn [filter map fst]. unfold name_dec at 1. destruct (list_eq_dec Nat.eq_dec n keep); cbn [negb]; [exact IH|].
    cbn [map fst snd]. rewrite IH. f_equal. destruct c as [l|]; [|reflexivity]. destruct (best gt l 0 None) as [[i v]|]; [|reflexivity]. destruct (nth_error kept i); reflexivity. }
  assert (IN : forall n c, In (n, c) d -> n <> keep -> In (n, c) (filter (fun p : name * ocol => negb (if list_eq_dec Nat.eq_dec (fst p) keep then true else false)) d)).
  { intros n c H N. apply filter_In. split; [exact H|]. cbn [fst]. destruct (list_eq_dec Nat.eq_dec n keep); [congruence|reflexivity]. }
  assert (EX : forall gt (le : Z -> Z -> Prop) n l v0,
     (forall a b, gt a b = true -> ~ le a b) -> (forall a b, gt a b = false -> le a b) -> (forall a, le a a) -> (forall a b c, le a b -> le b c -> le a c) -> (forall a b, le a b \/ le b a) ->
     In (n, ONum l) d -> n <> keep -> In (Some v0) l -> length kept = length l ->
     exists p v w, is_extreme le l p v /\ nth_error kept p = Some w /\ In (n, Some v, w, Z.of_nat p) (apply_outlier dflt gt keep kept d)).
  { intros gt le n l v0 G1 G0 R T TO H N HV LK.
    assert (B := best_spec gt le G1 G0 R T TO l 0 None [] eq_refl). cbn [app] in B.
    assert (B' := B ltac:(intros q w; destruct q; discriminate)). clear B.
    destruct (best gt l 0 None) as [[p v]|] eqn:E.
    - assert (PL : p < length l) by (apply nth_error_Some; destruct B' as (B1 & _); congruence).
      destruct (nth_error kept p) as [w|] eqn:K; [|apply nth_error_None in K; lia].
      exists p, v, w. split; [exact B'|]. split; [exact K|]. unfold apply_outlier. apply in_map_iff. exists (n, ONum l). cbn [fst snd]. rewrite E, K. split; [reflexivity|]. now apply IN.
    - exfalso. apply In_nth_error in HV as [q Q]. exact (B' q v0 Q). }
  split; [|split].
  - intros part [<-|[<-|[]]]; apply NM.
  - intros n l v0 H N HV LK. split.
    + apply (EX Z.ltb Z.ge n l v0); auto; intros; try lia.
    + apply (EX Z.gtb Z.le n l v0); auto; intros; try lia.
  - intros n H N. split; unfold res, outliers, apply_outlier; cbn [fst snd]; apply in_map_iff; exists (n, OOther); split; try reflexivity; now apply IN.
Qed.
Print Assumptions C222_outliers_partial.

Example C222_case :
  outliers 0%Z [107] [7; 8; 9]%Z [([107], ONum [Some 7%Z; Some 8%Z; Some 9%Z]); ([97], ONum [Some 2%Z; None; Some 5%Z]); ([115], OOther)] =
  ([([97], Some 2%Z, 7%Z, 0%Z); ([115], None, 0%Z, (-1)%Z)], [([97], Some 5%Z, 9%Z, 2%Z); ([115], None, 0%Z, (-1)%Z)]).
Proof. vm_compute. reflexivity. Qed.
