(* C223: the totals of two-way tables with bad rows and columns. *)
From Coq Require Import List Arith Bool Lia Permutation.
From Verif Require Import FlattenModel BdSpec BdModel BdProofs.
Import ListNotations.

(* C223.  For functions such as sum, min and max: the total of a row that is not
   bad is that of its elements in the columns that are not bad, the same for the
   columns, and the grand total is that of the elements in neither a bad row nor
   a bad column.  (The total of a bad row is that of all its elements.) *)
Theorem C223_onepass :
  forall (V : Type) (f : list V -> V) (data : list (elt (V := V))) (sf : bool) (rcats ccats : list name) (badrows badcols : option slots),
  regroups f -> NoDup rcats -> NoDup ccats -> okay rcats badrows -> okay ccats badcols ->
  exists tx ty t, onepass f data sf rcats ccats badrows badcols = Some (tx, ty, t) /\
    length tx = length ccats + (1 - first_code sf) /\ length ty = length rcats + (1 - first_code sf) /\
    (forall k, k < length ty -> exists v, nth_error ty k = Some v /\
       let r := k + first_code sf in
       reduces f e_val data (fun e => e_row e = r /\ in_table sf ccats (e_col e) /\ (bad rcats badrows r \/ ~ bad ccats badcols (e_col e))) v) /\
    (forall k, k < length tx -> exists v, nth_error tx k = Some v /\
       let c := k + first_code sf in
       reduces f e_val data (fun e => e_col e = c /\ in_table sf rcats (e_row e) /\ (bad ccats badcols c \/ ~ bad rcats badrows (e_row e))) v) /\
    reduces f e_val data (fun e => in_table sf rcats (e_row e) /\ in_table sf ccats (e_col e) /\
                                   ~ bad rcats badrows (e_row e) /\ ~ bad ccats badcols (e_col e)) t.
Proof.
  intros V f data sf rcats ccats badrows badcols F NR NC KR KC.
  destruct (fancy_ok rcats badrows NR KR) as (br & ER & _). destruct (fancy_ok ccats badcols NC KC) as (bc & EC & _).
  destruct (mask_ok sf rcats badrows br NR KR ER) as (my & MY1 & MY2 & MY3).
  destruct (mask_ok sf ccats badcols bc NC KC EC) as (mx & MX1 & MX2 & MX3).
  set (rs := shown sf (length rcats)) in *. set (cs := shown sf (length ccats)) in *.
  set (rs' := compress my rs). set (cs' := compress mx cs).
  assert (NRS : NoDup rs) by apply shown_nodup. assert (NCS : NoDup cs) by apply shown_nodup.
  assert (NRS' : NoDup rs') by now apply compress_nodup. assert (NCS' : NoDup cs') by now apply compress_nodup.
  assert (IR : forall c, In c rs' <-> in_table sf rcats c /\ ~ bad rcats badrows c) by now apply kept_in.
  assert (IC : forall c, In c cs' <-> in_table sf ccats c /\ ~ bad ccats badcols c) by now apply kept_in.
  assert (E : onepass f data sf rcats ccats badrows badcols =
              Some (scatter mx (totals_x f (cell f data) rs' cs') (totals_x f (cell f data) rs cs),
                    scatter my (totals_y f (cell f data) rs' cs') (totals_y f (cell f data) rs cs),
                    f (totals_y f (cell f data) rs' cs'))).
  { unfold onepass. rewrite ER, EC. fold rs cs.
    assert (N : forall A B (xs : list A) (g : A -> B), scatter (repeat true (length xs)) (map g (compress (repeat true (length xs)) xs)) (map g xs) = map g xs).
    { intros A B xs g. induction xs as [|x xs IHx]; cbn; [reflexivity|]. now rewrite IHx. }
    assert (N2 : forall A (xs : list A), compress (repeat true (length xs)) xs = xs).
    { intros A xs. induction xs as [|x xs IHx]; cbn; [reflexivity|]. now rewrite IHx. }
    destruct br as [br|], bc as [bc|]; try (rewrite MY1, MX1; fold rs' cs'; rewrite cells_concat by exact F; reflexivity).
    cbn in MY1, MX1. injection MY1 as <-. injection MX1 as <-. unfold rs', cs'. rewrite !N2. unfold totals_x, totals_y.
    assert (P1 := N _ _ cs (fun c => f (map (fun r => cell f data r c) rs))). rewrite N2 in P1. rewrite P1.
    assert (P2 := N _ _ rs (fun r => f (map (cell f data r) cs))). rewrite N2 in P2. rewrite P2. reflexivity. }
  assert (SX := scatter_is _ _ (fun c => f (map (fun r => cell f data r c) rs')) (fun c => f (map (fun r => cell f data r c) rs)) mx cs MX2).
  assert (SY := scatter_is _ _ (fun r => f (map (cell f data r) cs')) (fun r => f (map (cell f data r) cs)) my rs MY2).
  fold cs' in SX. fold rs' in SY.
  unfold totals_x in E. unfold totals_y in E at 1 2. rewrite SX, SY in E. clear SX SY.
  rewrite E. do 3 eexists. split; [reflexivity|].
  rewrite !map_length, !combine_length, MX2, MY2, !Nat.min_id. unfold rs, cs. rewrite !shown_length. fold rs cs.
  split; [reflexivity|]. split; [reflexivity|]. split; [|split].
  - intros k L. assert (L' : k < length my) by (rewrite MY2; unfold rs; rewrite shown_length; exact L).
    destruct (MY3 k L') as (b & B1 & B2).
    assert (C : nth_error (combine my rs) k = Some (b, k + first_code sf)).
    { apply combine_nth_error; [exact B1|]. apply shown_nth. fold rs. lia. }
    eexists. split; [apply map_nth_error; exact C|]. cbn [fst snd]. destruct b.
    + assert (NB : ~ bad rcats badrows (k + first_code sf)) by now apply B2.
      eexists. split; [|apply (cells_row f F); assumption].
      intros e _. cbv beta. rewrite andb_true_iff, Nat.eqb_eq, memn_in, IC. tauto.
    + assert (NB : bad rcats badrows (k + first_code sf) \/ ~ bad rcats badrows (k + first_code sf)).
      { destruct badrows as [s|]; [|right; intros []].
        destruct (fancy_ok rcats (Some s) NR KR) as (o & _ & O). destruct o as [l|]; [|discriminate].
        destruct O as (_ & _ & O). destruct (k + first_code sf) as [|i]; [right; intros (i & [=] & _)|].
        destruct (in_dec Nat.eq_dec i l) as [I|I]; [left|right; intro X; apply I]; now apply O. }
      eexists. split; [|apply (cells_row f F); assumption].
      intros e _. cbv beta. rewrite andb_true_iff, Nat.eqb_eq, memn_in. unfold cs. rewrite shown_in.
      assert (X : ~ ~ bad rcats badrows (k + first_code sf)). { intro Y. apply B2 in Y. discriminate. } tauto.
  - intros k L. assert (L' : k < length mx) by (rewrite MX2; unfold cs; rewrite shown_length; exact L).
    destruct (MX3 k L') as (b & B1 & B2).
    assert (C : nth_error (combine mx cs) k = Some (b, k + first_code sf)).
    { apply combine_nth_error; [exact B1|]. apply shown_nth. fold cs. lia. }
    eexists. split; [apply map_nth_error; exact C|]. cbn [fst snd]. destruct b.
    + assert (NB : ~ bad ccats badcols (k + first_code sf)) by now apply B2.
      eexists. split; [|apply (cells_col f F); assumption].
      intros e _. cbv beta. rewrite andb_true_iff, Nat.eqb_eq, memn_in, IR. tauto.
    + assert (NB : bad ccats badcols (k + first_code sf) \/ ~ bad ccats badcols (k + first_code sf)).
      { destruct badcols as [s|]; [|right; intros []].
        destruct (fancy_ok ccats (Some s) NC KC) as (o & _ & O). destruct o as [l|]; [|discriminate].
        destruct O as (_ & _ & O). destruct (k + first_code sf) as [|i]; [right; intros (i & [=] & _)|].
        destruct (in_dec Nat.eq_dec i l) as [I|I]; [left|right; intro X; apply I]; now apply O. }
      eexists. split; [|apply (cells_col f F); assumption].
      intros e _. cbv beta. rewrite andb_true_iff, Nat.eqb_eq, memn_in. unfold rs. rewrite shown_in.
      assert (X : ~ ~ bad ccats badcols (k + first_code sf)). { intro Y. apply B2 in Y. discriminate. } tauto.
  - eexists. split; [|apply (cells_all f F); assumption].
    intros e _. cbv beta. rewrite andb_true_iff, !memn_in, IC, IR. tauto.
Qed.
Print Assumptions C223_onepass.

(* The multi-pass functions (mean, var, median, ..), without the filtered: the
   total of every row is that of its elements in columns that are not bad and
   pass the filter, also for bad rows; the same for columns; the grand total is
   that of the elements in neither a bad row nor a bad column (and, with no
   filter, also of the elements in no group).  Bad rows given as numbers need
   categories that count from 1. *)
Theorem C223_multipass_partial :
  forall (V : Type) (f : list V -> V) (data : list (elt (V := V))) (rbase cbase : nat) (rcats ccats : list name)
         (badrows badcols : option slots) (flt : option (list bool)),
  okay rcats badrows -> okay ccats badcols ->
  (rbase = 1 \/ exists l, badrows = Some (Names l) \/ badrows = None) -> (cbase = 1 \/ exists l, badcols = Some (Names l) \/ badcols = None) ->
  (forall g, flt = Some g -> length g = length data) ->
  let on := passes flt (length data) in
  let v := fun q : elt * bool => e_val (fst q) in
  exists tx ty t, multipass f data false rbase cbase rcats ccats badrows badcols flt true = (tx, ty, t) /\
    length tx = length ccats /\ length ty = length rcats /\
    (forall k, k < length rcats -> exists w, nth_error ty k = Some w /\
       reduces f v (combine data on) (fun q => e_row (fst q) = S k /\ snd q = true /\ ~ bad ccats badcols (e_col (fst q))) w) /\
    (forall k, k < length ccats -> exists w, nth_error tx k = Some w /\
       reduces f v (combine data on) (fun q => e_col (fst q) = S k /\ snd q = true /\ ~ bad rcats badrows (e_row (fst q))) w) /\
    reduces f v (combine data on) (fun q => snd q = true /\ ~ bad rcats badrows (e_row (fst q)) /\ ~ bad ccats badcols (e_col (fst q))) t.
Proof.
  intros V f data rbase cbase rcats ccats badrows badcols flt KR KC BR BC FL on v.
  assert (LO : length on = length data).
  { unfold on, passes. destruct flt; [now apply FL|apply repeat_length]. }
  destruct (badmask_ok e_row data rbase rcats badrows flt KR BR FL) as (py & Y1 & Y2).
  destruct (badmask_ok e_col data cbase ccats badcols flt KC BC FL) as (px & X1 & X2).
  fold on in Y1, X1.
  unfold multipass. do 3 eexists. split; [reflexivity|].
  unfold accum1 at 1 2. rewrite !map_length. unfold shown. rewrite !seq_length. split; [reflexivity|]. split; [reflexivity|].
  split; [|split].
  - intros k L. eexists. split; [apply accum1_nth, L|].
    rewrite (accum1_is e_row data _ px on k LO X1). eexists. split; [|reflexivity].
    intros q _. cbv beta. rewrite Nat.eqb_eq. specialize (X2 q). destruct (px q).
    + split; [intros ->; split; [reflexivity|now apply X2]|tauto].
    + split; [discriminate|]. intros (_ & X). apply X2 in X. discriminate.
  - intros k L. eexists. split; [apply accum1_nth, L|].
    rewrite (accum1_is e_col data _ py on k LO Y1). eexists. split; [|reflexivity].
    intros q _. cbv beta. rewrite Nat.eqb_eq. specialize (Y2 q). destruct (py q).
    + split; [intros ->; split; [reflexivity|now apply Y2]|tauto].
    + split; [discriminate|]. intros (_ & X). apply Y2 in X. discriminate.
  - assert (G : forall m p, passes m (length data) = map p (combine data on) ->
                match m with None => data | Some g => compress g data end = map fst (filter p (combine data on))).
    { intros m p E. apply (picked_is _ m p data on LO E). }
    set (new := match badrows, badcols with Some _, Some _ => _ | Some _, None => _ | None, Some _ => _ | None, None => _ end).
    assert (N : exists p, passes new (length data) = map p (combine data on) /\
                forall q, p q = true <-> (snd q = true /\ ~ bad rcats badrows (e_row (fst q)) /\ ~ bad ccats badcols (e_col (fst q)))).
    { unfold new. destruct badrows as [sr|] eqn:ER, badcols as [sc|] eqn:EC.
      - unfold badmask in *. cbn [passes] in *. exists (fun q => px q && py q). split.
        + rewrite X1, Y1. rewrite combine_maps, map_map. reflexivity.
        + intro q. rewrite andb_true_iff, X2, Y2. tauto.
      - exists py. split; [exact Y1|]. intro q. rewrite Y2. cbn [bad]. tauto.
      - exists px. split; [exact X1|]. intro q. rewrite X2. cbn [bad]. tauto.
      - exists py. split; [exact Y1|]. intro q. rewrite Y2. cbn [bad]. tauto. }
    destruct N as (p & N1 & N2). rewrite (G new p N1). exists p. split; [intros q _; apply N2|].
    rewrite map_map. reflexivity.
Qed.
Print Assumptions C223_multipass_partial.

(* Finding: sum and mean disagree on the total of a bad row: that of sum counts
   its elements in bad columns, that of mean and the other functions of several
   passes does not.  Here both are computed with the sum: row b holds 10 in the
   bad column x and 1 in y; the totals are 11 and 1. *)
Theorem C223_bad_row_refuted :
  let data := [mkE 1 1 5; mkE 2 1 10; mkE 2 2 1] in
  let a := [97] in let b := [98] in let x := [120] in let y := [121] in
  onepass list_sum data false [a; b] [x; y] (Some (Names [b])) (Some (Names [x])) = Some ([15; 0], [0; 11], 0) /\
  multipass list_sum data false 1 1 [a; b] [x; y] (Some (Names [b])) (Some (Names [x])) None true = ([5; 0], [0; 1], 0).
Proof. cbv zeta. split; vm_compute; reflexivity. Qed.
Print Assumptions C223_bad_row_refuted.

(* Finding: with showfilter=True the functions of several passes count the
   elements of bad rows, of every column, to the total of the column Filtered
   (which is empty here): 10 for one element of 10 in a bad row of column x. *)
Theorem C223_filtered_refuted :
  let data := [mkE 1 1 5; mkE 2 1 10] in
  let a := [97] in let b := [98] in let x := [120] in
  multipass list_sum data true 1 1 [a; b] [x] (Some (Names [b])) None None true = ([10; 5], [0; 5; 10], 5) /\
  onepass list_sum data true [a; b] [x] (Some (Names [b])) None = Some ([0; 5], [0; 5; 10], 5).
Proof. cbv zeta. split; vm_compute; reflexivity. Qed.
Print Assumptions C223_filtered_refuted.

(* Finding: badrows given as numbers to a function of several passes leave out
   the next row instead if the categories count from 0 (base_index=0): with
   badrows=[0] the total leaves out row b, not row a. *)
Theorem C223_base0_refuted :
  let data := [mkE 1 1 5; mkE 2 1 10] in
  let a := [97] in let b := [98] in let x := [120] in
  multipass list_sum data false 1 1 [a; b] [x] (Some (Numbers false [0])) None None true = ([10], [5; 10], 10) /\
  multipass list_sum data false 0 1 [a; b] [x] (Some (Numbers false [0])) None None true = ([5], [5; 10], 5).
Proof. cbv zeta. split; vm_compute; reflexivity. Qed.
Print Assumptions C223_base0_refuted.

Lemma sum_regroups : regroups list_sum.
Proof.
  split.
  - intro parts. induction parts as [|p parts IH]; [reflexivity|]. cbn [concat map]. rewrite list_sum_app, IH. reflexivity.
  - intros l l' P. unfold list_sum. induction P; cbn [fold_right] in *; lia.
Qed.
Example C223_case :
  let data := [mkE 1 1 5; mkE 2 1 10; mkE 2 2 1; mkE 1 2 3; mkE 3 2 4; mkE 0 0 50] in
  let rows := [[97]; [98]; [99]] in let cols := [[120]; [121]] in
  regroups list_sum /\ NoDup rows /\ NoDup cols /\ okay rows (Some (Names [[98]])) /\ okay cols (Some (Numbers true [0])) /\
  onepass list_sum data false rows cols (Some (Names [[98]])) (Some (Numbers true [0])) = Some ([15; 7], [3; 11; 4], 7) /\
  onepass list_sum data true rows cols (Some (Names [[98]])) (Some (Numbers true [0])) = Some ([50; 15; 7], [50; 3; 11; 4], 57) /\
  multipass list_sum data false 1 1 rows cols (Some (Names [[98]])) None (Some [true; true; true; false; true; false]) true = ([5; 4], [5; 11; 4], 9).
Proof.
  split; [exact sum_regroups|]. split; [repeat constructor; cbn; intuition discriminate|]. split; [repeat constructor; cbn; intuition discriminate|].
  split; [cbn; intuition congruence|]. split; [intros i [<-|[]]; cbn; lia|]. repeat split; vm_compute; reflexivity.
Qed.

(* C224.  The arrays of bad rows and columns given are left as they are, and the
   rows and columns coloured are the bad ones, for tables without the filtered,
   or if they are given as lists or names. *)
Theorem C224_marks_partial :
  forall (one_pass sf : bool) (rcats ccats : list name) (badrows badcols : option slots),
  NoDup rcats -> NoDup ccats -> okay rcats badrows -> okay ccats badcols ->
  (sf = false \/ ~ exists l, badrows = Some (Numbers true l) \/ badcols = Some (Numbers true l)) ->
  exists a, leave one_pass sf rcats ccats badrows badcols = Some a /\
    user_rows a = badrows /\ user_cols a = badcols /\
    (badrows = None <-> mark_rows a = None) /\ (badcols = None <-> mark_cols a = None) /\
    (forall l, mark_rows a = Some l -> forall k, In k l <-> bad rcats badrows (k + first_code sf)) /\
    (forall l, mark_cols a = Some l -> forall n, In n l <-> exists i, nth_error ccats i = Some n /\ bad ccats badcols (S i)).
Proof.
  intros one_pass sf rcats ccats badrows badcols NR NC KR KC H.
  assert (BM : forall go s, (go = true -> sf = true) -> (forall l, sf = true -> s <> Some (Numbers true l)) -> bump go s = s).
  { intros go s G S. destruct s as [[[|] l|l]|]; try reflexivity. cbn. destruct go; [|reflexivity].
    exfalso. apply (S l); [now apply G|reflexivity]. }
  assert (HR : forall l, sf = true -> badrows <> Some (Numbers true l)).
  { intros l E ->. destruct H as [->|H]; [discriminate|]. apply H. exists l. now left. }
  assert (HC : forall l, sf = true -> badcols <> Some (Numbers true l)).
  { intros l E ->. destruct H as [->|H]; [discriminate|]. apply H. exists l. now right. }
  assert (G1 : one_pass && sf = true -> sf = true) by (rewrite andb_true_iff; tauto).
  unfold leave. rewrite (BM _ badrows G1 HR), (BM _ badcols G1 HC), (BM sf badrows (fun x => x) HR).
  destruct (fancy_ok rcats badrows NR KR) as (br & ER & PR). destruct (fancy_ok ccats badcols NC KC) as (bc & EC & PC).
  rewrite ER, EC.
  assert (MR : forall l, (match br with Some l => Some (if sf then map S l else l) | None => None end) = Some l ->
               forall k, In k l <-> bad rcats badrows (k + first_code sf)).
  { intros l E k. destruct br as [l0|]; [|discriminate]. injection E as <-. destruct PR as (_ & _ & B). destruct sf; cbn [first_code].
    - rewrite Nat.add_0_r, in_map_iff. split; [intros (i & <- & I); now apply B|]. intro X. assert (Y := X).
      destruct badrows as [s|]; [|destruct Y]. destruct Y as (i & -> & _). exists i. split; auto. now apply B.
    - rewrite Nat.add_1_r. apply B. }
  assert (NRW : badrows = None <-> (match br with Some l => Some (if sf then map S l else l) | None => None end) = None).
  { destruct br; [|tauto]. destruct PR as (N & _). split; [tauto|discriminate]. }
  destruct bc as [lc|].
  - destruct PC as (NN & LT & B).
    destruct (all_some_map _ _ (fun i => nth_error ccats i) lc) as (names & N1 & N2).
    { intros i I. apply LT in I. destruct (nth_error ccats i) eqn:E; [eauto|]. apply nth_error_None in E. lia. }
    rewrite N1. eexists. split; [reflexivity|]. cbn [user_rows user_cols mark_rows mark_cols].
    split; [reflexivity|]. split; [reflexivity|]. split; [exact NRW|]. split; [split; [tauto|discriminate]|]. split; [exact MR|].
    intros l [= <-] n. rewrite N2. split; intros (i & X & Y); exists i; (split; [|]); try assumption; now apply B.
  - eexists. split; [reflexivity|]. cbn [user_rows user_cols mark_rows mark_cols].
    split; [reflexivity|]. split; [reflexivity|]. split; [exact NRW|]. split; [tauto|]. split; [exact MR|]. discriminate.
Qed.
Print Assumptions C224_marks_partial.

(* Finding: with showfilter=True a numpy array given as badrows is changed: 2 is
   added to each of its numbers by sum, min and max (1 by the others); the rows
   coloured by sum, min and max are the ones after the bad ones. *)
Theorem C224_rows_refuted :
  forall (rcats ccats : list name) (l : list nat),
  leave true true rcats ccats (Some (Numbers true l)) None =
    Some (mkAfter (Some (Numbers true (map S (map S l)))) None (Some (map S (map S l))) None) /\
  leave false true rcats ccats (Some (Numbers true l)) None =
    Some (mkAfter (Some (Numbers true (map S l))) None (Some (map S l)) None).
Proof. intros. split; reflexivity. Qed.
Print Assumptions C224_rows_refuted.

(* Finding: and an array given as badcols too: the column coloured is the next
   one, and the call raises if the last column is bad. *)
Theorem C224_cols_refuted :
  forall (rcats ccats : list name) (i : nat),
  leave true true rcats ccats None (Some (Numbers true [i])) =
    match nth_error ccats (S i) with
    | Some n => Some (mkAfter None (Some (Numbers true [S i])) None (Some [n]))
    | None => None
    end.
Proof. intros rcats ccats i. unfold leave. cbn [andb bump fancy_of map all_some]. destruct (nth_error ccats (S i)); reflexivity. Qed.
Print Assumptions C224_cols_refuted.

Example C224_case :
  leave true true [[97]; [98]] [[120]; [121]] (Some (Names [[98]])) (Some (Numbers false [0])) =
    Some (mkAfter (Some (Names [[98]])) (Some (Numbers false [0])) (Some [2]) (Some [[120]])) /\
  leave true false [[97]; [98]] [[120]; [121]] (Some (Numbers true [1])) None =
    Some (mkAfter (Some (Numbers true [1])) None (Some [1]) None).
Proof. split; vm_compute; reflexivity. Qed.
