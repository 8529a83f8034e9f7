(* C198-C204: the text display of a Dataset (rt_display.py). *)
From Coq Require Import List Arith Bool PeanoNat Lia.
From Verif Require Import DpSpec DpModel DpSpec2 DpProofs DpProofs2 DpProofs3 DpProofs4 DpProofs5.
Import ListNotations.

(* ---- concrete cases: values are numbers below 10, written as one digit, or a
   number n >= 10 written as a text of n letters ---- *)
Definition wr (n : nat) : text := if n <? 10 then [48 + n] else repeat 97 n.
Definition rt (_ : list nat) : align := ARight.
Definition cA : text := [65]. Definition cB : text := [66]. Definition cC : text := [67].
Definition std : opts := Opts 2 1 false false 4 80 [42].
Definition ds1 : dset nat :=
  DS [Col cA [5; 6; 7; 8; 9] [[]]; Col cB [1; 2; 3; 4; 0] [[84]]; Col cC [9; 9; 9; 9; 9] [[]]]
     [] [cC] (Some [cB]) (Some [4; 0; 1; 2; 3]) 5 [[84; 111; 116]].

Ltac solve_ok :=
  constructor;
  [ repeat (constructor; [cbn; intuition discriminate|]); constructor
  | cbn; intros c Hc; repeat (destruct Hc as [<-|Hc]; [split; reflexivity|]); easy
  | intros x Hx; cbn in *; intuition
  | cbn; try exact I; try (split; [reflexivity|]; intros i Hi; cbn in Hi; intuition lia) ].

(* C198.  The rows of the table are the first [o_head] and the last [o_tail]
   rows of the view (all of them when they are not more, or when all are asked
   for), in the order of the view, with one line of dots where rows were left
   out; the cells of a line are all taken from one row of the data, the row
   number too.  With several labels the first label column hides repeats. *)
Theorem C198_rows :
  forall (V : Type) (fmt : V -> text) (num : nat -> text) (just : list V -> align) (o : opts) (ds : dset V)
         (ts : list table) (t : table),
  ok_dset ds -> (s_labels ds <> [] \/ ~ In hash (map cname (s_cols ds))) ->
  display fmt num just o ds = Some ts -> In t ts ->
  exists (labels ms rs : list (column V)) (M : list (shown V)),
    laid_out ds labels ms rs /\
    let cols := left_cols (o_prefix o) (s_foots ds) labels ++ M ++ plain rs in
    t_head t = map heading cols /\
    t_rows t = (if 1 <? length (s_labels ds) then with_first hide_repeats else fun x => x)
                 (map (fun p => map (fun s => cell fmt num (row_of ds) s p) cols)
                      (shown_rows (s_nrows ds) (o_head o) (o_tail o) (o_rowall o))) /\
    (forall s, In s M -> s = SDots (repeat dots (length (s_foots ds))) \/
                         exists c f, In c ms /\ s = SCol (cname c) (Col (cname c) (cvals c) f)).
Proof.
  intros V fmt num just o ds ts t OK NH D HI.
  destruct (display_eq V fmt num just o ds OK NH) as (labels & ms & rs & LO & m0 & rb & PS & _ & EQ).
  rewrite EQ in D. clear EQ. cbv zeta in D.
  assert (HD : forall M, map d_head (hide1 (length (s_labels ds)) (map (mk fmt num just (row_of ds) (positions o ds))
            (left_cols (o_prefix o) (s_foots ds) labels)) ++ map (mk fmt num just (row_of ds) (positions o ds)) M
            ++ map (mk fmt num just (row_of ds) (positions o ds)) (plain rs))
          = map heading (left_cols (o_prefix o) (s_foots ds) labels ++ M ++ plain rs)).
  { intros M. rewrite !map_app, hide1_head, !map_map. reflexivity. }
  assert (LN : left_cols (o_prefix o) (s_foots ds) labels <> []).
  { unfold left_cols. destruct labels as [|a [|b l]]; discriminate. }
  destruct (o_colall o).
  - match type of D with (if ?b then _ else _) = _ => destruct b; [discriminate|] end. injection D as <-.
    apply in_map_iff in HI. destruct HI as (s & <- & HS).
    match type of HS with In _ (column_sets ?p ?c ?off _ _ ?cols) =>
      destruct (column_sets_spec p c off cols off []) as (C & _); [cbn; lia|cbn; lia|] end.
    cbn [app] in C.
    assert (X : exists M, s = map (mk fmt num just (row_of ds) (positions o ds)) M /\ incl M (no_foot V ms)).
    { apply in_split in HS. destruct HS as (a & b & E). rewrite E, concat_app in C. cbn [concat] in C.
      destruct (map_eq_app _ _ _ _ (eq_sym C)) as (x & y & E1 & _ & R1).
      destruct (map_eq_app _ _ _ _ R1) as (M & z & E2 & R2 & _). exists M. split; [now symmetry|].
      rewrite E1, E2. intros q Q. rewrite !in_app_iff. auto. }
    destruct X as (M & -> & INC). exists labels, ms, rs, M. split; [exact LO|]. cbv zeta. unfold make_table. cbn [t_head t_rows].
    split; [apply HD|]. split; [apply (table_rows V fmt num just (row_of ds) (positions o ds)); exact LN|].
    intros q Q. right. apply INC, in_map_iff in Q. destruct Q as (c & <- & Q). exists c, []. auto.
  - destruct (fit_shown V fmt num just (row_of ds) m0 rb (o_pad o) (o_console o)
       (total (map (width fmt num (row_of ds) (positions o ds)) (left_cols (o_prefix o) (s_foots ds) labels)) +
        total (map (width fmt num (row_of ds) (positions o ds)) (plain rs))) (length (s_foots ds)) ms)
      as (M & a & b & F & AB & CASES). rewrite <- PS in *. rewrite F in D.
    match type of D with (if ?b then _ else _) = _ => destruct b; [discriminate|] end. injection D as <-.
    destruct HI as [<-|[]]. rewrite AB. exists labels, ms, rs, M. split; [exact LO|]. cbv zeta. unfold make_table. cbn [t_head t_rows].
    split; [apply HD|]. split; [apply (table_rows V fmt num just (row_of ds) (positions o ds)); exact LN|].
    intros q Q. destruct CASES as [[_ ->]|(_ & hidden & (pre & hid & suf & E1 & -> & _) & _)]; [easy|].
    rewrite !in_app_iff in Q. destruct Q as [Q|[Q|Q]].
    + right. apply in_map_iff in Q. destruct Q as (c & <- & Q). exists c, (cfoot c).
      split; [rewrite E1, !in_app_iff; auto|]. now destruct c.
    + left. destruct hidden; [|easy]. now destruct Q as [<-|[]].
    + right. apply in_map_iff in Q. destruct Q as (c & <- & Q). exists c, (cfoot c).
      split; [rewrite E1, !in_app_iff; auto|]. now destruct c.
Qed.
Print Assumptions C198_rows.

(* What the list of shown positions is: position p is in it exactly if it is one
   of the first [head] or the last [tail] (or all are asked for); they ascend;
   there is a line of dots exactly if a position is missing. *)
Theorem C198_positions :
  forall n head tail all,
  (forall p, In (Some p) (shown_rows n head tail all) <-> p < n /\ (all = true \/ p < head \/ n <= p + tail)) /\
  (In None (shown_rows n head tail all) <-> exists p, p < n /\ ~ In (Some p) (shown_rows n head tail all)) /\
  (forall i j p q, i < j -> nth_error (shown_rows n head tail all) i = Some (Some p) ->
                   nth_error (shown_rows n head tail all) j = Some (Some q) -> p < q).
Proof.
  intros n h t a.
  assert (ASC : forall k m i j p q, i < j -> nth_error (map Some (seq k m)) i = Some (Some p) ->
            nth_error (map Some (seq k m)) j = Some (Some q) -> p = k + i /\ q = k + j).
  { intros k m i j p q _ E1 E2. rewrite nth_error_map in E1, E2.
    destruct (nth_error (seq k m) i) eqn:N1; [|discriminate]. destruct (nth_error (seq k m) j) eqn:N2; [|discriminate].
    cbn in *. injection E1 as <-. injection E2 as <-.
    assert (I1 : i < m) by (rewrite <- (seq_length m k); apply nth_error_Some; congruence).
    assert (I2 : j < m) by (rewrite <- (seq_length m k); apply nth_error_Some; congruence).
    apply nth_error_nth with (d := 0) in N1, N2. rewrite seq_nth in N1, N2 by assumption. auto. }
  destruct (le_lt_dec n (h + t)) as [L|L]; [|destruct a].
  - rewrite shown_rows_all by auto. split; [|split].
    + intros p. rewrite in_map_iff. split.
      * intros (x & [= <-] & X). apply in_seq in X. lia.
      * intros [X _]. exists p. split; [reflexivity|]. apply in_seq. lia.
    + split; [intros X; apply in_map_iff in X; now destruct X|]. intros (p & P & X). destruct X.
      apply in_map_iff. exists p. split; [reflexivity|]. apply in_seq. lia.
    + intros i j p q IJ E1 E2. destruct (ASC _ _ _ _ _ _ IJ E1 E2). lia.
  - rewrite shown_rows_all by auto. split; [|split].
    + intros p. rewrite in_map_iff. split.
      * intros (x & [= <-] & X). apply in_seq in X. split; [lia|now left].
      * intros [X _]. exists p. split; [reflexivity|]. apply in_seq. lia.
    + split; [intros X; apply in_map_iff in X; now destruct X|]. intros (p & P & X). destruct X.
      apply in_map_iff. exists p. split; [reflexivity|]. apply in_seq. lia.
    + intros i j p q IJ E1 E2. destruct (ASC _ _ _ _ _ _ IJ E1 E2). lia.
  - rewrite shown_rows_some by exact L.
    assert (MEM : forall p, In (Some p) (map Some (seq 0 h) ++ [None] ++ map Some (seq (n - t) t)) <-> p < n /\ (false = true \/ p < h \/ n <= p + t)).
    { intros p. rewrite !in_app_iff, !in_map_iff. split.
      - intros [(x & [= <-] & X)|[[X|[]]|(x & [= <-] & X)]]; try discriminate; apply in_seq in X; lia.
      - intros [P [X|[X|X]]]; [discriminate| |].
        + left. exists p. split; [reflexivity|]. apply in_seq. lia.
        + right; right. exists p. split; [reflexivity|]. apply in_seq. lia. }
    split; [exact MEM|]. split.
    + split; [|intros _; rewrite !in_app_iff; right; left; now left].
      intros _. exists h. split; [lia|]. rewrite MEM. intros [_ [X|[X|X]]]; [discriminate|lia|lia].
    + intros i j p q IJ E1 E2.
      assert (LS : length (map (@Some nat) (seq 0 h)) = h) by now rewrite map_length, seq_length.
      destruct (le_lt_dec h i) as [Hi|Hi].
      * rewrite nth_error_app2 in E1, E2 by lia. rewrite LS in E1, E2.
        destruct (i - h) as [|i'] eqn:EI; [discriminate|]. destruct (j - h) as [|j'] eqn:EJ; [lia|].
        cbn in E1, E2. destruct (ASC _ _ _ _ _ _ (ltac:(lia) : i' < j') E1 E2). lia.
      * rewrite nth_error_app1 in E1 by lia.
        assert (P : p < h).
        { apply nth_error_In in E1. apply in_map_iff in E1. destruct E1 as (x & [= <-] & X). apply in_seq in X. lia. }
        destruct (le_lt_dec h j) as [Hj|Hj].
        -- apply nth_error_In in E2 as I2. rewrite nth_error_app2 in E2 by lia. rewrite LS in E2.
           destruct (j - h) as [|j'] eqn:EJ; [discriminate|]. cbn in E2. apply nth_error_In in E2.
           apply in_map_iff in E2. destruct E2 as (x & [= <-] & X). apply in_seq in X. lia.
        -- rewrite nth_error_app1 in E2 by lia. destruct (ASC _ _ _ _ _ _ IJ E1 E2). lia.
Qed.
Print Assumptions C198_positions.

(* A view of a Dataset that is not sorted is always shown. *)
Theorem C198_returns_partial :
  forall (V : Type) (fmt : V -> text) (num : nat -> text) (just : list V -> align) (o : opts) (ds : dset V),
  ok_dset ds -> (s_labels ds <> [] \/ ~ In hash (map cname (s_cols ds))) -> s_sort ds = None ->
  exists t ts, display fmt num just o ds = Some (t :: ts).
Proof.
  intros V fmt num just o ds OK NH NS.
  destruct (display_eq V fmt num just o ds OK NH) as (labels & ms & rs & LO & m0 & rb & PS & _ & EQ).
  rewrite EQ. unfold sort_names. rewrite NS. cbv zeta. cbn [length].
  destruct (o_colall o).
  - match goal with |- context [column_sets ?a ?b ?c ?d ?e ?f] => destruct (column_sets a b c d e f) as [|s ss] eqn:ES end.
    + exfalso. apply column_sets_ne in ES. exact ES.
    + cbn [hd map]. rewrite (proj2 (Nat.ltb_ge _ 0)) by lia. eexists _, _. reflexivity.
  - match goal with |- context [fit_max ?a ?b ?c ?d ?e ?f ?g ?h] => destruct (fit_max a b c d e f g h) as [x y] end.
    rewrite (proj2 (Nat.ltb_ge _ 0)) by lia. eexists _, _. reflexivity.
Qed.
Print Assumptions C198_returns_partial.

(* Finding: a sorted view of a Dataset whose sorted columns do not all fit the
   console cannot be shown: painting them indexes the shown columns by their
   number and raises IndexError.  Here three sorted columns of 40 letters. *)
Definition ds_wide : dset nat :=
  DS [Col cA [40] []; Col cB [40] []; Col cC [40] []] [] [] (Some [cA; cB; cC]) (Some [0]) 1 [].
Theorem C198_sorted_refuted :
  ok_dset ds_wide /\ ~ In hash (map cname (s_cols ds_wide)) /\ display wr wr rt std ds_wide = None.
Proof.
  split; [solve_ok|]. split; [cbn; intuition discriminate|]. vm_compute. reflexivity.
Qed.
Print Assumptions C198_sorted_refuted.

Example C198_case :
  ok_dset ds1 /\
  exists t, display wr wr rt std ds1 = Some [t] /\
    t_head t = [hash; cB; cA; cC] /\
    t_rows t = [[[52]; [48]; [57]; [57]]; [[48]; [49]; [53]; [57]]; [dots; dots; dots; dots]; [[51]; [52]; [56]; [57]]].
Proof.
  split; [solve_ok|]. eexists. split; [vm_compute; reflexivity|]. split; vm_compute; reflexivity.
Qed.

(* C199.  The columns of the table: the labels (or the row numbers), the middle
   columns, the summary columns.  If the left and summary columns leave room,
   the middle columns are all shown or a first part, the dots and a last part,
   all of them exactly if they fit. *)
Theorem C199_columns_partial :
  forall (V : Type) (fmt : V -> text) (num : nat -> text) (just : list V -> align) (o : opts) (ds : dset V)
         (ts : list table),
  ok_dset ds -> (s_labels ds <> [] \/ ~ In hash (map cname (s_cols ds))) -> o_colall o = false ->
  display fmt num just o ds = Some ts ->
  exists (labels ms rs : list (column V)) (M : list (shown V)) (t : table),
    ts = [t] /\ laid_out ds labels ms rs /\
    t_head t = map heading (left_cols (o_prefix o) (s_foots ds) labels ++ M ++ plain rs) /\
    let w := width fmt num (row_of ds) (positions o ds) in
    let side := total (map w (left_cols (o_prefix o) (s_foots ds) labels)) + total (map w (plain rs)) in
    (side <= o_console o ->
     exists hidden, abridged ms (repeat dots (length (s_foots ds))) hidden M /\
       (hidden = false <-> side + total (map (fun s => w s + o_pad o) (plain ms)) <= o_console o)).
Proof.
  intros V fmt num just o ds ts OK NH CA D.
  destruct (display_eq V fmt num just o ds OK NH) as (labels & ms & rs & LO & m0 & rb & PS & _ & EQ).
  rewrite EQ in D. clear EQ. cbv zeta in D. rewrite CA in D.
  destruct (fit_shown V fmt num just (row_of ds) m0 rb (o_pad o) (o_console o)
       (total (map (width fmt num (row_of ds) (positions o ds)) (left_cols (o_prefix o) (s_foots ds) labels)) +
        total (map (width fmt num (row_of ds) (positions o ds)) (plain rs))) (length (s_foots ds)) ms)
      as (M & a & b & F & AB & CASES). rewrite <- PS in *. rewrite F in D.
  match type of D with (if ?b then _ else _) = _ => destruct b; [discriminate|] end. injection D as <-.
  exists labels, ms, rs, M. eexists. split; [reflexivity|]. split; [exact LO|]. split.
  - unfold make_table. cbn [t_head]. rewrite AB, !map_app, hide1_head, !map_map. reflexivity.
  - cbv zeta. intros SI. destruct CASES as [[X _]|(_ & hidden & A1 & A2 & _)]; [lia|]. exists hidden. auto.
Qed.
Print Assumptions C199_columns_partial.

(* When no sorted column is a label or a summary column too, the columns of the
   layout are exactly the columns of the Dataset, each once. *)
Theorem C199_once_partial :
  forall (V : Type) (ds : dset V) (labels ms rs : list (column V)),
  ok_dset ds -> laid_out ds labels ms rs ->
  NoDup (s_labels ds ++ s_summary ds ++ sort_names ds) ->
  NoDup (map cname (labels ++ ms ++ rs)) /\
  (forall n, In n (map cname (labels ++ ms ++ rs)) <-> In n (map cname (s_cols ds))).
Proof.
  intros V ds labels ms rs OK (INC & NL & NR & NM) ND. destruct OK as [O1 _ O3 _].
  set (names := map cname (s_cols ds)) in *.
  assert (EQ : map cname (labels ++ ms ++ rs) = s_labels ds ++ (sort_names ds ++
     filter (fun n => negb (mem n (s_labels ds)) && negb (mem n (s_summary ds)) && negb (mem n (sort_names ds))) names) ++ s_summary ds).
  { rewrite !map_app, NL, NR, NM. reflexivity. }
  rewrite EQ. clear EQ. set (rest := filter _ names).
  assert (R : forall n, In n rest <-> In n names /\ ~ In n (s_labels ds) /\ ~ In n (s_summary ds) /\ ~ In n (sort_names ds)).
  { intros n. unfold rest. rewrite filter_In, !andb_true_iff, !negb_true_iff, !mem_not. tauto. }
  split.
  - apply NoDup_incl_NoDup with (l := (s_labels ds ++ s_summary ds ++ sort_names ds) ++ rest).
    + assert (ND2 : NoDup rest) by (apply NoDup_filter; exact O1).
      clear -ND ND2 R. set (k := s_labels ds ++ s_summary ds ++ sort_names ds) in *.
      assert (D : forall x, In x k -> ~ In x rest).
      { intros x X Y. apply R in Y. unfold k in X. rewrite !in_app_iff in X. tauto. }
      clearbody k. clear R. induction ND as [|x k NX ND IH]; [exact ND2|]. cbn. constructor.
      * rewrite in_app_iff. intros [Y|Y]; [easy|]. apply (D x); [now left|exact Y].
      * apply IH. intros y Y. apply D. now right.
    + rewrite !app_length. lia.
    + intros x X. rewrite !in_app_iff in *. tauto.
  - intros n. rewrite !in_app_iff, R. split.
    + intros [X|[[X|X]|X]]; [apply O3; rewrite !in_app_iff; auto| apply O3; rewrite !in_app_iff; auto|tauto|apply O3; rewrite !in_app_iff; auto].
    + intros X. destruct (mem n (s_labels ds)) eqn:E1; [apply mem_in in E1; auto|].
      destruct (mem n (s_summary ds)) eqn:E2; [apply mem_in in E2; auto|].
      destruct (mem n (sort_names ds)) eqn:E3; [apply mem_in in E3; auto|].
      apply mem_not in E1, E2, E3. tauto.
Qed.
Print Assumptions C199_once_partial.

(* Finding: when the label columns alone are wider than the console, no other
   column is shown and there are no dots to tell. *)
Definition ds_label : dset nat := DS [Col cA [81] []; Col cB [1] []] [cA] [] None None 1 [].
Theorem C199_no_dots_refuted :
  ok_dset ds_label /\ exists t, display wr wr rt std ds_label = Some [t] /\ t_head t = [[42; 65]].
Proof. split; [solve_ok|]. eexists. split; [vm_compute; reflexivity|]. vm_compute. reflexivity. Qed.
Print Assumptions C199_no_dots_refuted.

(* Finding: a view sorted by a label column shows that column twice. *)
Definition ds_twice : dset nat := DS [Col cA [2; 1] []; Col cB [3; 4] []] [cA] [] (Some [cA]) (Some [1; 0]) 2 [].
Theorem C199_twice_refuted :
  ok_dset ds_twice /\ exists t, display wr wr rt std ds_twice = Some [t] /\ t_head t = [[42; 65]; cA; cB].
Proof. split; [solve_ok|]. eexists. split; [vm_compute; reflexivity|]. vm_compute. reflexivity. Qed.
Print Assumptions C199_twice_refuted.

(* Finding: a column named # is never shown in a Dataset without labels. *)
Definition ds_hash : dset nat := DS [Col hash [7] []; Col cB [3] []] [] [] None None 1 [].
Theorem C199_hash_refuted :
  ok_dset ds_hash /\ exists t, display wr wr rt std ds_hash = Some [t] /\
    t_head t = [hash; cB] /\ t_rows t = [[[48]; [51]]].
Proof. split; [solve_ok|]. eexists. split; [vm_compute; reflexivity|]. split; vm_compute; reflexivity. Qed.
Print Assumptions C199_hash_refuted.

Definition ds_cut : dset nat :=
  DS [Col cA [20] []; Col cB [20] []; Col cC [20] []; Col [68] [20] []; Col [69] [20] []] [] [] None None 1 [].
Example C199_case :
  ok_dset ds_cut /\ exists t, display wr wr rt std ds_cut = Some [t] /\ t_head t = [hash; cA; cB; dots; [69]].
Proof. split; [solve_ok|]. eexists. split; [vm_compute; reflexivity|]. vm_compute. reflexivity. Qed.

(* C200.  The footer lines of the table are under the columns they belong to:
   line j has the j-th footer of every shown column, with the name of the line
   under the last label (or the row numbers). *)
Theorem C200_footers :
  forall (V : Type) (fmt : V -> text) (num : nat -> text) (just : list V -> align) (o : opts) (ds : dset V)
         (ts : list table),
  ok_dset ds -> (s_labels ds <> [] \/ ~ In hash (map cname (s_cols ds))) -> o_colall o = false ->
  display fmt num just o ds = Some ts ->
  exists (labels ms rs : list (column V)) (M : list (shown V)) (t : table),
    ts = [t] /\ laid_out ds labels ms rs /\
    let cols := left_cols (o_prefix o) (s_foots ds) labels ++ M ++ plain rs in
    t_head t = map heading cols /\
    t_foot t = map (fun j => map (fun s => nth j (footing s) []) cols) (seq 0 (length (s_foots ds))) /\
    (forall s, In s M -> s = SDots (repeat dots (length (s_foots ds))) \/ exists c, In c ms /\ s = SCol (cname c) c).
Proof.
  intros V fmt num just o ds ts OK NH CA D.
  destruct (display_eq V fmt num just o ds OK NH) as (labels & ms & rs & LO & m0 & rb & PS & _ & EQ).
  rewrite EQ in D. clear EQ. cbv zeta in D. rewrite CA in D.
  destruct (fit_shown V fmt num just (row_of ds) m0 rb (o_pad o) (o_console o)
       (total (map (width fmt num (row_of ds) (positions o ds)) (left_cols (o_prefix o) (s_foots ds) labels)) +
        total (map (width fmt num (row_of ds) (positions o ds)) (plain rs))) (length (s_foots ds)) ms)
      as (M & a & b & F & AB & CASES). rewrite <- PS in *. rewrite F in D.
  match type of D with (if ?b then _ else _) = _ => destruct b; [discriminate|] end. injection D as <-.
  exists labels, ms, rs, M. eexists. split; [reflexivity|]. split; [exact LO|]. cbv zeta.
  assert (MM : forall s, In s M -> s = SDots (repeat dots (length (s_foots ds))) \/ exists c, In c ms /\ s = SCol (cname c) c).
  { intros q Q. destruct CASES as [[_ ->]|(_ & hidden & (pre & hid & suf & E1 & -> & _) & _)]; [easy|].
    rewrite !in_app_iff in Q. destruct Q as [Q|[Q|Q]].
    - right. apply in_map_iff in Q. destruct Q as (c & <- & Q). exists c. split; [rewrite E1, !in_app_iff; auto|reflexivity].
    - left. destruct hidden; [|easy]. now destruct Q as [<-|[]].
    - right. apply in_map_iff in Q. destruct Q as (c & <- & Q). exists c. split; [rewrite E1, !in_app_iff; auto|reflexivity]. }
  split; [|split; [|exact MM]].
  - unfold make_table. cbn [t_head]. rewrite AB, !map_app, hide1_head, !map_map. reflexivity.
  - unfold make_table. cbn [t_foot]. unfold has_foots. destruct (s_foots ds) as [|f0 fs] eqn:EF; [reflexivity|]. rewrite <- EF in *.
    rewrite AB, !map_app, hide1_foot, !map_map. cbn [mk new_col d_foot].
    set (cols := left_cols (o_prefix o) (s_foots ds) labels ++ M ++ plain rs).
    replace (map (fun x => footing x) (left_cols (o_prefix o) (s_foots ds) labels) ++ map (fun x => footing x) M
             ++ map (fun x => footing x) (plain rs)) with (map (fun x : shown V => footing x) cols) by (unfold cols; now rewrite !map_app).
    rewrite foot_rows with (n := length (s_foots ds)).
    + apply map_ext. intros j. now rewrite map_map.
    + unfold cols, left_cols. destruct labels as [|x [|y l]]; discriminate.
    + intros c X. apply in_map_iff in X. destruct X as (s & <- & X). unfold cols in X. rewrite !in_app_iff in X.
      destruct LO as (INC & _). destruct OK as [_ O2 _ _].
      assert (CF : forall c, In c (labels ++ ms ++ rs) -> length (cfoot c) = length (s_foots ds)) by (intros; apply O2, INC; assumption).
      destruct X as [X|[X|X]].
      * unfold left_cols in X. destruct labels as [|c0 l0]; [destruct X as [<-|[]]; reflexivity|].
        apply In_nth_error in X. destruct X as (i & X).
        destruct (nth_error (c0 :: l0) i) as [c|] eqn:EC.
        -- rewrite (label_cols_nth _ _ _ _ _ _ EC) in X. injection X as <-. cbn [footing cfoot].
           match goal with |- length (if ?b then _ else _) = _ => destruct b end; [reflexivity|apply map_length].
        -- apply nth_error_None in EC. rewrite <- (label_cols_length V (o_prefix o) (s_foots ds)) in EC.
           apply nth_error_None in EC. congruence.
      * destruct (MM s X) as [->|(c & C1 & ->)]; [cbn; apply repeat_length|]. apply CF. rewrite !in_app_iff. auto.
      * apply in_map_iff in X. destruct X as (c & <- & X). apply CF. rewrite !in_app_iff. auto.
Qed.
Print Assumptions C200_footers.

(* Finding: with COL_ALL the console table has no footers. *)
Definition all_cols : opts := Opts 2 1 false true 4 80 [42].
Theorem C200_col_all_refuted :
  s_foots ds1 = [[84; 111; 116]] /\
  exists t, display wr wr rt all_cols ds1 = Some [t] /\ t_head t = [hash; cB; cA; cC] /\ t_foot t = [].
Proof. split; [reflexivity|]. eexists. split; [vm_compute; reflexivity|]. split; vm_compute; reflexivity. Qed.
Print Assumptions C200_col_all_refuted.

Example C200_case :
  exists t, display wr wr rt std ds1 = Some [t] /\ t_foot t = [[[84; 111; 116]; [84]; []; []]].
Proof. eexists. split; [vm_compute; reflexivity|]. vm_compute. reflexivity. Qed.
