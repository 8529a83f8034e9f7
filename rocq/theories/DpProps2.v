(* C201-C205: the lines of the text display, all columns in sets, the headings
   of a Multiset, the transposed table and repeated keys. *)
From Coq Require Import List Arith Bool PeanoNat Lia.
From Verif Require Import DpSpec DpModel DpSpec2 DpProofs DpProofs2 DpProofs3 DpProofs4 DpProofs5 DpProps.
Import ListNotations.

(* ---- lines ---- *)
Section Lines.
  Variable V : Type.
  Variable fmt : V -> text.
  Variable num : nat -> text.
  Variable just : list V -> align.
  Notation mk := (mk fmt num just).

  Lemma mk_cell_width g ps s x : In x (d_head (mk g ps s) :: d_cells (mk g ps s) ++ d_foot (mk g ps s)) ->
    length x <= d_width (mk g ps s).
  Proof. intros H. rewrite mk_width. unfold width. apply widest_in. exact H. Qed.

  Lemma hide_after_in x prev l : In x (hide_after prev l) -> x = dot \/ In x l.
  Proof. revert prev. induction l as [|y r IH]; intros prev; cbn; [easy|]. intros [<-|H].
    - destruct (text_eqb y prev); auto.
    - destruct (IH _ H); auto. Qed.

  (* the columns of a table, with the cells narrower than the columns *)
  Definition fits (c : dcol) : Prop :=
    forall x, In x (d_head c :: d_cells c ++ d_foot c) -> length x <= d_width c.

  Lemma make_table_lines foots l m r N F :
    (forall c, In c (l ++ m ++ r) -> fits c /\ length (d_cells c) = N /\ (foots = true -> length (d_foot c) = F)) -> l <> [] ->
    forall s, In s (lines (make_table foots l m r)) ->
    length s = total (map d_width (l ++ m ++ r)) + 3 * (length (l ++ m ++ r) - 1).
  Proof.
    intros H NE s HI. unfold lines, make_table in HI. cbn [t_head t_rows t_foot t_cols] in HI.
    set (cs := l ++ m ++ r) in *.
    cbn [app] in HI. destruct HI as [<-|[<-|HI]].
    - apply line_length; [now rewrite map_length|]. intros i c x E1 E2.
      rewrite nth_error_map, E1 in E2. injection E2 as <-. apply (H c); [eapply nth_error_In; eauto|]. now left.
    - apply border_length.
    - apply in_app_iff in HI. destruct HI as [HI|HI].
      + apply in_map_iff in HI. destruct HI as (row & <- & HR).
        rewrite side_ok with (n := N) in HR by (try exact NE; intros c C; apply (H c C)).
        apply in_map_iff in HR. destruct HR as (j & <- & HJ). apply in_seq in HJ.
        apply line_length; [unfold row_at; now rewrite map_length|]. intros i c x E1 E2.
        unfold row_at in E2. fold cs in E2. rewrite nth_error_map, E1 in E2. injection E2 as <-.
        apply nth_error_In in E1. apply (H c E1). right. apply in_or_app. left. apply nth_In.
        destruct (H c E1) as (_ & -> & _). lia.
      + destruct foots; [|easy].
        assert (CE : cs <> []) by (unfold cs; destruct l; easy).
        rewrite foot_rows with (n := F) in HI.
        2:{ destruct cs; [easy|discriminate]. }
        2:{ intros c C. apply in_map_iff in C. destruct C as (d & <- & C). now apply (H d). }
        set (fr := map (fun j => map (fun c => nth j c []) (map d_foot cs)) (seq 0 F)) in *.
        assert (HI' : s = border cs \/ In s (map (line (fun _ => ARight) cs) fr)).
        { destruct fr; [easy|]. destruct HI as [<-|HI]; auto. }
        clear HI. destruct HI' as [->|HI]; [apply border_length|].
        apply in_map_iff in HI. destruct HI as (row & <- & HR). unfold fr in HR. apply in_map_iff in HR.
        destruct HR as (j & <- & HJ). apply in_seq in HJ. rewrite map_map.
        apply line_length; [now rewrite map_length|]. intros i c x E1 E2.
        rewrite nth_error_map, E1 in E2. injection E2 as <-. apply nth_error_In in E1. apply (H c E1).
        right. apply in_or_app. right. apply nth_In. assert (FL := proj2 (proj2 (H c E1)) eq_refl). unfold text in *. lia.
  Qed.

  Lemma hide1_fits g ps nl prefix foots labels c :
    prefix <> [] -> In c (hide1 nl (map (mk g ps) (left_cols (V := V) prefix foots labels))) -> (nl = length labels) ->
    fits c /\ length (d_cells c) = length ps.
  Proof.
    intros PX HI NL. unfold hide1 in HI. destruct (1 <? nl) eqn:E.
    2:{ apply in_map_iff in HI. destruct HI as (s & <- & _). split; [|apply mk_cells_length]. intros x X. now apply mk_cell_width. }
    apply Nat.ltb_lt in E. destruct labels as [|a [|b l]]; cbn in NL; try lia.
    cbn [left_cols label_cols map fix_repeated] in HI. destruct HI as [<-|HI].
    - split.
      + intros x X. cbn [d_head d_cells d_foot d_width] in *. 
        set (s := SCol (prefix ++ cname a) _) in *.
        assert (W1 : 1 <= d_width (mk g ps s)).
        { transitivity (length (prefix ++ cname a)); [destruct prefix; [easy|cbn; lia]|]. apply mk_cell_width. now left. }
        assert (X' : x = dot \/ In x (d_head (mk g ps s) :: d_cells (mk g ps s) ++ d_foot (mk g ps s))).
        { destruct X as [X|X]; [right; now left|]. apply in_app_iff in X. destruct X as [X|X].
          - destruct (d_cells (mk g ps s)) as [|y ys]; [easy|]. destruct X as [X|X].
            + right. right. now left.
            + rewrite hide_from_after in X. apply hide_after_in in X. destruct X as [X|X]; [now left|].
              right. right. apply in_or_app. left. now right.
          - right. right. apply in_or_app. now right. }
        destruct X' as [->|X']; [exact W1|]. now apply mk_cell_width.
      + cbn [d_cells]. set (s := SCol (prefix ++ cname a) _). rewrite <- (mk_cells_length V fmt num just g ps s).
        destruct (d_cells (mk g ps s)) as [|y ys]; [reflexivity|]. cbn [length]. now rewrite hide_from_after, hide_after_length.
    - apply in_map_iff in HI. destruct HI as (s & <- & _). split; [|apply mk_cells_length]. intros x X. now apply mk_cell_width.
  Qed.
End Lines.

(* C201.  All lines of a table have the same length, that of its columns with
   three spaces between them, so that columns stand under each other; and if one
   column stands on the left, none on the right and nothing is left out, the
   lines are not longer than the console is wide.  (GB_PREFIX is not empty,
   X_PADDING at least 3.)  The general bound is given too. *)
Theorem C201_lines :
  forall (V : Type) (fmt : V -> text) (num : nat -> text) (just : list V -> align) (o : opts) (ds : dset V)
         (ts : list table),
  ok_dset ds -> (s_labels ds <> [] \/ ~ In hash (map cname (s_cols ds))) -> o_colall o = false -> o_prefix o <> [] ->
  display fmt num just o ds = Some ts ->
  exists (labels ms rs : list (column V)) (M : list (shown V)) (t : table),
    ts = [t] /\ laid_out ds labels ms rs /\
    let cols := left_cols (o_prefix o) (s_foots ds) labels ++ M ++ plain rs in
    t_head t = map heading cols /\
    (forall s, In s (lines t) ->
       length s = total (map (width fmt num (row_of ds) (positions o ds)) cols) + 3 * (length cols - 1)) /\
    (3 <= o_pad o -> M <> [] -> forall s, In s (lines t) ->
       length s <= o_console o + 3 * (length (left_cols (o_prefix o) (s_foots ds) labels) + length rs - 1)
                   + (if existsb (fun x => match x with SDots _ => true | _ => false end) M then 6 else 0)).
Proof.
  intros V fmt num just o ds ts OK NH CA PX D.
  destruct (display_eq V fmt num just o ds OK NH) as (labels & ms & rs & LO & m0 & rb & PS & _ & EQ).
  rewrite EQ in D. clear EQ. cbv zeta in D. rewrite CA in D.
  destruct (fit_shown V fmt num just (row_of ds) m0 rb (o_pad o) (o_console o)
       (total (map (width fmt num (row_of ds) (positions o ds)) (left_cols (o_prefix o) (s_foots ds) labels)) +
        total (map (width fmt num (row_of ds) (positions o ds)) (plain rs))) (length (s_foots ds)) ms)
      as (M & a & b & F & AB & CASES). rewrite <- PS in *. rewrite F in D.
  match type of D with (if ?b then _ else _) = _ => destruct b; [discriminate|] end. injection D as <-.
  exists labels, ms, rs, M. eexists. split; [reflexivity|]. split; [exact LO|]. cbv zeta. rewrite AB.
  set (g := row_of ds) in *. set (ps := positions o ds) in *.
  set (L := left_cols (o_prefix o) (s_foots ds) labels) in *.
  set (nl := length (s_labels ds)) in *.
  assert (NL : nl = length labels).
  { destruct LO as (_ & E & _). unfold nl. rewrite <- E. apply map_length. }
  assert (LN : hide1 nl (map (mk fmt num just g ps) L) <> []).
  { intros X. apply hide1_nil in X. unfold L, left_cols in X. destruct labels as [|x [|y l]]; discriminate. }
  assert (WD : map d_width (hide1 nl (map (mk fmt num just g ps) L) ++ map (mk fmt num just g ps) M ++ map (mk fmt num just g ps) (plain rs))
               = map (width fmt num g ps) (L ++ M ++ plain rs)).
  { rewrite !map_app, hide1_width, !mk_widths. reflexivity. }
  assert (MM : forall s, In s M -> s = SDots (repeat dots (length (s_foots ds))) \/ exists c, In c ms /\ s = SCol (cname c) c).
  { intros q Q. destruct CASES as [[_ ->]|(_ & hidden & (pre & hid & suf & E1 & -> & _) & _)]; [easy|].
    rewrite !in_app_iff in Q. destruct Q as [Q|[Q|Q]].
    - right. apply in_map_iff in Q. destruct Q as (c & <- & Q). exists c. split; [rewrite E1, !in_app_iff; auto|reflexivity].
    - left. destruct hidden; [|easy]. now destruct Q as [<-|[]].
    - right. apply in_map_iff in Q. destruct Q as (c & <- & Q). exists c. split; [rewrite E1, !in_app_iff; auto|reflexivity]. }
  assert (CF : forall c, In c (labels ++ ms ++ rs) -> length (cfoot c) = length (s_foots ds)).
  { intros c C. destruct LO as (INC & _). destruct OK as [_ O2 _ _]. apply O2, INC, C. }
  assert (LINES : forall s, In s (lines (make_table (has_foots V ds) (hide1 nl (map (mk fmt num just g ps) L))
             (map (mk fmt num just g ps) M) (map (mk fmt num just g ps) (plain rs)))) ->
       length s = total (map (width fmt num g ps) (L ++ M ++ plain rs)) + 3 * (length (L ++ M ++ plain rs) - 1)).
  { intros s HS. rewrite <- WD.
    replace (length (L ++ M ++ plain rs)) with
      (length (hide1 nl (map (mk fmt num just g ps) L) ++ map (mk fmt num just g ps) M ++ map (mk fmt num just g ps) (plain rs))).
    2:{ rewrite <- (map_length d_width), WD. apply map_length. }
    eapply make_table_lines with (N := length ps) (F := length (s_foots ds)); [|exact LN|exact HS].
    assert (MKF : forall ss c, In c (map (mk fmt num just g ps) ss) -> fits c /\ length (d_cells c) = length ps).
    { intros ss c X. apply in_map_iff in X. destruct X as (q & <- & _). split; [|apply mk_cells_length]. intros x X. now apply mk_cell_width. }
    intros c C. rewrite !in_app_iff in C.
    assert (A : fits c /\ length (d_cells c) = length ps).
    { destruct C as [C|[C|C]]; [|eapply MKF; eauto|eapply MKF; eauto]. eapply hide1_fits; eauto. }
    destruct A as [A1 A2]. split; [exact A1|]. split; [exact A2|]. intros _.
    destruct C as [C|[C|C]].
    - assert (IN : In (d_foot c) (map (fun x : shown V => footing x) L)).
      { replace (map (fun x : shown V => footing x) L) with (map d_foot (hide1 nl (map (mk fmt num just g ps) L)));
          [now apply in_map|]. rewrite hide1_foot, map_map. reflexivity. }
      apply in_map_iff in IN. destruct IN as (s' & <- & X). unfold L, left_cols in X.
      destruct labels as [|c0 l0]; [destruct X as [<-|[]]; reflexivity|].
      apply In_nth_error in X. destruct X as (i & X).
      destruct (nth_error (c0 :: l0) i) as [c'|] eqn:EC.
      + rewrite (label_cols_nth _ _ _ _ _ _ EC) in X. injection X as <-. cbn [footing cfoot].
        match goal with |- length (if ?b then _ else _) = _ => destruct b end; [reflexivity|apply map_length].
      + apply nth_error_None in EC. rewrite <- (label_cols_length V (o_prefix o) (s_foots ds)) in EC.
        apply nth_error_None in EC. congruence.
    - apply in_map_iff in C. destruct C as (s' & <- & X). cbn [mk new_col d_foot].
      destruct (MM s' X) as [->|(c & C1 & ->)]; [cbn; apply repeat_length|]. apply CF. rewrite !in_app_iff. auto.
    - apply in_map_iff in C. destruct C as (s' & <- & X). cbn [mk new_col d_foot].
      apply in_map_iff in X. destruct X as (c & <- & X). apply CF. rewrite !in_app_iff. auto. }
  split; [|split; [exact LINES|]].
  - unfold make_table. cbn [t_head]. rewrite !map_app, hide1_head, !map_map. reflexivity.
  - intros P3 MNE s HS. rewrite (LINES s HS). clear LINES HS s.
    destruct CASES as [[_ X]|(_ & hidden & (pre & hid & suf & _ & EM & _) & _ & T)]; [easy|].
    assert (DOTW : width fmt num g ps (SDots (repeat dots (length (s_foots ds)))) = 3).
    { unfold width. rewrite widest_cons, widest_app. cbn [heading footing].
      assert (K : forall l : list text, (forall x, In x l -> x = dots) -> widest l <= 3).
      { induction l as [|y l IH]; intros H; [cbn; lia|]. rewrite widest_cons. rewrite (H y) by now left.
        specialize (IH ltac:(intros; apply H; now right)). change (length dots) with 3. lia. }
      assert (K1 := K (map (cell fmt num g (SDots (V := V) (repeat dots (length (s_foots ds))))) ps)).
      assert (K2 := K (repeat dots (length (s_foots ds)))).
      change (length dots) with 3.
      assert (H1 : widest (map (cell fmt num g (SDots (V := V) (repeat dots (length (s_foots ds))))) ps) <= 3).
      { apply K1. intros x X. apply in_map_iff in X. destruct X as (q & <- & _). now destruct q. }
      assert (H2 : widest (repeat dots (length (s_foots ds))) <= 3) by (apply K2; intros x X; now apply repeat_spec in X).
      lia. }
    assert (LA : total (map (fun s => width fmt num g ps s + o_pad o) (filter (unhidden V) M))
                 >= total (map (width fmt num g ps) (filter (unhidden V) M)) + 3 * length (filter (unhidden V) M)).
    { generalize (filter (unhidden V) M). induction l as [|x l IH]; [cbn; lia|]. unfold total in *. cbn [map fold_right length]. lia. }
    assert (HM : total (map (width fmt num g ps) M) = total (map (width fmt num g ps) (filter (unhidden V) M)) + (if hidden then 3 else 0)
                 /\ length M = length (filter (unhidden V) M) + (if hidden then 1 else 0)
                 /\ existsb (fun x => negb (unhidden V x)) M = hidden).
    { rewrite EM. rewrite !filter_app, !existsb_app.
      fold (plain pre). fold (plain suf). rewrite !plain_unhidden.
      assert (EX : forall q, existsb (fun x => negb (unhidden V x)) (plain q) = false).
      { intros q. apply not_true_iff_false. intros X. apply existsb_exists in X. destruct X as (x & X & Y).
        apply in_map_iff in X. destruct X as (c & <- & _). discriminate. }
      rewrite !EX. cbn [orb]. destruct hidden; cbn [filter unhidden existsb negb orb app].
      - rewrite !map_app, !total_app, !app_length. cbn [map length total fold_right]. rewrite DOTW. unfold total. split; [lia|]. split; [lia|reflexivity].
      - rewrite !map_app, !total_app, !app_length. split; [lia|]. split; [lia|reflexivity]. }
    destruct HM as (H1 & H2 & H3).
    replace (existsb (fun x : shown V => match x with SDots _ => true | _ => false end) M) with hidden.
    2:{ rewrite <- H3. clear. induction M as [|x M IH]; [reflexivity|]. cbn [existsb]. rewrite IH. now destruct x. } rewrite !map_app, !total_app, !app_length.
    unfold plain at 2. rewrite map_length.
    assert (LL : 1 <= length L) by (unfold L, left_cols; destruct labels as [|x [|y l]]; cbn; lia).
    destruct hidden; lia.
Qed.
Print Assumptions C201_lines.

(* Finding: the column of dots is not counted when the columns are fitted: with
   one column of 71 letters and another left out, the lines are 81 long on a
   console of 80. *)
Definition ds_long : dset nat := DS [Col cA [71] []; Col cB [71] []] [] [] None None 1 [].
Theorem C201_dots_refuted :
  ok_dset ds_long /\ exists t, display wr wr rt std ds_long = Some [t] /\
    t_head t = [hash; cA; dots] /\ map (@length nat) (lines t) = [81; 81; 81].
Proof. split; [solve_ok|]. eexists. split; [vm_compute; reflexivity|]. split; vm_compute; reflexivity. Qed.
Print Assumptions C201_dots_refuted.

(* Finding: the spaces between several label columns are not counted either. *)
Definition ds_long2 : dset nat :=
  DS [Col cA [30] []; Col cB [30] []; Col cC [16] []] [cA; cB] [] None None 1 [].
Theorem C201_labels_refuted :
  ok_dset ds_long2 /\ exists t, display wr wr rt std ds_long2 = Some [t] /\
    t_head t = [[42; 65]; [42; 66]; cC] /\ map (@length nat) (lines t) = [82; 82; 82].
Proof. split; [solve_ok|]. eexists. split; [vm_compute; reflexivity|]. split; vm_compute; reflexivity. Qed.
Print Assumptions C201_labels_refuted.

Example C201_case :
  exists t, display wr wr rt std ds1 = Some [t] /\ map (@length nat) (lines t) = repeat 21 8.
Proof. eexists. split; [vm_compute; reflexivity|]. vm_compute. reflexivity. Qed.

(* C202.  When all columns are asked for (COL_ALL), the console shows several
   tables one below the other: together they have the middle columns in order,
   each once, every table has the left and summary columns, and a table with
   more than one middle column is fitted like a single one. *)
Theorem C202_sets :
  forall (V : Type) (fmt : V -> text) (num : nat -> text) (just : list V -> align) (o : opts) (ds : dset V)
         (ts : list table),
  ok_dset ds -> (s_labels ds <> [] \/ ~ In hash (map cname (s_cols ds))) -> o_colall o = true ->
  display fmt num just o ds = Some ts ->
  exists (labels ms rs : list (column V)) (Ms : list (list (column V))),
    laid_out ds labels ms rs /\ concat Ms = ms /\
    map t_head ts = map (fun M => map heading (left_cols (o_prefix o) (s_foots ds) labels) ++ map cname M ++ map cname rs) Ms /\
    (forall M, In M (tl Ms) -> M <> []) /\
    (forall M, In M Ms -> 2 <= length M ->
       let w := width fmt num (row_of ds) (positions o ds) in
       total (map w (left_cols (o_prefix o) (s_foots ds) labels)) + total (map w (plain rs))
       + total (map (fun c => w (SCol (cname c) (Col (cname c) (cvals c) [])) + o_pad o) M) <= o_console o).
Proof.
  intros V fmt num just o ds ts OK NH CA D.
  destruct (display_eq V fmt num just o ds OK NH) as (labels & ms & rs & LO & m0 & rb & PS & _ & EQ).
  rewrite EQ in D. clear EQ. cbv zeta in D. rewrite CA in D.
  match type of D with (if ?b then _ else _) = _ => destruct b; [discriminate|] end. injection D as <-.
  match goal with |- context [column_sets ?p ?c ?off _ [] ?cols] =>
    destruct (column_sets_spec p c off cols off []) as (C & NE & FT & _); [cbn; lia|cbn; lia|];
    set (sets := column_sets p c off off [] cols) in * end.
  cbn [app] in C.
  set (f := fun c => mk fmt num just (row_of ds) (positions o ds) (SCol (cname c) (Col (cname c) (cvals c) []))).
  assert (C' : concat sets = map f ms) by (rewrite C; unfold no_foot; now rewrite map_map).
  assert (SP : exists Ms, map (map f) Ms = sets /\ concat Ms = ms).
  { clear - C'. clearbody sets f. clear -C'. revert ms C'. induction sets as [|s ss IH]; intros ms C'.
    - destruct ms; [|discriminate]. now exists [].
    - cbn in C'. symmetry in C'. apply map_eq_app in C'. destruct C' as (x & y & -> & E1 & E2).
      destruct (IH y (eq_sym E2)) as (Ms & E3 & E4). exists (x :: Ms). cbn. now rewrite E1, E3, E4. }
  destruct SP as (Ms & E1 & E2). exists labels, ms, rs, Ms. split; [exact LO|]. split; [exact E2|].
  split; [|split].
  - rewrite <- E1, !map_map. apply map_ext. intros M. unfold make_table. cbn [t_head].
    rewrite !map_app, hide1_head, !map_map. unfold plain. rewrite !map_map. reflexivity.
  - intros M X. assert (Y : In (map f M) (tl sets)) by (rewrite <- E1; destruct Ms; [easy|]; cbn in *; now apply in_map).
    apply NE in Y. destruct M; [now destruct Y|discriminate].
  - intros M X L. cbv zeta. assert (Y : In (map f M) sets) by (rewrite <- E1; now apply in_map).
    specialize (FT _ Y). rewrite map_length in FT. specialize (FT L).
    rewrite map_map in FT.
    replace (map (fun c => width fmt num (row_of ds) (positions o ds) (SCol (cname c) (Col (cname c) (cvals c) [])) + o_pad o) M)
      with (map (fun x => dw (o_pad o) (f x)) M); [exact FT|].
    apply map_ext. intros c. unfold dw, f. now rewrite mk_width.
Qed.
Print Assumptions C202_sets.

(* Finding: if the first middle column is wider than the console, the first of
   the tables has no middle column at all. *)
Definition ds_first : dset nat := DS [Col cA [90] []] [] [] None None 1 [].
Theorem C202_empty_refuted :
  ok_dset ds_first /\
  exists t1 t2, display wr wr rt all_cols ds_first = Some [t1; t2] /\
    t_head t1 = [hash] /\ t_head t2 = [hash; cA].
Proof.
  split; [solve_ok|]. eexists _, _. split; [vm_compute; reflexivity|]. split; vm_compute; reflexivity.
Qed.
Print Assumptions C202_empty_refuted.

Example C202_case :
  exists t1 t2, display wr wr rt all_cols ds_cut = Some [t1; t2] /\
    t_head t1 = [hash; cA; cB; cC] /\ t_head t2 = [hash; [68]; [69]].
Proof. eexists _, _. split; [vm_compute; reflexivity|]. split; vm_compute; reflexivity. Qed.

(* C203.  A Multiset is shown with two lines of headings: the names of the
   members, each over its columns, and the names of the columns.  When columns
   are left out and at least one column is shown after the dots, both lines are
   cut at the same places as the columns. *)
Theorem C203_headings_partial :
  forall (p console tot nmask : nat) (rb : option nat) (top : list (text * nat)) (cols : list dcol),
  tot <= console -> length (covered top) = length cols ->
  exists pre hid suf,
    cols = pre ++ hid ++ suf /\
    (hid = [] \/ suf <> [] ->
     exists t bot main,
       multi_main p console tot nmask rb top cols = Some (t, bot, main) /\
       main = pre ++ (match hid with [] => [] | _ => [break_column nmask rb 0] end) ++ suf /\
       bot = map d_head pre ++ (match hid with [] => [] | _ => [[]] end) ++ map d_head suf /\
       covered t = firstn (length pre) (covered top) ++ (match hid with [] => [] | _ => [[]] end)
                   ++ skipn (length pre + length hid) (covered top)) /\
    (hid <> [] -> suf = [] -> multi_main p console tot nmask rb top cols = None).
Proof.
  intros p console tot nmask rb top cols HT HC.
  destruct (fit_loop_spec p console (length cols) tot cols [] []) as (pre & hid & suf & brk & F & MM & B & LN & _ & _); [lia|exact HT|].
  cbn [app] in F. rewrite app_nil_r in F. exists pre, hid, suf. split; [exact MM|].
  unfold multi_main. rewrite F. cbv zeta.
  destruct brk.
  - assert (HN : hid <> []) by (apply B; reflexivity).
    assert (LC : length cols = length pre + (length hid + length suf)) by (rewrite MM, !app_length; lia).
    assert (LH : 1 <= length hid) by (destruct hid; [easy|cbn; lia]).
    assert (TN : top <> []) by (intros ->; cbn in HC; lia).
    unfold fix_headers. rewrite app_length. cbn [length]. rewrite Nat.add_1_r.
    destruct (left_head_ok top 0 (length pre)) as (a & EA & CAa); [exact TN|lia|lia|].
    destruct (right_head_ok (rev top) 0 (length suf)) as (b & EB & CB).
    { intros X. apply TN. rewrite <- (rev_involutive top), X. reflexivity. } { lia. } { rewrite rev_involutive. lia. }
    rewrite EA, EB. rewrite rev_involutive in CB. rewrite !Nat.sub_0_r in *.
    replace (S (length pre) - 1) with (length pre) by lia.
    split.
    + intros [X|SN]; [easy|]. destruct suf as [|s0 suf0]; [easy|]. set (suf := s0 :: suf0) in *.
      assert (BOT : last_n (length suf) (map d_head cols) = map d_head suf).
      { unfold last_n. change (length suf) with (S (length suf0)). cbv iota.
        change (S (length suf0)) with (length suf). rewrite map_length, MM, !map_app, skipn_app, skipn_all2, skipn_app, skipn_all2;
          rewrite ?map_length, ?app_length; try lia.
        cbn [app]. replace (length pre + (length hid + length suf) - length suf - length pre - length hid) with 0 by lia. reflexivity. }
      rewrite BOT.
      assert (BL : firstn (length pre) (map d_head cols) = map d_head pre).
      { rewrite MM, map_app, firstn_app, map_length, Nat.sub_diag. cbn [firstn]. rewrite app_nil_r. apply firstn_all2. now rewrite map_length. }
      rewrite BL. rewrite (proj2 (Nat.leb_le _ _)).
      2:{ rewrite !app_length, !map_length. cbn [length]. lia. }
      exists (a ++ b). eexists. eexists. split; [reflexivity|]. split; [destruct hid; [easy|]; now rewrite <- app_assoc|].
      split; [destruct hid; [easy|]; reflexivity|]. rewrite covered_app, CAa, CB.
      destruct hid as [|h0 hid0]; [easy|]. rewrite <- app_assoc. f_equal. f_equal. f_equal.
      rewrite HC, LC. lia.
    + intros _ ->. cbn [length last_n]. rewrite (proj2 (Nat.leb_gt _ _)); [reflexivity|].
      rewrite !app_length, firstn_length, !map_length. cbn [length] in *. lia.
  - assert (HN : hid = []) by (destruct hid; [reflexivity|]; destruct B as [_ B]; discriminate B; discriminate).
    subst hid. split; [|easy]. intros _.
    rewrite (proj2 (Nat.leb_le _ _)) by (rewrite map_length, MM, !app_length; cbn; lia).
    exists top. eexists. eexists. split; [reflexivity|]. split; [reflexivity|]. cbn [app]. rewrite MM, map_app. split; [reflexivity|].
    cbn [length]. rewrite Nat.add_0_r. now rewrite firstn_skipn.
Qed.
Print Assumptions C203_headings_partial.

(* Finding: a Multiset whose last column does not fit beside the first cannot be
   shown: the bottom line of headings is cut with [-0:], which keeps all of it,
   and painting raises IndexError.  Here two members with one column each of 45
   letters. *)
Theorem C203_raises_refuted :
  let cols := [new_col ARight (repeat 97 45) [[49]] []; new_col ARight (repeat 98 45) [[50]] []] in
  let top := [(cA, 1); (cB, 1)] in
  multi_main 4 80 1 1 None top cols = None.
Proof. vm_compute. reflexivity. Qed.
Print Assumptions C203_raises_refuted.

Definition wcol (n : nat) (h : text) : dcol := new_col ARight h [repeat 97 n] [].
Example C203_case :
  exists main, multi_main 4 80 1 1 None [(cA, 3); (cB, 2)] (map (wcol 20) [[1]; [2]; [3]; [4]; [5]])
    = Some ([(cA, 2); ([], 1); (cB, 1)], [[1]; [2]; []; [5]], main) /\ length main = 4.
Proof. eexists. split; [vm_compute; reflexivity|]. reflexivity. Qed.

(* C204.  The transposed table (_T) of an unsorted Dataset without summary
   columns has one line per column, labels first: its name and its values in the
   first k rows, where at most 15 rows are tried and k are shown because one more
   would not fit; the headings number them. *)
Theorem C204_transposed_partial :
  forall (V : Type) (fmt : V -> text) (num : nat -> text) (o : opts) (col_t : nat) (ds : dset V),
  ok_dset ds -> (s_labels ds <> [] \/ ~ In hash (map cname (s_cols ds))) ->
  s_order ds = None -> s_summary ds = [] -> s_cols ds <> [] ->
  exists labels ms k, laid_out ds labels ms [] /\ k <= Nat.min 15 (s_nrows ds) /\
    transposed fmt num o col_t ds =
      Some (fields :: map num (seq 0 k), map (fun c => cname c :: map fmt (firstn k (cvals c))) (labels ++ ms)) /\
    let upto m := widest (fields :: map cname (labels ++ ms))
                  + total (map (fun i => widest (map (fun c => match nth_error (cvals c) i with
                                                               | Some v => fmt v | None => [] end) (labels ++ ms)) + 3)
                               (seq 0 m)) in
    (widest (fields :: map cname (labels ++ ms)) <= o_console o ->
     upto k <= o_console o /\ (k < Nat.min 15 (s_nrows ds) -> o_console o < upto (S k))).
Proof.
  intros V fmt num o col_t ds OK NH NO NS NE.
  destruct (prepare_ok V ds OK NH) as (labels & ms & rs & LO & PR).
  assert (RS : rs = []) by (destruct LO as (_ & _ & E & _); rewrite NS in E; destruct rs; [reflexivity|discriminate]). subst rs.
  unfold transposed. rewrite PR, NO, NS. rewrite app_nil_r. cbn [length]. rewrite Nat.sub_0_r, firstn_all, skipn_all. cbv zeta.
  change (build_all fmt (fun _ => ARight) (seq 0 (Nat.min col_t (s_nrows ds))) None (map cname []) [] []) with (Some (@nil dcol)).
  cbv iota.
  set (t_max := Nat.min 15 (s_nrows ds)). set (cells := map (fun c => map fmt (firstn t_max (cvals c))) (labels ++ ms)).
  set (k := fit_rows (o_console o) _ (t_widths t_max cells)).
  assert (K : k <= t_max).
  { unfold k. etransitivity; [apply fit_rows_le|]. unfold t_widths. rewrite map_length, seq_length. lia. }
  exists labels, ms, k. split; [exact LO|]. split; [exact K|].
  assert (CN : labels ++ ms <> []).
  { destruct (s_cols ds) as [|c0 cs] eqn:EC; [easy|]. intros X. destruct LO as (_ & NL & _ & NM).
    apply app_eq_nil in X. destruct X as [-> ->]. cbn in NL, NM. rewrite <- NL in NM.
    destruct (app_eq_nil _ _ (eq_sym NM)) as [S1 S2]. rewrite S1, NS, EC in S2. cbn in S2. discriminate. }
  assert (BD : map (@concat text) (zip_all (filter (fun g => match g with [] => false | _ => true end)
             [map (fun x => [x]) (map cname (labels ++ ms)); map (firstn k) cells; zip_all (map d_cells [])]))
           = map (fun c => cname c :: map fmt (firstn k (cvals c))) (labels ++ ms)).
  { unfold cells. rewrite !map_map. cbn [map zip_all].
    set (A := fun x : column V => [cname x]). set (B := fun x : column V => firstn k (map fmt (firstn t_max (cvals x)))).
    replace (filter _ [map A (labels ++ ms); map B (labels ++ ms); []]) with [map A (labels ++ ms); map B (labels ++ ms)]
      by (cbn [filter]; destruct (labels ++ ms); [easy|reflexivity]).
    assert (Z := zip_all_map (labels ++ ms) [A; B] ltac:(discriminate)). cbn [map] in Z. rewrite Z. rewrite map_map. apply map_ext. intros c.
    unfold A, B. cbn [map concat app]. rewrite app_nil_r. f_equal. rewrite firstn_map, firstn_firstn. rewrite (Nat.min_l k t_max K). reflexivity. }
  cbn [length]. rewrite Nat.add_0_r.
  assert (MT : forall X : option (list text * list (list text)), match cells, t_max with [], S _ => None | _, _ => X end = X).
  { intros X. unfold cells. destruct (labels ++ ms); [easy|]. reflexivity. }
  rewrite MT. rewrite BD. split; [reflexivity|]. cbv zeta. intros W0.
  assert (WL : d_width (new_col ARight fields (map cname (labels ++ ms)) []) = widest (fields :: map cname (labels ++ ms))).
  { cbn [new_col d_width]. rewrite longest_widest, widest_cons. change (longest []) with 0. lia. }
  assert (TW : t_widths t_max cells = map (fun i => widest (map (fun c => match nth_error (cvals c) i with
                                              | Some v => fmt v | None => [] end) (labels ++ ms))) (seq 0 t_max)).
  { unfold t_widths, cells. apply map_ext_in. intros i HI. apply in_seq in HI. rewrite longest_widest. f_equal.
    rewrite map_map. apply map_ext_in. intros c HC.
    assert (LC : length (cvals c) = s_nrows ds).
    { destruct OK as [_ O2 _ _]. apply O2. destruct LO as (INC & _). apply INC. rewrite app_assoc. apply in_or_app. now left. }
    assert (LI : i < length (cvals c)) by (unfold t_max in HI; rewrite LC; lia).
    destruct (nth_error (cvals c) i) as [v|] eqn:EV; [|apply nth_error_None in EV; lia].
    apply nth_error_nth. rewrite nth_error_map.
    replace (nth_error (firstn t_max (cvals c)) i) with (nth_error (cvals c) i); [now rewrite EV|].
    rewrite <- (firstn_skipn t_max (cvals c)) at 1. rewrite nth_error_app1; [reflexivity|]. rewrite firstn_length. lia. }
  assert (FS := fit_rows_spec (o_console o) (d_width (new_col ARight fields (map cname (labels ++ ms)) []) + total (map d_width [])) (t_widths t_max cells)).
  fold k in FS. rewrite WL in FS. change (total (map d_width [])) with 0 in FS. rewrite Nat.add_0_r in FS.
  specialize (FS W0). destruct FS as [F1 F2].
  assert (FN : forall m, m <= t_max -> map (fun w => w + 3) (firstn m (t_widths t_max cells))
     = map (fun i => widest (map (fun c => match nth_error (cvals c) i with
                                                               | Some v => fmt v | None => [] end) (labels ++ ms)) + 3) (seq 0 m)).
  { intros m HM. rewrite TW, firstn_map, map_map.
    replace (firstn m (seq 0 t_max)) with (seq 0 m); [reflexivity|].
    replace t_max with (m + (t_max - m)) by lia. rewrite seq_app, firstn_app, seq_length, Nat.sub_diag. cbn [firstn].
    rewrite app_nil_r, firstn_all2; [reflexivity|now rewrite seq_length]. }
  assert (LT : length (t_widths t_max cells) = t_max) by (unfold t_widths; rewrite map_length; apply seq_length).
  rewrite LT in F2. rewrite FN in F1 by exact K. split; [exact F1|]. intros KL.
  change (Nat.min 15 (s_nrows ds)) with t_max in KL.
  specialize (F2 KL). rewrite FN in F2 by lia. exact F2.
Qed.
Print Assumptions C204_transposed_partial.

(* Finding: the transposed table of a sorted view is not sorted: it shows the
   first rows of the data where the untransposed table shows those of the view. *)
Definition ds_sorted : dset nat := DS [Col cA [3; 1; 2] []] [] [] (Some [cA]) (Some [1; 2; 0]) 3 [].
Theorem C204_sorted_refuted :
  ok_dset ds_sorted /\
  transposed wr wr std 8 ds_sorted = Some ([fields; [48]; [49]; [50]], [[cA; [51]; [49]; [50]]]) /\
  exists t, display wr wr rt std ds_sorted = Some [t] /\ t_rows t = [[[49]; [49]]; [[50]; [50]]; [[48]; [51]]].
Proof. split; [solve_ok|]. split; [vm_compute; reflexivity|]. eexists. split; vm_compute; reflexivity. Qed.
Print Assumptions C204_sorted_refuted.

(* Finding: with a summary column the lines of the transposed table mix columns:
   the rows of the summary column stand beside the names of the other columns,
   and lines are lost. *)
Definition ds_summary : dset nat := DS [Col cA [1; 2] []; Col cB [3; 4] []; Col cC [5; 6] []] [] [cC] None None 2 [].
Theorem C204_summary_refuted :
  ok_dset ds_summary /\
  transposed wr wr std 8 ds_summary
    = Some ([fields; [48]; [49]; [50]], [[cA; [49]; [50]; [53]]; [cB; [51]; [52]; [54]]]).
Proof. split; [solve_ok|]. vm_compute. reflexivity. Qed.
Print Assumptions C204_summary_refuted.

Example C204_case :
  transposed wr wr std 8 (DS [Col cA [1; 2] []; Col cB [3; 4] []] [cB] [] None None 2 [])
    = Some ([fields; [48]; [49]], [[cB; [51]; [52]]; [cA; [49]; [50]]]).
Proof. vm_compute. reflexivity. Qed.

(* C205.  In a table with several labels the first label column shows a dot
   where the text repeats the line above, and nothing else changes: reading every
   dot as the text above gives the texts of the column. *)
Theorem C205_read :
  forall (V : Type) (fmt : V -> text) (num : nat -> text) (just : list V -> align) (o : opts) (ds : dset V)
         (ts : list table) (t : table),
  ok_dset ds -> 2 <= length (s_labels ds) -> display fmt num just o ds = Some ts -> In t ts ->
  exists c : column V, In c (s_cols ds) /\ Some (cname c) = nth_error (s_labels ds) 0 /\
    (~ In dot (map fmt (cvals c)) ->
     read_repeats (map (hd []) (t_rows t))
     = map (fun p => match p with
                     | None => dots
                     | Some i => match nth_error (cvals c) (row_of ds i) with Some v => fmt v | None => [] end
                     end) (shown_rows (s_nrows ds) (o_head o) (o_tail o) (o_rowall o))).
Proof.
  intros V fmt num just o ds ts t OK L2 D HI.
  assert (NH : s_labels ds <> [] \/ ~ In hash (map cname (s_cols ds))) by (left; destruct (s_labels ds); [cbn in L2; lia|discriminate]).
  destruct (C198_rows V fmt num just o ds ts t OK NH D HI) as (labels & ms & rs & M & (INC & NL & _) & _ & R & _).
  rewrite (proj2 (Nat.ltb_lt 1 _)) in R by lia.
  assert (LL : length labels = length (s_labels ds)) by (rewrite <- NL; now rewrite map_length).
  destruct labels as [|c [|c2 l]]; cbn in LL; try lia. exists c.
  split; [apply INC; now left|]. split; [rewrite <- NL; reflexivity|]. intros ND. rewrite R. clear R.
  cbn [left_cols label_cols app].
  set (s0 := SCol (o_prefix o ++ cname c) _). set (rest := _ ++ _ ++ plain rs).
  set (ps := shown_rows _ _ _ _).
  assert (WF : forall (f : list text -> list text) rows, length (f (map (hd []) rows)) = length rows ->
     map (hd []) (with_first f rows) = f (map (hd []) rows)).
  { intros f rows LE. unfold with_first. rewrite map_map. cbn [hd]. revert LE. generalize (f (map (hd []) rows)).
    clear. intros x. revert x. induction rows as [|r rows IH]; intros [|y x] LE; cbn in *; try discriminate; [reflexivity|].
    f_equal. apply IH. now injection LE. }
  rewrite WF by (rewrite hide_repeats_length; apply map_length).
  rewrite map_map. cbn [map hd].
  assert (EQ : map (fun p => cell fmt num (row_of ds) s0 p) ps
     = map (fun p => match p with None => dots | Some i => match nth_error (cvals c) (row_of ds i) with Some v => fmt v | None => [] end end) ps).
  { apply map_ext. intros [i|]; reflexivity. }
  rewrite <- EQ. apply read_hide_repeats. rewrite EQ. intros X.
  assert (X' : In dot (map (fun p => match p with None => dots | Some i => match nth_error (cvals c) (row_of ds i) with Some v => fmt v | None => [] end end) ps)).
  { revert X. destruct (map _ ps); [easy|]. intros X. now right. }
  apply in_map_iff in X'. destruct X' as ([i|] & E & _); [|discriminate].
  destruct (nth_error (cvals c) (row_of ds i)) as [v|] eqn:EN; [|discriminate].
  apply ND. rewrite <- E. apply in_map. eapply nth_error_In; eauto.
Qed.
Print Assumptions C205_read.

(* Finding: it is the text that is compared, not the key: two different keys
   that are written alike (here rounded to the same digit) are shown as one key
   and its repeat. *)
Theorem C205_rounded_refuted :
  let half (n : nat) : text := [48 + n / 2] in
  let ds := DS [Col cA [4; 5] []; Col cB [2; 2] []; Col cC [6; 8] []] [cA; cB] [] None None 2 [] in
  ok_dset ds /\ exists t, display half wr rt std ds = Some [t] /\
    t_rows t = [[[50]; [49]; [51]]; [dot; [49]; [52]]].
Proof. cbv zeta. split; [solve_ok|]. eexists. split; vm_compute; reflexivity. Qed.
Print Assumptions C205_rounded_refuted.

Example C205_case :
  let ds := DS [Col cA [4; 4; 5; 5] []; Col cB [1; 2; 1; 2] []] [cA; cB] [] None None 4 [] in
  exists t, display wr wr rt std ds = Some [t] /\
    t_rows t = [[[52]; [49]]; [dot; [50]]; [dots; dots]; [[53]; [50]]].
Proof. cbv zeta. eexists. split; vm_compute; reflexivity. Qed.
