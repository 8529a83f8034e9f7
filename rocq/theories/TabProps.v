(** C101-C107: the Dataset container. *)
From Coq Require Import List Arith Bool ZArith Lia.
From Verif Require Import FlattenModel FlattenProofs MergeModel MergeFacts DsModel DsProofs3 DsProofs4 TabModel TabSpec TabProofs TabProofs2 TabProofs3 TabProofs4 TabProofs5 TabProofs7 TabProofs8 TabProofs9 TabProofs10 TabProofs11.
Import ListNotations.

Lemma capital_twice n : capital (capital n) = capital n.
Proof.
  destruct n as [|x r]; [reflexivity|]. unfold capital at 2 3. destruct ((97 <=? x) && (x <=? 122)) eqn:E; unfold capital.
  - destruct ((97 <=? x - 32) && (x - 32 <=? 122)) eqn:E2; [|reflexivity]. rewrite !andb_true_iff, !Nat.leb_le in *. lia.
  - now rewrite E.
Qed.
Lemma demo_python : python_class demo_class.
Proof.
  split; [|exact capital_twice].
  intros n. unfold demo_class, kind, restricted. destruct (name_dec n size_name); [reflexivity|]. destruct (name_dec n sum_name); [reflexivity|]. intros H. now elim H.
Qed.
Definition na : name := [97].
Definition nb : name := [98].
Definition nc : name := [67].
(** a dataset with the columns a, b and C, after some work *)
Definition demo_world : world nat := World [[4; 5; 6; 7]] [].
Definition demo_session : list (op nat) :=
  [OSetItem nb (VScalar 9); OSetAttr nc (VArr (Arr 0 [1; 2; 3])); OFilter (inl [true; false; true]); OLabels [nc; na]; OSetAttr na (VList [1; 2; 3; 4]); OSetItem sum_name (VScalar 1)].
Definition demo_start := construct demo_class demo_world [(na, VList [1; 2; 3])].
Definition demo : world nat * dataset :=
  match demo_start with (w, inl d) => run 0 99 demo_class w d demo_session | (w, inr _) => (w, Ds None 0 [] false) end.
Lemma demo_reachable : reachable 0 99 demo_class (fst demo) (snd demo).
Proof.
  exists demo_world, [(na, VList [1; 2; 3])], (fst demo_start), (Ds (Some 3) 1 [(na, Item (Arr 1 [0; 1; 2]) None)] false), demo_session. split; [|split; [reflexivity|split; [|vm_compute; reflexivity]]].
  - cbn. intros n a [H|[]]. discriminate.
  - cbn. repeat split; try easy; destruct H as [<-|[]]; cbn; [lia|lia|]. repeat constructor; cbn; lia.
Qed.
Lemma demo_columns : columns 0 (fst demo) (snd demo) = [(na, [1; 3]); (nb, [9; 9]); (nc, [5; 7])] /\ label_get_names (fst demo) (snd demo) = [nc; na].
Proof. vm_compute. split; reflexivity. Qed.

(** ** C101: all columns have the row count of the dataset *)
(** After construction and any sequence of column assignments, deletions, filters, cell
    assignments, putmask calls, label changes, locks and failures of these, names are distinct,
    counted right, and every column has exactly the dataset's number of rows. *)
Theorem C101_row_count {V} (junk inv : V) c w d : python_class c -> reachable junk inv c w d ->
  consistent d /\ forall n l, In (n, l) (columns junk w d) -> len d = length l.
Proof.
  intros PY R. destruct (reachable_good junk inv c PY w d R) as [Gd _]. split; [apply Gd|]. intros n l H.
  apply in_map_iff in H. destruct H as ([m it] & E & Hi). cbn in E. injection E as -> <-. rewrite read_length. destruct (g_con _ _ _ Gd) as (_ & _ & Q). apply Q in Hi. unfold len. now rewrite Hi.
Qed.
Print Assumptions C101_row_count.
(** Finding: assigning to the name of a property, [ds.size = [7]], stores the value unchecked as a
    column "Size": the dataset then has a column of another length and a wrong column count. *)
Theorem C101_property_name_refuted : exists (c : pyclass) (w : world nat) d n v w' d', python_class c /\ reachable 0 99 c w d /\
  setattr 0 c w d n v = (w', d', None) /\ (exists k l, In (k, l) (columns 0 w' d') /\ len d' <> length l) /\ ncols d' <> Z.of_nat (length (keys d')).
Proof.
  exists demo_class, (fst demo), (snd demo), size_name, (VList [7]). eexists _, _. split; [apply demo_python|]. split; [apply demo_reachable|]. split; [vm_compute; reflexivity|]. split.
  - exists (capital size_name), [7]. split; [vm_compute; auto|]. vm_compute. discriminate.
  - vm_compute. discriminate.
Qed.
Print Assumptions C101_property_name_refuted.
Example C101_case : exists (c : pyclass) (w : world nat) d, python_class c /\ reachable 0 99 c w d /\ columns 0 w d = [(na, [1; 3]); (nb, [9; 9]); (nc, [5; 7])].
Proof. exists demo_class, (fst demo), (snd demo). split; [apply demo_python|]. split; [apply demo_reachable|apply demo_columns]. Qed.

(** ** C102: a failing operation changes nothing *)
(** Partial: for a dataset with a row count and operations that write at most one column. *)
Theorem C102_failure_atomic_partial {V} (junk inv : V) c w d o w' d' e :
  nrows d <> None -> one_column o -> (forall a, In a (op_arrays o) -> inside w a) ->
  exec junk inv c w d o = (w', d', Some e) -> d' = d /\ forall a, inside w a -> read junk w' a = read junk w a.
Proof. intros Nn One Ia E. destruct (exec_fails junk inv c w d o w' d' e Ia Nn One E) as [A G]. split; [assumption|]. intros a Ha. now apply G. Qed.
Print Assumptions C102_failure_atomic_partial.
(** Finding: a failed first assignment fixes the row count of a dataset without columns, so that a
    later valid assignment of another length is refused. *)
Theorem C102_empty_dataset_refuted : exists (c : pyclass) (w : world nat) d n v w' d' e n2 v2, python_class c /\ reachable 0 99 c w d /\ keys d = [] /\
  setitem 0 c w d n v = (w', d', Some e) /\ snd (setitem 0 c w d n2 v2) = None /\ snd (setitem 0 c w' d' n2 v2) = Some EValue.
Proof.
  exists demo_class, demo_world, (Ds None 0 [] false), na, (VObjects 2). eexists _, _, _. exists nb, (VList [1; 2; 3]). split; [apply demo_python|]. split.
  - exists demo_world, [], demo_world, (Ds None 0 [] false), []. split; [intros n a []|]. repeat split.
  - repeat split; vm_compute; reflexivity.
Qed.
Print Assumptions C102_empty_dataset_refuted.
(** Finding: [ds[['a','b']] = other] with too few columns on the right replaces the first column
    before it raises. *)
Theorem C102_several_columns_refuted : exists (c : pyclass) (w : world nat) d o w' d' e, python_class c /\ reachable 0 99 c w d /\
  (forall a, In a (op_arrays o) -> inside w a) /\
  exec 0 99 c w d o = (w', d', Some e) /\ columns 0 w' d' <> columns 0 w d.
Proof.
  exists demo_class, (fst demo), (snd demo), (OSetColumns [na; nb] [Arr 0 [0; 1]]). eexists _, _, _. split; [apply demo_python|]. split; [apply demo_reachable|]. split.
  - intros a [<-|[]]. split; [cbn; lia|]. split; [intros p; cbn; lia|]. repeat constructor; cbn; lia.
  - split; [vm_compute; reflexivity|]. vm_compute. discriminate.
Qed.
Print Assumptions C102_several_columns_refuted.
Example C102_case : exists w' d', exec 0 99 demo_class (fst demo) (snd demo) (OSetItem nb (VList [1; 2; 3])) = (w', d', Some EValue) /\ nrows (snd demo) = Some 2.
Proof. eexists _, _. split; vm_compute; reflexivity. Qed.

(** ** C103: assigning a column *)
(** In a dataset with k rows the assignment succeeds exactly when the value fits k rows (a scalar, a
    one-element list, or a one-element array when k is not 0, is repeated).  Then the named column
    holds the value, the other columns are untouched, and a new column comes last; otherwise
    nothing changes.  Without a row count any array, list or scalar becomes the only column. *)
Theorem C103_assign_column {V} (junk inv : V) c w d n v : python_class c -> reachable junk inv c w d -> locked d = false ->
  (In n (keys d) \/ (n <> [] /\ restricted c n = false)) -> (forall a, v = VArr a -> inside w a) ->
  exists w' d' e, setattr junk c w d n v = (w', d', e) /\ (forall a, inside w a -> read junk w' a = read junk w a) /\
   match nrows d with
   | Some k => match as_column junk w k v with
               | Some col => e = None /\ nrows d' = Some k /\ keys d' = (if in_dec name_dec n (keys d) then keys d else keys d ++ [n]) /\
                   dget n (columns junk w' d') = Some col /\ (forall m, m <> n -> dget m (columns junk w' d') = dget m (columns junk w d))
               | None => e <> None /\ d' = d
               end
   | None => keys d = [] /\ forall col, content junk w v = Some col -> e = None /\ nrows d' = Some (length col) /\ columns junk w' d' = [(n, col)]
   end.
Proof.
  intros PY R Lk Hn Iv. destruct (reachable_good junk inv c PY w d R) as [Gd _].
  destruct (setattr_columns junk c PY w d n v Gd) as (w' & d' & e & E & G & H).
  - destruct v; cbn; auto.
  - assumption.
  - destruct Hn as [Hn|Hn]; [left; now apply has_in|now right].
  - exists w', d', e. split; [assumption|]. split; [intros a Ha; now apply G|]. destruct (nrows d) as [k|]; [|assumption]. destruct (as_column junk w k v); [|assumption].
    destruct H as (A & B & C & D & F). repeat split; auto. destruct (in_dec name_dec n (keys d)) as [i|i]; [apply has_in in i|apply has_false in i]; now rewrite i in C.
Qed.
Print Assumptions C103_assign_column.
(** A column assignment leaves the labels alone, whether it succeeds or not: a replaced label
    column stays a label, a new column is none.  A locked dataset refuses assignments and
    deletions unchanged. *)
Theorem C103_labels_and_locks {V} (junk inv : V) c w d n v : python_class c -> reachable junk inv c w d ->
  (locked d = true -> setattr junk c w d n v = (w, d, Some EAttr) /\ delattr d n = (d, Some EAttr)) /\
  ((In n (keys d) \/ (n <> [] /\ restricted c n = false)) -> forall w' d' e, setattr junk c w d n v = (w', d', e) -> label_get_names w' d' = label_get_names w d).
Proof.
  intros PY R. destruct (reachable_good junk inv c PY w d R) as [Gd _]. split.
  - intros L. unfold setattr, delattr. rewrite L. auto.
  - intros Hn w' d' e E. eapply (setattr_labels junk c w d n v); [apply Gd| | |exact E].
    + destruct Hn as [H|[H1 H2]]; [now apply Gd|now apply valid_stored].
    + destruct Hn as [H|[H1 H2]]; [left; now apply has_in|]. right. destruct (kind c n) eqn:K; auto; exfalso; assert (kind c n <> ANone) by congruence; apply PY in H; congruence.
Qed.
Print Assumptions C103_labels_and_locks.
(** The constructor: columns of one common length give exactly those columns in order; columns of
    different lengths a ValueError.  (A scalar counts as one row: it is not repeated.) *)
Theorem C103_construct {V} (junk : V) c w l cols : python_class c -> (forall n a, In (n, VArr a) l -> inside w a) ->
  NoDup (map fst l) -> (forall n, In n (map fst l) -> n <> [] /\ restricted c n = false) ->
  map (fun p => content junk w (snd p)) l = map Some cols ->
  exists w', (forall a, inside w a -> read junk w' a = read junk w a) /\
   ((exists k, forall x, In x cols -> length x = k) -> exists d, construct c w l = (w', inl d) /\ columns junk w' d = combine (map fst l) cols) /\
   (~ (exists k, forall x, In x cols -> length x = k) -> construct c w l = (w', inr EValue)).
Proof.
  intros PY Iv ND Nm Hc. destruct (construct_spec junk c PY w l cols) as (w' & G & A & B); auto.
  - intros n v H. destruct v; cbn; auto. now apply (Iv n).
  - intros n Hn. destruct (Nm n Hn) as [N1 N2]. now apply (valid_stored c n N1 N2).
  - exists w'. split; [intros a Ha; now apply G|]. auto.
Qed.
Print Assumptions C103_construct.
(** [del ds.n]: removes exactly that column; an unknown name is refused.  With the last column
    the row count goes too. *)
Theorem C103_delete_column {V} (junk inv : V) c w d n : python_class c -> reachable junk inv c w d -> locked d = false ->
  (In n (keys d) -> exists d', delattr d n = (d', None) /\ keys d' = filter (fun m => if name_dec m n then false else true) (keys d) /\
     (forall m, m <> n -> dget m (columns junk w d') = dget m (columns junk w d)) /\
     nrows d' = (match keys d' with [] => None | _ => nrows d end)) /\
  (~ In n (keys d) -> delattr d n = (d, Some EIndex)).
Proof.
  intros PY R Lk. destruct (reachable_good junk inv c PY w d R) as [Gd _]. destruct (g_con _ _ _ Gd) as (ND & NC & Q). unfold delattr. rewrite Lk. split; intros H.
  - rewrite (proj2 (has_in d n) H). eexists. split; [reflexivity|].
    assert (K : map fst (ddel n (items d)) = filter (fun m => if name_dec m n then false else true) (map fst (items d))).
    { unfold keys in ND. clear - ND. induction (items d) as [|[m x] l IH]; [reflexivity|]. cbn [ddel map fst filter]. cbn in ND. inversion ND as [|? ? Nm ND']; subst. destruct (name_dec m n) as [->|Ne].
      - clear - Nm. induction (map fst l) as [|y r IH]; [reflexivity|]. cbn [filter]. destruct (name_dec y n) as [->|]; [elim Nm; now left|]. f_equal. apply IH. intros H. apply Nm. now right.
      - cbn [map fst]. f_equal. now apply IH. }
    split; [exact K|]. split.
    + intros m Hm. rewrite !columns_dget. cbn [items]. assert (E : dget m (ddel n (items d)) = dget m (items d)).
      { clear - Hm. induction (items d) as [|[k x] l IH]; [reflexivity|]. cbn [ddel dget]. destruct (name_dec k n) as [->|]; destruct (name_dec _ m) as [<-|]; try reflexivity; try contradiction; cbn [dget]; destruct (name_dec _ _); try congruence; auto. }
      now rewrite E.
    + cbn [nrows]. unfold keys at 1. cbn [items]. pose proof (ddel_length n (items d) H) as L. rewrite NC. unfold keys. rewrite map_length.
      assert (0 < length (items d)) by (destruct (items d); [easy|cbn; lia]).
      destruct (ddel n (items d)) as [|p l]; cbn [length] in L; destruct (Z.leb_spec (Z.of_nat (length (items d)) - 1) 0); cbn [map]; try reflexivity; lia.
  - now rewrite (proj2 (has_false d n) H).
Qed.
Print Assumptions C103_delete_column.
(** Finding: two names that are both stored under the same capitalised name: the dictionary's first
    column is lost without an error. *)
Theorem C103_renamed_column_lost_refuted : exists (c : pyclass) (w : world nat) l w' d, python_class c /\ NoDup (map fst l) /\
  construct c w l = (w', inl d) /\ length l = 2 /\ length (columns 0 w' d) = 1.
Proof.
  exists demo_class, demo_world, [(size_name, VList [1; 2]); (capital size_name, VList [3; 4])]. eexists _, _. split; [apply demo_python|]. split.
  - repeat constructor; vm_compute; intuition discriminate.
  - repeat split; vm_compute; reflexivity.
Qed.
Print Assumptions C103_renamed_column_lost_refuted.
Example C103_case : exists w' d', setattr 0 demo_class (fst demo) (snd demo) nb (VList [8; 7]) = (w', d', None) /\ columns 0 w' d' = [(na, [1; 3]); (nb, [8; 7]); (nc, [5; 7])] /\
  construct demo_class demo_world [(na, VList [1; 2]); (nb, VScalar 5)] = (World [[4; 5; 6; 7]; [1; 2]; [5]] [], inr EValue).
Proof. eexists _, _. split; [vm_compute; reflexivity|]. split; vm_compute; reflexivity. Qed.

(** ** C104: filtering and row selection *)
(** filter(mask or positions, inplace=True): every column is replaced by its selected rows, in
    order, a position outside giving the invalid value; arrays held elsewhere keep their contents. *)
Theorem C104_filter_inplace {V} (junk inv : V) c w d r n : python_class c -> reachable junk inv c w d -> nrows d = Some n ->
  (match r with inl m => length m = n | inr _ => True end) ->
  exists w' d', filter_inplace junk inv w d r = (w', d', None) /\
    columns junk w' d' = map (fun p => (fst p, selected inv (by_rows r) (snd p))) (columns junk w d) /\
    (forall a, inside w a -> read junk w' a = read junk w a) /\
    (forall k l, In (k, l) (columns junk w' d') -> nrows d' = Some (length l)).
Proof.
  intros PY R En H. destruct (reachable_good junk inv c PY w d R) as [Gd _]. destruct (filter_inplace_spec junk inv c w d r n Gd En H) as (w' & d' & E & A & B & C). exists w', d'. split; [assumption|]. split; [assumption|]. split; [assumption|].
  intros k l Hl. destruct (filter_inplace_good junk inv c w d r Gd) as [Gd' _]. rewrite E in Gd'. cbn [fst snd] in Gd'.
  apply in_map_iff in Hl. destruct Hl as ([m it] & Em & Hi). cbn in Em. injection Em as -> <-. rewrite read_length. destruct (g_con _ _ _ Gd') as (_ & _ & Q). now apply Q in Hi.
Qed.
Print Assumptions C104_filter_inplace.
(** ds[rows, :] and filter(): the new dataset has the selected rows of every column and the same
    labels; the original keeps its columns and labels. *)
Theorem C104_select_rows {V} (junk inv : V) c w d r w' d' : python_class c -> reachable junk inv c w d ->
  getrows junk inv w d r = (w', inl d') ->
  columns junk w' d' = map (fun p => (fst p, selected inv r (snd p))) (columns junk w d) /\ columns junk w' d = columns junk w d /\
  label_get_names w' d' = label_get_names w d /\ label_get_names w' d = label_get_names w d.
Proof. intros PY R E. destruct (reachable_good junk inv c PY w d R) as [Gd LO]. exact (getrows_spec junk inv c w d r w' d' Gd LO E). Qed.
Print Assumptions C104_select_rows.
Theorem C104_filter_copy {V} (junk inv : V) c w d r n : python_class c -> reachable junk inv c w d -> nrows d = Some n ->
  (match r with inl m => length m = n | inr _ => True end) ->
  exists w' d', filter_copy junk inv w d r = (w', inl d') /\
    columns junk w' d' = map (fun p => (fst p, selected inv (by_rows r) (snd p))) (columns junk w d) /\ columns junk w' d = columns junk w d.
Proof.
  intros PY R En H. destruct (reachable_good junk inv c PY w d R) as [Gd LO]. destruct (selector_ok inv d r n En H) as (idx & Es & Sl). unfold filter_copy. rewrite Es.
  assert (Q : exists w' d', getrows junk inv w d (RInts idx) = (w', inl d')).
  { unfold getrows. rewrite En. destruct (take_all junk inv w (items d) idx) as [w1 its]. destruct (copy_attributes w1 d (of_items its)) as [w2 d2]. eauto. }
  destruct Q as (w' & d' & E). exists w', d'. split; [assumption|]. destruct (getrows_spec junk inv c w d (RInts idx) w' d' Gd LO E) as (A & B & _). split; [|assumption].
  rewrite A. apply map_ext_in. intros [m l] Hm. cbn [fst snd]. f_equal. cbn [selected]. apply Sl. eapply columns_length; eassumption.
Qed.
Print Assumptions C104_filter_copy.
Example C104_case : exists w' d', filter_inplace 0 99 (fst demo) (snd demo) (inr [1; 0; -1; 5]%Z) = (w', d', None) /\ columns 0 w' d' = [(na, [3; 1; 3; 99]); (nb, [9; 9; 9; 99]); (nc, [7; 5; 7; 99])].
Proof. eexists _, _. split; vm_compute; reflexivity. Qed.

(** ** C105: assigning to cells *)
Lemma positions_addresses n r ps : row_positions n r = Some ps -> addresses n r ps.
Proof.
  destruct r as [|lo hi|m|idx]; cbn.
  - congruence.
  - intros [= <-]. assert (Q : forall l s n, firstn l (seq s n) = seq s (Nat.min l n)).
    { induction l as [|l IH]; intros s [|k]; cbn; try reflexivity. now rewrite IH. }
    assert (Q2 : forall l s n, skipn l (seq s n) = seq (s + l) (n - l)).
    { induction l as [|l IH]; intros s [|k]; cbn; rewrite ?Nat.add_0_r; try reflexivity. rewrite IH. f_equal. lia. }
    rewrite Q2, Q. cbn. destruct (Nat.le_gt_cases lo (Nat.min hi n)) as [L|L].
    + f_equal. lia.
    + replace (Nat.min (hi - lo) (n - lo)) with 0 by lia. replace (Nat.min hi n - lo) with 0 by lia. reflexivity.
  - destruct (Nat.eqb_spec (length m) n) as [E|]; [|discriminate]. intros [= <-]. split; [assumption|]. unfold bool_to_fancy. rewrite (compress_rows 0) by now rewrite seq_length. rewrite seq_length, E.
    rewrite <- (map_id (filter _ _)) at 2. apply map_ext_in. intros i Hi. apply filter_In in Hi. destruct Hi as [Hi _]. apply in_seq in Hi. rewrite seq_nth by lia. reflexivity.
  - revert ps. induction idx as [|i idx IH]; intros ps; cbn; [intros [= <-]; constructor|]. destruct (resolve n i) as [j|] eqn:E; [|discriminate]. destruct (resolve_all n idx) as [q|]; [|discriminate]. intros [= <-].
    constructor; [|now apply IH]. unfold resolve in E. destruct (Z.ltb_spec i 0).
    + destruct ((0 <=? Z.of_nat n + i)%Z && (Z.of_nat n + i <? Z.of_nat n)%Z) eqn:B; [|discriminate]. rewrite andb_true_iff, Z.leb_le, Z.ltb_lt in B. injection E as <-. lia.
    + destruct ((0 <=? i)%Z && (i <? Z.of_nat n)%Z) eqn:B; [|discriminate]. rewrite andb_true_iff, Z.leb_le, Z.ltb_lt in B. injection E as <-. lia.
Qed.
Lemma dests_sub (d : dataset) cols a : NoDup (keys d) -> In a (dests d cols) -> In a (arrays d).
Proof.
  intros ND H. unfold dests in H. apply in_flat_map in H. destruct H as (n & _ & H). destruct (dget n (items d)) as [it|] eqn:E; [|easy]. destruct H as [<-|[]]. apply in_map_iff. exists (n, it). split; [reflexivity|now apply dget_some_in].
Qed.
Lemma dests_separate (d : dataset) cols : NoDup (keys d) -> separate (arrays d) -> NoDup cols -> separate (dests d cols).
Proof.
  intros ND Sep Nc. unfold separate in *. induction cols as [|n cols IH]; [constructor|]. inversion Nc as [|? ? Nn Nc']; subst. unfold dests. cbn [flat_map]. fold (dests d cols).
  destruct (dget n (items d)) as [it|] eqn:E; [|now apply IH]. cbn [app map]. constructor; [|now apply IH]. intros H. apply in_map_iff in H. destruct H as (a & Eb & Ha).
  unfold dests in Ha. apply in_flat_map in Ha. destruct Ha as (m & Hm & Ha). destruct (dget m (items d)) as [it'|] eqn:E'; [|easy]. destruct Ha as [<-|[]].
  assert (m = n); [|congruence]. apply dget_some_in in E, E'. apply In_nth_error in E, E'. destruct E as [i Ei], E' as [j Ej].
  assert (i = j). { apply (proj1 (NoDup_nth_error _) Sep); [unfold arrays; rewrite !map_length; apply nth_error_Some; congruence|]. unfold arrays. rewrite !nth_error_map, Ei, Ej. cbn. congruence. }
  subst. congruence.
Qed.
(** [ds[rows, cols] = other]: column i of the right-hand side is written to the selected rows of
    the i-th named column, all other cells and columns keep their values.  Partial: the columns
    of the two datasets do not share storage. *)
Theorem C105_set_cells_partial {V} (junk inv : V) c w d r cols src w' : python_class c -> reachable junk inv c w d ->
  separate (arrays d) -> apart (arrays d) (arrays src) -> NoDup cols -> set_cells junk w d r cols src = (w', None) ->
  (forall i n, nth_error cols i = Some n -> exists old new m vals ps,
     dget n (columns junk w d) = Some old /\ nth_error (columns junk w src) i = Some (m, vals) /\ dget n (columns junk w' d) = Some new /\
     addresses (len d) r ps /\ length (spread (length ps) vals) = length ps /\ overwritten old new ps (spread (length ps) vals)) /\
  (forall n, ~ In n cols -> dget n (columns junk w' d) = dget n (columns junk w d)) /\
  (forall a, apart (arrays d) [a] -> read junk w' a = read junk w a).
Proof.
  intros PY R Sep Ap Nc E. destruct (reachable_good junk inv c PY w d R) as [Gd _]. assert (ND : NoDup (keys d)) by apply Gd.
  assert (AD : apart (dests d cols) (arrays src)) by (intros a b Ha Hb; apply Ap; [eapply dests_sub; eassumption|assumption]).
  destruct (assign_columns_spec junk d r cols (arrays src) w w' E) as [A B]; [apply Gd|now apply dests_separate|exact AD|].
  split; [|split].
  - intros i n Hi. destruct (A i n Hi) as (it & a & Ei & Ea & ps & Ep & Lp & Ov). unfold arrays in Ea. rewrite nth_error_map in Ea. destruct (nth_error (items src) i) as [[m ita]|] eqn:Es; [|discriminate]. cbn in Ea. injection Ea as <-.
    exists (read junk w (arr it)), (read junk w' (arr it)), m, (read junk w (arr ita)), ps. rewrite !columns_dget, Ei. split; [reflexivity|]. split; [unfold columns; rewrite nth_error_map, Es; reflexivity|]. split; [reflexivity|].
    split; [|auto]. apply positions_addresses. unfold len. destruct (g_con _ _ _ Gd) as (_ & _ & Q). rewrite (Q n it) by now apply dget_some_in. exact Ep.
  - intros n Hn. rewrite !columns_dget. destruct (dget n (items d)) as [it|] eqn:Ei; [|reflexivity]. f_equal. apply B. intros x y Hx [<-|[]] Eb.
    assert (Sx : separate (dests d (n :: cols))) by (apply dests_separate; auto; now constructor). unfold dests in Sx. cbn [flat_map] in Sx. rewrite Ei in Sx. cbn in Sx. inversion Sx as [|? ? Nb _]; subst. apply Nb. rewrite <- Eb. now apply in_map.
  - intros a Ha. apply B. intros x y Hx Hy. apply Ha; [eapply dests_sub; eassumption|assumption].
Qed.
Print Assumptions C105_set_cells_partial.
(** [ds[rows, cols] = x] *)
Theorem C105_set_scalar_partial {V} (junk inv : V) c w d r cols x w' : python_class c -> reachable junk inv c w d ->
  separate (arrays d) -> NoDup cols -> assign_scalar w d r cols x = (w', None) ->
  (forall n, In n cols -> exists old new ps, dget n (columns junk w d) = Some old /\ dget n (columns junk w' d) = Some new /\
     addresses (len d) r ps /\ overwritten old new ps (repeat x (length ps))) /\
  (forall n, ~ In n cols -> dget n (columns junk w' d) = dget n (columns junk w d)) /\
  (forall a, apart (arrays d) [a] -> read junk w' a = read junk w a).
Proof.
  intros PY R Sep Nc E. destruct (reachable_good junk inv c PY w d R) as [Gd _]. assert (ND : NoDup (keys d)) by apply Gd.
  destruct (assign_scalar_spec junk d r x cols w w' E) as [A B]; [apply Gd|now apply dests_separate|].
  split; [|split].
  - intros n Hn. destruct (A n Hn) as (it & Ei & ps & Ep & Ov). exists (read junk w (arr it)), (read junk w' (arr it)), ps. rewrite !columns_dget, Ei. split; [reflexivity|]. split; [reflexivity|].
    split; [|assumption]. apply positions_addresses. unfold len. destruct (g_con _ _ _ Gd) as (_ & _ & Q). rewrite (Q n it) by now apply dget_some_in. exact Ep.
  - intros n Hn. rewrite !columns_dget. destruct (dget n (items d)) as [it|] eqn:Ei; [|reflexivity]. f_equal. apply B. intros y z Hy [<-|[]] Eb.
    assert (Sx : separate (dests d (n :: cols))) by (apply dests_separate; auto; now constructor). unfold dests in Sx. cbn [flat_map] in Sx. rewrite Ei in Sx. cbn in Sx. inversion Sx as [|? ? Nb _]; subst. apply Nb. rewrite <- Eb. now apply in_map.
  - intros a Ha. apply B. intros y z Hy Hz. apply Ha; [eapply dests_sub; eassumption|assumption].
Qed.
Print Assumptions C105_set_scalar_partial.
(** Finding: [ds[0:2, ['a','b']] = ds[0:2, ['b','a']]] does not swap the columns: the slices on the
    right are views, column b is read after column a was overwritten. *)
Theorem C105_swap_refuted : exists (c : pyclass) (w : world nat) d src w1 w', python_class c /\ reachable 0 99 c w d /\ separate (arrays d) /\
  columns 0 w d = [(na, [1; 3]); (nb, [9; 9]); (nc, [5; 7])] /\
  getrows 0 99 w (Ds (nrows d) 2 (rev (firstn 2 (items d))) false) (RSlice 0 2) = (w1, inl src) /\
  columns 0 w1 src = [(nb, [9; 9]); (na, [1; 3])] /\
  set_cells 0 w1 d (RSlice 0 2) [na; nb] src = (w', None) /\
  columns 0 w' d = [(na, [9; 9]); (nb, [9; 9]); (nc, [5; 7])].
Proof.
  exists demo_class, (fst demo), (snd demo). eexists _, _, _. split; [apply demo_python|]. split; [apply demo_reachable|]. split.
  - unfold separate. vm_compute. repeat constructor; cbn; lia.
  - split; [vm_compute; reflexivity|]. split; [vm_compute; reflexivity|]. split; [vm_compute; reflexivity|]. split; vm_compute; reflexivity.
Qed.
Print Assumptions C105_swap_refuted.
Definition demo_other : dataset := Ds (Some 2) 2 [(na, Item (Arr 0 [0; 3]) None); (nb, Item (Arr 0 [2; 1]) None)] false.
Example C105_case : separate (arrays (snd demo)) /\ apart (arrays (snd demo)) (arrays demo_other) /\
  exists w', set_cells 0 (fst demo) (snd demo) (RInts [-1; 0]%Z) [nc; na] demo_other = (w', None) /\ columns 0 w' (snd demo) = [(na, [5; 6]); (nb, [9; 9]); (nc, [7; 4])].
Proof.
  split; [unfold separate; vm_compute; repeat constructor; cbn; lia|]. split.
  - intros a b Ha Hb. vm_compute in Ha. destruct Ha as [<-|[<-|[<-|[]]]]; destruct Hb as [<-|[<-|[]]]; cbn; lia.
  - eexists. split; vm_compute; reflexivity.
Qed.

(** ** C106: putmask *)
(** [ds.putmask(mask, other)]: in every column, by position, the rows under the mask get the value
    of the same row of the other dataset; all other rows keep theirs.  Partial: no shared storage. *)
Theorem C106_putmask_partial {V} (junk inv : V) c w d m src : python_class c -> reachable junk inv c w d -> consistent src ->
  separate (arrays d) -> apart (arrays d) (arrays src) -> nrows d = Some (length m) -> len src = length m -> length (keys src) = length (keys d) ->
  exists w', putmask_ds junk w d m src = (w', None) /\
  (forall k n old n' vals, nth_error (columns junk w d) k = Some (n, old) -> nth_error (columns junk w src) k = Some (n', vals) ->
     exists new, nth_error (columns junk w' d) k = Some (n, new) /\
       forall i, nth_error new i = if nth i m false then nth_error vals i else nth_error old i) /\
  (forall a, apart (arrays d) [a] -> read junk w' a = read junk w a).
Proof.
  intros PY R (SN & SC & SR) Sep Ap En Es Ek. destruct (reachable_good junk inv c PY w d R) as [Gd _]. destruct (g_con _ _ _ Gd) as (_ & NC & Q).
  unfold putmask_ds. rewrite En, Es, !Nat.eqb_refl. cbn [andb]. rewrite NC, SC, Ek, Z.eqb_refl. eexists. split; [reflexivity|].
  assert (LK : length (items src) = length (items d)) by (unfold keys in Ek; rewrite !map_length in Ek; exact Ek).
  destruct (put_all_spec junk m (arrays d) (arrays src) w) as [A B].
  - intros a Ha. apply in_map_iff in Ha. destruct Ha as ([n it] & <- & Hi). cbn. split; [eapply Gd, Hi|]. apply Q in Hi. congruence.
  - intros a Ha. apply in_map_iff in Ha. destruct Ha as ([n it] & <- & Hi). cbn. apply SR in Hi. unfold len in Es. rewrite Hi in Es. exact Es.
  - unfold arrays. now rewrite !map_length.
  - assumption.
  - assumption.
  - split; [|exact B]. intros k n old n' vals Hk Hv. unfold columns in *. rewrite nth_error_map in Hk, Hv. destruct (nth_error (items d) k) as [[n0 it]|] eqn:E1; [|discriminate]. destruct (nth_error (items src) k) as [[n1 it1]|] eqn:E2; [|discriminate].
    cbn in Hk, Hv. injection Hk as <- <-. injection Hv as <- <-. eexists. rewrite nth_error_map, E1. split; [reflexivity|]. cbn. apply (A k).
    + unfold arrays. now rewrite nth_error_map, E1.
    + unfold arrays. now rewrite nth_error_map, E2.
Qed.
Print Assumptions C106_putmask_partial.
(** [ds.putmask(mask, array)]: the rows under the mask of every column get the array's value *)
Theorem C106_putmask_array_partial {V} (junk inv : V) c w d m a : python_class c -> reachable junk inv c w d ->
  separate (arrays d) -> apart (arrays d) [a] -> nrows d = Some (length m) -> alen a = length m ->
  exists w', putmask_arr junk w d m a = (w', None) /\
  (forall k n old, nth_error (columns junk w d) k = Some (n, old) ->
     exists new, nth_error (columns junk w' d) k = Some (n, new) /\
       forall i, nth_error new i = if nth i m false then nth_error (read junk w a) i else nth_error old i) /\
  (forall b, apart (arrays d) [b] -> read junk w' b = read junk w b).
Proof.
  intros PY R Sep Ap En Ea. destruct (reachable_good junk inv c PY w d R) as [Gd _]. destruct (g_con _ _ _ Gd) as (_ & NC & Q).
  unfold putmask_arr. rewrite En, Ea, !Nat.eqb_refl. eexists. split; [reflexivity|].
  assert (RA : forall x, In x (repeat a (length (items d))) -> x = a) by (intros x Hx; now apply repeat_spec in Hx).
  destruct (put_all_spec junk m (arrays d) (repeat a (length (items d))) w) as [A B].
  - intros x Hx. apply in_map_iff in Hx. destruct Hx as ([n it] & <- & Hi). cbn. split; [eapply Gd, Hi|]. apply Q in Hi. congruence.
  - intros x Hx. rewrite (RA x Hx). assumption.
  - unfold arrays. now rewrite map_length, repeat_length.
  - assumption.
  - intros x y Hx Hy. rewrite (RA y Hy). apply Ap; [assumption|now left].
  - split; [|exact B]. intros k n old Hk. unfold columns in *. rewrite nth_error_map in Hk. destruct (nth_error (items d) k) as [[n0 it]|] eqn:E1; [|discriminate].
    cbn in Hk. injection Hk as <- <-. eexists. rewrite nth_error_map, E1. split; [reflexivity|]. cbn. apply (A k).
    + unfold arrays. now rewrite nth_error_map, E1.
    + assert (Hk : k < length (items d)) by (apply nth_error_Some; congruence). clear - Hk. revert k Hk. induction (length (items d)) as [|j IH]; intros [|k] Hk; cbn; try lia; [reflexivity|]. apply IH. lia.
Qed.
Print Assumptions C106_putmask_array_partial.
(** Finding: [ds.putmask(mask, ds[['b','a','C']])], the same columns in another order, does not
    exchange a and b under the mask. *)
Theorem C106_shared_refuted : exists (c : pyclass) (w : world nat) d src m w', python_class c /\ reachable 0 99 c w d /\ consistent src /\
  columns 0 w d = [(na, [1; 3]); (nb, [9; 9]); (nc, [5; 7])] /\ columns 0 w src = [(nb, [9; 9]); (na, [1; 3]); (nc, [5; 7])] /\
  putmask_ds 0 w d m src = (w', None) /\ m = [true; false] /\ columns 0 w' d = [(na, [9; 3]); (nb, [9; 9]); (nc, [5; 7])].
Proof.
  exists demo_class, (fst demo), (snd demo), (Ds (Some 2) 3 (rev (firstn 2 (items (snd demo))) ++ skipn 2 (items (snd demo))) false), [true; false]. eexists. split; [apply demo_python|]. split; [apply demo_reachable|]. split.
  - split; [vm_compute; repeat constructor; cbn; intuition discriminate|]. split; [reflexivity|]. intros n it H. vm_compute in H. destruct H as [[= <- <-]|[[= <- <-]|[[= <- <-]|[]]]]; reflexivity.
  - split; [vm_compute; reflexivity|]. split; [vm_compute; reflexivity|]. split; [vm_compute; reflexivity|]. split; [reflexivity|]. vm_compute; reflexivity.
Qed.
Print Assumptions C106_shared_refuted.
Definition demo_third : dataset := Ds (Some 2) 3 [(nb, Item (Arr 0 [0; 3]) None); (na, Item (Arr 0 [2; 1]) None); (nc, Item (Arr 0 [3; 2]) None)] false.
Example C106_case : consistent demo_third /\ apart (arrays (snd demo)) (arrays demo_third) /\
  exists w', putmask_ds 0 (fst demo) (snd demo) [false; true] demo_third = (w', None) /\ columns 0 w' (snd demo) = [(na, [1; 7]); (nb, [9; 5]); (nc, [5; 6])].
Proof.
  split; [|split].
  - split; [vm_compute; repeat constructor; cbn; intuition discriminate|]. split; [reflexivity|]. intros n it H. vm_compute in H. destruct H as [[= <- <-]|[[= <- <-]|[[= <- <-]|[]]]]; reflexivity.
  - intros a b Ha Hb. vm_compute in Ha. destruct Ha as [<-|[<-|[<-|[]]]]; destruct Hb as [<-|[<-|[<-|[]]]]; cbn; lia.
  - eexists. split; vm_compute; reflexivity.
Qed.

(** ** C107: labels and copies *)
(** label_set_names followed by label_get_names gives the names back, in the given order,
    whatever labels were set before. *)
Theorem C107_label_round_trip {V} (junk inv : V) c w d l : python_class c -> reachable junk inv c w d -> NoDup l -> (forall n, In n l -> In n (keys d)) ->
  label_get_names (fst (label_set_names w d l)) (snd (label_set_names w d l)) = l /\
  columns junk (fst (label_set_names w d l)) (snd (label_set_names w d l)) = columns junk w d.
Proof.
  intros PY R Nl Sub. destruct (reachable_good junk inv c PY w d R) as [Gd LO]. split; [apply label_set_get; auto; apply Gd|].
  destruct (label_set_spec w d l) as [M SC]. now apply same_read.
Qed.
Print Assumptions C107_label_round_trip.
(** copy(deep=True) has the same columns, labels and row count, and the two datasets are
    independent: no session on one of them changes the columns or labels of the other, as long as
    it does not itself hand in an array of the other. *)
Theorem C107_deep_copy {V} (junk inv : V) c w d : python_class c -> reachable junk inv c w d ->
  let w' := fst (copy_deep junk w d) in let d' := snd (copy_deep junk w d) in
  columns junk w' d' = columns junk w d /\ columns junk w' d = columns junk w d /\ (keys d <> [] -> nrows d' = nrows d) /\
  label_get_names w' d' = label_get_names w d /\ label_get_names w' d = label_get_names w d /\
  (forall s, (forall o a, In o s -> In a (op_arrays o) -> ~ In (base a) (storage d)) ->
     let w2 := fst (run junk inv c w' d' s) in columns junk w2 d = columns junk w d /\ label_get_names w2 d = label_get_names w d) /\
  (forall s, (forall o a, In o s -> In a (op_arrays o) -> ~ In (base a) (storage d')) ->
     let w2 := fst (run junk inv c w' d s) in columns junk w2 d' = columns junk w d /\ label_get_names w2 d' = label_get_names w d).
Proof.
  intros PY R. destruct (reachable_good junk inv c PY w d R) as [Gd LO]. destruct (deep_spec junk c w d Gd LO) as (A & B & C & D & E & K & L' & M1 & M2 & F & G).
  set (w' := fst (copy_deep junk w d)) in *. set (d' := snd (copy_deep junk w d)) in *. cbv zeta.
  assert (ND : NoDup (keys d)) by apply Gd. assert (AI : all_inside w d) by apply Gd.
  assert (LOw : labels_ok w' d) by (split; [apply LO|intros r Hr; apply LO in Hr; lia]).
  split; [assumption|]. split; [assumption|]. split; [assumption|]. split; [assumption|]. split; [assumption|].
  (* frame: datasets whose blocks exist *)
  assert (Fr : forall (x y : dataset), (forall n it, In (n, it) (items x) -> base (arr it) < length (mem w')) -> NoDup (keys x) -> labels_ok w' x ->
    (forall n it b, In (n, it) (items y) -> In b (storage x) -> base (arr it) <> b) -> (forall r, In r (refs y) -> ~ In r (refs x)) ->
    forall s, (forall o a, In o s -> In a (op_arrays o) -> ~ In (base a) (storage x)) ->
    columns junk (fst (run junk inv c w' y s)) x = columns junk w' x /\ label_get_names (fst (run junk inv c w' y s)) x = label_get_names w' x).
  { intros x y Bx Nx Lx SB SR s So.
    destruct (run_safe junk inv c (fun b => In b (storage x)) (fun r => In r (refs x)) s w' y) as [(_ & _ & U1 & U2) _].
    - split; [|apply Lx]. intros b Hb. apply in_map_iff in Hb. destruct Hb as (a & <- & Ha). apply in_map_iff in Ha. destruct Ha as ([n it] & <- & Hi). now apply (Bx n it).
    - intros n it Hi. split; [intros Hb; now apply (SB n it _ Hi Hb)|]. intros r Ea Hr. apply (SR r); [eapply in_refs; eassumption|assumption].
    - exact So.
    - split.
      + apply map_ext_in. intros [n it] Hi. cbn. f_equal. unfold read. rewrite U1; [reflexivity|]. unfold storage, arrays. rewrite map_map. apply in_map_iff. exists (n, it). auto.
      + apply label_get_ext; [assumption|reflexivity|]. intros m _. apply lab_attrs. exact U2. }
  assert (Bd : forall n it, In (n, it) (items d) -> base (arr it) < length (mem w)) by (intros n it Hi; apply (AI n it Hi)).
  split; intros s So.
  - rewrite <- B, <- D. apply Fr; auto.
    + intros n it Hi. apply Bd in Hi. lia.
    + intros n it b Hi Hb Eq. apply F in Hi. apply in_map_iff in Hb. destruct Hb as (a & <- & Ha). apply in_map_iff in Ha. destruct Ha as ([m x] & <- & Hx). apply Bd in Hx. cbn in Eq. lia.
    + intros r Hr Hr'. apply G in Hr. apply LO in Hr'. lia.
  - rewrite <- A, <- C. apply Fr; auto.
    + intros n it Hi. now apply F in Hi.
    + now rewrite K.
    + intros n it b Hi Hb Eq. apply Bd in Hi. apply in_map_iff in Hb. destruct Hb as (a & <- & Ha). apply in_map_iff in Ha. destruct Ha as ([m x] & <- & Hx). apply F in Hx. cbn in Eq. lia.
    + intros r Hr Hr'. apply G in Hr'. apply LO in Hr. lia.
Qed.
Print Assumptions C107_deep_copy.
(** Finding: a row selection or shallow copy shares the label objects with the original: setting
    labels on ds[[0], :] changes the labels of ds. *)
Theorem C107_shared_labels_refuted : exists (c : pyclass) (w : world nat) d w1 d1 w2 d2, python_class c /\ reachable 0 99 c w d /\
  getrows 0 99 w d (RInts [0%Z]) = (w1, inl d1) /\ label_get_names w1 d = [nc; na] /\
  label_set_names w1 d1 [na] = (w2, d2) /\ label_get_names w2 d = [na].
Proof.
  exists demo_class, (fst demo), (snd demo). eexists _, _, _, _. split; [apply demo_python|]. split; [apply demo_reachable|]. split; [vm_compute; reflexivity|]. split; [vm_compute; reflexivity|]. split; vm_compute; reflexivity.
Qed.
Print Assumptions C107_shared_labels_refuted.
Example C107_case : columns 0 (fst (copy_deep 0 (fst demo) (snd demo))) (snd (copy_deep 0 (fst demo) (snd demo))) = columns 0 (fst demo) (snd demo) /\
  label_get_names (fst (copy_deep 0 (fst demo) (snd demo))) (snd (copy_deep 0 (fst demo) (snd demo))) = [nc; na] /\
  storage (snd demo) = [3; 4; 5] /\ storage (snd (copy_deep 0 (fst demo) (snd demo))) = [6; 7; 8].
Proof. repeat split; vm_compute; reflexivity. Qed.
