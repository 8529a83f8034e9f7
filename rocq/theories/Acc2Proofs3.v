From Coq Require Import List Arith Bool ZArith Permutation Lia.
From Verif Require Import FlattenModel DsModel DsProofs3 GroupingModel GroupingSpec AggModel AggSpec AggProofs AggProofs2 AggProofs3 Acc2Model Acc2Spec Acc2Proofs Acc2Proofs2.
Import ListNotations.

Section A.
Context {V : Type}.
Variable inv : V.
Variable vlt : V -> V -> Prop.
Variable lexsort : list (list V) -> list nat.
Variable LS : lexsort_ok inv vlt lexsort.
Variable binname : list V -> V.
Variable label : list V -> name.
Variable inv_label : nat -> name.
Variable zero : V.
Variables (tr tc : table (V := V)) (R C : nat) (sdr prer sdc prec : bool).
Variable KR : key_table inv tr R.
Variable KC : key_table inv tc C.
Notation sr := (sdr && negb prer).
Notation sc := (sdc && negb prec).
Notation pr := (order lexsort sr tr R).
Notation pc := (order lexsort sc tc C).
Notation kinvr := (kinv inv lexsort binname tr R sdr prer).
Notation kinvc := (kinv inv lexsort binname tc C sdc prec).
Variable a0 : acc2 (V := V).
Notation ainv := (ainv inv lexsort binname tr tc R C sdr prer sdc prec a0).
Notation gbk := (gbk inv lexsort binname tr R sdr prer a0).
Notation columns := (columns inv lexsort label inv_label tr tc R C sdr prer sdc prec).
Notation ylab := (a_ylab a0).
Definition base_ds (g : nat -> V) (sf : bool) : table := gbk sf ++ lead sf (filtered_name, map g (seq 0 (S R))) ++ columns g sf.
Lemma base_names g sf : map fst (base_ds g sf) = key_names ylab tr ++ lead sf filtered_name ++ col_labels inv label inv_label tc pc.
Proof.
  unfold base_ds. rewrite !map_app. rewrite (gbk_names inv lexsort binname tr R sdr prer KR a0), (columns_names inv vlt lexsort LS label inv_label tr tc R C sdr prer sdc prec KC). now destruct sf.
Qed.
Lemma base_len g sf : all_len (len_of R sf) (base_ds g sf).
Proof.
  intros q Hq. unfold base_ds in Hq. apply in_app_iff in Hq. destruct Hq as [Hq|Hq]; [exact (gbk_len inv vlt lexsort LS binname tr R sdr prer KR a0 sf q Hq)|].
  apply in_app_iff in Hq. destruct Hq as [Hq|Hq].
  - destruct sf; [|destruct Hq]. destruct Hq as [<-|[]]. cbn [snd]. rewrite map_length, seq_length. reflexivity.
  - unfold Acc2Proofs2.columns in Hq. apply in_map_iff in Hq. destruct Hq as [q0 [<- _]]. unfold column. cbn [snd]. rewrite app_length, map_length, (pr_len inv vlt lexsort LS tr R sdr prer KR). unfold len_of. destruct sf; reflexivity.
Qed.

Lemma dget_nth {X} (d : list (name * X)) q k v : NoDup (map fst d) -> nth_error d q = Some (k, v) -> dget k d = Some v.
Proof. intros ND H. apply dget_nodup; [exact ND|]. eapply nth_error_In; eauto. Qed.
Lemma column_in g sf j k : nth_error pc j = Some k -> In (column inv lexsort label inv_label tr tc R sdr prer g sf (j, k)) (columns g sf).
Proof.
  intros H. unfold Acc2Proofs2.columns. apply in_map. apply nth_error_In with (n := j).
  assert (L : j < C) by (rewrite <- (pc_len inv vlt lexsort LS tc C sdc prec KC); apply nth_error_Some; congruence).
  clear - H L. revert j k H L. generalize pc. intros l.
  assert (Q : forall (l : list nat) (a j k n : nat), nth_error l j = Some k -> j < n -> nth_error (combine (seq a n) l) j = Some (a + j, k)).
  { clear. induction l as [|x l IH]; intros a j k n H L; [destruct j; discriminate|]. destruct n as [|n]; [lia|]. destruct j as [|j]; cbn [seq combine nth_error] in *.
    - injection H as ->. f_equal. f_equal. lia.
    - rewrite (IH (S a) j k n H) by lia. f_equal. f_equal. lia. }
  intros j k H L. exact (Q l 0 j k C H L).
Qed.
Lemma two_way_ok g sf rest (value : nat -> nat -> V) :
  (forall i j, i <= R -> j <= C -> (sf = true \/ 0 < j) -> g (j * S R + i) = value i j) ->
  NoDup (map fst (base_ds g sf ++ rest)) ->
  two_way inv label inv_label binname ylab tr tc pr pc sf value (base_ds g sf ++ rest).
Proof.
  intros VL ND. split; [|split].
  - exists (map fst rest). rewrite map_app, base_names, <- !app_assoc. reflexivity.
  - intros q k u H. pose proof (gbk_get inv lexsort binname tr R sdr prer a0 sf q k u H) as G.
    destruct (nth_error (gbk sf) q) as [[k' v]|] eqn:E; [|rewrite nth_error_map, E in G; discriminate].
    rewrite nth_error_map, E in G. cbn [option_map snd] in G. assert (v = lead sf (binname (reorder inv u pr)) ++ reorder inv u pr) by congruence. subst v. exists k'. split.
    + rewrite <- (gbk_names inv lexsort binname tr R sdr prer KR a0 sf), nth_error_map, E. reflexivity.
    + apply (dget_nth _ q); [exact ND|]. unfold base_ds. rewrite <- app_assoc. rewrite nth_error_app1; [exact E|]. apply nth_error_Some. congruence.
  - intros j k H. pose proof (column_in g sf j k H) as I.
    assert (Lk : k < C) by (apply (order_lt inv vlt lexsort LS sc tc C _ KC); eapply nth_error_In; eauto).
    apply dget_nodup; [exact ND|]. apply in_app_iff. left. unfold base_ds. apply in_app_iff. right. apply in_app_iff. right.
    unfold column in I. cbn [fst snd] in I.
    assert (E : lead sf (value 0 (S k)) ++ map (fun i => value (S i) (S k)) pr = lead sf (g (S k * S R)) ++ map (fun i => g (S k * S R + S i)) pr).
    { f_equal.
      - destruct sf; [|reflexivity]. cbn [lead]. f_equal. rewrite <- (VL 0 (S k)) by (auto; lia). f_equal. lia.
      - apply map_ext_in. intros i Hi. symmetry. apply VL; [|lia|right; lia]. apply (order_lt inv vlt lexsort LS sr tr R i KR) in Hi. lia. }
    rewrite E. exact I.
Qed.
Lemma filtered_col_ok g rest (value : nat -> nat -> V) :
  (forall i, i <= R -> g i = value i 0) -> pr = seq 0 R -> NoDup (map fst (base_ds g true ++ rest)) -> filtered_column pr value (base_ds g true ++ rest).
Proof.
  intros VL P ND. unfold filtered_column. apply dget_nodup; [exact ND|]. apply in_app_iff. left. unfold base_ds. apply in_app_iff. right. apply in_app_iff. left. cbn [lead In]. left. f_equal.
  rewrite P. cbn [seq map]. rewrite <- seq_shift, map_map. f_equal; [apply VL; lia|]. apply map_ext_in. intros i Hi. apply in_seq in Hi. apply VL. lia.
Qed.

(** totals *)
Lemma combine_app_l {X Y} (l1 l2 : list X) (r : list Y) : length l1 = length r -> combine (l1 ++ l2) r = combine l1 r.
Proof. revert r. induction l1 as [|x l1 IH]; intros [|y r] H; cbn [length] in H; try discriminate; [destruct l2; reflexivity|]. cbn [app combine]. f_equal. apply IH. lia. Qed.
Lemma col_labels_nth j k : nth_error pc j = Some k -> nth_error (col_labels inv label inv_label tc pc) j = Some (col_label inv label inv_label tc j k).
Proof.
  intros H. unfold col_labels. rewrite combine_seq_map. assert (L : j < length pc) by (apply nth_error_Some; congruence).
  erewrite map_nth_error; [|rewrite (nth_error_nth' _ 0) by (rewrite seq_length; exact L); rewrite seq_nth by exact L; reflexivity]. cbn [fst snd Nat.add].
  now rewrite (nth_error_nth _ _ 0 H).
Qed.
Lemma col_labels_len : length (col_labels inv label inv_label tc pc) = C.
Proof. unfold col_labels. rewrite map_length, combine_length, seq_length, Nat.min_id. apply (pc_len inv vlt lexsort LS tc C sdc prec KC). Qed.
Lemma map_fst_combine {X Y} (l : list X) (r : list Y) : length l = length r -> map fst (combine l r) = l.
Proof. revert r. induction l as [|x l IH]; intros [|y r] H; cbn in *; try discriminate; auto. f_equal. apply IH. lia. Qed.
Lemma nth_error_combine {X Y} (l : list X) : forall (r : list Y) i x y, nth_error l i = Some x -> nth_error r i = Some y -> nth_error (combine l r) i = Some (x, y).
Proof. induction l as [|a l IH]; intros [|b r] [|i] x y H1 H2; cbn in *; try discriminate; auto. congruence. Qed.
Lemma totals_ok g sf nm (rt ct : nat -> V) total : names_ok inv label inv_label ylab tr tc pc sf [nm] ->
  exists d foot, add_totals (length tr) nm (lead sf (ct 0) ++ map (fun k => ct (S k)) pc) (lead sf (rt 0) ++ map (fun i => rt (S i)) pr) total (Some (base_ds g sf)) = Some (d, foot) /\
    d = base_ds g sf ++ [(nm, lead sf (rt 0) ++ map (fun i => rt (S i)) pr)] /\ NoDup (map fst d) /\
    margins inv label inv_label tc pr pc sf nm rt ct total (d, foot).
Proof.
  intros NO. unfold add_totals. set (ty := lead sf (rt 0) ++ map (fun i => rt (S i)) pr). set (tx := lead sf (ct 0) ++ map (fun k => ct (S k)) pc).
  assert (NI : NoDup (map fst (base_ds g sf) ++ [nm])) by (rewrite base_names, <- !app_assoc; exact NO).
  assert (E : set_col nm ty (Some (base_ds g sf)) = Some (base_ds g sf ++ [(nm, ty)])).
  { change (set_cols [(nm, ty)] (Some (base_ds g sf)) = Some (base_ds g sf ++ [(nm, ty)])).
    etransitivity; [apply (set_cols_ok (len_of R sf)); [apply base_len|]|].
    - intros q [<-|[]]. cbn [snd]. unfold ty. rewrite app_length, map_length, (pr_len inv vlt lexsort LS tr R sdr prer KR). unfold len_of. now destruct sf.
    - f_equal. apply dset_all_id. exact NI. }
  rewrite E. eexists. eexists. split; [reflexivity|]. split; [reflexivity|].
  assert (ND : NoDup (map fst (base_ds g sf ++ [(nm, ty)]))) by (rewrite map_app; exact NI).
  split; [exact ND|].
  assert (NM : names (base_ds g sf ++ [(nm, ty)]) = key_names ylab tr ++ (lead sf filtered_name ++ col_labels inv label inv_label tc pc) ++ [nm]).
  { unfold names. rewrite map_app, base_names, <- !app_assoc. reflexivity. }
  assert (KL : length (key_names ylab tr) = length tr) by (unfold key_names; destruct tr as [|x [|y r]]; cbn [length map]; rewrite ?map_length; reflexivity).
  assert (SK : skipn (length tr) (names (base_ds g sf ++ [(nm, ty)])) = (lead sf filtered_name ++ col_labels inv label inv_label tc pc) ++ [nm]).
  { rewrite NM, <- KL. rewrite skipn_app, skipn_all, Nat.sub_diag. reflexivity. }
  assert (LX : length (lead sf filtered_name ++ col_labels inv label inv_label tc pc) = length tx).
  { unfold tx. rewrite !app_length, map_length, col_labels_len, (pc_len inv vlt lexsort LS tc C sdc prec KC). now destruct sf. }
  rewrite SK, (combine_app_l _ _ _ LX).
  assert (NF : NoDup ((lead sf filtered_name ++ col_labels inv label inv_label tc pc) ++ [nm])).
  { unfold names_ok in NO. clear - NO. rewrite <- !app_assoc. induction (key_names ylab tr) as [|x l IH]; [exact NO|]. apply IH. cbn [app] in NO. now inversion NO. }
  assert (Nn : ~ In nm (lead sf filtered_name ++ col_labels inv label inv_label tc pc)).
  { apply NoDup_remove_2 in NF. rewrite app_nil_r in NF. exact NF. }
  set (foot := combine _ tx). assert (FN : map fst foot = lead sf filtered_name ++ col_labels inv label inv_label tc pc) by (apply map_fst_combine; exact LX).
  assert (FND : NoDup (map fst foot)) by (rewrite FN; now apply nodup_prefix in NF).
  unfold margins. cbn [fst snd]. split; [|split; [|split]].
  - apply dget_nodup; [exact ND|]. apply in_app_iff. right. now left.
  - intros j k H. rewrite dget_dset. pose proof (col_labels_nth j k H) as HL.
    assert (IL : In (col_label inv label inv_label tc j k) (lead sf filtered_name ++ col_labels inv label inv_label tc pc)) by (apply in_app_iff; right; eapply nth_error_In; eauto).
    destruct (name_dec nm (col_label inv label inv_label tc j k)) as [->|_]; [contradiction|].
    apply (dget_nth foot (length (lead sf filtered_name) + j)); [exact FND|]. unfold foot. apply nth_error_combine.
    + rewrite nth_error_app2 by lia. replace (length (lead sf filtered_name) + j - length (lead sf filtered_name)) with j by lia. exact HL.
    + unfold tx. assert (Q : length (lead sf filtered_name) = length (lead sf (ct 0))) by now destruct sf. rewrite Q, nth_error_app2 by lia.
      replace (length (lead sf (ct 0)) + j - length (lead sf (ct 0))) with j by lia. now rewrite (map_nth_error _ _ _ H).
  - intros ->. rewrite dget_dset. destruct (name_dec nm filtered_name) as [->|_]; [exfalso; apply Nn; now left|].
    apply (dget_nth foot 0); [exact FND|]. unfold foot, tx. reflexivity.
  - rewrite dget_dset. destruct (name_dec nm nm); [reflexivity|congruence].
Qed.
End A.
