From Coq Require Import List Arith Bool ZArith Permutation Lia.
From Verif Require Import FlattenModel DsModel DsProofs3 GroupingModel GroupingSpec AggModel AggSpec AggProofs AggProofs2 AggProofs3 AggProofs5 Acc2Model Acc2Spec Acc2Proofs Acc2Proofs2 Acc2Proofs3 Acc2Proofs4 Acc2Proofs5 Acc2Proofs6.
Import ListNotations.

Section A.
Context {V : Type}.
Variable inv : V.
Variable vlt : V -> V -> Prop.
Variable lexsort : list (list V) -> list nat.
Variable LS : lexsort_ok inv vlt lexsort.
Variable binname : list V -> V.
Variable label : list V -> name.
Variable inv_label : nat -> name.
Variable zero : V.
Variables (tr tc : table (V := V)) (R C : nat) (sdr prer sdc prec : bool).
Notation sr := (sdr && negb prer).
Notation sc := (sdc && negb prec).
Notation pr := (order lexsort sr tr R).
Notation pc := (order lexsort sc tc C).
Variable a0 : acc2 (V := V).
Notation ainv := (ainv inv lexsort binname tr tc R C sdr prer sdc prec a0).
Notation base_ds := (base_ds inv lexsort binname label inv_label tr tc R C sdr prer sdc prec a0).
Notation gbk := (gbk inv lexsort binname tr R sdr prer a0).
Notation columns := (columns inv lexsort label inv_label tr tc R C sdr prer sdc prec).
Notation ylab := (a_ylab a0).
Notation rk := (x_code (a_row a0)).
Notation ck := (x_code (a_col a0)).
Variable KR : key_table inv tr R.
Variable KC : key_table inv tc C.
Variable RC : codes_in R rk.
Variable CC : codes_in C ck.
Variable RN : x_n (a_row a0) = R.
Variable CN : x_n (a_col a0) = C.
Variable LN : length ck = length rk.
Variable F1 : filter_ok (length rk) (a_flt a0).
Notation n := (length rk).
Variables (flt : option (list bool)) (sf : bool).
Variable F2 : filter_ok n flt.


Lemma lead_map {X Y} (h : X -> Y) (b : bool) x : map h (lead b x) = lead b (h x).
Proof. now destruct b. Qed.
Lemma js_perm (s : bool) m p : Permutation p (seq 0 m) -> Permutation (lead s 0 ++ map S p) (js s m).
Proof. intros P. unfold js. destruct s; cbn [lead app seq]; rewrite <- seq_shift; [constructor|]; now apply Permutation_map. Qed.
Lemma list_sum_perm l l' : Permutation l l' -> list_sum l = list_sum l'.
Proof. clear. induction 1; cbn [list_sum fold_right] in *; unfold list_sum in *; cbn [fold_right] in *; lia. Qed.
Lemma length_concat_sum {X} (ls : list (list X)) : length (concat ls) = list_sum (map (@length X) ls).
Proof. induction ls as [|l ls IH]; [reflexivity|]. cbn [concat map list_sum fold_right]. rewrite app_length, IH. reflexivity. Qed.

Variables (num : nat -> V) (sum : list V -> V).
Notation tal := (tally rk ck (a_flt a0) flt).
Notation value := (fun i j => num (tal (cell i j))).
Notation xs := (repeat inv n).
Definition cbin (b : nat) : V := num (length (filter (Nat.eqb b) (passing flt (ikey2 a0)))).
Lemma tally_select s : tal s = length (select inv rk ck (a_flt a0) flt xs s).
Proof. unfold tally, select. now rewrite map_length. Qed.
Lemma cbin_ok i j : i <= R -> j <= C -> cbin (j * S R + i) = value i j.
Proof.
  intros Hi Hj. unfold cbin. f_equal. rewrite tally_select. pose proof RC as RC'. rewrite <- RN in RC'.
  assert (X : length xs = n) by apply repeat_length.
  pose proof (bin_cell inv a0 flt xs LN F1 F2 X RC' flt i j (or_introl eq_refl)) as B. rewrite RN in B. rewrite <- (B Hi).
  pose proof (ikey2_length a0 LN F1) as IL.
  rewrite (in_bin_values inv (ikey2 a0) flt xs) by (rewrite IL; assumption). unfold bin_values. rewrite map_length.
  apply (count_bin (ikey2 a0) flt). rewrite IL. exact F2.
Qed.
(** counts of parts add up *)
Lemma tally_parts (sels : nat -> nat * nat -> bool) all l :
  Permutation (concat (map (fun j => select inv rk ck (a_flt a0) flt xs (sels j)) l)) (select inv rk ck (a_flt a0) flt xs all) ->
  list_sum (map (fun j => tal (sels j)) l) = tal all.
Proof.
  intros P. rewrite (tally_select all), <- (Permutation_length P), length_concat_sum, map_map. f_equal. apply map_ext. intros j. apply tally_select.
Qed.
Variable ADD : forall l, sum (map num l) = num (list_sum l).

Lemma count_ok2 a : ainv a -> names_ok inv label inv_label ylab tr tc pc sf (if a_tot a0 then [sum_name] else []) ->
  exists d foot, snd (count2 inv lexsort binname label inv_label num sum flt sf a) = Some (d, foot) /\
    two_way inv label inv_label binname ylab tr tc pr pc sf value d /\
    (sf = true -> pr = seq 0 R -> filtered_column pr value d) /\
    (a_tot a0 = true -> (sf = true -> pr = seq 0 R) ->
       margins inv label inv_label tc pr pc sf sum_name (fun i => num (tal (in_row sf i))) (fun j => num (tal (in_col sf j))) (num (tal (shown sf))) (d, foot)).
Proof.
  intros I NO. unfold count2. destruct (same_ikey2 inv lexsort binname tr tc R C sdr prer sdc prec a0 a I) as (EI & EB & EF & ET). rewrite EI, EB, ET. cbv zeta.
  fold cbin. change (map (fun b => num (length (filter (Nat.eqb b) (passing flt (ikey2 a0))))) (seq 0 (S (nbins a0)))) with (map cbin (seq 0 (S (nbins a0)))).
  pose proof (names_nil inv lexsort label inv_label tr tc C sdc prec a0 sf _ NO) as NO0.
  destruct (make_ok inv vlt lexsort LS binname label inv_label tr tc R C sdr prer sdc prec KR KC a0 cbin sf a I RN CN NO0) as [I1 MO].
  destruct (make_dataset inv lexsort binname label inv_label (map cbin (seq 0 (S (nbins a0)))) sf a) as [a1 [ds gb]]. cbn [fst snd] in I1, MO.
  assert (DS : ds = Some (base_ds cbin sf)) by exact (f_equal fst MO). assert (GB : gb = gbk sf) by exact (f_equal snd MO). clear MO. subst ds gb.
  destruct (a_tot a0) eqn:T.
  2: { exists (base_ds cbin sf ++ []), []. rewrite app_nil_r. split; [reflexivity|]. rewrite <- (app_nil_r (base_ds cbin sf)).
    destruct (table_ok inv vlt lexsort LS binname label inv_label tr tc R C sdr prer sdc prec a0 KR KC RN CN LN sf cbin value _ [] (fun i j p q _ => cbin_ok i j p q) eq_refl
       (base_nodup inv vlt lexsort LS binname label inv_label tr tc R C sdr prer sdc prec a0 KR KC sf cbin NO0)) as [G1 G2].
    split; [exact G1|]. split; [exact G2|]. intros; discriminate. }
  (* the columns that are added up *)
  set (im := lead sf (filtered_name, map cbin (seq 0 (S R))) ++ columns cbin sf).
  assert (ND0 : NoDup (map fst (base_ds cbin sf))) by (rewrite (base_names inv vlt lexsort LS binname label inv_label tr tc R C sdr prer sdc prec KR KC a0); unfold names_ok in NO0; rewrite app_nil_r in NO0; exact NO0).
  assert (IM : filter (fun p => negb (mem (fst p) (names (gbk sf)))) (base_ds cbin sf) = im).
  { change (base_ds cbin sf) with (gbk sf ++ im). rewrite filter_app.
    rewrite (filter_nil (fun p => negb (mem (fst p) (names (gbk sf)))) (gbk sf)), (filter_all _ im); [reflexivity| |].
    - intros p Hp. apply negb_true_iff. destruct (mem (fst p) (names (gbk sf))) eqn:E; [|reflexivity]. exfalso. apply mem_in in E.
      change (base_ds cbin sf) with (gbk sf ++ im) in ND0. rewrite map_app in ND0. unfold names in E.
      apply in_split in E. destruct E as (l1 & l2 & E). rewrite E in ND0. rewrite <- app_assoc in ND0. cbn [app] in ND0. apply NoDup_remove_2 in ND0. apply ND0.
      apply in_app_iff. right. apply in_app_iff. right. now apply in_map.
    - intros p Hp. apply negb_false_iff. apply mem_in. unfold names. now apply in_map. }
  rewrite IM.
  pose proof (base_len inv vlt lexsort LS binname label inv_label tr tc R C sdr prer sdc prec KR a0 cbin sf) as BL.
  assert (RW : match base_ds cbin sf with (_, v) :: _ => length v | [] => 0 end = len_of R sf).
  { destruct (base_ds cbin sf) as [|[k v] rest] eqn:E.
    - exfalso. pose proof (f_equal (map fst) E) as E'. rewrite (base_names inv vlt lexsort LS binname label inv_label tr tc R C sdr prer sdc prec KR KC a0) in E'.
      destruct KR as (Nt & _). unfold key_names in E'. destruct tr as [|x [|y t]]; [congruence|discriminate|discriminate].
    - apply (BL (k, v)). now left. }
  rewrite RW.
  set (rt := fun i => num (tal (in_row sf i))). set (ct := fun j => num (tal (in_col sf j))).
  pose proof (order_perm inv vlt lexsort LS sc tc C KC) as PP. pose proof (order_perm inv vlt lexsort LS sr tr R KR) as PPr.
  (* one row total *)
  assert (RT : forall i, i <= R -> (sf = true \/ 0 < i) -> sum (lead sf (cbin i) ++ map (fun k => cbin (S k * S R + i)) pc) = rt i).
  { intros i Hi H. assert (E : lead sf (cbin i) ++ map (fun k => cbin (S k * S R + i)) pc = map num (map (fun j => tal (cell i j)) (lead sf 0 ++ map S pc))).
    { rewrite map_map, map_app, map_map, lead_map. f_equal.
      - destruct sf; [|reflexivity]. cbn [lead]. f_equal. change (cbin (0 * S R + i) = value i 0). apply cbin_ok; [exact Hi|lia].
      - apply map_ext_in. intros k Hk. apply (order_lt inv vlt lexsort LS sc tc C k KC) in Hk. apply cbin_ok; [exact Hi|lia]. }
    rewrite E, ADD. unfold rt. f_equal. rewrite (list_sum_perm _ _ (Permutation_map _ (js_perm sf C pc PP))).
    apply tally_parts. exact (row_parts inv R C a0 RC CC RN CN LN flt xs sf i H). }
  assert (CT : forall k, k < C -> sum (lead sf (cbin (S k * S R)) ++ map (fun i => cbin (S k * S R + S i)) pr) = ct (S k)).
  { intros k Hk. assert (E : lead sf (cbin (S k * S R)) ++ map (fun i => cbin (S k * S R + S i)) pr = map num (map (fun i => tal (cell i (S k))) (lead sf 0 ++ map S pr))).
    { rewrite map_map, map_app, map_map, lead_map. f_equal.
      - destruct sf; [|reflexivity]. cbn [lead]. f_equal. rewrite <- (Nat.add_0_r (S k * S R)). apply cbin_ok; lia.
      - apply map_ext_in. intros i Hi. apply (order_lt inv vlt lexsort LS sr tr R i KR) in Hi. apply cbin_ok; lia. }
    rewrite E, ADD. unfold ct. f_equal. rewrite (list_sum_perm _ _ (Permutation_map _ (js_perm sf R pr PPr))).
    apply tally_parts. apply (col_parts inv R C a0 RC CC RN CN LN flt xs sf (S k)). right. lia. }
  assert (CF : sf = true -> sum (map cbin (seq 0 (S R))) = ct 0).
  { intros ->. assert (E : map cbin (seq 0 (S R)) = map num (map (fun i => tal (cell i 0)) (js true R))).
    { unfold js. rewrite map_map. apply map_ext_in. intros i Hi. apply in_seq in Hi. change (cbin (0 * S R + i) = value i 0). apply cbin_ok; lia. }
    rewrite E, ADD. unfold ct. f_equal. apply tally_parts. apply (col_parts inv R C a0 RC CC RN CN LN flt xs true 0). now left. }
  set (ty := map (fun i => sum (map (fun p => nth i (snd p) inv) im)) (seq 0 (len_of R sf))).
  assert (NI : NoDup (map fst (base_ds cbin sf) ++ [sum_name])).
  { rewrite (base_names inv vlt lexsort LS binname label inv_label tr tc R C sdr prer sdc prec KR KC a0), <- !app_assoc. exact NO. }
  assert (SC : set_col sum_name ty (Some (base_ds cbin sf)) = Some (base_ds cbin sf ++ [(sum_name, ty)])).
  { change (set_cols [(sum_name, ty)] (Some (base_ds cbin sf)) = Some (base_ds cbin sf ++ [(sum_name, ty)])).
    etransitivity; [apply (set_cols_ok (len_of R sf)); [exact BL|]|].
    - intros q [<-|[]]. cbn [snd]. unfold ty. now rewrite map_length, seq_length.
    - f_equal. apply dset_all_id. exact NI. }
  match goal with |- context [set_col sum_name ty ?o] => replace (set_col sum_name ty o) with (Some (base_ds cbin sf ++ [(sum_name, ty)])) by (symmetry; exact SC) end. eexists. eexists. split; [reflexivity|].
  assert (ND : NoDup (map fst (base_ds cbin sf ++ [(sum_name, ty)]))) by (rewrite map_app; exact NI).
  destruct (table_ok inv vlt lexsort LS binname label inv_label tr tc R C sdr prer sdc prec a0 KR KC RN CN LN sf cbin value _ [(sum_name, ty)] (fun i j p q _ => cbin_ok i j p q) eq_refl ND) as [G1 G2].
  split; [exact G1|]. split; [exact G2|]. intros _ SP.
  assert (PL : length pr = R) by apply (pr_len inv vlt lexsort LS tr R sdr prer KR).
  assert (CL : length pc = C) by apply (pc_len inv vlt lexsort LS tc C sdc prec KC).
  assert (IMI : forall (h : list V -> V), map (fun p => h (snd p)) im = lead sf (h (map cbin (seq 0 (S R)))) ++ map (fun k => h (lead sf (cbin (S k * S R)) ++ map (fun i => cbin (S k * S R + S i)) pr)) pc).
  { intros h. unfold im. rewrite map_app, lead_map. f_equal. unfold columns. rewrite map_map. unfold column. cbn [fst snd].
    rewrite <- CL at 1. clear. generalize pc. intros p. generalize 0 at 1. induction p as [|k p IH]; intros s; [reflexivity|]. cbn [length seq combine map fst snd]. f_equal. apply IH. }
  assert (TY : ty = lead sf (rt 0) ++ map (fun i => rt (S i)) pr).
  { assert (H1 : forall i, i < R -> sum (map (fun p => nth (if sf then S i else i) (snd p) inv) im) = rt (S (nth i pr 0))).
    { intros i Hi. rewrite (IMI (fun l => nth (if sf then S i else i) l inv)). rewrite <- (RT (S (nth i pr 0))).
      - f_equal. f_equal.
        + destruct sf; [|reflexivity]. cbn [lead]. f_equal. rewrite (SP eq_refl). rewrite seq_nth by exact Hi. apply nth_map_seq. lia.
        + apply map_ext. intros k. destruct sf; cbn [lead app nth]; apply (nth_map (fun i => cbin (S k * S R + S i))); lia.
      - assert (In (nth i pr 0) pr) by (apply nth_In; lia). apply (order_lt inv vlt lexsort LS sr tr R _ KR) in H. lia.
      - right. lia. }
    assert (H2 : map (fun i => rt (S (nth i pr 0))) (seq 0 R) = map (fun i => rt (S i)) pr).
    { transitivity (map (fun i => rt (S i)) (map (fun q => nth q pr 0) (seq 0 (length pr)))); [now rewrite PL, map_map|now rewrite <- list_as_seq]. }
    unfold ty, len_of. destruct sf; cbn [lead app].
    - cbn [seq map]. f_equal.
      + rewrite (IMI (fun l => nth 0 l inv)). rewrite <- (RT 0) by (auto; lia). f_equal. cbn [lead app]. f_equal. apply map_ext. intros k. cbn [nth]. f_equal. lia.
      + rewrite <- H2, <- seq_shift, map_map. apply map_ext_in. intros i Hi. apply in_seq in Hi. apply H1. lia.
    - rewrite <- H2. apply map_ext_in. intros i Hi. apply in_seq in Hi. apply H1. lia. }
  assert (FOOT : map (fun p => (fst p, sum (snd p))) im = combine (map fst im) (map (fun p => sum (snd p)) im)) by (clear; induction im as [|p l IH]; [reflexivity|]; cbn [map combine]; now rewrite IH).
  assert (IN : map fst im = lead sf filtered_name ++ col_labels inv label inv_label tc pc).
  { unfold im. rewrite map_app, lead_map. cbn [fst]. f_equal. apply (columns_names inv vlt lexsort LS label inv_label tr tc R C sdr prer sdc prec KC). }
  assert (NF : NoDup (map fst im ++ [sum_name])).
  { rewrite IN. unfold names_ok in NO. clear - NO. rewrite <- !app_assoc. induction (key_names ylab tr) as [|x l IH]; [exact NO|]. apply IH. cbn [app] in NO. now inversion NO. }
  assert (Nn : ~ In sum_name (map fst im)) by (apply NoDup_remove_2 in NF; rewrite app_nil_r in NF; exact NF).
  set (foot := map (fun p => (fst p, sum (snd p))) im).
  assert (FN : map fst foot = map fst im) by (unfold foot; rewrite map_map; reflexivity).
  assert (FND : NoDup (map fst foot)) by (rewrite FN; now apply nodup_prefix in NF).
  unfold margins. cbn [fst snd]. split; [|split; [|split]].
  - rewrite <- TY. apply dget_nodup; [exact ND|]. apply in_app_iff. right. now left.
  - intros j k H. rewrite dget_dset. assert (Hk : k < C) by (apply (order_lt inv vlt lexsort LS sc tc C k KC); eapply nth_error_In; eauto).
    pose proof (column_in inv vlt lexsort LS label inv_label tr tc R C sdr prer sdc prec KC cbin sf j k H) as CI. unfold column in CI. cbn [fst snd] in CI.
    assert (II : In (col_label inv label inv_label tc j k, lead sf (cbin (S k * S R)) ++ map (fun i => cbin (S k * S R + S i)) pr) im) by (apply in_app_iff; now right).
    destruct (name_dec sum_name (col_label inv label inv_label tc j k)) as [E|_]; [exfalso; apply Nn; rewrite E; exact (in_map fst _ _ II)|].
    apply dget_nodup; [exact FND|]. unfold foot. apply in_map_iff. eexists. split; [|exact II]. cbn [fst snd]. f_equal. apply CT. exact Hk.
  - intros E. rewrite dget_dset. assert (II : In (filtered_name, map cbin (seq 0 (S R))) im) by (apply in_app_iff; left; rewrite E; now left).
    destruct (name_dec sum_name filtered_name) as [E'|_]; [exfalso; apply Nn; rewrite E'; exact (in_map fst _ _ II)|].
    apply dget_nodup; [exact FND|]. unfold foot. apply in_map_iff. eexists. split; [|exact II]. cbn [fst snd]. f_equal. exact (CF E).
  - rewrite dget_dset. destruct (name_dec sum_name sum_name); [|congruence]. f_equal. rewrite TY.
    assert (E : lead sf (rt 0) ++ map (fun i => rt (S i)) pr = map num (map (fun i => tal (in_row sf i)) (lead sf 0 ++ map S pr))).
    { rewrite map_map, map_app, map_map, lead_map. reflexivity. }
    rewrite E, ADD. f_equal. rewrite (list_sum_perm _ _ (Permutation_map _ (js_perm sf R pr PPr))).
    apply tally_parts. exact (all_parts inv R C a0 RC CC RN CN LN flt xs sf).
Qed.
End A.
