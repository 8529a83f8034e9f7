From Coq Require Import List Arith Bool ZArith Permutation Lia.
From Verif Require Import FlattenModel DsModel DsProofs3 GroupingModel GroupingSpec AggModel AggSpec AggProofs AggProofs2 AggProofs3 Acc2Model Acc2Spec Acc2Proofs.
Import ListNotations.

Lemma nodup_prefix {X} (l r : list X) : NoDup (l ++ r) -> NoDup l.
Proof. induction l as [|x l IH]; cbn [app]; intros H; [constructor|]. inversion H; subst. constructor; [|auto]. rewrite in_app_iff in *. tauto. Qed.
Section A.
Context {V : Type}.
Variable inv : V.
Variable vlt : V -> V -> Prop.
Variable lexsort : list (list V) -> list nat.
Variable LS : lexsort_ok inv vlt lexsort.
Variable binname : list V -> V.
Variable label : list V -> name.
Variable inv_label : nat -> name.
Variable zero : V.
Variables (tr tc : table (V := V)) (R C : nat) (sdr prer sdc prec : bool).
Variable KR : key_table inv tr R.
Variable KC : key_table inv tc C.
Notation sr := (sdr && negb prer).
Notation sc := (sdc && negb prec).
Notation pr := (order lexsort sr tr R).
Notation pc := (order lexsort sc tc C).
Notation kinvr := (kinv inv lexsort binname tr R sdr prer).
Notation kinvc := (kinv inv lexsort binname tc C sdc prec).
Variable a0 : acc2 (V := V).
Definition same (a : acc2 (V := V)) : Prop :=
  x_code (a_row a) = x_code (a_row a0) /\ x_n (a_row a) = x_n (a_row a0) /\ x_base (a_row a) = x_base (a_row a0) /\
  x_code (a_col a) = x_code (a_col a0) /\ x_n (a_col a) = x_n (a_col a0) /\ x_base (a_col a) = x_base (a_col a0) /\
  a_ylab a = a_ylab a0 /\ a_flt a = a_flt a0 /\ a_tot a = a_tot a0.
Definition ainv (a : acc2) : Prop := kinvr (x_kc (a_row a)) /\ kinvc (x_kc (a_col a)) /\ same a.
Lemma same_row a c : same a -> same (set_row a c).
Proof using Type. exact (fun H => H). Qed.
Lemma same_col a c : same a -> same (set_colx a c).
Proof using Type. exact (fun H => H). Qed.
Lemma ainv_row a c : ainv a -> kinvr c -> ainv (set_row a c).
Proof using Type. intros (K1 & K2 & S) K. split; [exact K|]. split; [exact K2|now apply same_row]. Qed.
Lemma ainv_col a c : ainv a -> kinvc c -> ainv (set_colx a c).
Proof using Type. intros (K1 & K2 & S) K. split; [exact K1|]. split; [exact K|now apply same_col]. Qed.

Definition gbk (sf : bool) : table :=
  match gb_of inv lexsort binname tr R sdr prer sf with [(_, v)] => [(a_ylab a0, v)] | d => d end.
Lemma gbk_len sf : all_len (len_of R sf) (gbk sf).
Proof.
  pose proof (gb_len inv vlt lexsort LS binname tr R sdr prer KR sf) as H. unfold gbk. destruct (gb_of _ _ _ _ _ _ _ sf) as [|[k v] [|q r]]; auto.
  intros q [<-|[]]. apply (H (k, v)). now left.
Qed.
Lemma gbk_names sf : map fst (gbk sf) = key_names (a_ylab a0) tr.
Proof.
  pose proof (gb_names inv lexsort binname tr R sdr prer sf) as H. unfold gbk, key_names. destruct (gb_of _ _ _ _ _ _ _ sf) as [|[k v] [|q r]], tr as [|x [|y tr']]; cbn [map fst] in *; try discriminate; auto.
Qed.
Lemma gbk_get sf q k u : nth_error tr q = Some (k, u) -> nth_error (map snd (gbk sf)) q = Some (lead sf (binname (reorder inv u pr)) ++ reorder inv u pr).
Proof.
  intros H. assert (E : map snd (gbk sf) = map snd (gb_of inv lexsort binname tr R sdr prer sf)) by (unfold gbk; destruct (gb_of _ _ _ _ _ _ _ sf) as [|[k1 v] [|q1 r]]; reflexivity).
  rewrite E. unfold gb_of, with_bin, shown_keys. destruct sf; rewrite ?map_map; cbn [snd fst]; rewrite (map_nth_error _ _ _ H); reflexivity.
Qed.
Lemma gbkeys2_ok sf a : ainv a -> ainv (fst (get_gbkeys inv lexsort binname sf a)) /\ snd (get_gbkeys inv lexsort binname sf a) = gbk sf.
Proof.
  intros I. pose proof I as (K1 & K2 & S). unfold get_gbkeys.
  pose proof (gb_step inv vlt lexsort LS binname tr R sdr prer KR sf (x_kc (a_row a)) K1) as H.
  destruct (if sf then _ else _) as [c d]. destruct H as [Kc ->]. cbn [fst snd]. split; [now apply ainv_row|].
  unfold gbk. destruct S as (_ & _ & _ & _ & _ & _ & -> & _). destruct (gb_of inv lexsort binname tr R sdr prer sf) as [|[k v] [|q r]]; reflexivity.
Qed.

Definition column (g : nat -> V) (sf : bool) (q : nat * nat) : name * list V :=
  (col_label inv label inv_label tc (fst q) (snd q), lead sf (g (S (snd q) * S R)) ++ map (fun i => g (S (snd q) * S R + S i)) pr).
Definition columns (g : nat -> V) (sf : bool) : table := map (column g sf) (combine (seq 0 C) pc).
Lemma pc_len : length pc = C.
Proof. eapply order_length; eauto. Qed.
Lemma pr_len : length pr = R.
Proof. eapply order_length; eauto. Qed.
Lemma columns_names g sf : map fst (columns g sf) = col_labels inv label inv_label tc pc.
Proof. unfold columns, col_labels. rewrite map_map, pc_len. reflexivity. Qed.
Lemma fold_set_cols (F : nat -> name) (G : nat -> list V) l : forall ds, fold_left (fun ds i => set_col (F i) (G i) ds) l ds = set_cols (map (fun i => (F i, G i)) l) ds.
Proof. unfold set_cols. induction l as [|i l IH]; intros ds; cbn [fold_left map fst snd]; [reflexivity|]. apply IH. Qed.
Lemma combine_seq_map {X} (h : nat * nat -> X) l : map h (combine (seq 0 (length l)) l) = map (fun i => h (i, nth i l 0)) (seq 0 (length l)).
Proof.
  rewrite (list_as_seq 0 l) at 2. rewrite <- (map_id (seq 0 (length l))) at 1. rewrite combine_maps, map_map. reflexivity.
Qed.

Lemma isort_c a : kinvc (x_kc (a_col a)) -> forall c i, isortrows lexsort (x_kc (a_col a)) = (c, i) -> kinvc c.
Proof. intros K c i E. pose proof (isort_any inv lexsort binname tc C sdc prec (x_kc (a_col a)) K) as H. now rewrite E in H. Qed.

Lemma raw_rows (sf : bool) (g : nat -> V) : (if sr then fancy inv (raw sf g R) (if sf then 0 :: map S pr else pr) else raw sf g R) = lead sf (g 0) ++ map (fun i => g (S i)) pr.
Proof.
  destruct sr eqn:E; [|reflexivity].
  assert (Q : forall k, In k (order lexsort true tr R) -> k < R) by (intros k Hk; exact (order_lt inv vlt lexsort LS true tr R k KR Hk)).
  apply (fancy_raw inv sf g R (order lexsort true tr R) Q).
Qed.
Lemma make_ok (g : nat -> V) sf a : ainv a -> x_n (a_row a0) = R -> x_n (a_col a0) = C ->
  names_ok inv label inv_label (a_ylab a0) tr tc pc sf [] ->
  ainv (fst (make_dataset inv lexsort binname label inv_label (map g (seq 0 (S (nbins a0)))) sf a)) /\
  snd (make_dataset inv lexsort binname label inv_label (map g (seq 0 (S (nbins a0)))) sf a) =
    (Some (gbk sf ++ lead sf (filtered_name, map g (seq 0 (S R))) ++ columns g sf), gbk sf).
Proof.
  intros I RN CN NO. unfold make_dataset.
  pose proof (gbkeys2_ok sf a I) as H. destruct (get_gbkeys inv lexsort binname sf a) as [a1 gb]. cbn [fst snd] in H. destruct H as [I1 ->].
  pose proof I1 as (K1 & _ & _).
  pose proof (isort_any inv lexsort binname tr R sdr prer (x_kc (a_row a1)) K1) as Ka.
  pose proof (fun E => isort_ok inv lexsort binname tr R sdr prer (x_kc (a_row a1)) K1 E) as Ks.
  destruct (isortrows lexsort (x_kc (a_row a1))) as [rc srt]. cbn [fst snd] in Ka, Ks.
  assert (I2 : ainv (set_row a1 rc)) by now apply ainv_row.
  pose proof I2 as (_ & K2 & _).
  pose proof (gbkeys_ok inv vlt lexsort LS binname tc C sdc prec KC (x_kc (a_col (set_row a1 rc))) K2) as H.
  destruct (gbkeys inv lexsort (x_kc (a_col (set_row a1 rc)))) as [cc xc]. destruct H as (Kc & _ & _ & ->).
  pose proof (isort_any inv lexsort binname tc C sdc prec cc Kc) as Kc2.
  pose proof (fun E => isort_ok inv lexsort binname tc C sdc prec cc Kc E) as Ks2.
  destruct (isortrows lexsort cc) as [cc2 scol]. cbn [fst snd] in Kc2, Ks2.
  cbn [fst snd]. split; [now apply ainv_col|]. f_equal.
  rewrite (sgd inv lexsort binname tr R sdr prer rc Ka), (sgd inv lexsort binname tc C sdc prec cc2 Kc2).
  assert (Nr : k_n rc = R) by (destruct Ka as (_ & _ & N & _); exact N). assert (Nc : k_n cc2 = C) by (destruct Kc2 as (_ & _ & N & _); exact N).
  rewrite Nr, Nc. rewrite fold_set_cols.
  assert (NB : nbins a0 = S R * S C) by (unfold nbins; now rewrite RN, CN).
  assert (E0 : slice (map g (seq 0 (S (nbins a0)))) 0 (R + 1) = map g (seq 0 (S R))).
  { rewrite slice_seq by (rewrite ?NB; lia). f_equal. f_equal. lia. }
  rewrite E0.
  assert (DS : (if sf then set_col filtered_name (map g (seq 0 (S R))) (make_ds (gbk sf)) else make_ds (gbk sf)) = Some (gbk sf ++ lead sf (filtered_name, map g (seq 0 (S R))))).
  { rewrite (make_ds_ok _ _ (gbk_len sf)). destruct sf; cbn [lead]; [|now rewrite app_nil_r].
    change (set_cols [(filtered_name, map g (seq 0 (S R)))] (Some (gbk true)) = Some (gbk true ++ [(filtered_name, map g (seq 0 (S R)))])).
    etransitivity; [apply (set_cols_ok (len_of R true) [(filtered_name, map g (seq 0 (S R)))] (gbk true) (gbk_len true))|].
    - intros q [<-|[]]. cbn [snd]. rewrite map_length, seq_length. reflexivity.
    - f_equal. apply dset_all_id. rewrite gbk_names. unfold names_ok in NO. cbn [lead] in NO. rewrite app_assoc in NO. apply nodup_prefix in NO. exact NO.
 }
  rewrite DS.
  assert (CL : map (fun i => (column_name inv label inv_label (shown_keys inv tc pc) i,
                     if sr then fancy inv (slice (map g (seq 0 (S (nbins a0)))) ((if sf then 0 else 1) + (1 + (if sc then nth i scol 0 else i)) * (R + 1))
                                  ((if sf then 0 else 1) + (1 + (if sc then nth i scol 0 else i)) * (R + 1) + (R + 1) - (if sf then 0 else 1))) (if sf && sr then 0 :: map S srt else srt)
                     else slice (map g (seq 0 (S (nbins a0)))) ((if sf then 0 else 1) + (1 + (if sc then nth i scol 0 else i)) * (R + 1))
                                  ((if sf then 0 else 1) + (1 + (if sc then nth i scol 0 else i)) * (R + 1) + (R + 1) - (if sf then 0 else 1)))) (seq 0 C) = columns g sf).
  { unfold columns. assert (XC : combine (seq 0 C) pc = combine (seq 0 (length pc)) pc) by now rewrite pc_len. rewrite XC, combine_seq_map, pc_len. apply map_ext_in. intros i Hi. apply in_seq in Hi.
    assert (Ei : nth_error pc i = Some (nth i pc 0)) by (apply nth_error_nth'; rewrite pc_len; lia).
    assert (Lt : nth i pc 0 < C) by (apply (order_lt inv vlt lexsort LS sc tc C _ KC); eapply nth_error_In; eauto).
    assert (En : (if sc then nth i scol 0 else i) = nth i pc 0).
    { destruct sc eqn:E; [|unfold order; rewrite seq_nth by lia; reflexivity]. destruct (Ks2 eq_refl) as (_ & -> & _). reflexivity. }
    rewrite En. unfold column. cbn [fst snd]. f_equal.
    - unfold column_name, col_label. change (map (fun p => nth i (snd p) inv) (shown_keys inv tc pc)) with (row inv (shown_keys inv tc pc) i).
      erewrite row_shown by exact Ei. reflexivity.
    - rewrite slice_raw by (rewrite NB; nia).
      assert (Es : sr = true -> (if sf && sr then 0 :: map S srt else srt) = (if sf then 0 :: map S pr else pr)).
      { intros E. destruct (Ks E) as (_ & -> & _). rewrite E. now destruct sf. }
      pose proof (raw_rows sf (fun i0 => g (S (nth i pc 0) * S R + i0))) as RR. cbn beta in RR. rewrite Nat.add_0_r in RR.
      change (1 + nth i pc 0) with (S (nth i pc 0)). rewrite <- RR.
      destruct sr eqn:E; [|reflexivity]. now rewrite (Es eq_refl). }
  rewrite CL.
  rewrite (set_cols_ok (len_of R sf)).
  - f_equal. rewrite dset_all_id; [now rewrite <- app_assoc|]. rewrite map_app, gbk_names, columns_names. unfold names_ok in NO. rewrite app_nil_r in NO.
    rewrite <- app_assoc. destruct sf; exact NO.
  - intros q Hq. apply in_app_iff in Hq. destruct Hq as [Hq|Hq]; [now apply gbk_len|]. destruct sf; [|destruct Hq]. destruct Hq as [<-|[]]. cbn [snd]. rewrite map_length, seq_length. reflexivity.
  - intros q Hq. unfold columns in Hq. apply in_map_iff in Hq. destruct Hq as [q0 [<- _]]. unfold column. cbn [snd]. rewrite app_length, map_length, pr_len. unfold len_of. destruct sf; reflexivity.
Qed.
End A.
