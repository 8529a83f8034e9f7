From Coq Require Import List Arith Bool ZArith Permutation Lia.
From Verif Require Import FlattenModel DsModel GroupingModel GroupingSpec DsProofs3 AggModel AggSpec AggProofs AggProofs2.
Import ListNotations.

Section P.
Context {V : Type}.
Variable inv : V.
Variable vlt : V -> V -> Prop.
Variable lexsort : list (list V) -> list nat.
Variable LS : lexsort_ok inv vlt lexsort.
Variable binname : list V -> V.
Variables (t : table (V := V)) (n : nat) (sd pre : bool).
Variable KT : key_table inv t n.
Notation s := (sd && negb pre).
Notation p := (order lexsort s t n).
Notation kinv := (kinv inv lexsort binname t n sd pre).
Definition gb_of (sf : bool) : table := if sf then with_bin binname (shown_keys inv t p) else shown_keys inv t p.
Definition len_of (sf : bool) : nat := if sf then S n else n.

Lemma gb_names sf : map fst (gb_of sf) = map fst t.
Proof. unfold gb_of. destruct sf; [rewrite with_bin_names|]; apply shown_names. Qed.
Lemma p_len : length p = n.
Proof. eapply order_length; eauto. Qed.
Lemma gb_len sf : all_len (len_of sf) (gb_of sf).
Proof.
  intros q Hq. unfold gb_of, len_of in *. destruct sf.
  - unfold with_bin in Hq. apply in_map_iff in Hq. destruct Hq as [c [<- Hc]]. cbn [snd length]. f_equal.
    unfold shown_keys in Hc. apply in_map_iff in Hc. destruct Hc as [c' [<- _]]. cbn [snd]. rewrite reorder_length. apply p_len.
  - unfold shown_keys in Hq. apply in_map_iff in Hq. destruct Hq as [c' [<- _]]. cbn [snd]. rewrite reorder_length. apply p_len.
Qed.
Lemma gb_get sf k u : In (k, u) t -> dget k (gb_of sf) = Some (lead sf (binname (reorder inv u p)) ++ reorder inv u p).
Proof.
  intros I. apply dget_nodup; [rewrite gb_names; destruct KT as [_ [ND _]]; exact ND|]. unfold gb_of.
  assert (I1 : In (k, reorder inv u p) (shown_keys inv t p)) by (unfold shown_keys; apply in_map_iff; exists (k, u); auto).
  destruct sf; cbn [lead app]; [|exact I1]. unfold with_bin. apply in_map_iff. exists (k, reorder inv u p). auto.
Qed.
Lemma gb_step (sf : bool) c : kinv c -> let '(c1, gb) := (if sf then gbkeys_filtered inv lexsort binname c else gbkeys inv lexsort c) in
  kinv c1 /\ gb = gb_of sf.
Proof.
  intros K. destruct sf.
  - pose proof (filtered_ok inv vlt lexsort LS binname t n sd pre KT c K) as H. destruct (gbkeys_filtered inv lexsort binname c). tauto.
  - pose proof (gbkeys_ok inv vlt lexsort LS binname t n sd pre KT c K) as H. destruct (gbkeys inv lexsort c). tauto.
Qed.

(** the rows that the result's columns have *)
Lemma fin_ok c (sf tr : bool) d : kinv c -> NoDup (map fst d) -> all_len (len_of sf) d ->
  let '(c1, r) := finalize_dataset inv lexsort d c (gb_of sf) tr sf true in
  kinv c1 /\ exists d1 r', r = Some r' /\
  d1 = (if s && negb tr then map (fun q => if mem (fst q) (map fst t) then q else (fst q, fancy inv (snd q) (if sf then 0 :: map S p else p))) d else d) /\
  r' = (if tr then d1 else dset_all (gb_of sf) d1).
Proof.
  intros K ND L. unfold finalize_dataset. rewrite (sgd inv lexsort binname t n sd pre c K). change (names (gb_of sf)) with (map fst (gb_of sf)). rewrite gb_names.
  assert (Main : forall d1, all_len (len_of sf) d1 -> (if true && negb tr then set_cols (gb_of sf) (make_ds d1) else make_ds d1) = Some (if tr then d1 else dset_all (gb_of sf) d1)).
  { intros d1 L1. rewrite (make_ds_ok _ _ L1). destruct tr; cbn [andb negb]; [reflexivity|]. apply (set_cols_ok (len_of sf)); [exact L1|]. apply gb_len. }
  destruct (s && negb tr) eqn:E.
  - apply andb_prop in E. destruct E as [E1 E2].
    destruct (isort_ok inv lexsort binname t n sd pre c K E1) as (K1 & I & _). destruct (isortrows lexsort c) as [c1 i]. cbn [fst snd] in K1, I. subst i.
    split; [exact K1|]. eexists. eexists. split; [|split; reflexivity]. apply Main.
    intros q Hq. apply in_map_iff in Hq. destruct Hq as [q0 [<- Hq]]. destruct (mem (fst q0) (map fst t)); [apply L; exact Hq|]. cbn [snd].
    unfold fancy. rewrite map_length. unfold len_of. destruct sf; cbn [length]; rewrite ?map_length, p_len; reflexivity.
  - split; [exact K|]. exists d. eexists. split; [|split; reflexivity]. apply Main. exact L.
Qed.
Lemma keyed_ok c sf d value usable data (ND : NoDup (map fst d)) (L : all_len (len_of sf) d) : kinv c ->
  (forall k x, In (k, x) data -> ~ In k (map fst t) -> usable k = true -> In (k, raw sf (value x) n) d) ->
  (forall k, In k (map fst d) -> In k (map fst t) \/ (In k (map fst data) /\ usable k = true)) ->
  let '(c1, r) := finalize_dataset inv lexsort d c (gb_of sf) false sf true in
  kinv c1 /\ exists r', r = Some r' /\ keyed_result inv binname t p sf value usable data r'.
Proof.
  intros K Cols Nms. pose proof (fin_ok c sf false d K ND L) as H.
  destruct (finalize_dataset inv lexsort d c (gb_of sf) false sf true) as [c1 r]. destruct H as (K1 & d1 & r' & -> & D & R).
  split; [exact K1|]. exists r'. split; [reflexivity|]. cbn [negb] in D. rewrite andb_true_r in D.
  assert (NM : map fst d1 = map fst d).
  { rewrite D. destruct s; [|reflexivity]. rewrite map_map. apply map_ext. intros q. destruct (mem (fst q) (map fst t)); reflexivity. }
  assert (ND1 : NoDup (map fst d1)) by (now rewrite NM).
  assert (NG : NoDup (map fst (gb_of sf))) by (rewrite gb_names; destruct KT as [_ [X _]]; exact X).
  subst r'. split; [|split; [|split]].
  - intros k u I. rewrite dget_dset_all by exact NG. now rewrite (gb_get sf k u I).
  - intros k x I NK US. rewrite dget_dset_all by exact NG.
    assert (G0 : dget k (gb_of sf) = None) by (apply dget_none; rewrite gb_names; exact NK). rewrite G0.
    specialize (Cols k x I NK US). apply dget_nodup; [exact ND1|]. rewrite D. destruct s eqn:E.
    + apply in_map_iff. exists (k, raw sf (value x) n). split; [|exact Cols]. cbn [fst snd].
      assert (M0 : mem k (map fst t) = false) by (apply mem_not; exact NK). rewrite M0. f_equal. apply fancy_raw. intros j Hj. eapply order_lt; eauto.
    + cbn [order]. unfold raw in Cols. exact Cols.
  - intros k Hk. apply dset_all_in in Hk. rewrite gb_names, NM in Hk. destruct Hk as [Hk|Hk]; [now left|]. auto.
  - apply dset_all_nodup. exact ND1.
Qed.

(** _return_dataset *)
Definition choose (acc : list (name * list V)) (gb : list (name * list V)) (q : name * list V) : option (list V) :=
  match dget (fst q) acc with Some v => Some v | None => dget (fst q) gb end.
Lemma newdict_pick acc gb data : NoDup (map fst data) ->
  fold_left (fun d q => match dget (fst q) acc with
                        | Some v => dset (fst q) v d
                        | None => match dget (fst q) gb with Some v => dset (fst q) v d | None => d end
                        end) data [] = pick (choose acc gb) data.
Proof.
  intros ND. transitivity (fold_left (fun d q => match choose acc gb q with Some v => dset (fst q) v d | None => d end) data []).
  - clear ND. generalize (@nil (name * list V)). induction data as [|q data IH]; intros d0; [reflexivity|]. cbn [fold_left]. unfold choose at 2.
    destruct (dget (fst q) acc) as [v|]; [apply IH|]. destruct (dget (fst q) gb); apply IH.
  - exact (pick_fold (choose acc gb) data [] ND).
Qed.
Definition accum (usable : name -> bool) (g : list V -> list V) (data : list (name * list V)) : list (name * list V) :=
  map (fun q => (fst q, g (snd q))) (calculate_dict usable (map fst t) data).
Lemma accum_in usable g data k v : In (k, v) (accum usable g data) <->
  exists x, In (k, x) data /\ ~ In k (map fst t) /\ usable k = true /\ v = g x.
Proof.
  unfold accum, calculate_dict. rewrite in_map_iff. split.
  - intros [[a x] [E I]]. apply filter_In in I. destruct I as [I F]. cbn [fst snd] in *. injection E as -> <-. apply andb_prop in F. destruct F as [F1 F2].
    apply negb_true_iff, mem_not in F1. eauto.
  - intros (x & I & N & U & ->). exists (k, x). split; [reflexivity|]. apply filter_In. split; [exact I|]. cbn [fst].
    apply mem_not in N. now rewrite N, U.
Qed.
Lemma accum_nodup usable g data : NoDup (map fst data) -> NoDup (map fst (accum usable g data)).
Proof.
  intros ND. unfold accum, calculate_dict. rewrite map_map. cbn [fst].
  induction data as [|[a x] data IH]; [constructor|]. cbn [map fst] in ND. inversion ND; subst. cbn [filter].
  destruct (negb (mem (fst (a, x)) (map fst t)) && usable (fst (a, x))); [|now apply IH]. cbn [map fst]. constructor; [|now apply IH].
  intros I. apply in_map_iff in I. destruct I as [[b y] [E I]]. cbn [fst] in E. subst b. apply filter_In in I. destruct I as [I _]. apply H1. now apply (in_map fst) in I.
Qed.
Lemma newdict_facts usable (f : list V -> nat -> V) g data sf : NoDup (map fst data) ->
  (forall k x, In (k, x) data -> g x = raw sf (f x) n) ->
  let d := pick (choose (accum usable g data) (gb_of sf)) data in
  NoDup (map fst d) /\ all_len (len_of sf) d /\
  (forall k x, In (k, x) data -> ~ In k (map fst t) -> usable k = true -> In (k, raw sf (f x) n) d) /\
  (forall k, In k (map fst d) -> In k (map fst t) \/ (In k (map fst data) /\ usable k = true)) /\
  (forall k v, In (k, v) d -> ~ In k (map fst t) -> exists x, In (k, x) data /\ usable k = true /\ v = raw sf (f x) n).
Proof.
  intros ND G d.
  assert (Acc : forall k x, In (k, x) data -> ~ In k (map fst t) -> usable k = true -> dget k (accum usable g data) = Some (raw sf (f x) n)).
  { intros k x I N U. apply dget_nodup; [now apply accum_nodup|]. apply accum_in. exists x. rewrite (G k x I). auto. }
  assert (Inv : forall k v, In (k, v) d -> In k (map fst t) /\ length v = len_of sf \/ (~ In k (map fst t) /\ exists x, In (k, x) data /\ usable k = true /\ v = raw sf (f x) n)).
  { intros k v I. apply pick_in in I. destruct I as [x [I C]]. unfold choose in C. cbn [fst] in C.
    destruct (dget k (accum usable g data)) as [w|] eqn:E.
    - assert (w = v) by congruence. subst w. apply dget_some_in in E. apply accum_in in E. destruct E as (y & Iy & N & U & ->).
      right. split; [exact N|]. exists y. split; [exact Iy|]. split; [exact U|]. apply (G k y Iy).
    - left. apply dget_some_in in C. split; [rewrite <- (gb_names sf); now apply (in_map fst) in C|]. apply (gb_len sf _ C). }
  split; [now apply pick_nodup|]. split; [|split; [|split]].
  - intros [k v] I. cbn [snd]. destruct (Inv k v I) as [[_ L]|(_ & x & _ & _ & ->)]; [exact L|]. apply raw_length.
  - intros k x I N U. apply pick_in. exists x. split; [exact I|]. unfold choose. cbn [fst]. now rewrite (Acc k x I N U).
  - intros k I. apply in_map_iff in I. destruct I as [[a v] [E I]]. cbn [fst] in E. subst a. destruct (Inv k v I) as [[T _]|(_ & x & Ix & U & _)]; [now left|].
    right. split; [now apply (in_map fst) in Ix|exact U].
  - intros k v I N. destruct (Inv k v I) as [[T _]|(_ & H)]; [contradiction|exact H].
Qed.

(** objects *)
Definition oinv (o0 o : gobj (V := V)) : Prop :=
  kinv (o_kc o) /\ o_ikey o = o_ikey o0 /\ o_n o = o_n o0 /\ o_base o = o_base o0 /\ o_ordered o = o_ordered o0 /\ o_sd o = o_sd o0.
Lemma kname_inv c : kinv c -> map fst (k_gb c) = map fst t.
Proof.
  intros (_ & _ & _ & _ & _ & _ & G). rewrite G. unfold base_of. destruct (k_filt c), (k_sorted c); rewrite ?with_bin_names, ?shown_names; reflexivity.
Qed.
Section Obj.
Variable o0 : gobj (V := V).
Hypothesis FO : o_n o0 = n.
Hypothesis SDO : forall b, o_sd o0 = Some b -> sd = b /\ pre = false.

Lemma return_ok usable f data flt (tr sf : bool) o : oinv o0 o -> data_ok (o_ikey o) flt data ->
  let accumdict := map (fun q => (fst q, calc_col inv f (passing flt (o_ikey o)) (o_n o) (if sf then 0 else 1) (snd q)))
                       (calculate_dict usable (names (k_gb (o_kc o))) data) in
  let d := pick (choose (accum usable (fun x => raw sf (fun b => f (bin_values inv (o_ikey o) flt x b)) n) data) (gb_of sf)) data in
  return_dataset inv lexsort binname data accumdict (o_kc o) tr sf =
  (let '(c1, _) := (if sf then gbkeys_filtered inv lexsort binname (o_kc o) else gbkeys inv lexsort (o_kc o)) in finalize_dataset inv lexsort d c1 (gb_of sf) tr sf true).
Proof.
  intros (K & _ & N & _) (ND & L & F). cbn zeta. unfold return_dataset. change (names (k_gb (o_kc o))) with (map fst (k_gb (o_kc o))). rewrite (kname_inv _ K).
  assert (E : map (fun q => (fst q, calc_col inv f (passing flt (o_ikey o)) (o_n o) (if sf then 0 else 1) (snd q))) (calculate_dict usable (map fst t) data)
              = accum usable (fun x => raw sf (fun b => f (bin_values inv (o_ikey o) flt x b)) n) data).
  { unfold accum. apply map_ext_in. intros q Hq. f_equal. apply filter_In in Hq. destruct Hq as [Hq _]. rewrite calc_col_raw; [congruence|exact F|apply L; exact Hq]. }
  rewrite E. pose proof (gb_step sf (o_kc o) K) as G. destruct (if sf then gbkeys_filtered inv lexsort binname (o_kc o) else gbkeys inv lexsort (o_kc o)) as [c1 gb].
  destruct G as [_ ->]. rewrite newdict_pick by exact ND. reflexivity.
Qed.
Lemma oinv_kc o c : oinv o0 o -> kinv c -> oinv o0 (with_kc c o).
Proof. intros (K & H) Kc. split; [exact Kc|exact H]. Qed.
Lemma oinv_flag o b : oinv o0 o -> oinv o0 (with_flag b o).
Proof. intros H. exact H. Qed.
Lemma pt_inv o ds lk tr sf : oinv o0 o -> oinv o0 (fst (possibly_transform inv lexsort o ds lk tr sf)).
Proof.
  intros O. unfold possibly_transform. destruct ds as [d|]; [|exact O]. destruct (o_flag o || tr); [|exact O].
  destruct (o_sd o) as [[|]|] eqn:E; [|exact O|exact O]. destruct (o_ordered o); [|exact O].
  assert (E0 : o_sd o0 = Some true) by (destruct O as (_ & _ & _ & _ & _ & X); congruence).
  destruct (SDO true E0) as [E1 E2].
  destruct O as (K & H). assert (Es : s = true) by (rewrite E1, E2; reflexivity).
  destruct (isort_ok inv lexsort binname t n sd pre (o_kc o) K Es) as (K1 & _). destruct (isortrows lexsort (o_kc o)) as [c1 i]. cbn [fst] in *.
  apply oinv_flag. apply oinv_kc; [split; [exact K|exact H]|exact K1].
Qed.
Lemma calculate_parts usable f data flt (tr sf : bool) o : oinv o0 o -> data_ok (o_ikey o) flt data ->
  exists c2 d1 r', kinv c2 /\
    (let d := pick (choose (accum usable (fun x => raw sf (fun b => f (bin_values inv (o_ikey o) flt x b)) n) data) (gb_of sf)) data in
     d1 = (if s && negb tr then map (fun q => if mem (fst q) (map fst t) then q else (fst q, fancy inv (snd q) (if sf then 0 :: map S p else p))) d else d)) /\
    r' = (if tr then d1 else dset_all (gb_of sf) d1) /\
    calculate inv lexsort binname usable f data flt tr sf o = possibly_transform inv lexsort (with_kc c2 o) (Some r') (map fst t) tr sf.
Proof.
  intros O D. unfold calculate.
  rewrite (return_ok usable f data flt tr sf o O D). pose proof O as (K & _). pose proof (gb_step sf (o_kc o) K) as G.
  destruct (if sf then gbkeys_filtered inv lexsort binname (o_kc o) else gbkeys inv lexsort (o_kc o)) as [c0 gb]. destruct G as [K0 _].
  destruct D as (ND & L & F).
  destruct (newdict_facts usable (fun x b => f (bin_values inv (o_ikey o) flt x b)) (fun x => raw sf (fun b => f (bin_values inv (o_ikey o) flt x b)) n) data sf ND (fun _ _ _ => eq_refl)) as (ND1 & L1 & _).
  set (d := pick _ data) in *.
  pose proof (fin_ok c0 sf tr d K0 ND1 L1) as FI.
  destruct (finalize_dataset inv lexsort d c0 (gb_of sf) tr sf true) as [c1 r]. destruct FI as (K1 & d1 & r' & -> & E1 & E2).
  pose proof (gbkeys_ok inv vlt lexsort LS binname t n sd pre KT c1 K1) as G2. destruct (gbkeys inv lexsort c1) as [c2 lk]. destruct G2 as (K2 & _ & _ & ->).
  exists c2, d1, r'. split; [exact K2|]. split; [exact E1|]. split; [exact E2|].
  change (names (shown_keys inv t p)) with (map fst (shown_keys inv t p)). now rewrite shown_names.
Qed.
Lemma calc_ok usable f data flt sf o : oinv o0 o -> o_flag o = false -> data_ok (o_ikey o) flt data ->
  exists r, snd (calculate inv lexsort binname usable f data flt false sf o) = Some r /\
  keyed_result inv binname t p sf (fun x b => f (bin_values inv (o_ikey o) flt x b)) usable data r.
Proof.
  intros O Fl D. destruct (calculate_parts usable f data flt false sf o O D) as (c2 & d1 & r' & K2 & E1 & E2 & ->).
  assert (Fl2 : o_flag (with_kc c2 o) = false) by exact Fl.
  unfold possibly_transform. rewrite Fl2. cbn [orb snd]. exists r'. split; [reflexivity|].
  pose proof D as (ND & L & F).
  destruct (newdict_facts usable (fun x b => f (bin_values inv (o_ikey o) flt x b)) (fun x => raw sf (fun b => f (bin_values inv (o_ikey o) flt x b)) n) data sf ND (fun _ _ _ => eq_refl)) as (ND1 & L1 & C1 & N1 & _).
  cbv zeta in E1. set (d := pick _ data) in *.
  pose proof O as (K & _).
  pose proof (keyed_ok (o_kc o) sf d (fun x b => f (bin_values inv (o_ikey o) flt x b)) usable data ND1 L1 K C1 N1) as KO.
  pose proof (fin_ok (o_kc o) sf false d K ND1 L1) as FI.
  destruct (finalize_dataset inv lexsort d (o_kc o) (gb_of sf) false sf true) as [c1 r]. destruct FI as (_ & d1' & r1 & -> & X1 & X2).
  destruct KO as (_ & r2 & E & KR). assert (r2 = r') by congruence. now subst r2.
Qed.
Lemma count_ok num flt sf o : oinv o0 o -> (forall g, flt = Some g -> length g = length (o_ikey o)) ->
  exists r, snd (count_ds inv lexsort binname num flt sf o) = Some r /\
  keyed_result inv binname t p sf (fun _ b => num (bin_size (o_ikey o) flt b)) (fun _ => true) [(count_name, [])] r.
Proof.
  intros O F. unfold count_ds. pose proof O as (K & _ & N & _).
  rewrite (skip_raw sf (fun b => num (bin_size (o_ikey o) flt b))) by (intros b _; now rewrite count_bin).
  rewrite N, FO. pose proof (gb_step sf (o_kc o) K) as G.
  destruct (if sf then gbkeys_filtered inv lexsort binname (o_kc o) else gbkeys inv lexsort (o_kc o)) as [c0 gb]. destruct G as [K0 ->].
  set (d := [(count_name, raw sf (fun b => num (bin_size (o_ikey o) flt b)) n)]).
  assert (ND : NoDup (map fst d)) by (repeat constructor; intros []).
  assert (L : all_len (len_of sf) d) by (intros q [<-|[]]; apply raw_length).
  pose proof (keyed_ok c0 sf d (fun _ b => num (bin_size (o_ikey o) flt b)) (fun _ => true) [(count_name, [])] ND L K0) as KO.
  destruct (finalize_dataset inv lexsort d c0 (gb_of sf) false sf true) as [c1 r]. destruct KO as (_ & r' & -> & KR).
  - intros k x [E|[]] _ _. injection E as <- <-. now left.
  - intros k [E|[]]. right. split; [now left|reflexivity].
  - exists r'. split; [reflexivity|exact KR].
Qed.
End Obj.
End P.
