From Coq Require Import List Arith Bool ZArith Permutation Lia.
From Verif Require Import FlattenModel FlattenProofs DsModel DsProofs3 DsProofs5 GroupingModel GroupingSpec AggModel AggSpec AggProofs AggProofs2 AggProofs3
  Acc2Model Acc2Spec Acc2Proofs Acc2Proofs2 Acc2Proofs3 Acc2Proofs4 Acc2Proofs5 MargModel MargSpec MargProofs MargProofs2 MargProofs3 MargProofs4 MargProofs5 MargProofs6 MargProofs7 MargProofs8 MargProofs9 MargProofs10 MargProofs11.
Import ListNotations.

Section A.
Context {V : Type}.
Variable inv : V.
Variable vlt : V -> V -> Prop.
Variable lexsort : list (list V) -> list nat.
Variable LS : lexsort_ok inv vlt lexsort.
Variable binname : list V -> V.
Variable label : list V -> name.
Variable inv_label : nat -> name.
Variable zero : V.
Variable blank : V -> bool.
Variables (tr tc : table (V := V)) (R C : nat) (sdr prer sdc prec : bool).
Notation sr := (sdr && negb prer).
Notation sc := (sdc && negb prec).
Notation pr := (order lexsort sr tr R).
Notation pc := (order lexsort sc tc C).
Variable a0 : acc2 (V := V).
Notation ainv := (ainv inv lexsort binname tr tc R C sdr prer sdc prec a0).
Notation ylab := (a_ylab a0).
Notation rk := (x_code (a_row a0)).
Notation ck := (x_code (a_col a0)).
Variable KR : key_table inv tr R.
Variable KC : key_table inv tc C.
Variable RC : codes_in R rk.
Variable CC : codes_in C ck.
Variable RN : x_n (a_row a0) = R.
Variable CNN : x_n (a_col a0) = C.
Variable LN : length ck = length rk.
Variable F1 : filter_ok (length rk) (a_flt a0).
Variable TOT : a_tot a0 = true.
Notation KN := (key_names ylab tr).
Notation CN := (col_labels inv label inv_label tc pc).
Notation lab := (col_label inv label inv_label tc).
Notation nok x := (names_ok inv label inv_label ylab tr tc pc false [x]).
Notation presents := (presents inv label inv_label ylab tr tc pr pc).
Notation without_blanks := (without_blanks inv blank label inv_label tc pr pc).
Notation sel flt x := (select inv rk ck (a_flt a0) flt x).
Notation compute := (compute inv lexsort binname label inv_label zero).
Notation compute_ok' := (compute_ok inv vlt lexsort LS binname label inv_label zero tr tc R C sdr prer sdc prec a0 KR KC RC CC RN CNN LN F1 TOT).


(** all rows are in the one column *)
Variable ONE : CN = [not_grouped].
Variable PC1 : pc = [0].
Variable CK : forall r, r < length rk -> nth r ck 0 = 1.

Lemma sel_ext flt x s s' : (forall i, s (0, 0) = s' (0, 0) /\ s (i, 1) = s' (i, 1)) -> sel flt x s = sel flt x s'.
Proof.
  intros H. unfold select. f_equal. apply filter_ext_in. intros r I. apply in_seq in I. unfold place. destruct (passes (a_flt a0) r && passes flt r); [|apply (H 0)]. rewrite CK by lia. apply H.
Qed.
Lemma sel_cell flt x i : sel flt x (cell (S i) 1) = sel flt x (in_row false (S i)).
Proof. apply sel_ext. intros k. unfold cell, in_row, shown. cbn [fst snd]. destruct (Nat.eqb_spec k (S i)) as [->|]; cbn; split; try reflexivity. now rewrite andb_false_r. Qed.
Lemma sel_col flt x : sel flt x (in_col false 1) = sel flt x (shown false).
Proof. apply sel_ext. intros k. unfold in_col, shown. cbn [fst snd]. destruct (k =? 0); cbn; split; reflexivity. Qed.

Definition keyed (d : mds (V := V)) : Prop := forall q k u, nth_error tr q = Some (k, u) -> exists k', nth_error KN q = Some k' /\ col k' d = Some (reorder inv u pr).
(** a table of one column *)
Definition usable (F : nat -> V) (tot : V) (d : mds (V := V)) : Prop :=
  (exists SN, laid_out KN [not_grouped] SN R d) /\ keyed d /\ col not_grouped d = Some (map F pr) /\
  exists l fd rest, m_foot d = (l, fd) :: rest /\ dget not_grouped fd = Some tot.

Lemma lab0 : lab 0 0 = not_grouped.
Proof. pose proof ONE as H. rewrite PC1 in H. unfold col_labels in H. cbn [length seq combine map fst snd] in H. congruence. Qed.
Lemma pr_len : length pr = R.
Proof. rewrite (Permutation_length (order_perm inv vlt lexsort LS sr tr R KR)). apply seq_length. Qed.
Lemma chosen_true {X} : forall n (l : list X), length l = n -> chosen (repeat true n) l = l.
Proof. clear. induction n as [|n IH]; intros [|x l] L; try reflexivity; try discriminate. cbn [repeat chosen]. f_equal. apply IH. now injection L. Qed.
Lemma kept_true n : kept (repeat true n) = n.
Proof. clear. unfold kept. induction n as [|n IH]; [reflexivity|]. cbn [repeat filter length]. now rewrite IH. Qed.

Lemma presents_usable t cw rw cellv rowt colt tot marg footers f keep r : without_blanks false R f keep t cw rw -> presents f keep t cellv rowt colt tot marg footers r -> usable (fun i => cellv i 0) (colt 0) r.
Proof.
  intros (FT & ->) (LO & PK & PC & PT & PM & PF & PV & FTD). rewrite kept_true in LO. rewrite (filter_all f CN) in LO by (intros; apply FT). rewrite ONE in LO.
  assert (H0 : nth_error pc 0 = Some 0) by now rewrite PC1. split; [|split; [|split]].
  - eexists. exact LO.
  - intros q k u H. destruct (PK q k u H) as (k' & E1 & E2). exists k'. split; [exact E1|]. rewrite E2. f_equal. apply chosen_true. rewrite reorder_length. exact pr_len.
  - rewrite <- lab0. rewrite (PC 0 0 H0) by apply FT. f_equal. apply chosen_true. rewrite map_length. exact pr_len.
  - destruct (m_foot r) as [|[l fd] rest] eqn:Q; [discriminate|]. cbn [map fst] in PF. injection PF as -> _. exists t, fd, rest. split; [reflexivity|].
    destruct (PV t colt tot (or_introl eq_refl)) as (A & _). specialize (A 0 0 H0 (FT _)). rewrite lab0 in A. unfold foot in A. rewrite Q in A. cbn [dget] in A. destruct (name_dec t t) as [_|X]; [exact A|congruence].
Qed.
Lemma tab_usable cellv rowt colt tot d : MargProofs6.tab inv lexsort label inv_label tr tc R C sdr prer sdc prec a0 cellv rowt colt tot d -> usable (fun i => cellv i 0) (colt 0) d.
Proof.
  intros ((s & f & LO & fd & FE & _) & K & PC & _ & CT & _). assert (H0 : nth_error pc 0 = Some 0) by now rewrite PC1. rewrite ONE in LO. split; [|split; [|split]].
  - eexists. exact LO.
  - exact K.
  - rewrite <- lab0. now apply (PC 0).
  - exists f, fd, []. split; [exact FE|]. specialize (CT 0 0 H0). rewrite lab0 in CT. unfold col_total in CT. now rewrite FE in CT.
Qed.
Lemma usable_ext F F' t t' d : (forall i, F i = F' i) -> t = t' -> usable F t d -> usable F' t' d.
Proof. intros H -> (A & B & D & E). repeat split; try assumption. rewrite D. f_equal. now apply map_ext. Qed.

Variables (div pct : V -> V -> V) (hundred : V).
Notation col_data := (col_data inv blank lexsort binname label inv_label zero div pct hundred).
Notation accum_cols := (accum_cols inv blank lexsort binname label inv_label zero div pct hundred).
Variables (NN : nok numer) (NDE : nok denom) (NR : nok ratio) (NS : nok (summary_name 0)) (NT : nok total_ratio) (NTO : nok total).
Definition aggr (filt : option (list bool)) (c : calc (V := V)) (v : list V) (s : nat * nat -> bool) : V := c_f c (sel filt v s).
Definition arg_ok (p : col_arg (V := V) * (name * (option (list bool) * calc (V := V)))) : Prop :=
  (forall v, In v (arrays (fst p)) -> length v = length rk) /\ filter_ok (length rk) (fst (snd (snd p))) /\ nok (c_nm (snd (snd (snd p)))) /\ by_parts (c_f (snd (snd (snd p)))) (c_func (snd (snd (snd p)))).

Lemma col_data_ok x nm filt c a : ainv a -> arg_ok (x, (nm, (filt, c))) ->
  ainv (fst (col_data x filt c a)) /\ exists d, snd (col_data x filt c a) = Some d /\
    usable (fun i => entry div pct x (aggr filt c) (shown false) (in_row false (S i))) (entry div pct x (aggr filt c) (shown false) (shown false)) d.
Proof.
  intros I (LV & FL & NC & BP). cbn [fst snd] in *. destruct x as [v|v|v w]; cbn [arrays MargModel.col_data entry] in *.
  - destruct (compute_ok' c v filt a I NC (LV v (or_introl eq_refl)) FL BP) as (I1 & d & E & T). split; [exact I1|]. exists d. split; [exact E|]. apply tab_usable in T. eapply usable_ext; [| |exact T].
    + intros i. cbn. unfold aggr. now rewrite sel_cell.
    + cbn. unfold aggr. now rewrite sel_col.
  - destruct (accum_ratiop_ok inv vlt lexsort LS binname label inv_label zero blank tr tc R C sdr prer sdc prec a0 KR KC RC CC RN CNN LN F1 TOT pct hundred c v filt ByTable false false a I NC NT NTO (LV v (or_introl eq_refl)) FL BP (or_introl eq_refl)) as (I1 & r & f & keep & E & WB & P).
    split; [exact I1|]. exists r. split; [exact E|]. apply (presents_usable _ _ _ _ _ _ _ _ _ _ _ _ WB) in P. eapply usable_ext; [| |exact P].
    + intros i. unfold percent_cell, aggr. now rewrite sel_cell.
    + unfold percent_total, aggr. now rewrite sel_col.
  - destruct (accum_ratio_ok inv vlt lexsort LS binname label inv_label zero blank tr tc R C sdr prer sdc prec a0 KR KC RC CC RN CNN LN F1 TOT div c c v w filt filt false true false a I NC NC NN NDE NR NS (LV v (or_introl eq_refl)) (LV w (or_intror (or_introl eq_refl))) FL FL BP BP) as (I1 & r & f & keep & E & WB & P).
    split; [exact I1|]. exists r. split; [exact E|]. apply (presents_usable _ _ _ _ _ _ _ _ _ _ _ _ WB) in P.
    assert (EF : match filt with None => filt | _ => filt end = filt) by now destruct filt. rewrite EF in P. eapply usable_ext; [| |exact P].
    + intros i. cbn. unfold aggr. now rewrite !sel_cell.
    + cbn. unfold aggr. now rewrite !sel_col.
Qed.

(** ** the columns so far *)
Definition state (done : list (name * (list V * V))) (r : mds (V := V)) : Prop :=
  laid_out KN (map fst done) [] R r /\ keyed r /\ (forall nm v x, In (nm, (v, x)) done -> col nm r = Some v /\ foot total r nm = Some x) /\
  map fst (m_foot r) = match done with [] => [] | _ => [total] end /\ footed r.

Lemma add_one done r nm v x : state done r -> ~ In nm (KN ++ map fst done) -> length v = R ->
  exists r', match assign nm v r with None => None | Some r => footer_set total [(nm, x)] r end = Some r' /\ state (done ++ [(nm, (v, x))]) r'.
Proof.
  intros (LO & K & D & FN & FT) NI LV. destruct LO as (L1 & L2 & L3 & L4 & L5). rewrite app_nil_r in L1, L2. unfold assign.
  assert (X : isnil (m_cols r) || (length v =? nrows r) = true).
  { unfold nrows. destruct (m_cols r) as [|[c u] q] eqn:Q; [reflexivity|]. cbn [isnil orb]. apply Nat.eqb_eq. rewrite (L5 c u) by (left; reflexivity). exact LV. }
  rewrite X. unfold footer_set. cbn [m_cols m_labels m_sums m_foot forallb fst].
  assert (NF : mem nm (map fst (m_cols r)) = false) by (apply mem_not; now rewrite L1).
  assert (DS : map fst (dset nm v (m_cols r)) = KN ++ map fst done ++ [nm]) by (rewrite dset_names, NF, L1, app_assoc; reflexivity).
  assert (IN : mem nm (names (dset nm v (m_cols r))) = true) by (apply mem_in; unfold names; rewrite DS; apply in_or_app; right; apply in_or_app; right; now left).
  rewrite IN. cbn [andb]. eexists. split; [reflexivity|]. cbn [dset_all fold_left fst snd].
  set (fd := dset_all [(nm, x)] match dget total (m_foot r) with Some o => o | None => [] end).
  assert (FD : forall c, dget c fd = if name_dec nm c then Some x else foot total r c).
  { intros c. unfold fd, dset_all. cbn [fold_left fst snd]. rewrite dget_dset. destruct (name_dec nm c); [reflexivity|]. unfold foot. now destruct (dget total (m_foot r)). }
  assert (ND : NoDup (KN ++ map fst done ++ [nm])) by (rewrite app_assoc; apply nodup_cat; [exact L2|repeat constructor; intros []|intros c I [<-|[]]; now apply NI]).
  assert (NM2 : map fst (done ++ [(nm, (v, x))]) = map fst done ++ [nm]) by (rewrite map_app; reflexivity).
  split; [|split; [|split; [|split]]].
  - unfold laid_out. cbn [m_cols m_labels m_sums]. rewrite NM2, app_nil_r. split; [exact DS|]. split; [exact ND|]. split; [exact L3|]. split; [exact L4|].
    intros c u I. apply dget_nodup in I; [|rewrite DS; exact ND]. rewrite dget_dset in I. destruct (name_dec nm c) as [E|E]; [congruence|]. apply dget_some_in in I. now apply (L5 c).
  - intros q k u H. destruct (K q k u H) as (k' & E1 & E2). exists k'. split; [exact E1|]. unfold col in *. cbn [m_cols]. rewrite dget_dset. destruct (name_dec nm k') as [E|E]; [|exact E2]. subst k'. exfalso. apply NI. apply in_or_app. left. eapply nth_error_In; eauto.
  - intros m u y I. unfold col, foot. cbn [m_cols m_foot]. rewrite !dget_dset. destruct (name_dec total total) as [_|Z]; [|congruence]. apply in_app_or in I. destruct I as [I|[I|[]]].
    + assert (E : nm <> m) by (intros E; subst m; apply NI; apply in_or_app; right; apply in_map_iff; exists (nm, (u, y)); now split).
      rewrite FD. destruct (name_dec nm m) as [Z|_]; [contradiction|]. apply (D m u y I).
    + injection I as <- <- <-. rewrite FD. destruct (name_dec nm nm) as [_|Z]; [now split|congruence].
  - cbn [m_foot]. rewrite dset_names, FN. destruct done as [|p done]; [reflexivity|]. cbn [app]. now destruct (mem_in total [total]) as [_ ->]; [|left].
  - intros l q I. cbn [m_foot m_cols] in *. assert (NFO : NoDup (map fst (m_foot r))) by (rewrite FN; destruct done; repeat constructor; intros []).
    apply dget_nodup in I; [|apply DsProofs3.dset_nodup; exact NFO]. rewrite dget_dset in I. destruct (name_dec total l) as [E|E].
    + injection I as <-. assert (O : NoDup (map fst match dget total (m_foot r) with Some o => o | None => [] end) /\ incl (map fst match dget total (m_foot r) with Some o => o | None => [] end) (map fst (m_cols r))).
      { destruct (dget total (m_foot r)) as [o|] eqn:Q; [|split; [constructor|intros ? []]]. apply dget_some_in in Q. now apply (FT total). }
      destruct O as (O1 & O2). split; [now apply DsProofs3.dset_nodup|]. intros c J. destruct (dget c fd) as [y|] eqn:Q; [|apply dget_none in Q; exact (False_ind _ (Q J))].
      rewrite FD in Q. rewrite DS. destruct (name_dec nm c) as [Z|Z]; [subst; apply in_or_app; right; apply in_or_app; right; now left|].
      rewrite app_assoc. apply in_or_app. left. rewrite <- L1. apply O2. unfold foot in Q. destruct (dget total (m_foot r)); [|discriminate]. apply dget_some_in in Q. apply in_map_iff. now exists (c, y).
    + apply dget_some_in in I. destruct (FT l q I) as (Z1 & Z2). split; [exact Z1|]. intros c J. rewrite DS, app_assoc. apply in_or_app. left. rewrite <- L1. now apply Z2.
Qed.

Lemma first_one F tot d : usable F tot d -> let r := keep_cols (firstn (length KN) (names (m_cols d))) d in state [] (mkM (m_cols r) (m_labels r) (m_sums r) []).
Proof.
  intros ((SN & LO) & K & _ & _). pose proof LO as (L1 & L2 & L3 & L4 & L5).
  assert (FN : firstn (length KN) (names (m_cols d)) = KN) by (unfold names; rewrite L1, firstn_app, firstn_all, Nat.sub_diag; cbn [firstn]; apply app_nil_r).
  rewrite FN. cbn [keep_cols m_cols m_labels m_sums m_foot].
  assert (NK : NoDup KN) by exact (proj1 (nodup_app _ _ L2)).
  assert (DJ : forall c, In c KN -> ~ In c ([not_grouped] ++ SN)) by exact (proj2 (proj2 (nodup_app _ _ L2))).
  assert (ON : only KN (m_cols d) = firstn (length KN) (m_cols d)).
  { destruct (split_layout _ _ _ _ _ LO) as (key & cells & sums & E & EK & EC & ES). unfold only. rewrite E. assert (LK : length KN = length key) by (rewrite <- EK; apply map_length). rewrite LK, firstn_app, firstn_all, Nat.sub_diag. cbn [firstn]. rewrite filter_app. f_equal.
    - apply MargProofs4.filter_all. intros p I. apply mem_in. rewrite <- EK. now apply in_map.
    - apply MargProofs4.filter_none. intros p I. apply mem_not. intros J. apply (DJ _ J). rewrite <- EC, <- ES, <- map_app. now apply in_map. }
  assert (NM : map fst (only KN (m_cols d)) = KN) by (rewrite ON, <- firstn_map, L1, firstn_app, firstn_all, Nat.sub_diag; cbn [firstn]; apply app_nil_r).
  split; [|split; [|split; [|split]]].
  - unfold laid_out. cbn [m_cols m_labels m_sums map]. rewrite !app_nil_r. split; [exact NM|]. split; [exact NK|]. split; [|split].
    + rewrite L3. apply MargProofs4.filter_all. intros c I. now apply mem_in.
    + rewrite L4. apply MargProofs4.filter_none. intros c I. apply mem_not. intros J. apply (DJ c J). apply in_or_app. now right.
    + intros c v I. apply filter_In in I. now apply (L5 c).
  - intros q k u H. destruct (K q k u H) as (k' & E1 & E2). exists k'. split; [exact E1|]. unfold col in *. cbn [m_cols]. unfold only. rewrite (dget_filter (fun c => mem c KN)). replace (mem k' KN) with true; [exact E2|]. symmetry. apply mem_in. eapply nth_error_In; eauto.
  - intros ? ? ? [].
  - reflexivity.
  - intros ? ? [].
Qed.

Definition entries (p : col_arg (V := V) * (name * (option (list bool) * calc (V := V)))) : name * (list V * V) :=
  let '(x, (nm, (filt, c))) := p in
  (nm, (map (fun i => entry div pct x (aggr filt c) (shown false) (in_row false (S i))) pr, entry div pct x (aggr filt c) (shown false) (shown false))).

Lemma add_result_ok F tot d nm res done : usable F tot d -> ~ In nm (KN ++ map fst done) -> match res with Some r => state done r | None => done = [] end ->
  exists r', add_result zero (length KN) nm d res = Some r' /\ state (done ++ [(nm, (map F pr, tot))]) r'.
Proof.
  intros U NI ST. pose proof U as (_ & _ & UC & l & fd & rest & FE & FD). unfold add_result. unfold col in UC. rewrite UC, FE, FD.
  destruct res as [r|].
  - apply add_one; [exact ST|exact NI|]. rewrite map_length. exact pr_len.
  - subst done. apply (add_one [] _ nm (map F pr) tot (first_one F tot d U)); [exact NI|]. rewrite map_length. exact pr_len.
Qed.

Lemma accum_cols_ind l : forall done res a, ainv a -> Forall arg_ok l -> NoDup (KN ++ map fst done ++ map (fun p => fst (snd p)) l) -> match res with Some r => state done r | None => done = [] end ->
  ainv (fst (accum_cols (length KN) l res a)) /\
  match snd (accum_cols (length KN) l res a) with Some r => state (done ++ map entries l) r | None => done = [] /\ l = [] end.
Proof.
  induction l as [|[x [nm [filt c]]] l IH]; intros done res a I OK ND ST.
  - cbn [MargModel.accum_cols fst snd map]. rewrite app_nil_r. split; [exact I|]. destruct res; [exact ST|now split].
  - inversion OK as [|? ? O1 O2]; subst. destruct (col_data_ok x nm filt c a I O1) as (I1 & d & E & U). cbn [MargModel.accum_cols]. destruct (col_data x filt c a) as [a1 o1]. cbn [fst snd] in I1, E. subst o1.
    cbn [map fst snd] in ND. assert (NI : ~ In nm (KN ++ map fst done)).
    { intros J. rewrite app_assoc in ND. apply (proj2 (proj2 (nodup_app _ _ ND)) nm J). now left. }
    destruct (add_result_ok _ _ d nm res done U NI ST) as (r' & ER & SR). rewrite ER.
    destruct (IH (done ++ [entries (x, (nm, (filt, c)))]) (Some r') a1 I1 O2) as (I2 & S2).
    + rewrite map_app. cbn [map entries fst]. rewrite <- app_assoc. exact ND.
    + exact SR.
    + split; [exact I2|]. rewrite <- app_assoc in S2. destruct (snd (accum_cols (length KN) l (Some r') a1)); [exact S2|]. destruct S2 as (S2 & _). destruct done; discriminate.
Qed.
Theorem accum_cols_ok l a : ainv a -> l <> [] -> Forall arg_ok l -> NoDup (KN ++ map (fun p => fst (snd p)) l) ->
  ainv (fst (accum_cols (length KN) l None a)) /\ exists r, snd (accum_cols (length KN) l None a) = Some r /\ state (map entries l) r.
Proof.
  intros I NE OK ND. destruct (accum_cols_ind l [] None a I OK ND eq_refl) as (I1 & S1). split; [exact I1|]. destruct (snd (accum_cols (length KN) l None a)) as [r|]; [now exists r|]. destruct S1 as (_ & S1). contradiction.
Qed.
End A.
