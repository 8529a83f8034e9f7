From Coq Require Import List Arith Bool ZArith Permutation Lia.
From Verif Require Import FlattenModel FlattenProofs DsModel DsProofs3 DsProofs5 GroupingModel GroupingSpec AggModel AggSpec AggProofs AggProofs2 AggProofs3
  Acc2Model Acc2Spec Acc2Proofs Acc2Proofs2 Acc2Proofs3 Acc2Proofs4 Acc2Proofs5 MargModel MargSpec MargProofs MargProofs2 MargProofs3 MargProofs4 MargProofs5.
Import ListNotations.

Section A.
Context {V : Type}.
Variable inv : V.
Variable vlt : V -> V -> Prop.
Variable lexsort : list (list V) -> list nat.
Variable LS : lexsort_ok inv vlt lexsort.
Variable binname : list V -> V.
Variable label : list V -> name.
Variable inv_label : nat -> name.
Variable zero : V.
Variables (tr tc : table (V := V)) (R C : nat) (sdr prer sdc prec : bool).
Notation sr := (sdr && negb prer).
Notation sc := (sdc && negb prec).
Notation pr := (order lexsort sr tr R).
Notation pc := (order lexsort sc tc C).
Variable a0 : acc2 (V := V).
Notation ainv := (ainv inv lexsort binname tr tc R C sdr prer sdc prec a0).
Notation base_ds := (base_ds inv lexsort binname label inv_label tr tc R C sdr prer sdc prec a0).
Notation ylab := (a_ylab a0).
Notation rk := (x_code (a_row a0)).
Notation ck := (x_code (a_col a0)).
Variable KR : key_table inv tr R.
Variable KC : key_table inv tc C.
Variable RC : codes_in R rk.
Variable CC : codes_in C ck.
Variable RN : x_n (a_row a0) = R.
Variable CNN : x_n (a_col a0) = C.
Variable LN : length ck = length rk.
Variable F1 : filter_ok (length rk) (a_flt a0).
Variable TOT : a_tot a0 = true.
Notation KN := (key_names ylab tr).
Notation CN := (col_labels inv label inv_label tc pc).
Notation nok x := (names_ok inv label inv_label ylab tr tc pc false [x]).

(** ** the shape of a computed table *)
Lemma nodup_combine (l : list name) : forall r : list V, NoDup l -> NoDup (map fst (combine l r)).
Proof.
  induction l as [|c l IH]; intros [|x r] ND; cbn [combine map fst]; try constructor; inversion ND; subst; [|now apply IH]. intros I. apply in_map_iff in I. destruct I as ([c' y] & E & I). cbn [fst] in E. subst c'. apply in_combine_l in I. contradiction.
Qed.
Lemma incl_combine (l : list name) : forall r : list V, incl (map fst (combine l r)) l.
Proof. intros r c I. apply in_map_iff in I. destruct I as ([c' y] & <- & I). now apply in_combine_l in I. Qed.
Lemma dset_nodup (k : name) (v : V) d : NoDup (map fst d) -> NoDup (map fst (dset k v d)).
Proof.
  intros ND. destruct (in_dec name_dec k (map fst d)) as [I|I].
  - assert (E : map fst (dset k v d) = map fst d); [|now rewrite E]. clear ND. induction d as [|[c w] d IH]; [destruct I|]. cbn [dset]. destruct (name_dec c k) as [D|D]; [subst; reflexivity|]. cbn [map fst]. f_equal. apply IH. destruct I as [I|I]; [cbn in I; congruence|exact I].
  - rewrite dset_fresh by exact I. rewrite map_app. apply nodup_cat; [exact ND|repeat constructor; intros []|]. intros x J [K|[]]. cbn in K. subst. contradiction.
Qed.
Lemma dset_incl (k : name) (v : V) d : incl (map fst (dset k v d)) (k :: map fst d).
Proof.
  induction d as [|[c w] d IH]; cbn [dset map fst]; [intros x I; exact I|]. destruct (name_dec c k) as [D|D]; cbn [map fst].
  - intros x [I|I]; [left; congruence|right; now right].
  - intros x [I|I]; [right; now left|]. apply IH in I. destruct I as [I|I]; [now left|right; now right].
Qed.
Lemma kn_len : length KN = length tr.
Proof. unfold key_names. destruct tr as [|x [|y r]]; cbn [length map]; rewrite ?map_length; reflexivity. Qed.

Lemma shape f func nm x flt a d fd : ainv a -> nok nm ->
  snd (calculate2 inv lexsort binname label inv_label zero f (OnePass nm func) x flt false a) = Some (d, fd) ->
  map fst d = KN ++ CN ++ [nm] /\ (forall c v, In (c, v) d -> length v = R) /\ NoDup (map fst fd) /\ incl (map fst fd) (CN ++ [nm]).
Proof using LS KR KC RC CC RN CNN TOT.
  intros I NO. unfold calculate2, stack_dataset.
  assert (SI := same_ikey2 inv lexsort binname tr tc R C sdr prer sdc prec a0 a I). destruct SI as (_ & EN & _ & ET). rewrite ET, TOT.
  assert (NO0 : names_ok inv label inv_label ylab tr tc pc false []).
  { unfold names_ok in *. rewrite !app_assoc, app_nil_r. rewrite !app_assoc in NO. now apply nodup_prefix in NO. }
  set (g := fun b => if b <? 1 then inv else f (in_bin (passing (and_filter (a_flt a) flt) (ikey2 a)) x b)).
  assert (EB : bins2 inv f (and_filter (a_flt a) flt) 1 x a = map g (seq 0 (S (nbins a0)))) by (unfold bins2; rewrite EN; reflexivity). rewrite EB.
  destruct (make_ok inv vlt lexsort LS binname label inv_label tr tc R C sdr prer sdc prec KR KC a0 g false a I RN CNN NO0) as [I1 MO].
  destruct (make_dataset inv lexsort binname label inv_label (map g (seq 0 (S (nbins a0)))) false a) as [a1 [ds gb]]. cbn [fst snd] in I1, MO.
  assert (DS : ds = Some (base_ds g false)) by exact (f_equal fst MO). clear MO. subst ds.
  unfold calc_onepass. pose proof I1 as (K1 & K2 & _).
  match goal with |- context [resort inv lexsort (x_kc (a_row a1)) false ?v] => pose proof (resort_row inv lexsort binname tr R sdr prer _ false v K1) as H; destruct (resort inv lexsort (x_kc (a_row a1)) false v) as [rc ty] end. cbn [fst] in H.
  assert (I2 : ainv (set_row a1 rc)) by now apply ainv_row. pose proof I2 as (_ & K3 & _).
  match goal with |- context [resort inv lexsort (x_kc (a_col (set_row a1 rc))) false ?v] => pose proof (resort_col inv lexsort binname tc C sdc prec _ false v K3) as H2; destruct (resort inv lexsort (x_kc (a_col (set_row a1 rc))) false v) as [cc tx] end. cbn [fst] in H2.
  assert (I3 : ainv (set_colx (set_row a1 rc) cc)) by now apply ainv_col. pose proof I3 as (K4 & _).
  pose proof (gbkeys_ok inv vlt lexsort LS binname tr R sdr prer KR _ K4) as H3. destruct (gbkeys inv lexsort _) as [rc2 gb2]. destruct H3 as (_ & _ & _ & ->).
  cbn [snd]. unfold shown_keys. rewrite map_length. unfold add_totals.
  set (base := base_ds g false).
  assert (BN : map fst base = KN ++ CN) by (unfold base; rewrite (base_names inv vlt lexsort LS binname label inv_label tr tc R C sdr prer sdc prec KR KC a0); reflexivity).
  assert (BL : forall q, In q base -> length (snd q) = R) by (intros q Hq; exact (base_len inv vlt lexsort LS binname label inv_label tr tc R C sdr prer sdc prec KR a0 g false q Hq)).
  assert (NI : ~ In nm (map fst base)).
  { rewrite BN. unfold names_ok in NO. cbn [lead app] in NO. rewrite app_assoc in NO. destruct (nodup_app _ _ NO) as (_ & _ & X). intros J. apply (X nm J). now left. }
  destruct base as [|[k0 v0] br] eqn:EBR.
  { exfalso. destruct KR as (TN & _). assert (X : length (KN ++ CN) = 0) by (rewrite <- BN; reflexivity). rewrite app_length, kn_len in X. destruct tr; [congruence|discriminate]. }
  cbn [set_col]. destruct (length ty =? length v0) eqn:EL; [|discriminate]. apply Nat.eqb_eq in EL. rewrite dset_fresh by exact NI. intros E. match type of E with Some (?x, ?y) = Some (?x', ?y') => assert (E1 : x = x') by congruence; assert (E2 : y = y') by congruence end. clear E. subst d fd.
  assert (NMS : map fst (((k0, v0) :: br) ++ [(nm, ty)]) = KN ++ CN ++ [nm]) by (rewrite map_app, BN, <- app_assoc; reflexivity).
  split; [exact NMS|]. split.
  { intros c v J. change (In (c, v) (((k0, v0) :: br) ++ [(nm, ty)])) in J. apply in_app_or in J. destruct J as [J|[J|[]]]; [exact (BL _ J)|]. injection J as _ <-. rewrite EL. apply (BL (k0, v0)). now left. }
  assert (SK : skipn (length tr) (names (((k0, v0) :: br) ++ [(nm, ty)])) = CN ++ [nm]) by (unfold names; rewrite NMS, <- kn_len, skipn_app, skipn_all, Nat.sub_diag; reflexivity).
  rewrite SK.
  assert (ND : NoDup (CN ++ [nm])) by (unfold names_ok in NO; cbn [lead app] in NO; now apply nodup_app in NO).
  split; [apply dset_nodup; now apply nodup_combine|]. intros c J. apply dset_incl in J. destruct J as [<-|J]; [apply in_or_app; right; now left|]. now apply incl_combine in J.
Qed.

(** ** tables *)
(** a table with these cells and totals *)
Definition tab (cellv : nat -> nat -> V) (rowt colt : nat -> V) (tot : V) (d : mds) : Prop :=
  (exists s f, totalled KN CN R s f d) /\
  (forall q k u, nth_error tr q = Some (k, u) -> exists k', nth_error KN q = Some k' /\ col k' d = Some (reorder inv u pr)) /\
  (forall j k, nth_error pc j = Some k -> col (col_label inv label inv_label tc j k) d = Some (map (fun i => cellv i k) pr)) /\
  row_totals d = Some (map rowt pr) /\
  (forall j k, nth_error pc j = Some k -> col_total d (col_label inv label inv_label tc j k) = Some (colt k)) /\
  grand_total d = Some tot.

Notation sel flt x := (select inv rk ck (a_flt a0) flt x).
Theorem compute_ok c x flt a : ainv a -> nok (c_nm c) -> length x = length rk -> filter_ok (length rk) flt -> by_parts (c_f c) (c_func c) ->
  ainv (fst (compute inv lexsort binname label inv_label zero c x flt a)) /\
  exists d, snd (compute inv lexsort binname label inv_label zero c x flt a) = Some d /\
    tab (fun i k => c_f c (sel flt x (cell (S i) (S k)))) (fun i => c_f c (sel flt x (in_row false (S i)))) (fun k => c_f c (sel flt x (in_col false (S k)))) (c_f c (sel flt x (shown false))) d.
Proof using LS KR KC RC CC RN CNN LN F1 TOT.
  intros I NO LX FX BP. unfold compute.
  assert (NO' : names_ok inv label inv_label ylab tr tc pc false (total_names a0 (OnePass (c_nm c) (c_func c)))) by (unfold total_names; rewrite TOT; exact NO).
  destruct (calc_ok2 inv vlt lexsort LS binname label inv_label zero tr tc R C sdr prer sdc prec a0 KR KC RC CC RN CNN LN F1 (c_f c) flt x false FX LX (OnePass (c_nm c) (c_func c)) a I NO') as (d & fd & E & TW & _ & M & _).
  specialize (M _ _ TOT eq_refl BP).
  pose proof (shape (c_f c) (c_func c) (c_nm c) x flt a d fd I NO E) as (S1 & S2 & S3 & S4).
  assert (I1 : ainv (fst (calculate2 inv lexsort binname label inv_label zero (c_f c) (OnePass (c_nm c) (c_func c)) x flt false a))).
  { apply (astep_inv inv vlt lexsort LS binname label inv_label zero tr tc R C sdr prer sdc prec KR KC a0 a (ACalc (c_f c) (OnePass (c_nm c) (c_func c)) x flt false) I). }
  destruct (calculate2 inv lexsort binname label inv_label zero (c_f c) (OnePass (c_nm c) (c_func c)) x flt false a) as [a1 r]. cbn [fst snd] in *. subst r. split; [exact I1|].
  eexists. split; [reflexivity|].
  destruct (gbkeys2_ok inv vlt lexsort LS binname tr tc R C sdr prer sdc prec KR a0 false a1 I1) as (_ & GB). rewrite GB. unfold names. rewrite (gbk_names inv lexsort binname tr R sdr prer KR a0).
  destruct TW as (_ & TK & TC). destruct M as (M1 & M2 & _ & M4). cbn [fst snd lead app] in *.
  unfold tab, row_totals, col_total, grand_total, col. cbn [m_cols m_labels m_sums m_foot].
  split; [|split; [exact TK|split; [exact TC|split; [exact M1|split; [exact M2|exact M4]]]]].
  exists (c_nm c), (c_nm c). split; [split; [exact S1|split; [exact NO|split; [reflexivity|split; [reflexivity|exact S2]]]]|]. exists fd. split; [reflexivity|]. split; [exact S3|exact S4].
Qed.

(** renaming keeps all *)
Lemma tab_named k d r cellv rowt colt tot : tab cellv rowt colt tot d -> named KN CN R k d r -> tab cellv rowt colt tot r.
Proof.
  intros ((s & f & T) & T2 & T3 & T4 & T5 & T6) (N1 & _ & N3 & N4 & N5 & N6 & _).
  assert (N1' := N1). destruct N1' as ((NM & ND & LB & SM & _) & fd & FE & _).
  assert (INK : forall q k', nth_error KN q = Some k' -> In k' (KN ++ CN)) by (intros q k' H; apply in_or_app; left; eapply nth_error_In; eauto).
  assert (INC : forall j i, nth_error pc j = Some i -> In (col_label inv label inv_label tc j i) CN).
  { intros j i H. apply nth_error_In with j. now apply (col_labels_nth inv label inv_label lexsort tc C sdc prec) || (unfold col_labels; rewrite combine_seq_map; assert (L : j < length pc) by (apply nth_error_Some; congruence); erewrite map_nth_error; [|rewrite (nth_error_nth' _ 0) by (rewrite seq_length; exact L); rewrite seq_nth by exact L; reflexivity]; cbn [fst snd Nat.add]; now rewrite (nth_error_nth _ _ 0 H)). }
  assert (CT : forall c, col_total r c = foot k r c) by (intros c; unfold col_total, foot; rewrite FE; cbn [dget]; destruct (name_dec k k); congruence).
  split; [now exists k, k|]. split; [|split; [|split; [|split]]].
  - intros q k' u H. destruct (T2 q k' u H) as (k2 & E & G). exists k2. split; [exact E|]. now rewrite N3 by (eapply INK; eauto).
  - intros j i H. rewrite N3; [now apply T3|]. apply in_or_app. right. now apply INC.
  - unfold row_totals. rewrite SM. congruence.
  - intros j i H. rewrite CT, N5 by now apply INC. now apply T5.
  - unfold grand_total. rewrite SM, CT. congruence.
Qed.
End A.
