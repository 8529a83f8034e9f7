From Coq Require Import List Arith Bool ZArith Permutation Lia.
From Verif Require Import FlattenModel DsModel DsProofs3 GroupingModel GroupingSpec AggModel AggSpec AggProofs AggProofs2 AggProofs3 AggProofs5 Acc2Model Acc2Spec Acc2Proofs Acc2Proofs2 Acc2Proofs3 Acc2Proofs4 Acc2Proofs5.
Import ListNotations.

Section A.
Context {V : Type}.
Variable inv : V.
Variable vlt : V -> V -> Prop.
Variable lexsort : list (list V) -> list nat.
Variable LS : lexsort_ok inv vlt lexsort.
Variable binname : list V -> V.
Variable label : list V -> name.
Variable inv_label : nat -> name.
Variable zero : V.
Variables (tr tc : table (V := V)) (R C : nat) (sdr prer sdc prec : bool).
Notation sr := (sdr && negb prer).
Notation sc := (sdc && negb prec).
Notation pr := (order lexsort sr tr R).
Notation pc := (order lexsort sc tc C).
Variable a0 : acc2 (V := V).
Notation ainv := (ainv inv lexsort binname tr tc R C sdr prer sdc prec a0).
Notation base_ds := (base_ds inv lexsort binname label inv_label tr tc R C sdr prer sdc prec a0).
Notation gbk := (gbk inv lexsort binname tr R sdr prer a0).
Notation columns := (columns inv lexsort label inv_label tr tc R C sdr prer sdc prec).
Notation ylab := (a_ylab a0).
Notation rk := (x_code (a_row a0)).
Notation ck := (x_code (a_col a0)).
Variable KR : key_table inv tr R.
Variable KC : key_table inv tc C.
Variable RC : codes_in R rk.
Variable CC : codes_in C ck.
Variable RN : x_n (a_row a0) = R.
Variable CN : x_n (a_col a0) = C.
Variable LN : length ck = length rk.
Variable F1 : filter_ok (length rk) (a_flt a0).
Notation n := (length rk).
Variables (flt : option (list bool)) (sf : bool).
Variable F2 : filter_ok n flt.

(** any table built from the array of bins [g] *)
Lemma table_ok (g : nat -> V) (value : nat -> nat -> V) d rest :
  (forall i j, i <= R -> j <= C -> (sf = true \/ 0 < j) -> g (j * S R + i) = value i j) ->
  d = base_ds g sf ++ rest -> NoDup (map fst d) ->
  two_way inv label inv_label binname ylab tr tc pr pc sf value d /\ (sf = true -> pr = seq 0 R -> filtered_column pr value d).
Proof.
  intros VL -> ND. split.
  - apply (two_way_ok inv vlt lexsort LS binname label inv_label tr tc R C sdr prer sdc prec KR KC a0 g sf rest value VL ND).
  - intros E PR. rewrite E in ND |- *. apply (filtered_col_ok inv lexsort binname label inv_label tr tc R C sdr prer sdc prec a0 g rest value); [|exact PR|exact ND].
    intros i Hi. change (g (0 * S R + i) = value i 0). apply VL; [exact Hi|lia|now left].
Qed.
Lemma names_nil l : names_ok inv label inv_label ylab tr tc pc sf l -> names_ok inv label inv_label ylab tr tc pc sf [].
Proof. unfold names_ok. rewrite !app_assoc, app_nil_r. apply nodup_prefix. Qed.
Lemma base_nodup g : names_ok inv label inv_label ylab tr tc pc sf [] -> NoDup (map fst (base_ds g sf ++ [])).
Proof. unfold names_ok. rewrite !app_nil_r, (base_names inv vlt lexsort LS binname label inv_label tr tc R C sdr prer sdc prec KR KC a0). tauto. Qed.

(** ** apply_reduce *)
Section Apply.
Variables (f : list V -> V) (x : list V).
Variable X : length x = n.
Notation sel := (select inv rk ck (a_flt a0) flt x).
Notation value := (fun i j => on_rows inv f (sel (cell i j))).
Definition rbin (b : nat) : V := on_rows inv f (in_bin (passing flt (ikey2 a0)) x b).
Lemma rbin_ok i j : i <= R -> j <= C -> (sf = true \/ 0 < j) -> rbin (j * S R + i) = value i j.
Proof.
  intros Hi Hj H. unfold rbin. pose proof RC as RC'. rewrite <- RN in RC'.
  pose proof (bin_cell inv a0 flt x LN F1 F2 X RC' flt i j (or_introl eq_refl)) as B. rewrite RN in B. now rewrite (B Hi).
Qed.
Lemma apply_ok nm a : ainv a -> names_ok inv label inv_label ylab tr tc pc sf (if a_tot a0 then [nm] else []) ->
  exists d foot, snd (apply_reduce2 inv lexsort binname label inv_label zero f nm x flt sf a) = Some (d, foot) /\
    two_way inv label inv_label binname ylab tr tc pr pc sf value d /\
    (sf = true -> pr = seq 0 R -> filtered_column pr value d) /\
    (a_tot a0 = true -> (forall r, r < n -> passes (a_flt a0) r = true) -> pr = seq 0 R -> pc = seq 0 C ->
       margins inv label inv_label tc pr pc sf nm (fun i => on_rows inv f (sel (fun p => fst p =? i))) (fun j => on_rows inv f (sel (fun p => snd p =? j)))
         (f (picked flt x)) (d, foot)).
Proof.
  intros I NO. unfold apply_reduce2. destruct (same_ikey2 inv lexsort binname tr tc R C sdr prer sdc prec a0 a I) as (EI & EB & EF & ET). rewrite EI, EB, ET.
  assert (EA : reduce_col inv f (passing flt (ikey2 a0)) (nbins a0) 0 x = map rbin (seq 0 (S (nbins a0)))).
  { unfold reduce_col. cbn [skipn]. apply map_ext. intros b. unfold rbin, on_rows. now destruct (in_bin (passing flt (ikey2 a0)) x b). }
  rewrite EA. cbv zeta.
  destruct (make_ok inv vlt lexsort LS binname label inv_label tr tc R C sdr prer sdc prec KR KC a0 rbin sf a I RN CN (names_nil _ NO)) as [I1 MO].
  destruct (make_dataset inv lexsort binname label inv_label (map rbin (seq 0 (S (nbins a0)))) sf a) as [a1 [ds gb]]. cbn [fst snd] in I1, MO.
  assert (DS : ds = Some (base_ds rbin sf)) by exact (f_equal fst MO). clear MO. subst ds.
  destruct (a_tot a0) eqn:T.
  - assert (BO : forall (k : list nat) r, (forall r, r < n -> passes (a_flt a0) r = true) -> bin_of k flt r = (if passes (a_flt a0) r && passes flt r then nth r k 0 else 0) \/ n <= r).
    { intros k r AP. destruct (Nat.le_gt_cases n r) as [|Hr]; [now right|left]. rewrite (AP r Hr). unfold bin_of, passes. destruct flt as [g|]; reflexivity. }
    assert (AX : forall y : axis, length (x_code y) = n -> accum1_pass (reduce_col inv f) false y x sf flt = raw sf (fun b => on_rows inv f (bin_values inv (x_code y) flt x b)) (x_n y)).
    { intros y Ly. unfold accum1_pass. assert (EQ : match x_base y with Some 0 => x_code y | _ => x_code y end = x_code y) by (destruct (x_base y) as [[|?]|]; reflexivity).
      rewrite EQ. apply reduce_col_raw; rewrite Ly; assumption. }
    pose proof (AX (a_row a0) eq_refl) as E1. pose proof (AX (a_col a0) LN) as E2. rewrite RN in E1. rewrite CN in E2.
    destruct (multipass_ok inv vlt lexsort LS binname label inv_label zero tr tc R C sdr prer sdc prec KR KC a0 (reduce_col inv f) false (Some f) nm x flt rbin sf a1 _ _ I1 NO E1 E2) as (d & foot & rest & E & Ed & ND & M).
    exists d, foot. split; [exact E|]. destruct (table_ok rbin value d rest rbin_ok Ed ND) as [G1 G2]. split; [exact G1|]. split; [exact G2|].
    intros _ AP PR PC. specialize (M PR PC). revert M. apply (margins_ext inv vlt lexsort LS label inv_label tr tc R C sdr prer sdc prec a0 KR KC RN CN LN); [| |reflexivity].
    + intros i Hi _. f_equal. unfold bin_values, select. f_equal. apply filter_ext_in. intros r Hr. apply in_seq in Hr. destruct (BO rk r AP) as [B|B]; [|lia]. rewrite B. unfold place.
      destruct (passes (a_flt a0) r && passes flt r); reflexivity.
    + intros j Hj _. f_equal. unfold bin_values, select. rewrite LN. f_equal. apply filter_ext_in. intros r Hr. apply in_seq in Hr. destruct (BO ck r AP) as [B|B]; [|lia]. rewrite B. unfold place.
      destruct (passes (a_flt a0) r && passes flt r); reflexivity.
  - exists (base_ds rbin sf ++ []), []. rewrite app_nil_r. split; [reflexivity|]. rewrite <- (app_nil_r (base_ds rbin sf)).
    destruct (table_ok rbin value _ [] rbin_ok eq_refl (base_nodup rbin NO)) as [G1 G2]. split; [exact G1|]. split; [exact G2|]. intros; discriminate.
Qed.
End Apply.

(** what passes the filters *)
Lemma picked_ok (x : list V) f : length x = n -> filter_ok n f -> picked f x = map (fun r => nth r x inv) (filter (passes f) (seq 0 n)).
Proof.
  intros X FO. unfold picked, passes. destruct f as [f|].
  - specialize (FO f eq_refl). rewrite (list_as_seq inv x) at 1. rewrite (list_as_seq false f) at 1. rewrite X, FO, combine_maps, filter_map, map_map. reflexivity.
  - rewrite (filter_all (fun _ => true)) by reflexivity. rewrite <- X. apply list_as_seq.
Qed.

(** ** transform *)
Lemma transform_ok2 (f : list V -> V) (x : list V) a r : length x = n -> ainv a -> r < n ->
  nth r (transform2 inv f x flt sf a) inv =
    let '(i, j) := place rk ck (a_flt a0) None r in
    if sf || negb ((i =? 0) && (j =? 0)) then f (select inv rk ck (a_flt a0) flt x (cell i j)) else inv.
Proof.
  intros X I Hr. unfold transform2. destruct (same_ikey2 inv lexsort binname tr tc R C sdr prer sdc prec a0 a I) as (EI & EB & EF & ET).
  rewrite (bins2_g inv lexsort binname tr tc R C sdr prer sdc prec a0 f flt x sf a I), EI.
  pose proof (ikey2_length a0 LN F1) as IL. rewrite (nth_map _ _ _ _ 0) by (rewrite IL; exact Hr).
  rewrite (ikey2_nth a0 r LN F1 Hr), RN. set (b := if passes (a_flt a0) r then nth r ck 0 * S R + nth r rk 0 else 0).
  assert (NB : nbins a0 = S R * S C) by (unfold nbins; now rewrite RN, CN).
  pose proof (codes_nth R rk r RC) as QR. pose proof (codes_nth C ck r CC) as QC.
  assert (Bd : b < S (nbins a0)) by (unfold b; rewrite NB; destruct (passes (a_flt a0) r); nia).
  rewrite mbget_in by (rewrite map_length, seq_length; exact Bd). rewrite nth_map_seq by exact Bd.
  unfold place. cbn [passes]. rewrite andb_true_r.
  pose proof RC as RC'. rewrite <- RN in RC'.
  pose proof (bin_cell inv a0 flt x LN F1 F2 X RC' (and_filter (a_flt a0) flt)) as BC. rewrite RN in BC.
  unfold gbin. unfold b. destruct (passes (a_flt a0) r).
  - rewrite (BC (nth r rk 0) (nth r ck 0) (or_intror eq_refl) QR). destruct sf; cbn [orb]; [reflexivity|].
    destruct (Nat.eqb_spec (nth r rk 0) 0) as [E1|E1], (Nat.eqb_spec (nth r ck 0) 0) as [E2|E2]; cbn [andb negb];
      match goal with |- context [?q <? 1] => destruct (Nat.ltb_spec q 1) end; try reflexivity; nia.
  - pose proof (BC 0 0 (or_intror eq_refl) (Nat.le_0_l _)) as B0. cbn [Nat.mul Nat.add] in B0. rewrite B0. cbn [Nat.eqb andb negb]. rewrite orb_false_r. destruct sf; reflexivity.
Qed.

(** ** reading one row *)
Lemma get_ok a r m : ainv a -> nth_error (ikey2 a0) r = Some m -> pr = seq 0 R -> pc = seq 0 C ->
  snd (get2 inv lexsort r a) = let '(i, j) := place rk ck (a_flt a0) None r in
    Some ((match j with 0 => None | S k => Some (row inv tc k) end), (match i with 0 => None | S k => Some (row inv tr k) end)).
Proof.
  intros I Hm PR PC. unfold get2. destruct (same_ikey2 inv lexsort binname tr tc R C sdr prer sdc prec a0 a I) as (EI & EB & EF & ET). rewrite EI, Hm. cbn zeta.
  pose proof (ikey2_length a0 LN F1) as IL.
  assert (Hr : r < n) by (rewrite <- IL; apply nth_error_Some; congruence).
  assert (RNa : x_n (a_row a) = R) by (destruct I as (_ & _ & _ & H & _); congruence).
  rewrite RNa. pose proof (ikey2_nth a0 r LN F1 Hr) as HN. rewrite (nth_error_nth _ _ _ Hm), RN in HN.
  pose proof (codes_nth R rk r RC) as QR. pose proof (codes_nth C ck r CC) as QC.
  assert (DM : m / S R = snd (place rk ck (a_flt a0) None r) /\ m mod S R = fst (place rk ck (a_flt a0) None r)).
  { unfold place. cbn [passes]. rewrite andb_true_r, HN. destruct (passes (a_flt a0) r); cbn [fst snd].
    - split; [rewrite Nat.div_add_l by lia; rewrite Nat.div_small by lia; lia|]. rewrite Nat.add_comm, Nat.mod_add by lia. apply Nat.mod_small. lia.
    - split; [apply Nat.div_0_l; lia|apply Nat.mod_0_l; lia]. }
  destruct DM as [-> ->]. assert (PL : fst (place rk ck (a_flt a0) None r) <= R /\ snd (place rk ck (a_flt a0) None r) <= C) by (apply (place_le R C a0 RC CC RN CN LN)).
  destruct (place rk ck (a_flt a0) None r) as [i j]. cbn [fst snd] in *. destruct PL as [Pi Pj].
  pose proof I as (K1 & K2 & SM).
  assert (C1 : forall k, j = S k -> exists c, get_bin_from_index inv lexsort (Z.of_nat j - 1) (x_kc (a_col a)) = (c, Some (row inv tc k)) /\ kinv inv lexsort binname tc C sdc prec c).
  { intros k ->. unfold get_bin_from_index. assert (Nc : k_n (x_kc (a_col a)) = C) by (destruct K2 as (_ & _ & N & _); exact N). rewrite Nc.
    replace ((0 <=? Z.of_nat (S k) - 1) && (Z.of_nat (S k) - 1 <? Z.of_nat C))%Z with true by (symmetry; apply andb_true_iff; rewrite Z.leb_le, Z.ltb_lt; lia).
    pose proof (gbkeys_ok inv vlt lexsort LS binname tc C sdc prec KC _ K2) as H. destruct (gbkeys inv lexsort (x_kc (a_col a))) as [c d]. destruct H as (Kc & _ & _ & ->).
    exists c. split; [|exact Kc]. replace (Z.to_nat (Z.of_nat (S k) - 1)) with k by lia. f_equal. f_equal. 
    apply (row_shown inv lexsort tc C sdc prec k k). rewrite PC, (nth_error_nth' _ 0) by (rewrite seq_length; lia). now rewrite seq_nth by lia. }
  assert (R1 : forall c0 k, kinv inv lexsort binname tr R sdr prer c0 -> i = S k -> exists c, get_bin_from_index inv lexsort (Z.of_nat i - 1) c0 = (c, Some (row inv tr k))).
  { intros c0 k K0 ->. unfold get_bin_from_index. assert (Nc : k_n c0 = R) by (destruct K0 as (_ & _ & N & _); exact N). rewrite Nc.
    replace ((0 <=? Z.of_nat (S k) - 1) && (Z.of_nat (S k) - 1 <? Z.of_nat R))%Z with true by (symmetry; apply andb_true_iff; rewrite Z.leb_le, Z.ltb_lt; lia).
    pose proof (gbkeys_ok inv vlt lexsort LS binname tr R sdr prer KR _ K0) as H. destruct (gbkeys inv lexsort c0) as [c d]. destruct H as (_ & _ & _ & ->).
    exists c. replace (Z.to_nat (Z.of_nat (S k) - 1)) with k by lia. f_equal. f_equal. 
    apply (row_shown inv lexsort tr R sdr prer k k). rewrite PR, (nth_error_nth' _ 0) by (rewrite seq_length; lia). now rewrite seq_nth by lia. }
  destruct j as [|j]; cbn [Nat.eqb].
  - destruct i as [|i]; cbn [Nat.eqb snd]; [reflexivity|]. destruct (R1 (x_kc (a_row a)) i K1 eq_refl) as [c E]. rewrite E. reflexivity.
  - destruct (C1 j eq_refl) as [c [E Kc]]. rewrite E. destruct i as [|i]; cbn [Nat.eqb snd]; [reflexivity|].
    destruct (R1 (x_kc (a_row (set_colx a c))) i K1 eq_refl) as [c' E']. rewrite E'. reflexivity.
Qed.
End A.
