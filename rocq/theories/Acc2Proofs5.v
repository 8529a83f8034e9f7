From Coq Require Import List Arith Bool ZArith Permutation Lia.
From Verif Require Import FlattenModel DsModel DsProofs3 GroupingModel GroupingSpec AggModel AggSpec AggProofs AggProofs2 AggProofs3 Acc2Model Acc2Spec Acc2Proofs Acc2Proofs2 Acc2Proofs3 Acc2Proofs4.
Import ListNotations.

Section A.
Context {V : Type}.
Variable inv : V.
Variable vlt : V -> V -> Prop.
Variable lexsort : list (list V) -> list nat.
Variable LS : lexsort_ok inv vlt lexsort.
Variable binname : list V -> V.
Variable label : list V -> name.
Variable inv_label : nat -> name.
Variable zero : V.
Variables (tr tc : table (V := V)) (R C : nat) (sdr prer sdc prec : bool).
Notation sr := (sdr && negb prer).
Notation sc := (sdc && negb prec).
Notation pr := (order lexsort sr tr R).
Notation pc := (order lexsort sc tc C).
Variable a0 : acc2 (V := V).
Notation ainv := (ainv inv lexsort binname tr tc R C sdr prer sdc prec a0).
Notation base_ds := (base_ds inv lexsort binname label inv_label tr tc R C sdr prer sdc prec a0).
Notation ylab := (a_ylab a0).
Notation rk := (x_code (a_row a0)).
Notation ck := (x_code (a_col a0)).
Variable KR : key_table inv tr R.
Variable KC : key_table inv tc C.
Variable RC : codes_in R rk.
Variable CC : codes_in C ck.
Variable RN : x_n (a_row a0) = R.
Variable CN : x_n (a_col a0) = C.
Variable LN : length ck = length rk.
Variable F1 : filter_ok (length rk) (a_flt a0).
Notation n := (length rk).

Lemma same_ikey2 a : ainv a -> ikey2 a = ikey2 a0 /\ nbins a = nbins a0 /\ a_flt a = a_flt a0 /\ a_tot a = a_tot a0.
Proof. intros (_ & _ & H1 & H2 & H3 & H4 & H5 & H6 & H7 & H8 & H9). unfold ikey2, nbins. now rewrite H1, H2, H4, H5, H8, H9. Qed.

(** ** selections *)
Section Sel.
Variables (flt : option (list bool)) (x : list V).
Notation sel := (select inv rk ck (a_flt a0) flt x).
Lemma place_le r : fst (place rk ck (a_flt a0) flt r) <= R /\ snd (place rk ck (a_flt a0) flt r) <= C.
Proof. unfold place. destruct (_ && _); cbn [fst snd]; [|lia]. split; [exact (codes_nth R rk r RC)|exact (codes_nth C ck r CC)]. Qed.
Lemma js_nodup (sf : bool) m : NoDup (js sf m).
Proof. unfold js. destruct sf; apply seq_NoDup. Qed.
Lemma in_js (sf : bool) m k : k <= m -> existsb (Nat.eqb k) (js sf m) = sf || negb (k =? 0).
Proof.
  intros L. apply eq_true_iff_eq. rewrite existsb_exists, orb_true_iff, negb_true_iff, Nat.eqb_neq. unfold js. split.
  - intros [y [I E]]. apply Nat.eqb_eq in E. subst y. destruct sf; [now left|]. apply in_seq in I. right. lia.
  - intros H. exists k. split; [|apply Nat.eqb_refl]. destruct sf; apply in_seq; [lia|]. destruct H as [H|H]; [discriminate|lia].
Qed.
Lemma row_parts (sf : bool) i : (sf = true \/ 0 < i) -> Permutation (concat (map (fun j => sel (cell i j)) (js sf C))) (sel (in_row sf i)).
Proof.
  intros Hi. apply (select_split inv rk ck (a_flt a0) flt x (fun j => cell i j) snd (fun p => fst p =? i) (in_row sf i) (js sf C) (js_nodup sf C)); [reflexivity|].
  intros r Hr. destruct (place_le r) as [P1 P2]. destruct (place rk ck (a_flt a0) flt r) as [a b]. cbn [fst snd] in *. rewrite (in_js sf C b P2). unfold in_row, shown. cbn [fst snd].
  destruct sf; cbn [orb]; [now rewrite andb_true_r, ?andb_true_l|]. destruct (Nat.eqb_spec a i) as [->|]; [|now rewrite andb_false_r].
  destruct (Nat.eqb_spec i 0); [lia|]. cbn [negb andb]. now rewrite andb_true_r.
Qed.
Lemma col_parts (sf : bool) j : (sf = true \/ 0 < j) -> Permutation (concat (map (fun i => sel (cell i j)) (js sf R))) (sel (in_col sf j)).
Proof.
  intros Hi. apply (select_split inv rk ck (a_flt a0) flt x (fun i => cell i j) fst (fun p => snd p =? j) (in_col sf j) (js sf R) (js_nodup sf R)); [intros i p; apply andb_comm|].
  intros r Hr. destruct (place_le r) as [P1 P2]. destruct (place rk ck (a_flt a0) flt r) as [a b]. cbn [fst snd] in *. rewrite (in_js sf R a P1). unfold in_col, shown. cbn [fst snd].
  destruct sf; cbn [orb]; [now rewrite andb_true_r, ?andb_true_l|]. destruct (Nat.eqb_spec b j) as [->|]; [|now rewrite !andb_false_r].
  destruct (Nat.eqb_spec j 0); [lia|]. cbn [negb andb]. now rewrite !andb_true_r.
Qed.
Lemma all_parts (sf : bool) : Permutation (concat (map (fun i => sel (in_row sf i)) (js sf R))) (sel (shown sf)).
Proof.
  apply (select_split inv rk ck (a_flt a0) flt x (fun i => in_row sf i) fst (shown sf) (shown sf) (js sf R) (js_nodup sf R)); [reflexivity|].
  intros r Hr. destruct (place_le r) as [P1 P2]. destruct (place rk ck (a_flt a0) flt r) as [a b]. cbn [fst snd] in *. rewrite (in_js sf R a P1). unfold shown. cbn [fst snd].
  destruct sf; cbn [orb negb andb]; [reflexivity|]. destruct (a =? 0); cbn [negb andb]; [reflexivity|]. now rewrite andb_true_r.
Qed.
End Sel.

(** ** the table of any calculation *)
Lemma margins_ext sf nm rt ct total rt' ct' total' r :
  (forall i, i <= R -> (sf = true \/ 0 < i) -> rt i = rt' i) -> (forall j, j <= C -> (sf = true \/ 0 < j) -> ct j = ct' j) -> total = total' ->
  margins inv label inv_label tc pr pc sf nm rt ct total r -> margins inv label inv_label tc pr pc sf nm rt' ct' total' r.
Proof.
  intros HR HC -> (M1 & M2 & M3 & M4). split; [|split; [|split; [|exact M4]]].
  - rewrite M1. f_equal. f_equal.
    + destruct sf; [|reflexivity]. cbn [lead]. f_equal. apply HR; [lia|now left].
    + apply map_ext_in. intros k Hk. apply (order_lt inv vlt lexsort LS sr tr R k KR) in Hk. apply HR; [lia|right; lia].
  - intros j k H. rewrite (M2 j k H). f_equal. assert (k < C) by (apply (order_lt inv vlt lexsort LS sc tc C k KC); eapply nth_error_In; eauto). apply HC; [lia|right; lia].
  - intros E. rewrite (M3 E). f_equal. apply HC; [lia|now left].
Qed.
Section Calc.
Variables (f : list V -> V) (flt : option (list bool)) (x : list V) (sf : bool).
Variable F2 : filter_ok n flt.
Variable X : length x = n.
Notation sel := (select inv rk ck (a_flt a0) flt x).
Notation value := (fun i j => f (sel (cell i j))).
Definition gbin (b : nat) : V := if b <? (if sf then 0 else 1) then inv else f (in_bin (passing (and_filter (a_flt a0) flt) (ikey2 a0)) x b).
Lemma gbin_ok i j : i <= R -> j <= C -> (sf = true \/ 0 < j) -> gbin (j * S R + i) = value i j.
Proof.
  intros Hi Hj H. unfold gbin. destruct (Nat.ltb_spec (j * S R + i) (if sf then 0 else 1)) as [L|_].
  - destruct sf; [lia|]. destruct H as [H|H]; [discriminate|nia].
  - pose proof RC as RC'. rewrite <- RN in RC'. pose proof (bin_cell inv a0 flt x LN F1 F2 X RC' (and_filter (a_flt a0) flt) i j (or_intror eq_refl)) as B. rewrite RN in B. now rewrite (B Hi).
Qed.
Lemma bins2_g a : ainv a -> bins2 inv f (and_filter (a_flt a) flt) (if sf then 0 else 1) x a = map gbin (seq 0 (S (nbins a0))).
Proof. intros I. destruct (same_ikey2 a I) as (E1 & E2 & E3 & _). unfold bins2, gbin. now rewrite E1, E2, E3. Qed.

Notation extra := (total_names a0).
Lemma no_extra l : names_ok inv label inv_label ylab tr tc pc sf l -> names_ok inv label inv_label ylab tr tc pc sf [].
Proof. unfold names_ok. rewrite !app_assoc, app_nil_r. apply nodup_prefix. Qed.
Lemma base_nd : names_ok inv label inv_label ylab tr tc pc sf [] -> NoDup (map fst (base_ds gbin sf ++ [])).
Proof. unfold names_ok. rewrite !app_nil_r, (base_names inv vlt lexsort LS binname label inv_label tr tc R C sdr prer sdc prec KR KC a0). tauto. Qed.

Lemma calc_ok2 h a : ainv a -> names_ok inv label inv_label ylab tr tc pc sf (extra h) ->
  exists d foot, snd (calculate2 inv lexsort binname label inv_label zero f h x flt sf a) = Some (d, foot) /\
    two_way inv label inv_label binname ylab tr tc pr pc sf value d /\
    (sf = true -> pr = seq 0 R -> filtered_column pr value d) /\
    (forall nm func, a_tot a0 = true -> h = OnePass nm func -> by_parts f func ->
       margins inv label inv_label tc pr pc sf nm (fun i => f (sel (in_row sf i))) (fun j => f (sel (in_col sf j))) (f (sel (shown sf))) (d, foot)) /\
    (forall nm func, a_tot a0 = true -> h = MultiPass nm func -> x_base (a_row a0) <> Some 0 -> x_base (a_col a0) <> Some 0 -> pr = seq 0 R -> pc = seq 0 C ->
       margins inv label inv_label tc pr pc sf nm (fun i => f (sel (fun p => fst p =? i))) (fun j => f (sel (fun p => snd p =? j)))
         (match func with Some h => h (picked (and_filter (a_flt a0) flt) x) | None => zero end) (d, foot)).
Proof.
  intros I NO. unfold calculate2, stack_dataset. rewrite (bins2_g a I). destruct (same_ikey2 a I) as (_ & _ & EF & ET). rewrite ET, EF.
  destruct (make_ok inv vlt lexsort LS binname label inv_label tr tc R C sdr prer sdc prec KR KC a0 gbin sf a I RN CN (no_extra _ NO)) as [I1 MO].
  destruct (make_dataset inv lexsort binname label inv_label (map gbin (seq 0 (S (nbins a0)))) sf a) as [a1 [ds gb]]. cbn [fst snd] in I1, MO.
  assert (DS : ds = Some (base_ds gbin sf)) by exact (f_equal fst MO). clear MO. subst ds.
  assert (VL : forall i j, i <= R -> j <= C -> sf = true \/ 0 < j -> gbin (j * S R + i) = value i j) by exact gbin_ok.
  assert (GEN : forall d rest, d = base_ds gbin sf ++ rest -> NoDup (map fst d) ->
     two_way inv label inv_label binname ylab tr tc pr pc sf value d /\ (sf = true -> pr = seq 0 R -> filtered_column pr value d)).
  { intros d rest -> ND. split.
    - apply (two_way_ok inv vlt lexsort LS binname label inv_label tr tc R C sdr prer sdc prec KR KC a0 gbin sf rest value VL ND).
    - intros E PR. rewrite E in ND |- *. apply (filtered_col_ok inv lexsort binname label inv_label tr tc R C sdr prer sdc prec a0 gbin rest value); [|exact PR|exact ND].
      intros i Hi. change (gbin (0 * S R + i) = value i 0). apply VL; [exact Hi|lia|now left]. }
  destruct (a_tot a0) eqn:T.
  - destruct h as [nm func|nm func|]; unfold total_names in NO; rewrite T in NO.
    + destruct (onepass_ok inv vlt lexsort LS binname label inv_label tr tc R C sdr prer sdc prec KR KC a0 func nm gbin sf a1 I1 RN CN NO) as (d & foot & rest & E & Ed & ND & M).
      exists d, foot. split; [exact E|]. destruct (GEN d rest Ed ND) as [G1 G2]. split; [exact G1|]. split; [exact G2|]. split; [|intros; discriminate].
      intros nm' func' _ EH [PI BP]. assert (nm' = nm) by congruence. assert (func' = func) by congruence. subst nm' func'. clear EH.
      assert (RT : forall i, i <= R -> (sf = true \/ 0 < i) -> func (map (fun j => gbin (j * S R + i)) (js sf C)) = f (sel (in_row sf i))).
      { intros i Hi H. assert (E1 : map (fun j => gbin (j * S R + i)) (js sf C) = map f (map (fun j => sel (cell i j)) (js sf C))).
        { rewrite map_map. apply map_ext_in. intros j Hj. apply VL; [exact Hi| |]; unfold js in Hj; destruct sf; apply in_seq in Hj; lia. }
        rewrite E1, BP. apply PI. now apply row_parts. }
      revert M. apply margins_ext; [exact RT| |].
      * intros j Hj H. assert (E1 : map (fun i => gbin (j * S R + i)) (js sf R) = map f (map (fun i => sel (cell i j)) (js sf R))).
        { rewrite map_map. apply map_ext_in. intros i Hi. apply VL; [|exact Hj|exact H]. unfold js in Hi; destruct sf; apply in_seq in Hi; lia. }
        rewrite E1, BP. apply PI. now apply col_parts.
      * assert (E1 : map (fun i => func (map (fun j => gbin (j * S R + i)) (js sf C))) (js sf R) = map f (map (fun i => sel (in_row sf i)) (js sf R))).
        { rewrite map_map. apply map_ext_in. intros i Hi. apply RT; unfold js in Hi; destruct sf; apply in_seq in Hi; lia. }
        rewrite E1, BP. apply PI. apply all_parts.
    + assert (FA : filter_ok n (and_filter (a_flt a0) flt)) by (apply and_filter_ok; assumption).
      assert (PASS : forall (k : list nat) m (w : nat * nat -> nat), length k = n -> (forall r, bin_of k (and_filter (a_flt a0) flt) r = w (place rk ck (a_flt a0) flt r) \/ n <= r) ->
                calc_col inv f (passing (and_filter (a_flt a0) flt) k) m (if sf then 0 else 1) x = raw sf (fun i => f (sel (fun p => w p =? i))) m).
      { intros k m w Lk W. rewrite (calc_col_raw inv f k (and_filter (a_flt a0) flt) m sf x) by (rewrite Lk; assumption).
        assert (E : forall b, bin_values inv k (and_filter (a_flt a0) flt) x b = sel (fun p => w p =? b)).
        { intros b. unfold bin_values, select. rewrite Lk. f_equal. apply filter_ext_in. intros r Hr. apply in_seq in Hr. destruct (W r) as [->|]; [reflexivity|lia]. }
        unfold raw. rewrite E. f_equal. apply map_ext. intros b. now rewrite E. }
      assert (BO : forall (k : list nat) r, bin_of k (and_filter (a_flt a0) flt) r = (if passes (a_flt a0) r && passes flt r then nth r k 0 else 0) \/ n <= r).
      { intros k r. destruct (Nat.le_gt_cases n r) as [|Hr]; [now right|left]. rewrite <- (passes_and _ _ n r F1 F2 Hr). unfold bin_of, passes. destruct (and_filter (a_flt a0) flt) as [g|]; reflexivity. }
      set (w1 := fun i => f (sel (fun p => fst p =? i))). set (w2 := fun j => f (sel (fun p => snd p =? j))).
      destruct (match x_base (a_row a0) with Some 0 => true | _ => false end || match x_base (a_col a0) with Some 0 => true | _ => false end) eqn:B0.
      { (* shifted codes: only that there is a result *)
        assert (RAW : forall (k : list nat) m, length k = n -> exists w, calc_col inv f (passing (and_filter (a_flt a0) flt) k) m (if sf then 0 else 1) x = raw sf w m).
        { intros k m Lk. rewrite (calc_col_raw inv f k (and_filter (a_flt a0) flt) m sf x) by (rewrite Lk; assumption). now eexists. }
        assert (AX : forall y : axis, length (x_code y) = n -> exists w, accum1_pass (calc_col inv f) true y x sf (and_filter (a_flt a0) flt) = raw sf w (x_n y)).
        { intros y Ly. unfold accum1_pass. destruct (x_base y) as [[|?]|]; apply RAW; rewrite ?map_length; exact Ly. }
        destruct (AX (a_row a0) eq_refl) as [v1 E1]. destruct (AX (a_col a0) LN) as [v2 E2]. rewrite RN in E1. rewrite CN in E2.
        destruct (multipass_ok inv vlt lexsort LS binname label inv_label zero tr tc R C sdr prer sdc prec KR KC a0 (calc_col inv f) true func nm x (and_filter (a_flt a0) flt) gbin sf a1 v1 v2 I1 NO E1 E2) as (d & foot & rest & E & Ed & ND & _).
        exists d, foot. split; [exact E|]. destruct (GEN d rest Ed ND) as [G1 G2]. split; [exact G1|]. split; [exact G2|]. split; [intros; discriminate|].
        intros nm' func' _ _ B1 B2. exfalso. destruct (x_base (a_row a0)) as [[|?]|]; try congruence; destruct (x_base (a_col a0)) as [[|?]|]; try congruence; discriminate. }
      apply orb_false_iff in B0. destruct B0 as [B1 B2].
      assert (E1 : accum1_pass (calc_col inv f) true (a_row a0) x sf (and_filter (a_flt a0) flt) = raw sf w1 R).
      { unfold accum1_pass. rewrite RN. etransitivity; [|apply (PASS rk R fst eq_refl)]; [destruct (x_base (a_row a0)) as [[|?]|]; [discriminate|reflexivity|reflexivity]|].
        intros r. destruct (BO rk r) as [E|E]; [left|now right]. rewrite E. unfold place. destruct (passes (a_flt a0) r && passes flt r); reflexivity. }
      assert (E2 : accum1_pass (calc_col inv f) true (a_col a0) x sf (and_filter (a_flt a0) flt) = raw sf w2 C).
      { unfold accum1_pass. rewrite CN. etransitivity; [|apply (PASS ck C snd LN)]; [destruct (x_base (a_col a0)) as [[|?]|]; [discriminate|reflexivity|reflexivity]|].
        intros r. destruct (BO ck r) as [E|E]; [left|now right]. rewrite E. unfold place. destruct (passes (a_flt a0) r && passes flt r); reflexivity. }
      destruct (multipass_ok inv vlt lexsort LS binname label inv_label zero tr tc R C sdr prer sdc prec KR KC a0 (calc_col inv f) true func nm x (and_filter (a_flt a0) flt) gbin sf a1 w1 w2 I1 NO E1 E2) as (d & foot & rest & E & Ed & ND & M).
      exists d, foot. split; [exact E|]. destruct (GEN d rest Ed ND) as [G1 G2]. split; [exact G1|]. split; [exact G2|]. split; [intros; discriminate|].
      intros nm' func' _ EH _ _ PR PC. assert (nm' = nm) by congruence. assert (func' = func) by congruence. subst nm' func'. exact (M PR PC).
    + exists (base_ds gbin sf ++ []), []. rewrite app_nil_r. split; [reflexivity|]. rewrite <- (app_nil_r (base_ds gbin sf)). destruct (GEN _ [] eq_refl (base_nd NO)) as [G1 G2]. split; [exact G1|]. split; [exact G2|]. split; intros; discriminate.
  - unfold total_names in NO. rewrite T in NO. exists (base_ds gbin sf ++ []), []. rewrite app_nil_r. split; [reflexivity|]. rewrite <- (app_nil_r (base_ds gbin sf)). destruct (GEN _ [] eq_refl (base_nd NO)) as [G1 G2]. split; [exact G1|]. split; [exact G2|]. split; intros; discriminate.
Qed.
End Calc.
End A.
