(** Proofs for C51 (grouped as-of merge under every schedule), C52 and C53. *)
From Coq Require Import List Arith ZArith Bool Lia.
From Verif Require Import Sched SchedFacts GroupModel GroupFacts AsofModel AsofSpec AsofProofs.
Import ListNotations.
Open Scope Z_scope.

Lemma group_rows_incr ikey g : increasing (group_rows ikey g).
Proof. intros i j a b. apply group_rows_increasing. Qed.

Section Grouped.
Context {B : Type} (eqb : B -> B -> bool).
Hypothesis eqb_eq : forall x y, eqb x y = true <-> x = y.
Variables (lby rby : list (option B)) (lus rus : list B) (likey rikey : list nat).
Hypotheses (GL : grouping_of lby lus likey) (GR : grouping_of rby rus rikey).
Variables (left right : list Z).
Hypotheses (LL : length left = length lby) (LR : length right = length rby).
Notation nl := (length lus).
Notation nr := (length rus).
Notation to_right := (lookup eqb lus rus).
Notation left_group := (left_group likey nl).
Notation right_group := (right_group rikey nr).

Lemma left_group_eq k : (k < nl)%nat -> left_group k = group_rows likey (S k).
Proof. intros H. apply pack_slice. lia. Qed.
Lemma right_group_eq k : (k < nr)%nat -> right_group k = group_rows rikey (S k).
Proof. intros H. apply pack_slice. lia. Qed.
Lemma to_right_nth k : (k < nl)%nat -> exists b, nth_error lus k = Some b /\ nth k to_right None = index_of eqb b rus.
Proof.
  intros H. destruct (nth_error lus k) as [b|] eqn:E; [|apply nth_error_None in E; lia]. exists b. split; [reflexivity|].
  unfold lookup. apply nth_error_nth. exact (map_nth_error (fun b0 => index_of eqb b0 rus) k lus E).
Qed.
Lemma left_rows k b : nth_error lus k = Some b -> forall i, In i (group_rows likey (S k)) <-> nth_error lby i = Some (Some b).
Proof. intros E i. rewrite group_rows_in. now apply (grouping_key GL). Qed.
Lemma right_rows k b : nth_error rus k = Some b -> forall i, In i (group_rows rikey (S k)) <-> nth_error rby i = Some (Some b).
Proof. intros E i. rewrite group_rows_in. now apply (grouping_key GR). Qed.

Definition same_key (keys : list (option B)) (b : B) (j : nat) : Prop := nth_error keys j = Some (Some b).

(** one kernel: on every pair of groups it answers as [ans] *)
Section OneKernel.
Variable kernel : list nat -> list nat -> outc.
Variable ans : list nat -> Z -> option nat.
Hypothesis ans_empty : forall x, ans [] x = None.
Hypothesis Ker : forall k b k', nth_error lus k = Some b -> nth_error rus k' = Some b ->
  answers (key_of left) (kernel (group_rows rikey (S k')) (group_rows likey (S k))) (group_rows likey (S k)) (ans (group_rows rikey (S k'))).
Notation its := (group_its likey rikey nl nr to_right kernel).

(** the right rows with the same key *)
Definition partner (b : B) : list nat :=
  match index_of eqb b rus with Some k' => group_rows rikey (S k') | None => [] end.
Lemma iter_answers k b : (k < nl)%nat -> nth_error lus k = Some b ->
  answers (key_of left) (group_iter likey rikey nl nr to_right kernel k) (group_rows likey (S k)) (ans (partner b)).
Proof.
  intros Lk Eb. unfold group_iter. destruct (to_right_nth k Lk) as (b' & Eb' & ->). rewrite Eb in Eb'. injection Eb' as <-.
  unfold partner. destruct (index_of eqb b rus) as [k'|] eqn:Ek.
  - apply (index_of_some eqb eqb_eq) in Ek. rewrite left_group_eq by exact Lk.
    rewrite right_group_eq by (apply nth_error_Some; congruence). now apply (Ker k b).
  - rewrite left_group_eq by exact Lk. split; [reflexivity|]. cbn [o_stores]. unfold fill_rest. split.
    + intros s Hs. apply in_map_iff in Hs. destruct Hs as (r & <- & Hr). exact Hr.
    + intros r Hr. rewrite ans_empty.
      assert (G : forall (l : list nat) (m : mem (option nat)), m r = None -> run_stores (map (fun r0 => (r0, None)) l) m r = None).
      { induction l as [|a l IH]; cbn; intros m Hm; [exact Hm|]. apply IH. unfold do_store. cbn. now destruct (Nat.eqb r a). }
      apply G. reflexivity.
Qed.
Lemma its_not_flagged : existsb flagged its = false.
Proof.
  destruct (existsb flagged its) eqn:E; [|reflexivity]. apply existsb_exists in E. destruct E as (o & Ho & F).
  unfold group_its in Ho. apply in_map_iff in Ho. destruct Ho as (k & <- & Hk). apply in_seq in Hk.
  unfold lookup in Hk. rewrite map_length in Hk.
  destruct (nth_error lus k) as [b|] eqn:Eb; [|apply nth_error_None in Eb; lia].
  destruct (iter_answers k b ltac:(lia) Eb) as (A & _). congruence.
Qed.
Lemma its_row ws i : interleave (map o_stores its) ws ->
  forall o, nth_error lby i = Some o ->
  run_stores ws all_invalid i = match o with Some b => ans (partner b) (key_of left i) | None => None end.
Proof.
  intros I o Eo.
  assert (Own : forall k l, nth_error (map o_stores its) k = Some l -> forall w, In w l -> fst w = i ->
            exists b, nth_error lus k = Some b /\ nth_error lby i = Some (Some b)).
  { intros k l El w Hw E. rewrite nth_error_map in El. destruct (nth_error its k) as [oc|] eqn:Ek; [|discriminate].
    cbn in El. injection El as <-. apply nth_error_map_seq in Ek. destruct Ek as [Lk ->].
    unfold lookup in Lk. rewrite map_length in Lk.
    destruct (nth_error lus k) as [b|] eqn:Eb; [|apply nth_error_None in Eb; lia]. exists b. split; [reflexivity|].
    destruct (iter_answers k b Lk Eb) as (_ & A & _). apply (left_rows k b Eb). rewrite <- E. now apply A. }
  destruct o as [b|].
  - destruct (g_key _ _ _ GL i b Eo) as (k & Ei & Eb).
    assert (Lk : (k < nl)%nat) by (apply nth_error_Some; congruence).
    rewrite (interleave_pos _ ws all_invalid i k I).
    + assert (En : nth k (map o_stores its) [] = o_stores (group_iter likey rikey nl nr to_right kernel k)).
      { apply nth_error_nth. rewrite nth_error_map. unfold group_its. rewrite nth_error_map.
        assert (Es : nth_error (seq 0 (length to_right)) k = Some k).
        { rewrite (nth_error_nth' _ O) by (unfold lookup; rewrite seq_length, map_length; exact Lk).
          f_equal. rewrite seq_nth by (unfold lookup; rewrite map_length; exact Lk). lia. }
        now rewrite Es. }
      rewrite En. destruct (iter_answers k b Lk Eb) as (_ & _ & A). apply A. now apply (left_rows k b Eb).
    + intros k2 l Ne El w Hw E. destruct (Own k2 l El w Hw E) as (b2 & Eb2 & Ei2). rewrite Eo in Ei2. injection Ei2 as <-.
      apply Ne. apply (NoDup_nth_error lus); [apply (g_distinct _ _ _ GL)|apply nth_error_Some; congruence|congruence].
  - rewrite (interleave_pos _ ws all_invalid i (length its) I).
    + rewrite nth_overflow; [reflexivity|]. rewrite map_length. lia.
    + intros k2 l Ne El w Hw E. destruct (Own k2 l El w Hw E) as (b2 & Eb2 & Ei2). congruence.
Qed.
End OneKernel.

Variables (tol : option Z) (exact : bool).
Hypotheses (R64 : int64s right) (L64 : int64s left).
Hypothesis SR : forall b, sorted_on (same_key rby b) right.
Hypothesis SL : forall b, sorted_on (same_key lby b) left.

Lemma grows_len keys us ikey k : grouping_of keys us ikey -> forall j, In j (group_rows ikey k) -> (j < @length (option B) keys)%nat.
Proof. intros G j Hj. apply group_rows_in in Hj. rewrite <- (g_length _ _ _ G). apply nth_error_Some. congruence. Qed.
Lemma sortL k b : nth_error lus k = Some b -> sortedN (key_of left) (group_rows likey (S k)).
Proof.
  intros Eb q q' Hq. revert q q' Hq. refine (sorted_rows (same_key lby b) _ _ (group_rows_incr _ _) _ (SL b)).
  intros j Hj. split; [now apply (left_rows k b Eb)|]. rewrite LL. eapply grows_len; eauto.
Qed.
Lemma sortR k b : nth_error rus k = Some b -> sortedH (key_of right) (group_rows rikey (S k)).
Proof.
  intros Eb q q' Hq. revert q q' Hq. refine (sorted_rows (same_key rby b) _ _ (group_rows_incr _ _) _ (SR b)).
  intros j Hj. split; [now apply (right_rows k b Eb)|]. rewrite LR. eapply grows_len; eauto.
Qed.
Notation kback := (asof_back Z.leb Z.ltb diff64 min_valid64 (key_of right) (key_of left) tol exact).
Notation kfwd := (asof_fwd Z.leb Z.ltb diff64 max_valid64 (key_of right) (key_of left) tol exact).
Notation aback := (ans_back diff64 (key_of right) tol exact).
Notation afwd := (ans_fwd diff64 (key_of right) tol exact).
Lemma ker_back k b k' : nth_error lus k = Some b -> nth_error rus k' = Some b ->
  answers (key_of left) (kback (group_rows rikey (S k')) (group_rows likey (S k))) (group_rows likey (S k)) (aback (group_rows rikey (S k'))).
Proof.
  intros E E'. apply back_answers.
  - apply increasing_nodup, group_rows_incr.
  - eapply sortR; eauto.
  - eapply sortL; eauto.
  - intros r Hr. apply int64_bounds; [exact L64|]. rewrite LL. eapply grows_len; eauto.
  - intros r Hr. apply int64_bounds; [exact R64|]. rewrite LR. eapply grows_len; eauto.
Qed.
Lemma ker_fwd k b k' : nth_error lus k = Some b -> nth_error rus k' = Some b ->
  answers (key_of left) (kfwd (group_rows rikey (S k')) (group_rows likey (S k))) (group_rows likey (S k)) (afwd (group_rows rikey (S k'))).
Proof.
  intros E E'. refine (fwd_answers _ 0 _ _ _ _ _ _ _ _ _ _ _ _).
  - apply increasing_nodup, group_rows_incr.
  - eapply sortR; eauto.
  - eapply sortL; eauto.
  - intros r Hr. apply int64_bounds; [exact L64|]. rewrite LL. eapply grows_len; eauto.
  - intros r Hr. apply int64_bounds; [exact R64|]. rewrite LR. eapply grows_len; eauto.
Qed.
Lemma partner_incr b : increasing (partner b).
Proof.
  unfold partner. destruct (index_of eqb b rus); [apply group_rows_incr|]. intros i j a c H. now destruct i.
Qed.
Lemma partner_cand b j y : nth_error right j = Some y -> (same_key rby b j <-> In j (partner b)).
Proof.
  intros _. unfold partner. destruct (index_of eqb b rus) as [k'|] eqn:E.
  - apply (index_of_some eqb eqb_eq) in E. now rewrite (right_rows k' b E).
  - cbn. split; [|tauto]. intros Hj. destruct (g_key _ _ _ GR j b Hj) as (k & _ & Hk).
    apply (index_of_none eqb eqb_eq) in E. apply E. eapply nth_error_In; eauto.
Qed.
Lemma partner_rows b j : In j (partner b) -> (j < length right)%nat.
Proof.
  unfold partner. destruct (index_of eqb b rus) as [k'|]; [|contradiction]. intros H. rewrite LR. eapply grows_len; eauto.
Qed.

(** the result required for one left row *)
Definition row_answer (P : (nat -> Prop) -> Z -> option nat -> Prop) (key : option B) (x : Z) (r : option nat) : Prop :=
  match key with Some b => P (same_key rby b) x r | None => r = None end.

Lemma grouped_back_row ws i o x : (tol = None \/ no_wrap left right) ->
  interleave (map o_stores (group_its likey rikey nl nr to_right kback)) ws ->
  nth_error lby i = Some o -> nth_error left i = Some x ->
  row_answer (fun cand => backward_match cand right tol exact) o x (run_stores ws all_invalid i).
Proof.
  intros NW I Eo Ex. rewrite (its_row kback aback (fun _ => eq_refl) ker_back ws i I o Eo).
  destruct o as [b|]; [|reflexivity]. cbn. rewrite (key_nth _ _ _ Ex).
  apply ans_back_match; [apply partner_incr|apply partner_cand|apply partner_rows|].
  destruct NW as [N|N]; [now left|right]. intros y Hy. apply N; [now apply nth_error_In in Ex|exact Hy].
Qed.
Lemma grouped_fwd_row ws i o x : (tol = None \/ no_wrap right left) ->
  interleave (map o_stores (group_its likey rikey nl nr to_right kfwd)) ws ->
  nth_error lby i = Some o -> nth_error left i = Some x ->
  row_answer (fun cand => forward_match cand right tol exact) o x (run_stores ws all_invalid i).
Proof.
  intros NW I Eo Ex. rewrite (its_row kfwd afwd (fun _ => eq_refl) ker_fwd ws i I o Eo).
  destruct o as [b|]; [|reflexivity]. cbn. rewrite (key_nth _ _ _ Ex).
  apply ans_fwd_match; [apply partner_incr|apply partner_cand|apply partner_rows|].
  destruct NW as [N|N]; [now left|right]. intros y Hy. apply N; [exact Hy|now apply nth_error_In in Ex].
Qed.

Definition spec_of (d : direction) (cand : nat -> Prop) : Z -> option nat -> Prop :=
  match d with
  | Backward => backward_match cand right tol exact
  | Forward => forward_match cand right tol exact
  | Nearest => nearest_match cand right tol exact
  end.

Lemma grouped_correct d res : no_wrap left right -> no_wrap right left ->
  grouped_result Z.leb Z.ltb diff64 min_valid64 max_valid64 (key_of right) (key_of left) tol exact
    likey rikey nl nr to_right (length left) d res ->
  exists out, res = Some out /\ length out = length left /\
    forall i o x r, nth_error lby i = Some o -> nth_error left i = Some x -> nth_error out i = Some r ->
      row_answer (spec_of d) o x r.
Proof.
  intros NW NW' R. inversion R as [ws I E1 E2|ws I E1 E2|wb wf Ib If E1 E2]; clear R.
  - rewrite (its_not_flagged kback aback (fun _ => eq_refl) ker_back). eexists. split; [reflexivity|].
    split; [now rewrite map_length, seq_length|]. intros i o x r Eo Ex Er. apply out_nth in Er. destruct Er as [_ ->].
    eapply grouped_back_row; eauto.
  - rewrite (its_not_flagged kfwd afwd (fun _ => eq_refl) ker_fwd). eexists. split; [reflexivity|].
    split; [now rewrite map_length, seq_length|]. intros i o x r Eo Ex Er. apply out_nth in Er. destruct Er as [_ ->].
    eapply grouped_fwd_row; eauto.
  - rewrite (its_not_flagged kback aback (fun _ => eq_refl) ker_back), (its_not_flagged kfwd afwd (fun _ => eq_refl) ker_fwd).
    eexists. split; [reflexivity|].
    split; [now rewrite map_length, seq_length|]. intros i o x r Eo Ex Er. apply out_nth in Er. destruct Er as [_ ->].
    assert (Hb := grouped_back_row wb i o x (or_intror NW) Ib Eo Ex).
    assert (Hf := grouped_fwd_row wf i o x (or_intror NW') If Eo Ex).
    destruct o as [b|]; cbn in *.
    + apply combine_match; [exact Ex| |exact Hb|exact Hf].
      intros y Hy. assert (Hx : In x left) by now apply nth_error_In in Ex.
      specialize (NW x y Hx Hy). specialize (NW' y x Hy Hx). lia.
    + unfold combine_nearest. now rewrite Hb, Hf.
Qed.
End Grouped.

(** a result exists for every input *)
Lemma grouped_exists {K} lek ltk diff (minv maxv : K) hkey nkey tol exact likey rikey nl nr to_right n d :
  exists res, grouped_result lek ltk diff minv maxv hkey nkey tol exact likey rikey nl nr to_right n d res.
Proof.
  destruct d; eexists; constructor; apply interleave_serial.
Qed.

(** *** refutations of C48-C50 for far-apart keys and of C52 *)
Lemma wrap_refuted : exists right left tol,
  int64s right /\ int64s left /\ sorted_on anyrow right /\ sorted_on anyrow left /\
  asof64 right left (Some tol) true Backward = Some [Some O] /\
  ~ backward_match anyrow right (Some tol) true (2 ^ 62) (Some O) /\ nth_error left 0 = Some (2 ^ 62).
Proof.
  exists [- 2 ^ 62 - 1], [2 ^ 62], 10. repeat split.
  - repeat constructor; lia.
  - repeat constructor; lia.
  - intros i j x y _ _ L Ex Ey. destruct j as [|j]; [lia|]. destruct j; discriminate.
  - intros i j x y _ _ L Ex Ey. destruct j as [|j]; [lia|]. destruct j; discriminate.
  - intros (y & (_ & H & _) & T). cbn [nth_error] in H. injection H as <-. cbn [tolerated] in T. lia.
Qed.
Lemma right_unsorted_refuted : exists right left out,
  unsorted right /\ asof64 right left None true Backward = Some out /\ int64s right /\ int64s left.
Proof.
  exists [0; 5; 3], [4]. eexists. split; [|split; [vm_compute; reflexivity|]].
  - intros S. specialize (S 1%nat 2%nat 5 3 I I ltac:(lia) eq_refl eq_refl). lia.
  - split; repeat constructor; lia.
Qed.
(** the match returned in that case is not the nearest earlier value *)
Lemma right_unsorted_wrong : exists right left j k y z,
  asof64 right left None true Backward = Some [Some j] /\ left = [4] /\
  nth_error right j = Some y /\ nth_error right k = Some z /\ y < z <= 4.
Proof. exists [0; 5; 3], [4], 0%nat, 2%nat, 0, 3. repeat split; try reflexivity; lia. Qed.
Lemma left_unsorted_empty_refuted : exists left out, unsorted left /\ asof64 [] left None true Backward = Some out.
Proof.
  exists [2; 1]. eexists. split; [|vm_compute; reflexivity].
  intros S. specialize (S 0%nat 1%nat 2 1 I I ltac:(lia) eq_refl eq_refl). lia.
Qed.

(** float64 keys, reduced to order: finite values (any integer stands for its position), the two
    infinities and NaN (unordered) *)
Inductive fl := NInf | Fin (z : Z) | PInf | NaN.
Definition fle (x y : fl) : bool :=
  match x, y with
  | NaN, _ => false | _, NaN => false
  | NInf, _ => true | _, PInf => true
  | Fin a, Fin b => a <=? b
  | _, _ => false
  end.
Definition flt (x y : fl) : bool := fle x y && negb (fle y x).
Definition sorted_fl (l : list fl) : Prop := forall i j x y, (i < j)%nat -> nth_error l i = Some x -> nth_error l j = Some y -> fle x y = true.
Definition asof_fl (fmin fmax : Z) (sub : fl -> fl -> fl) (right left : list fl) (exact : bool) (d : direction) : option (list (option nat)) :=
  asof_flat fle flt sub (Fin fmin) (Fin fmax) (fun r => nth r right NaN) (fun r => nth r left NaN) None exact d (length left) (length right).
Lemma infinity_refuted : exists right left, sorted_fl right /\ sorted_fl left /\
  forall fmin fmax sub exact, asof_fl fmin fmax sub right left exact Backward = None.
Proof.
  exists [Fin 0; Fin 1], [NInf; Fin 0]. split; [|split].
  - intros i j x y L Ex Ey. destruct i as [|[|i]], j as [|[|j]]; cbn in *; try lia; try discriminate; try (destruct i; discriminate); try (destruct j; discriminate).
    injection Ex as <-. injection Ey as <-. reflexivity.
  - intros i j x y L Ex Ey. destruct i as [|[|i]], j as [|[|j]]; cbn in *; try lia; try discriminate; try (destruct i; discriminate); try (destruct j; discriminate).
    injection Ex as <-. injection Ey as <-. reflexivity.
  - reflexivity.
Qed.
(** *** C53 *)
Lemma fancyindex_width n r : 0 <= r < n -> n < 2 ^ 63 ->
  let b := fancyindex_bits n in
  - 2 ^ (b - 1) <= r <= 2 ^ (b - 1) - 1 /\ r <> - 2 ^ (b - 1).
Proof.
  intros Hr Hn b. subst b. unfold fancyindex_bits, min_signed_bits.
  destruct (Z.leb_spec (- 2 ^ 7) (- (n + 1))); [lia|].
  destruct (Z.leb_spec (- 2 ^ 15) (- (n + 1))); [lia|].
  destruct (Z.leb_spec (- 2 ^ 31) (- (n + 1))); lia.
Qed.

(** *** schedule independence for arbitrary (also unsorted) inputs and any key type *)
Section Det.
Context {K : Type} (lek ltk : K -> K -> bool) (diff : K -> K -> K) (minv maxv : K) (hkey nkey : nat -> K) (tol : option K) (exact : bool).
Lemma in_skipn {X} n (l : list X) a : In a (skipn n l) -> In a l.
Proof. intros H. rewrite <- (firstn_skipn n l). apply in_or_app. now right. Qed.
Lemma in_firstn {X} n (l : list X) a : In a (firstn n l) -> In a l.
Proof. intros H. rewrite <- (firstn_skipn n l). apply in_or_app. now left. Qed.
Lemma back_targets hidx nidx : forall fuel i_n i_h ncur hcur s,
  In s (o_stores (back_loop lek ltk diff hkey nkey tol exact hidx nidx fuel i_n i_h ncur hcur)) -> In (fst s) nidx.
Proof.
  induction fuel as [|fuel IH]; intros i_n i_h ncur hcur s; cbn [back_loop]; [cbn; tauto|].
  assert (Fill : forall v, In s (fill_rest v (skipn i_n nidx)) -> In (fst s) nidx).
  { intros v H. apply in_map_iff in H. destruct H as (r & <- & H). cbn. eapply in_skipn; eauto. }
  destruct (nth_error nidx i_n) as [nc|] eqn:En; [|cbn; tauto]. apply nth_error_In in En.
  destruct (nth_error hidx i_h) as [hc|]; [|cbn; apply Fill].
  destruct (negb (lek ncur (nkey nc))); [cbn; tauto|].
  destruct (negb (lek hcur (hkey hc))); [cbn; apply Fill|].
  destruct (cmp_lt _ _ _ _ _).
  - destruct (nth_error hidx (S i_h)) as [hc'|]; [destruct (cmp_lt _ _ _ _ _)|]; cbn; try apply IH; (intros [<-|H]; [exact En|eapply IH; exact H]).
  - destruct (i_h <? 1)%nat; cbn; [|apply IH]. intros [<-|H]; [exact En|eapply IH; exact H].
Qed.
Lemma fwd_targets hidx nidx : forall fuel c_n c_h ncur hcur s, (c_n <= length nidx)%nat ->
  In s (o_stores (fwd_loop lek ltk diff hkey nkey tol exact hidx nidx fuel c_n c_h ncur hcur)) -> In (fst s) nidx.
Proof.
  induction fuel as [|fuel IH]; intros c_n c_h ncur hcur s L; cbn [fwd_loop]; [cbn; tauto|].
  destruct c_n as [|i_n]; [cbn; tauto|].
  assert (Fill : forall v, In s (fill_rest v (firstn i_n nidx)) -> In (fst s) nidx).
  { intros v H. apply in_map_iff in H. destruct H as (r & <- & H). cbn. eapply in_firstn; eauto. }
  assert (En : In (nth i_n nidx O) nidx) by (apply nth_In; lia).
  destruct c_h as [|i_h]; [cbn; apply Fill|].
  destruct (negb _); [cbn; tauto|]. destruct (negb _); [cbn; apply Fill|].
  destruct (cmp_gt _ _ _ _ _).
  - destruct (_ && _)%bool; cbn; [apply IH; exact L|]. intros [<-|H]; [exact En|]. eapply IH; [|exact H]. lia.
  - destruct (_ =? _)%nat; cbn; [|apply IH; exact L]. intros [<-|H]; [exact En|]. eapply IH; [|exact H]. lia.
Qed.

Section Its.
Variables (likey rikey : list nat) (nl nr : nat) (to_right : list (option nat)).
Hypothesis Len : length to_right = nl.
Variable kernel : list nat -> list nat -> outc.
Hypothesis Tgt : forall h n s, In s (o_stores (kernel h n)) -> In (fst s) n.
Lemma its_det ws ws' (i : nat) : interleave (map o_stores (group_its likey rikey nl nr to_right kernel)) ws ->
  interleave (map o_stores (group_its likey rikey nl nr to_right kernel)) ws' ->
  run_stores ws all_invalid i = run_stores ws' all_invalid i.
Proof.
  intros I1 I2.
  assert (Own : forall k l, nth_error (map o_stores (group_its likey rikey nl nr to_right kernel)) k = Some l ->
     forall w, In w l -> nth_error likey (fst w) = Some (S k)).
  { intros k l El w Hw. rewrite nth_error_map in El. destruct (nth_error (group_its _ _ _ _ _ _) k) as [oc|] eqn:Ek; [|discriminate].
    cbn in El. injection El as <-. apply nth_error_map_seq in Ek. destruct Ek as [Lk ->]. rewrite Len in Lk.
    assert (G : In (fst w) (left_group likey nl k)).
    { unfold group_iter in Hw. destruct (nth k to_right None); [eapply Tgt; exact Hw|].
      cbn in Hw. apply in_map_iff in Hw. destruct Hw as (r & <- & Hr). exact Hr. }
    unfold left_group in G. rewrite pack_slice in G by lia. now apply group_rows_in. }
  pose (k := match nth_error likey i with Some (S k) => k | _ => nl end).
  assert (D : forall k2 l, k2 <> k -> nth_error (map o_stores (group_its likey rikey nl nr to_right kernel)) k2 = Some l ->
     forall w, In w l -> fst w <> i).
  { intros k2 l Ne El w Hw E. specialize (Own k2 l El w Hw). rewrite E in Own. apply Ne. unfold k. now rewrite Own. }
  now rewrite (interleave_pos _ ws all_invalid i k I1 D), (interleave_pos _ ws' all_invalid i k I2 D).
Qed.
End Its.
Lemma grouped_det likey rikey nl nr to_right n d r1 r2 : length to_right = nl ->
  grouped_result lek ltk diff minv maxv hkey nkey tol exact likey rikey nl nr to_right n d r1 ->
  grouped_result lek ltk diff minv maxv hkey nkey tol exact likey rikey nl nr to_right n d r2 -> r1 = r2.
Proof.
  intros Len H1 H2.
  assert (TB : forall h n s, In s (o_stores (asof_back lek ltk diff minv hkey nkey tol exact h n)) -> In (fst s) n)
    by (intros; eapply back_targets; eauto).
  assert (TF : forall h n s, In s (o_stores (asof_fwd lek ltk diff maxv hkey nkey tol exact h n)) -> In (fst s) n)
    by (intros; eapply fwd_targets; eauto).
  destruct H1; inversion H2; subst.
  - destruct (existsb _ _); [reflexivity|]. f_equal. apply map_ext. intros i. eapply (its_det _ _ _ _ _ eq_refl _ TB); eassumption.
  - destruct (existsb _ _); [reflexivity|]. f_equal. apply map_ext. intros i. eapply (its_det _ _ _ _ _ eq_refl _ TF); eassumption.
  - destruct (_ || _)%bool; [reflexivity|]. f_equal. apply map_ext. intros i. unfold combine_nearest.
    assert (Eb : run_stores wb all_invalid i = run_stores wb0 all_invalid i) by (eapply (its_det _ _ _ _ _ eq_refl _ TB); eassumption).
    assert (Ef : run_stores wf all_invalid i = run_stores wf0 all_invalid i) by (eapply (its_det _ _ _ _ _ eq_refl _ TF); eassumption).
    now rewrite Eb, Ef.
Qed.
End Det.
