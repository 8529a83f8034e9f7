(** An executable lexsort meeting the contract, and the history theorem of the cache. *)
From Coq Require Import List Arith Bool ZArith Lia Permutation.
From Verif Require Import FlattenModel MergeModel DsModel SortModel SortSpec SortProofs.
Import ListNotations.

Section Exec.
Variable value : nat -> Z -> Z.
Fixpoint precedes (keys : list (col * bool)) (i j : nat) : bool :=
  match keys with
  | [] => true
  | (c, up) :: r =>
      let a := cell_val value c i in
      let b := cell_val value c j in
      (if up then Z.ltb a b else Z.ltb b a) || (Z.eqb a b && precedes r i j)
  end.
Fixpoint insert (le : nat -> nat -> bool) (i : nat) (l : list nat) : list nat :=
  match l with [] => [i] | j :: r => if le i j then i :: l else j :: insert le i r end.
Definition sort_rows (le : nat -> nat -> bool) (n : nat) : list nat := fold_right (insert le) [] (seq 0 n).
Definition lex_exec (cols : list col) (a : asc) : list nat :=
  match cols with
  | [] => []
  | c :: _ => sort_rows (precedes (rev (combine cols (dirs a (length cols))))) (length (c_bits c))
  end.
Lemma precedes_ok keys i j : precedes keys i j = true <-> may_precede value keys i j.
Proof.
  revert i j. induction keys as [|[c up] keys IH]; intros i j; cbn; [tauto|]. rewrite orb_true_iff, andb_true_iff, Z.eqb_eq, IH. destruct up; rewrite Z.ltb_lt; tauto.
Qed.
Lemma precede_total keys i j : may_precede value keys i j \/ may_precede value keys j i.
Proof.
  revert i j. induction keys as [|[c up] keys IH]; intros i j; cbn; [tauto|]. destruct (Z.lt_trichotomy (cell_val value c i) (cell_val value c j)) as [H|[H|H]]; destruct up; auto.
  - destruct (IH i j) as [Q|Q]; [left|right]; right; split; auto.
  - destruct (IH i j) as [Q|Q]; [left|right]; right; split; auto.
Qed.
Lemma precede_trans keys i j k : may_precede value keys i j -> may_precede value keys j k -> may_precede value keys i k.
Proof.
  revert i j k. induction keys as [|[c up] keys IH]; intros i j k; cbn; [tauto|]. intros [H|(H & Q)] [H'|(H' & Q')].
  - left. destruct up; lia.
  - left. destruct up; lia.
  - left. destruct up; lia.
  - right. split; [congruence|]. eauto.
Qed.
Lemma insert_perm le i l : Permutation (insert le i l) (i :: l).
Proof. induction l as [|j l IH]; cbn; [reflexivity|]. destruct (le i j); [reflexivity|]. rewrite IH. apply perm_swap. Qed.
Definition ord (P : nat -> nat -> Prop) (l : list nat) : Prop := forall p q i j, p < q -> nth_error l p = Some i -> nth_error l q = Some j -> P i j.
Lemma ord_cons (P : nat -> nat -> Prop) i l : (forall j, In j l -> P i j) -> ord P l -> ord P (i :: l).
Proof.
  intros H O [|p] [|q] a b L E1 E2; try lia; cbn in *; [injection E1 as <-; apply H; now apply nth_error_In in E2|]. apply (O p q); auto. lia.
Qed.
Lemma insert_ord (P : nat -> nat -> Prop) le : (forall i j, le i j = true <-> P i j) -> (forall i j, P i j \/ P j i) -> (forall i j k, P i j -> P j k -> P i k) ->
  forall i l, ord P l -> ord P (insert le i l).
Proof.
  intros LE TOT TR i l. induction l as [|j l IH]; intros O; cbn.
  - intros [|p] [|q] a b L E1 E2; try lia; cbn in *; try discriminate; destruct q; discriminate.
  - assert (O' : ord P l) by (intros p q a b L E1 E2; apply (O (S p) (S q)); auto; lia).
    assert (HJ : forall k, In k l -> P j k) by (intros k I; apply In_nth_error in I; destruct I as (q & E); apply (O 0 (S q)); auto; lia).
    destruct (le i j) eqn:E.
    + apply LE in E. apply ord_cons; [|exact O]. intros k [<-|I]; [exact E|]. apply (TR i j k); auto.
    + assert (P j i) by (destruct (TOT i j) as [Q|Q]; [apply LE in Q; congruence|exact Q]). apply ord_cons; [|now apply IH].
      intros k I. apply (Permutation_in k (insert_perm le i l)) in I. destruct I as [<-|I]; auto.
Qed.
Theorem lex_exec_contract : lexsort_contract value lex_exec.
Proof.
  intros cols a n NE LEN _. unfold lex_exec. destruct cols as [|c cols]; [congruence|]. rewrite (LEN c) by now left.
  set (keys := rev _). unfold sort_rows. split.
  - generalize (seq 0 n). induction l as [|i l IH]; cbn; [reflexivity|]. rewrite insert_perm. now constructor.
  - change (ord (may_precede value keys) (fold_right (insert (precedes keys)) [] (seq 0 n))). generalize (seq 0 n). induction l as [|i l IH]; cbn; [intros [|p] [|q]; discriminate|].
    apply insert_ord; auto; [intros; apply precedes_ok|apply precede_total|intros; eapply precede_trans; eauto].
Qed.
End Exec.

Section History.
Variable crc : list Z -> nat.
Variable lexsort : list col -> asc -> list nat.
Notation step := (step crc lexsort).
Notation run := (run crc lexsort).
Lemma answers_cong w1 w2 ops : w_heap w1 = w_heap w2 -> w_ds w1 = w_ds w2 -> answers (no_cache step) w1 ops = answers (no_cache step) w2 ops.
Proof. intros E1 E2. destruct ops as [|o ops]; [reflexivity|]. cbn [answers]. unfold no_cache. now rewrite E1, E2. Qed.
Lemma firstn_app_len {X} (a b : list X) : firstn (length a) (a ++ b) = a.
Proof. rewrite firstn_app, Nat.sub_diag, firstn_all. cbn. now rewrite app_nil_r. Qed.
Theorem history ops : faithful crc (had crc lexsort ops) -> (forall o, In o ops -> honest lexsort o) ->
  answers step init ops = answers (no_cache step) init ops.
Proof.
  intros F HN.
  assert (HO : forall k, holds (run (firstn k ops) init) (had crc lexsort ops)) by (intros k d x n c NX G; exists k, x, n; auto).
  assert (GEN : forall post pre, ops = pre ++ post -> answers step (run pre init) post = answers (no_cache step) (run pre init) post).
  { induction post as [|o post IH]; intros pre E; [reflexivity|].
    assert (FN : firstn (length pre) ops = pre) by (rewrite E; apply firstn_app_len).
    assert (FN' : firstn (S (length pre)) ops = pre ++ [o]).
    { rewrite E. replace (pre ++ o :: post) with ((pre ++ [o]) ++ post) by now rewrite <- app_assoc. replace (S (length pre)) with (length (pre ++ [o])) by (rewrite app_length; cbn; lia). apply firstn_app_len. }
    assert (Hk : length pre <= length ops) by (rewrite E, app_length; lia).
    pose proof (cache_invariant crc lexsort ops F HN (length pre) Hk) as CI. rewrite FN in CI.
    pose proof (HO (length pre)) as H0. rewrite FN in H0. pose proof (HO (S (length pre))) as H1. rewrite FN', run_app in H1.
    destruct (step_ok crc lexsort _ F (run pre init) o CI H0 (fun _ _ _ _ _ => H1)) as (_ & S1 & S2 & S3); [apply HN; rewrite E; apply in_or_app; right; now left|].
    cbn [answers]. f_equal; [exact S1|].
    assert (R : run (pre ++ [o]) init = fst (step (run pre init) o)) by (rewrite run_app; reflexivity).
    rewrite <- R. rewrite (IH (pre ++ [o])) by (rewrite E, <- app_assoc; reflexivity). apply answers_cong; rewrite R; [exact S2|exact S3]. }
  exact (GEN ops [] eq_refl).
Qed.
End History.
