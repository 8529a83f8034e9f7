(** An executable lexsort that meets the contract. *)
From Coq Require Import List Arith Bool Permutation Sorted Lia.
From Verif Require Import FlattenModel AggModel AggSpec ArrProofs3.
Import ListNotations.

Fixpoint lexleb (a b : list nat) : bool :=
  match a, b with
  | x :: a', y :: b' => (x <? y) || ((x =? y) && lexleb a' b')
  | _, _ => true
  end.
Definition nrow (cs : list (list nat)) (i : nat) : list nat := map (fun c => nth i c 0) (rev cs).
Definition nat_lexsort (cs : list (list nat)) : list nat :=
  isort (fun i j => lexleb (nrow cs i) (nrow cs j)) (seq 0 (match cs with c :: _ => length c | [] => 0 end)).
Lemma lexleb_total a : forall b, lexleb a b = true \/ lexleb b a = true.
Proof.
  induction a as [|x a IH]; intros [|y b]; cbn [lexleb]; auto.
  destruct (lt_eq_lt_dec x y) as [[H|H]|H].
  - left. apply Nat.ltb_lt in H. now rewrite H.
  - subst. rewrite Nat.eqb_refl. destruct (IH b) as [E|E]; rewrite E; [left|right]; cbn [andb]; now rewrite orb_true_r.
  - right. apply Nat.ltb_lt in H. now rewrite H.
Qed.
Lemma lexleb_trans a : forall b c, length a = length b -> length b = length c -> lexleb a b = true -> lexleb b c = true -> lexleb a c = true.
Proof.
  induction a as [|x a IH]; intros [|y b] [|z c] L1 L2 H1 H2; cbn [length] in *; try discriminate; [reflexivity|]. cbn [lexleb] in *.
  apply orb_prop in H1, H2. apply orb_true_iff.
  destruct H1 as [H1|H1], H2 as [H2|H2].
  - left. apply Nat.ltb_lt in H1, H2. apply Nat.ltb_lt. lia.
  - apply andb_prop in H2. destruct H2 as [H2 _]. apply Nat.eqb_eq in H2. subst. left. assumption.
  - apply andb_prop in H1. destruct H1 as [H1 _]. apply Nat.eqb_eq in H1. subst. left. assumption.
  - apply andb_prop in H1, H2. destruct H1 as [H1 H1'], H2 as [H2 H2']. apply Nat.eqb_eq in H1, H2. subst. right. rewrite Nat.eqb_refl. cbn [andb]. apply (IH b c); auto.
Qed.
Lemma lexleb_le a : forall b, lexleb a b = true -> lex_le lt a b.
Proof.
  induction a as [|x a IH]; intros [|y b] H; cbn in *; auto. apply orb_prop in H. destruct H as [H|H]; [left; now apply Nat.ltb_lt|].
  apply andb_prop in H. destruct H as [H1 H2]. apply Nat.eqb_eq in H1. right. auto.
Qed.
Lemma ssorted_pairs {X} (R : X -> X -> Prop) l : StronglySorted R l -> forall a b i j, a < b -> nth_error l a = Some i -> nth_error l b = Some j -> R i j.
Proof.
  induction 1 as [|x l S IH F]; intros a b i j L A B; [destruct a; discriminate|]. destruct b as [|b]; [lia|]. cbn in B. destruct a as [|a].
  - cbn in A. assert (i = x) by congruence. subst. rewrite Forall_forall in F. apply F. eapply nth_error_In; eauto.
  - cbn in A. apply (IH a b); auto. lia.
Qed.
Lemma nat_lexsort_ok inv : lexsort_ok inv lt nat_lexsort.
Proof.
  intros t n N L. unfold nat_lexsort, sorts_keys.
  assert (Hn : match rev (map snd t) with c :: _ => length c | [] => 0 end = n).
  { destruct (rev (map snd t)) as [|c r] eqn:E.
    - exfalso. apply N. apply (f_equal (@length _)) in E. rewrite rev_length, map_length in E. now destruct t.
    - assert (I : In c (map snd t)) by (apply in_rev; rewrite E; now left). apply in_map_iff in I. destruct I as [p [<- I]]. auto. }
  rewrite Hn. split; [apply isort_perm|].
  assert (Rw : forall i, nrow (rev (map snd t)) i = map (fun p => nth i (snd p) 0) t) by (intros i; unfold nrow; now rewrite rev_involutive, map_map).
  intros a b i j Lt A B.
  pose proof (isort_perm (fun i j => lexleb (nrow (rev (map snd t)) i) (nrow (rev (map snd t)) j)) (seq 0 n)) as P.
  assert (Rg : forall k, k < n -> row inv t k = nrow (rev (map snd t)) k).
  { intros k Hk. rewrite Rw. unfold row. apply map_ext_in. intros p Hp. apply nth_indep. rewrite (L p Hp). exact Hk. }
  rewrite !Rg.
  - apply lexleb_le. refine (ssorted_pairs _ _ (isort_sorted _ _ _ _) a b i j Lt A B).
    + intros u v. apply lexleb_total.
    + intros u v w. apply lexleb_trans; unfold nrow; now rewrite !map_length.
  - apply nth_error_In in B. apply (Permutation_in _ P) in B. apply in_seq in B. lia.
  - apply nth_error_In in A. apply (Permutation_in _ P) in A. apply in_seq in A. lia.
Qed.
