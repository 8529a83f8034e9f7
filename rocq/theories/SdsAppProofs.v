From Coq Require Import List Arith Bool ZArith Lia Permutation Sorted.
From Verif Require Import FlattenModel DsModel FlattenProofs DsProofs3 AggProofs2 SdsSpec SdsAppModel.
Import ListNotations.

Section App.
Context {A : Type}.
Notation part := (part A).
Lemma insert_perm (p : part) l : Permutation (p :: l) (insert p l).
Proof. induction l as [|q r IH]; [reflexivity|]. cbn [insert]. destruct (p_off p <=? p_off q)%Z; [reflexivity|]. rewrite perm_swap. now constructor. Qed.
Lemma by_offset_perm (l : list part) : Permutation l (by_offset l).
Proof. induction l as [|p r IH]; [reflexivity|]. cbn [by_offset]. rewrite IH at 1. apply insert_perm. Qed.
Definition le_off (p q : part) : Prop := (p_off p <= p_off q)%Z.
Lemma insert_sorted (p : part) l : StronglySorted le_off l -> StronglySorted le_off (insert p l).
Proof.
  induction 1 as [|q r S IH F]; cbn [insert]; [repeat constructor|]. destruct (Z.leb_spec (p_off p) (p_off q)) as [Le|Gt].
  - constructor; [now constructor|]. constructor; [exact Le|]. eapply Forall_impl; [|exact F]. unfold le_off. intros; lia.
  - constructor; [exact IH|]. eapply Permutation_Forall; [apply insert_perm|]. constructor; [unfold le_off; lia|exact F].
Qed.
Lemma by_offset_sorted (l : list part) : StronglySorted le_off (by_offset l).
Proof. induction l as [|p r IH]; [constructor|]. now apply insert_sorted. Qed.
(** two sorted permutations with distinct offsets are equal *)
Lemma sorted_unique (a : list part) : forall b, StronglySorted (fun p q => p_off p < p_off q)%Z a -> StronglySorted le_off b -> Permutation a b -> a = b.
Proof.
  induction a as [|p r IH]; intros b Sa Sb P; [symmetry; now apply Permutation_nil|]. inversion Sa as [|p0 r0 Sr Fp]; subst.
  destruct b as [|q t]; [apply Permutation_sym, Permutation_nil in P; discriminate|]. inversion Sb as [|q0 t0 St Fq]; subst.
  assert (p = q) as <-.
  { assert (I : In p (q :: t)) by (eapply Permutation_in; [exact P|now left]). destruct I as [I|I]; [now symmetry|].
    assert (J : In q (p :: r)) by (eapply Permutation_in; [apply Permutation_sym; exact P|now left]). destruct J as [J|J]; [exact J|].
    pose proof (proj1 (Forall_forall _ _) Fp q J) as H1. pose proof (proj1 (Forall_forall _ _) Fq p I) as H2. unfold le_off in H2. cbn beta in H1. lia. }
  f_equal. apply IH; [exact Sr|exact St|]. now apply Permutation_cons_inv in P.
Qed.
Lemma by_offset_order (a b : list part) : StronglySorted (fun p q => p_off p < p_off q)%Z a -> Permutation a b -> by_offset b = a.
Proof. intros S P. symmetry. apply sorted_unique; [exact S|apply by_offset_sorted|]. rewrite P. apply by_offset_perm. Qed.

Lemma add_cols_ok (cols : list (name * A)) : forall d c d' c', add_cols cols (d, c) = Some (d', c') -> NoDup (map fst d) ->
  NoDup (map fst d') /\ exists e, d' = d ++ e /\ Forall2 renamed cols e.
Proof.
  induction cols as [|[k v] r IH]; intros d c d' c' E N; cbn [add_cols] in E.
  - injection E as <- <-. split; [exact N|]. exists []. rewrite app_nil_r. split; [reflexivity|constructor].
  - destruct (mem k (map fst d)) eqn:Mk.
    + destruct (mem (k ++ 95 :: digits (Nat.to_uint c)) (map fst d)) eqn:Mk'; [discriminate|]. apply mem_not in Mk'.
      destruct (IH _ _ _ _ E) as [N' [e [-> F]]]; [now apply DsProofs3.dset_nodup|]. split; [exact N'|]. rewrite dset_fresh in * by exact Mk'. rewrite <- app_assoc. eexists. split; [reflexivity|].
      constructor; [|exact F]. split; [reflexivity|]. right. now exists c.
    + apply mem_not in Mk. destruct (IH _ _ _ _ E) as [N' [e [-> F]]]; [now apply DsProofs3.dset_nodup|]. split; [exact N'|]. rewrite dset_fresh in * by exact Mk. rewrite <- app_assoc. eexists. split; [reflexivity|].
      constructor; [|exact F]. split; [reflexivity|]. now left.
Qed.
Lemma merge_ok (ps : list part) : forall d c d', merge_parts ps (d, c) = Some d' -> NoDup (map fst d) ->
  NoDup (map fst d') /\ exists e, d' = d ++ e /\ Forall2 renamed (concat (map p_cols ps)) e.
Proof.
  induction ps as [|p r IH]; intros d c d' E N; cbn [merge_parts] in E.
  - injection E as <-. split; [exact N|]. exists []. rewrite app_nil_r. split; [reflexivity|constructor].
  - destruct (add_cols (p_cols p) (d, c)) as [[d1 c1]|] eqn:A1; [|discriminate]. destruct (add_cols_ok _ _ _ _ _ A1 N) as [N1 [e1 [-> F1]]].
    destruct (IH _ _ _ E N1) as [N2 [e2 [-> F2]]]. split; [exact N2|]. exists (e1 ++ e2). rewrite app_assoc. split; [reflexivity|]. cbn [map concat]. now apply Forall2_app.
Qed.
Lemma dset_all_len {X} (l : list (name * X)) : forall d, NoDup (map fst d) -> length (dset_all l d) = length d + length l -> dset_all l d = d ++ l.
Proof.
  induction l as [|[k v] r IH]; intros d N E; [cbn; now rewrite app_nil_r|]. change (dset_all ((k, v) :: r) d) with (dset_all r (dset k v d)) in *.
  assert (Le : forall (l : list (name * X)) d, length (dset_all l d) <= length d + length l).
  { clear. induction l as [|[k v] r IH]; intros d; [cbn; lia|]. change (dset_all ((k, v) :: r) d) with (dset_all r (dset k v d)). specialize (IH (dset k v d)). cbn [length].
    assert (length (dset k v d) <= S (length d)). { rewrite <- (map_length fst), dset_names. destruct (mem k (map fst d)); rewrite ?app_length, map_length; cbn; lia. } lia. }
  pose proof (Le r (dset k v d)) as L1. cbn [length] in E.
  destruct (mem k (map fst d)) eqn:Mk.
  - assert (length (dset k v d) = length d) by (rewrite <- (map_length fst), dset_names, Mk; apply map_length). lia.
  - apply mem_not in Mk. rewrite dset_fresh in * by exact Mk. rewrite IH; [now rewrite <- app_assoc| |].
    + rewrite map_app. apply NoDup_app_d; [exact N|constructor; [intros []|constructor]|]. intros x I [<-|[]]. exact (Mk I).
    + rewrite E, app_length. cbn. lia.
Qed.
End App.
