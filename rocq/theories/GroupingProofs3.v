(** Proofs about regroup and shrink. *)
From Coq Require Import List Arith ZArith Bool Lia Permutation Sorted.
From Verif Require Import GroupModel GroupFacts FlattenModel GroupingModel GroupingSpec GroupingProofs.
Import ListNotations.

(** *** sorting *)
Lemma insert_perm x l : Permutation (insert x l) (x :: l).
Proof.
  induction l as [|y l IH]; cbn; [auto|]. destruct (x <=? y); [auto|].
  rewrite IH. apply perm_swap.
Qed.
Lemma isort_perm l : Permutation (isort l) l.
Proof. unfold isort. induction l as [|x l IH]; cbn; [auto|]. rewrite insert_perm. auto. Qed.
Lemma insert_sorted x l : StronglySorted le l -> StronglySorted le (insert x l).
Proof.
  induction 1 as [|y l S IH F]; cbn; [constructor; constructor|].
  destruct (Nat.leb_spec x y) as [L|L].
  - constructor; [constructor; auto|]. constructor; [auto|]. eapply Forall_impl; [|exact F]. cbn. intros; lia.
  - constructor; [exact IH|]. rewrite insert_perm. constructor; [lia|exact F].
Qed.
Lemma isort_sorted l : StronglySorted le (isort l).
Proof. unfold isort. induction l; cbn; [constructor|]. apply insert_sorted. auto. Qed.
Lemma strict_of l : StronglySorted le l -> NoDup l -> StronglySorted lt l.
Proof.
  induction 1 as [|y l S IH F]; intros N; constructor; inversion N; subst; auto.
  rewrite Forall_forall in *. intros z I. specialize (F z I). assert (z <> y) by (intros ->; auto). lia.
Qed.
Lemma strict_unique l : forall l', StronglySorted lt l -> StronglySorted lt l' -> (forall x, In x l <-> In x l') -> l = l'.
Proof.
  induction l as [|x l IH]; intros [|y l'] S S' E.
  - reflexivity.
  - exfalso. apply (proj2 (E y)). now left.
  - exfalso. apply (proj1 (E x)). now left.
  - inversion S as [|? ? S1 F1]; inversion S' as [|? ? S2 F2]; subst. rewrite Forall_forall in F1, F2.
    assert (x = y).
    { destruct (proj1 (E x) (or_introl eq_refl)) as [->|I]; [reflexivity|].
      destruct (proj2 (E y) (or_introl eq_refl)) as [->|I']; [reflexivity|]. specialize (F2 _ I). specialize (F1 _ I'). lia. }
    subst. f_equal. apply IH; auto. intros z. specialize (E z). cbn in E. split; intros I.
    + destruct (proj1 E (or_intror I)) as [->|]; [|auto]. specialize (F1 _ I). lia.
    + destruct (proj2 E (or_intror I)) as [->|]; [|auto]. specialize (F2 _ I). lia.
Qed.
Lemma seq_strict n s : StronglySorted lt (seq s n).
Proof. revert s. induction n; intros s; cbn; constructor; auto. apply Forall_forall. intros x I. apply in_seq in I. lia. Qed.
Lemma filter_strict f l : StronglySorted lt l -> StronglySorted lt (filter f l).
Proof.
  induction 1 as [|y l S IH F]; cbn; [constructor|]. destruct (f y); [|exact IH]. constructor; [exact IH|].
  rewrite Forall_forall in *. intros z I. apply filter_In in I. apply F. tauto.
Qed.

Lemma isort_filter U n f : NoDup U -> (forall x, In x U <-> x < n /\ f x = true) -> isort U = filter f (seq 0 n).
Proof.
  intros N E. apply strict_unique.
  - apply strict_of; [apply isort_sorted|]. eapply Permutation_NoDup; [symmetry; apply isort_perm|exact N].
  - apply filter_strict, seq_strict.
  - intros x. rewrite filter_In, in_seq. split; intros I.
    + apply (Permutation_in _ (isort_perm U)) in I. apply E in I. split; [lia|tauto].
    + apply (Permutation_in _ (Permutation_sym (isort_perm U))). apply E. split; [lia|tauto].
Qed.
Lemma rank_filter U n f x : NoDup U -> (forall y, In y U <-> y < n /\ f y = true) -> x <= n -> rank U x = length (filter f (seq 0 x)).
Proof.
  intros N E Hx. unfold rank. apply Permutation_length. apply NoDup_Permutation.
  - apply NoDup_filter. exact N.
  - apply NoDup_filter, seq_NoDup.
  - intros y. rewrite !filter_In, in_seq, E, Nat.ltb_lt. intuition lia.
Qed.
Lemma filter_seq_at f n x : x < n -> f x = true -> nth_error (filter f (seq 0 n)) (length (filter f (seq 0 x))) = Some x.
Proof.
  intros H F. rewrite (seq_split n x H), filter_app. cbn [filter]. rewrite F.
  rewrite nth_error_app2 by lia. rewrite Nat.sub_diag. reflexivity.
Qed.

Lemma forallb_filter_id {X} (f : X -> bool) l : forallb f l = true -> filter f l = l.
Proof. induction l as [|x l IH]; cbn; [reflexivity|]. destruct (f x); cbn; [|discriminate]. intros H. f_equal. auto. Qed.

Lemma nth_error_seq n : forall s i, nth_error (seq s n) i = if i <? n then Some (s + i) else None.
Proof.
  induction n as [|n IH]; intros s [|i]; try reflexivity.
  - cbn. now rewrite Nat.add_0_r.
  - cbn [seq nth_error]. rewrite IH. change (S i <? S n) with (i <? n). destruct (i <? n); [f_equal; lia|reflexivity].
Qed.

(** *** regroup *)
Lemma passing_length flt ikey : (forall f, flt = Some f -> length f = length ikey) -> length (passing flt ikey) = length ikey.
Proof. destruct flt as [f|]; cbn; intros H; [|reflexivity]. rewrite map_length, combine_length, (H f eq_refl). lia. Qed.
Lemma passing_at flt ikey r k : nth_error (passing flt ikey) r = Some k -> k <> 0 -> nth_error ikey r = Some k /\ match flt with None => True | Some f => nth_error f r = Some true end.
Proof.
  destruct flt as [f|]; cbn [passing]; intros H N; [|auto].
  destruct (nth_error (combine ikey f) r) as [[a b]|] eqn:E.
  - rewrite (map_nth_error _ _ _ E) in H. cbn [fst snd] in H. destruct b; [|injection H as <-; congruence].
    injection H as ->. revert r E. clear N. revert f. induction ikey as [|a ikey IH]; intros [|b f] [|r] E; cbn in *; try discriminate; auto.
    injection E as -> ->. auto.
  - exfalso. assert (Q : nth_error (map (fun p : nat * bool => if snd p then fst p else 0) (combine ikey f)) r = None).
    { apply nth_error_None. rewrite map_length. apply nth_error_None. exact E. } congruence.
Qed.
Lemma passing_of flt ikey r k : (forall f, flt = Some f -> length f = length ikey) -> nth_error ikey r = Some k -> match flt with None => True | Some f => nth_error f r = Some true end -> nth_error (passing flt ikey) r = Some k.
Proof.
  intros L H F. destruct flt as [f|]; cbn [passing]; [|exact H].
  rewrite (map_nth_error _ _ _ (nth_error_combine _ _ _ _ _ H F)). reflexivity.
Qed.

Lemma accum1_keys_spec ks : NoDup (accum1_keys ks) /\ (forall k, In k (accum1_keys ks) <-> k <> 0 /\ In k ks).
Proof.
  unfold accum1_keys. destruct (uniques_spec Nat.eqb (fun a b => Nat.eqb_eq a b) (map (fun k => if k =? 0 then None else Some k) ks)) as [N I].
  split; [exact N|]. intros k. rewrite I, in_map_iff. split.
  - intros [x [E Hx]]. destruct (Nat.eqb_spec x 0); [discriminate|]. injection E as ->. auto.
  - intros [Nk Hk]. exists k. split; [|exact Hk]. destruct (Nat.eqb_spec k 0); [contradiction|reflexivity].
Qed.

Lemma index_of_in k U : In k U -> exists j, index_of Nat.eqb k U = Some j /\ nth_error U j = Some k.
Proof.
  intros I. destruct (index_of Nat.eqb k U) as [j|] eqn:E.
  - exists j. split; [reflexivity|]. apply (index_of_some Nat.eqb (fun a b => Nat.eqb_eq a b)). exact E.
  - exfalso. apply (index_of_none Nat.eqb (fun a b => Nat.eqb_eq a b)) in E. contradiction.
Qed.

Section Regroup.
Context {B : Type}.
Variable inv : B.
Variables (ikey : list nat) (us : list B) (flt : option (list bool)).
Let n := length us.
Hypothesis Hlen : forall f, flt = Some f -> length f = length ikey.
Hypothesis Hcodes : codes_in n ikey.
Let ks := passing flt ikey.
Let U := accum1_keys ks.

Lemma U_in k : In k U <-> exists k', k = S k' /\ used flt ikey k'.
Proof.
  subst U. rewrite (proj2 (accum1_keys_spec ks)). split.
  - intros [Nk I]. apply In_nth_error in I. destruct I as [r Er]. destruct k as [|k']; [congruence|]. exists k'. split; [reflexivity|].
    exists r. apply passing_at in Er; [|lia]. exact Er.
  - intros [k' [-> [r [Hr Hf]]]]. split; [lia|]. eapply nth_error_In. apply passing_of; eauto.
Qed.
Lemma used_lt k : used flt ikey k -> k < n.
Proof. intros [r [Hr _]]. eapply Forall_forall in Hcodes; [|eapply nth_error_In; exact Hr]. lia. Qed.

Lemma sortkey_U : map (fun r => nth r ikey 0) (map (fun u => match index_of Nat.eqb u ks with Some r => r | None => 0 end) U) = U.
Proof.
  rewrite map_map. rewrite <- (map_id U) at 2. apply map_ext_in. intros u I.
  destruct (proj1 (proj2 (accum1_keys_spec ks) u) I) as [Nu Iu]. destruct (index_of_in u ks Iu) as [j [E Ej]]. rewrite E.
  apply passing_at in Ej; [|exact Nu]. apply nth_error_nth. tauto.
Qed.

Lemma knew_at k : In k ks -> (match index_of Nat.eqb k U with Some j => if k =? 0 then 0 else S j | None => 0 end) = 0 /\ k = 0 \/
  exists j, (match index_of Nat.eqb k U with Some j => if k =? 0 then 0 else S j | None => 0 end) = S j /\ nth_error U j = Some k /\ k <> 0.
Proof.
  intros I. destruct (Nat.eqb_spec k 0) as [->|Nk].
  - left. destruct (index_of Nat.eqb 0 U); auto.
  - right. destruct (index_of_in k U) as [j [E Ej]]; [apply accum1_keys_spec; auto|]. rewrite E. exists j. auto.
Qed.

(** the categories still used, in their old order *)
Lemma combine_seq_filter (f : nat -> bool) (l : list B) s :
  map snd (filter (fun p => f (fst p)) (combine (seq s (length l)) l)) =
  map (fun i => nth (i - s) l inv) (filter f (seq s (length l))).
Proof.
  revert s. induction l as [|b l IH]; intros s; [reflexivity|]. cbn [length seq combine filter fst].
  assert (Q : map (fun i => nth (i - s) (b :: l) inv) (filter f (seq (S s) (length l))) = map (fun i => nth (i - S s) l inv) (filter f (seq (S s) (length l)))).
  { apply map_ext_in. intros i I. apply filter_In in I. destruct I as [I _]. apply in_seq in I.
    replace (i - s) with (S (i - S s)) by lia. reflexivity. }
  destruct (f s); cbn [map snd]; rewrite ?Nat.sub_diag; rewrite IH, Q; reflexivity.
Qed.

Definition usedb (k : nat) : bool := existsb (Nat.eqb (S k)) ks.
Lemma usedb_ok k : usedb k = true <-> used flt ikey k.
Proof.
  unfold usedb. rewrite existsb_exists. split.
  - intros [x [I E]]. apply Nat.eqb_eq in E. subst x. assert (Q : In (S k) U) by (apply accum1_keys_spec; split; [lia|auto]).
    apply U_in in Q. destruct Q as [k' [[= ->] Q]]. exact Q.
  - intros H. exists (S k). split; [|apply Nat.eqb_refl]. assert (Q : In (S k) U) by (apply U_in; eauto). apply accum1_keys_spec in Q. tauto.
Qed.

Definition kept_cats : list B := map snd (filter (fun p => usedb (fst p)) (combine (seq 0 (length us)) us)).

Lemma all_used_kept : length U = n -> kept_cats = us /\ forall k, k < n -> used flt ikey k.
Proof.
  intros L. assert (A : forall k, k < n -> used flt ikey k).
  { intros k Hk. assert (I : incl (seq 1 n) U).
    { apply NoDup_length_incl; [apply accum1_keys_spec|rewrite seq_length; lia|].
      intros x Hx. apply U_in in Hx. destruct Hx as [k' [-> Hu]]. apply used_lt in Hu. apply in_seq. lia. }
    assert (Q : In (S k) U) by (apply I, in_seq; lia). apply U_in in Q. destruct Q as [k' [[= ->] Q]]. exact Q. }
  split; [|exact A]. unfold kept_cats. rewrite combine_seq_filter.
  assert (F : filter usedb (seq 0 (length us)) = seq 0 (length us)).
  { apply forallb_filter_id. apply forallb_forall. intros x I. apply in_seq in I. apply usedb_ok. apply A. subst n. lia. }
  rewrite F. etransitivity; [|apply (map_id us)]. rewrite map_id. clear. 
  transitivity (map (fun i => nth i us inv) (seq 0 (length us))); [apply map_ext; intros; f_equal; lia|].
  induction us as [|b l IH]; [reflexivity|]. cbn [length seq map nth]. f_equal. rewrite <- seq_shift, map_map. exact IH.
Qed.

Lemma shows_keep : shows ks us = keep_where flt (shows ikey us).
Proof.
  unfold shows, keep_where. subst ks. destruct flt as [f|]; cbn [passing]; [|reflexivity].
  rewrite map_map. generalize ikey as ik. clear. intros ik. revert f. induction ik as [|a l IH]; intros [|b f]; cbn [combine map]; try reflexivity.
  cbn [fst snd]. f_equal; [|apply IH]. destruct b; [reflexivity|]. reflexivity.
Qed.

Theorem regroup_ok : let out := regroup inv n ikey us flt in
  shows (fst out) (snd out) = keep_where flt (shows ikey us) /\ snd out = kept_cats /\ valid_codes (fst out) (snd out).
Proof.
  cbv zeta. unfold regroup, accum1. fold ks. fold U. rewrite sortkey_U.
  assert (Hks : forall k, In k ks -> k <> 0 -> In k U) by (intros k I Nk; apply accum1_keys_spec; auto).
  destruct (Nat.eqb_spec n (length U)) as [L|L].
  - (* all categories still in use *)
    destruct (all_used_kept (eq_sym L)) as [K _]. cbn [fst snd].
    match goal with |- shows ?c us = _ /\ _ /\ _ => assert (E : c = ks) end.
    { assert (G1 : map (fun k => mbget 0 (0 :: U) (Z.of_nat k)) (map (fun k => match index_of Nat.eqb k U with Some j => if k =? 0 then 0 else S j | None => 0 end) ks) = ks).
      { rewrite map_map. rewrite <- (map_id ks) at 2. apply map_ext_in. intros k I. destruct (knew_at k I) as [[E ->]|[j [E [Ej Nk]]]]; rewrite E.
        - reflexivity.
        - apply mbget_error. exact Ej. }
      generalize flt. intros [f|]; [exact G1|].
      match goal with |- (if ?c then _ else _) = _ => destruct c eqn:P end; [|exact G1].
      rewrite map_map. rewrite <- (map_id ks) at 2. apply map_ext_in. intros k I. rewrite forallb_forall in P.
      destruct (knew_at k I) as [[E ->]|[j [E [Ej Nk]]]].
      - exfalso. assert (Q := P 0 ltac:(apply in_map_iff; exists 0; auto)). discriminate.
      - rewrite E. replace (Z.of_nat (S j) - 1)%Z with (Z.of_nat j) by lia. apply mbget_error. exact Ej. }
    rewrite E. split; [apply shows_keep|]. split; [auto|].
    apply Forall_forall. intros k I. destruct k as [|k]; [lia|]. assert (Q := Hks _ I ltac:(lia)). apply U_in in Q. destruct Q as [k' [[= ->] Q]]. apply used_lt in Q. subst n. lia.
  - cbn [fst snd].
    set (P := map (fun s => s - 1) U).
    assert (NP : NoDup P).
    { subst P. assert (Q : forall x, In x U -> x <> 0) by (intros x I; apply U_in in I; destruct I as [? [-> _]]; lia).
      revert Q. generalize (proj1 (accum1_keys_spec ks)). fold U. clear. induction U as [|x l IH]; intros N Q; cbn; [constructor|].
      inversion N; subst. constructor; [|apply IH; [auto|intros; apply Q; now right]].
      intros I. apply in_map_iff in I. destruct I as [y [E I]]. assert (x <> 0) by (apply Q; now left). assert (y <> 0) by (apply Q; now right).
      assert (y = x) by lia. subst. contradiction. }
    assert (IP : forall x, In x P <-> x < n /\ usedb x = true).
    { intros x. subst P. rewrite in_map_iff. rewrite usedb_ok. split.
      - intros [y [<- I]]. apply U_in in I. destruct I as [k' [-> Hu]]. replace (S k' - 1) with k' by lia. split; [eapply used_lt; eauto|auto].
      - intros [Hx Hu]. exists (S x). split; [lia|]. apply U_in. eauto. }
    rewrite (isort_filter P n usedb NP IP).
    assert (NU : map (fun s => mbget inv us (Z.of_nat s)) (filter usedb (seq 0 n)) = kept_cats).
    { unfold kept_cats. rewrite combine_seq_filter. apply map_ext_in. intros i I. apply filter_In in I. destruct I as [I _]. apply in_seq in I.
      rewrite mbget_nat by (subst n; lia). rewrite Nat.sub_0_r. reflexivity. }
    rewrite NU.
    assert (RK : forall k', In (S k') U -> rank U (S k') = length (filter usedb (seq 0 k'))).
    { intros k' I. rewrite <- (rank_filter P n usedb k' NP IP).
      2:{ apply U_in in I. destruct I as [? [[= <-] Hu]]. apply used_lt in Hu. lia. }
      unfold rank. subst P. assert (Q : forall x, In x U -> x <> 0) by (intros x Ix; apply U_in in Ix; destruct Ix as [? [-> _]]; lia).
      revert Q. clear. induction U as [|x l IH]; intros Q; [reflexivity|]. cbn [filter map].
      assert (x <> 0) by (apply Q; now left). assert (E : (x <? S k') = (x - 1 <? k')).
      { destruct (Nat.ltb_spec x (S k')), (Nat.ltb_spec (x - 1) k'); try reflexivity; lia. }
      rewrite E. destruct (x - 1 <? k'); cbn [length]; [f_equal|]; apply IH; intros; apply Q; now right. }
    assert (KA : forall k', In (S k') U -> nth_error kept_cats (rank U (S k')) = nth_error us k').
    { intros k' I. rewrite (RK k' I). rewrite <- NU.
      pose proof I as I0. apply U_in in I0. destruct I0 as [? [[= <-] Hu]]. pose proof (used_lt _ Hu) as Hlt.
      rewrite (map_nth_error _ _ _ (filter_seq_at usedb n k' Hlt (proj2 (usedb_ok k') Hu))).
      rewrite mbget_nat by exact Hlt. symmetry. apply nth_error_nth'. exact Hlt. }
    assert (CK : forall k, In k ks -> let c := mbget 0 (0 :: map (fun s => S (rank U s)) U) (Z.of_nat (match index_of Nat.eqb k U with Some j => if k =? 0 then 0 else S j | None => 0 end)) in
      (k = 0 /\ c = 0) \/ exists k', k = S k' /\ In (S k') U /\ c = S (rank U (S k'))).
    { intros k I c. destruct (knew_at k I) as [[E ->]|[j [E [Ej Nk]]]]; subst c; rewrite E.
      - left. auto.
      - right. destruct k as [|k']; [congruence|]. exists k'. split; [reflexivity|]. split; [eapply nth_error_In; eauto|].
        apply mbget_error. cbn [nth_error]. apply (map_nth_error (fun s => S (rank U s))). exact Ej. }
    split; [|split; [reflexivity|]].
    + rewrite <- shows_keep. unfold shows. rewrite !map_map. apply map_ext_in. intros k I.
      destruct (CK k I) as [[-> ->]|[k' [-> [IU ->]]]]; [reflexivity|]. apply KA. exact IU.
    + apply Forall_forall. intros c I. apply in_map_iff in I. destruct I as [c0 [<- I]]. apply in_map_iff in I. destruct I as [k [<- I]].
      destruct (CK k I) as [[-> ->]|[k' [-> [IU ->]]]]; [lia|].
      assert (Q : nth_error kept_cats (rank U (S k')) <> None).
      { rewrite (KA k' IU). apply nth_error_Some. apply U_in in IU. destruct IU as [? [[= <-] Hu]]. apply used_lt in Hu. exact Hu. }
      apply nth_error_Some in Q. lia.
Qed.

(** every kept category is used, every used category is kept *)
Lemma kept_in b : In b kept_cats <-> exists k, nth_error us k = Some b /\ used flt ikey k.
Proof.
  unfold kept_cats. rewrite in_map_iff. split.
  - intros [[k b'] [<- I]]. apply filter_In in I. destruct I as [I Hu]. cbn [fst snd] in *. exists k. split; [|apply usedb_ok; exact Hu].
    apply In_nth_error in I. destruct I as [j Ej].
    assert (Q : nth_error (seq 0 (length us)) j = Some k /\ nth_error us j = Some b').
    { revert Ej. generalize 0 at 1 2 as s. clear. revert j. induction us as [|x l IH]; intros [|j] s E; cbn in *; try discriminate; [injection E as -> ->; auto|]. apply IH. exact E. }
    destruct Q as [Q Q']. rewrite nth_error_seq in Q. destruct (j <? length us); [|discriminate]. injection Q as <-. exact Q'.
  - intros [k [E Hu]]. exists (k, b). split; [reflexivity|]. apply filter_In. split; [|apply usedb_ok; exact Hu].
    eapply nth_error_In. apply (nth_error_combine _ _ k); [|exact E]. rewrite nth_error_seq.
    assert (Hk : k < length us) by (apply nth_error_Some; congruence). apply Nat.ltb_lt in Hk. rewrite Hk. reflexivity.
Qed.
End Regroup.
