(** Proofs for GiModel.v: iterating over groups. *)
From Coq Require Import List Arith ZArith Bool Lia Sorted Permutation.
From Verif Require Import FlattenModel GroupModel GroupFacts GroupingModel GroupingProofs4 GiSpec GiModel.
Import ListNotations.

Lemma packed_plain ikey n h : Forall without_filter h -> packed ikey n (fold_left (gstep ikey n) h g_init) = pack_of ikey n.
Proof. intros F. unfold packed. pose proof (igroup_unfiltered ikey n h F) as E. cbn [gstep] in E. unfold run_g in E. now rewrite E. Qed.
Lemma packed_filtered ikey n f s : packed ikey n (get_groupings ikey n (Some f) s) = pack_of (passing (Some f) ikey) n.
Proof. reflexivity. Qed.
Lemma fancy_pack ikey n g : g <= n -> fancy (pack_of ikey n) g = group_rows ikey g.
Proof. intros H. unfold fancy, pack_of. cbn. now apply pack_slice. Qed.

Lemma ss_filter (f : nat -> bool) l : StronglySorted lt l -> StronglySorted lt (filter f l).
Proof.
  induction 1 as [|x l S IH F]; cbn; [constructor|]. destruct (f x); [|exact IH]. constructor; [exact IH|].
  apply Forall_forall. intros y I. apply filter_In in I. rewrite Forall_forall in F. now apply F.
Qed.
Lemma ss_seq n : forall s, StronglySorted lt (seq s n).
Proof. induction n as [|n IH]; intros s; cbn; constructor; [apply IH|]. apply Forall_forall. intros y I. apply in_seq in I. lia. Qed.

Section Iter.
Context {K V : Type} (eqb : K -> K -> bool) (inv : V).
Hypothesis eqb_ok : forall a b, eqb a b = true <-> a = b.
Context {keys : list (option K)} {us : list K} {ikey : list nat}.
Hypothesis G : grouping_of keys us ikey.

Lemma rows_ok j k : nth_error us j = Some k -> rows_having keys k (group_rows ikey (S j)).
Proof.
  intros E. split; [apply ss_filter, ss_seq|]. intros i. rewrite group_rows_in. apply (grouping_key G i k j E).
Qed.
Lemma combine_seq {X} (f : nat -> X) (l : list K) : combine l (map f (seq 0 (length l))) = map (fun q => (snd q, f (fst q))) (combine (seq 0 (length l)) l).
Proof.
  generalize 0 as a. induction l as [|x l IH]; intros a; cbn; [reflexivity|]. f_equal. apply IH.
Qed.
Lemma nth_combine_seq (l : list K) : forall a j, nth_error (combine (seq a (length l)) l) j = option_map (fun k => (a + j, k)) (nth_error l j).
Proof.
  induction l as [|x l IH]; intros a [|j]; cbn; try reflexivity; [now rewrite Nat.add_0_r|]. rewrite IH. destruct (nth_error l j); cbn; [|reflexivity]. do 2 f_equal. lia.
Qed.
Lemma in_combine_seq (l : list K) i k : In (i, k) (combine (seq 0 (length l)) l) <-> nth_error l i = Some k.
Proof.
  split; intros H.
  - apply In_nth_error in H. destruct H as [j Hj]. rewrite nth_combine_seq in Hj. destruct (nth_error l j) eqn:E; [|discriminate]. cbn in Hj. injection Hj as <- <-. exact E.
  - apply nth_error_In with (n := i). rewrite nth_combine_seq, H. reflexivity.
Qed.

Definition plain (s : gstate) := packed ikey (length us) s = pack_of ikey (length us).

Lemma iter_is s : plain s -> iter_groups us ikey s = map (fun q => (snd q, group_rows ikey (S (fst q)))) (combine (seq 0 (length us)) us).
Proof.
  intros P. unfold iter_groups. rewrite P. rewrite combine_seq. apply map_ext_in. intros [i k] I. cbn [fst snd]. f_equal.
  rewrite Nat.add_1_r. apply fancy_pack. apply in_combine_seq in I. assert (i < length us) by (apply nth_error_Some; congruence). lia.
Qed.
Lemma iter_keys s : plain s -> map fst (iter_groups us ikey s) = us.
Proof.
  intros P. rewrite (iter_is s P), map_map. cbn [fst]. clear. generalize 0 as a. induction us as [|x l IH]; intros a; cbn; [reflexivity|]. f_equal. apply IH.
Qed.
Lemma iter_in s k rows : plain s -> In (k, rows) (iter_groups us ikey s) -> exists j, nth_error us j = Some k /\ rows = group_rows ikey (S j).
Proof.
  intros P I. rewrite (iter_is s P) in I. apply in_map_iff in I. destruct I as [[i k'] [E I]]. cbn in E. injection E as <- <-. apply in_combine_seq in I. eauto.
Qed.
Lemma iter_rows s k rows : plain s -> In (k, rows) (iter_groups us ikey s) -> rows_having keys k rows.
Proof. intros P I. destruct (iter_in s k rows P I) as [j [E ->]]. now apply rows_ok. Qed.

Lemma iter_cover s : plain s -> forall i, In i (concat (map snd (iter_groups us ikey s))) <-> exists k, has_key keys i k.
Proof.
  intros P i. rewrite in_concat. split.
  - intros [l [I Il]]. apply in_map_iff in I. destruct I as [[k rows] [<- I]]. cbn [snd] in Il. destruct (iter_rows s k rows P I) as [_ H]. exists k. now apply H.
  - intros [k H]. destruct (g_key _ _ _ G i k H) as [j [Hj Hu]]. exists (group_rows ikey (S j)). split; [|now apply group_rows_in].
    rewrite (iter_is s P), map_map. apply in_map_iff. exists (j, k). split; [reflexivity|]. now apply in_combine_seq.
Qed.
Lemma iter_nodup s : plain s -> NoDup (concat (map snd (iter_groups us ikey s))).
Proof.
  intros P. rewrite (iter_is s P), map_map. cbn [snd]. clear P. 
  assert (H : forall a, NoDup (concat (map (fun q : nat * K => group_rows ikey (S (fst q))) (combine (seq a (length us)) us))) /\
    forall i, In i (concat (map (fun q : nat * K => group_rows ikey (S (fst q))) (combine (seq a (length us)) us))) -> exists j, a <= j /\ nth_error ikey i = Some (S j)).
  { clear G. induction us as [|x l IH]; intros a; cbn; [split; [constructor|contradiction]|]. destruct (IH (S a)) as [N D]. split.
    - assert (Q : forall l1 l2 : list nat, NoDup l1 -> NoDup l2 -> (forall i, In i l1 -> ~ In i l2) -> NoDup (l1 ++ l2)).
      { clear. induction l1 as [|y l1 IH]; intros l2 N1 N2 D; [exact N2|]. inversion N1; subst. cbn. constructor.
        - rewrite in_app_iff. intros [H|H]; [contradiction|]. apply (D y); [now left|exact H].
        - apply IH; auto. intros i I. apply D. now right. }
      apply Q; [apply group_rows_nodup|exact N|]. intros i I1 I2. apply group_rows_in in I1. destruct (D i I2) as [j [L E]]. rewrite I1 in E. injection E as <-. lia.
    - intros i. rewrite in_app_iff. intros [I|I]; [apply group_rows_in in I; exists a; split; [lia|exact I]|]. destruct (D i I) as [j [L E]]. exists j. split; [lia|exact E]. }
  apply (H 0).
Qed.

(** dict(zip(keys, rows)) *)
Lemma kget_kset {X} k k' (v : X) d : kget eqb k (kset eqb k' v d) = if eqb k k' then Some v else kget eqb k d.
Proof.
  induction d as [|[a x] d IH]; cbn; [reflexivity|]. destruct (eqb k' a) eqn:E1; cbn.
  - apply eqb_ok in E1. subst a. now destruct (eqb k k').
  - destruct (eqb k a) eqn:E2; [|exact IH]. apply eqb_ok in E2. subst a. destruct (eqb k k') eqn:E3; [|reflexivity]. apply eqb_ok in E3. subst k'. assert (eqb k k = true) by now apply eqb_ok. congruence.
Qed.
Lemma kset_fresh {X} k (v : X) d : ~ In k (map fst d) -> kset eqb k v d = d ++ [(k, v)].
Proof.
  induction d as [|[a x] d IH]; cbn; intros N; [reflexivity|]. destruct (eqb k a) eqn:E; [apply eqb_ok in E; subst; elim N; now left|]. rewrite IH by tauto. reflexivity.
Qed.
Lemma dict_fresh {X} (l : list (K * X)) : forall d, NoDup (map fst d ++ map fst l) -> fold_left (fun d q => kset eqb (fst q) (snd q) d) l d = d ++ l.
Proof.
  induction l as [|[k v] l IH]; intros d N; cbn; [now rewrite app_nil_r|]. rewrite kset_fresh.
  - rewrite IH; [now rewrite <- app_assoc|]. rewrite map_app. cbn. rewrite <- app_assoc. exact N.
  - cbn in N. apply NoDup_remove_2 in N. intros I. apply N. apply in_or_app. now left.
Qed.
Lemma groups_is s : plain s -> groups eqb us ikey s = iter_groups us ikey s.
Proof.
  intros P. unfold groups. fold (iter_groups us ikey s). apply dict_fresh. cbn [map app]. change (NoDup (map fst (iter_groups us ikey s))). rewrite (iter_keys s P). apply (g_distinct _ _ _ G).
Qed.

(** *** datasets *)
Lemma take_shows rows (t : @table V) : of_length (length ikey) t -> (forall r, In r rows -> r < length ikey) -> shows_rows t rows (take inv rows t).
Proof.
  intros L R. split; [unfold take; rewrite map_map; reflexivity|]. intros j c c' Ec Ec'. unfold take in Ec'. rewrite (map_nth_error _ _ _ Ec) in Ec'. injection Ec' as <-. cbn [snd].
  rewrite map_map. apply map_ext_in. intros r I. symmetry. apply nth_error_nth'. rewrite (L c (nth_error_In _ _ Ec)). now apply R.
Qed.
Lemma rows_range g r : In r (group_rows ikey g) -> r < length ikey.
Proof. intros I. apply group_rows_in in I. apply nth_error_Some. congruence. Qed.

Lemma slice_map {X Y} (f : X -> Y) l lo len : slice (map f l) lo len = map f (slice l lo len).
Proof. unfold slice. now rewrite skipn_map, firstn_map. Qed.
Lemma nth_skip1 (l : list nat) i : nth i (skipn 1 l) 0 = nth (S i) l 0.
Proof. destruct l; cbn; [now destruct i|reflexivity]. Qed.
Lemma turn_is (t : @table V) i : i < length us ->
  turn (pack_of ikey (length us)) (take inv (igroup ikey (length us)) t) i = mkObj (take inv (group_rows ikey (S i)) t) (length (group_rows ikey (S i))).
Proof.
  intros L. unfold turn. rewrite !nth_skip1. f_equal.
  - unfold take. rewrite map_map. apply map_ext. intros c. cbn [fst snd]. f_equal. rewrite slice_map. f_equal. unfold pack_of. cbn [p_ifirst p_ncount]. apply pack_slice. lia.
  - unfold pack_of. cbn [p_ncount]. unfold ncountgroup. rewrite nth_map_seq0 by lia. reflexivity.
Qed.

Lemma loop_gen {S0 : Type} (f : nat -> S0) (l : list (nat * K)) : forall acc o,
  fold_left (fun st q => let c := f (fst q) in (fst st ++ [(snd q, c)], c)) l (acc, o)
  = (acc ++ map (fun q => (snd q, f (fst q))) l, match rev l with [] => o | q :: _ => f (fst q) end).
Proof.
  induction l as [|q l IH]; intros acc o; cbn [fold_left map rev]; [now rewrite app_nil_r|]. cbv zeta. cbn [fst snd]. rewrite IH. f_equal.
  - now rewrite <- app_assoc.
  - destruct (rev l); reflexivity.
Qed.
Lemma loop_is s (t : @table V) : plain s ->
  loop inv us ikey s t = (map (fun q => (snd q, mkObj (take inv (group_rows ikey (S (fst q))) t) (length (group_rows ikey (S (fst q)))))) (combine (seq 0 (length us)) us),
     match rev us with [] => mkObj (take inv (igroup ikey (length us)) t) (length (igroup ikey (length us)))
                     | _ => mkObj (take inv (group_rows ikey (length us)) t) (length (group_rows ikey (length us))) end).
Proof.
  intros P. unfold loop. rewrite P. cbn [pack_of p_igroup]. fold (pack_of ikey (length us)).
  rewrite (loop_gen (turn (pack_of ikey (length us)) (take inv (igroup ikey (length us)) t))). cbn [app]. f_equal.
  - apply map_ext_in. intros [i k] I. cbn [fst snd]. f_equal. apply turn_is. apply in_combine_seq in I. apply nth_error_Some. congruence.
  - destruct (rev us) as [|k r] eqn:E.
    + apply (f_equal (@rev K)) in E. rewrite rev_involutive in E. cbn in E. rewrite E. reflexivity.
    + apply (f_equal (@rev K)) in E. rewrite rev_involutive in E. cbn in E.
      assert (L : length us = S (length (rev r))) by (rewrite E, app_length; cbn; lia).
      assert (Q : forall (l : list K) (x : K) a, rev (combine (seq a (length (l ++ [x]))) (l ++ [x])) = (a + length l, x) :: rev (combine (seq a (length l)) l)).
      { clear. induction l as [|y l IH]; intros x a; cbn; [now rewrite Nat.add_0_r|]. rewrite IH. cbn. f_equal. f_equal. lia. }
      pose proof (Q (rev r) k 0) as Q'. rewrite <- E in Q'. rewrite Q'. cbn [fst]. rewrite Nat.add_0_l. rewrite turn_is by lia. rewrite <- L. reflexivity.
Qed.
End Iter.

(** the rows that pass a filter *)
Lemma grouping_only {K} (keys : list (option K)) us ikey f : length f = length keys -> grouping_of keys us ikey -> grouping_of (only f keys) us (passing (Some f) ikey).
Proof.
  intros L G. pose proof (g_length _ _ _ G) as Lk. cbn [passing].
  assert (C : forall {X Y} (h : X -> bool -> Y) (l : list X) i, length f = length l -> nth_error (map (fun p => h (fst p) (snd p)) (combine l f)) i =
     match nth_error l i, nth_error f i with Some x, Some b => Some (h x b) | _, _ => None end).
  { clear. intros X Y h. induction f as [|b f IH]; intros [|x l] i E; cbn in E; try discriminate; cbn; [now destruct i|]. destruct i as [|i]; cbn; [reflexivity|]. apply IH. lia. }
  pose proof (C _ _ (fun (x : option K) (b : bool) => if b then x else None) keys) as C1. pose proof (C _ _ (fun (x : nat) (b : bool) => if b then x else 0) ikey) as C2.
  constructor.
  - apply (g_distinct _ _ _ G).
  - unfold only. rewrite !map_length, !combine_length. lia.
  - intros i H. unfold only in H. rewrite C1 in H by exact L. rewrite C2 by lia.
    destruct (nth_error keys i) as [x|] eqn:E; [|discriminate]. destruct (nth_error f i) as [[|]|] eqn:Ef; [|..|discriminate].
    + injection H as ->. rewrite (g_null _ _ _ G i E). reflexivity.
    + destruct (nth_error ikey i) eqn:Ei; [reflexivity|]. apply nth_error_None in Ei. assert (i < length keys) by (apply nth_error_Some; congruence). lia.
  - intros i b H. unfold only in H. rewrite C1 in H by exact L. rewrite C2 by lia.
    destruct (nth_error keys i) as [x|] eqn:E; [|discriminate]. destruct (nth_error f i) as [[|]|] eqn:Ef; try discriminate.
    injection H as ->. destruct (g_key _ _ _ G i b E) as [k [E1 E2]]. exists k. now rewrite E1.
Qed.
