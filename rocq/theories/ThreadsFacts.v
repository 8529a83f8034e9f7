From Coq Require Import List Arith Lia.
From Verif Require Import Sched Threads.
Import ListNotations.

Section Facts.
Context {L V : Type}.
(** an instruction that reads and writes only cells of region [R] *)
Definition inside (R : nat -> Prop) (f : instr L V) : Prop :=
  (forall l m m', (forall p, R p -> m p = m' p) -> fst (f l m) = fst (f l m') /\ forall p, R p -> snd (f l m) p = snd (f l m') p) /\
  (forall l m p, ~ R p -> snd (f l m) p = m p).
Lemma run_inside R is l (m m' : mem V) : Forall (inside R) is -> (forall p, R p -> m p = m' p) -> forall p, R p -> run_prog l is m p = run_prog l is m' p.
Proof.
  intros H. revert l m m'. induction H as [|f is [F1 F2] H IH]; intros l m m' E p Hp; cbn; [now apply E|].
  destruct (F1 l m m' E) as [E1 E2]. destruct (f l m) as [l1 m1], (f l m') as [l2 m2]. cbn in *. subst l2. now apply IH.
Qed.
Lemma run_outside R is l (m : mem V) p : Forall (inside R) is -> ~ R p -> run_prog l is m p = m p.
Proof.
  intros H Hp. revert l m. induction H as [|f is [F1 F2] H IH]; intros l m; cbn; [reflexivity|].
  assert (Q := F2 l m p Hp). destruct (f l m) as [l1 m1]. cbn in *. now rewrite IH.
Qed.
Lemma inside_load (R : nat -> Prop) p f : R p -> inside R (@load L V p f).
Proof. intros H. split; [|reflexivity]. intros l m m' E. cbn. rewrite (E p H). split; [reflexivity|exact E]. Qed.
Lemma inside_store (R : nat -> Prop) p f : R p -> inside R (@store_to L V p f).
Proof.
  intros H. split.
  - intros l m m' E. cbn. split; [reflexivity|]. intros q Hq. unfold do_store. cbn. destruct (q =? p); [reflexivity|now apply E].
  - intros l m q Hq. cbn. unfold do_store. cbn. destruct (Nat.eqb_spec q p); [congruence|reflexivity].
Qed.
Lemma inside_const R (f : L -> L) : inside R (fun l (m : mem V) => (f l, m)).
Proof. split; [|reflexivity]. intros l m m' E. split; [reflexivity|exact E]. Qed.

(** iterations that work on disjoint regions: every interleaving leaves in region [R i] what
    iteration [i] alone leaves there, and does not touch the rest *)
Definition disjoint_regions (ts : list (thread L V)) (R : nat -> nat -> Prop) : Prop :=
  (forall i t, nth_error ts i = Some t -> Forall (inside (R i)) (snd t)) /\
  (forall i j p, i < length ts -> j < length ts -> R i p -> R j p -> i = j).
Lemma step_nth {X} (pre : list X) x y post i t : nth_error (pre ++ x :: post) i = Some t ->
  (i = length pre /\ t = x) \/ (i <> length pre /\ nth_error (pre ++ y :: post) i = Some t).
Proof.
  intros H. destruct (lt_eq_lt_dec i (length pre)) as [[Hi|Hi]|Hi].
  - right. split; [lia|]. rewrite nth_error_app1 in *; auto.
  - left. subst i. rewrite nth_error_app2 in H by lia. rewrite Nat.sub_diag in H. cbn in H. split; congruence.
  - right. split; [lia|]. rewrite nth_error_app2 in * by lia. destruct (i - length pre) eqn:E; [lia|]. exact H.
Qed.
Lemma par_regions ts (m m2 : mem V) R : par ts m m2 -> disjoint_regions ts R ->
  (forall i t p, nth_error ts i = Some t -> R i p -> m2 p = run_thread t m p) /\
  (forall p, (forall i, i < length ts -> ~ R i p) -> m2 p = m p).
Proof.
  intros H. induction H as [ts m F|pre l f r post m m2 H IH]; intros [D1 D2].
  - split; [|reflexivity]. intros i t p Hi _. apply nth_error_In in Hi. rewrite Forall_forall in F. specialize (F t Hi). unfold run_thread. rewrite F. reflexivity.
  - set (k := length pre).
    assert (Hk : Forall (inside (R k)) (f :: r)).
    { apply (D1 k (l, f :: r)). unfold k. rewrite nth_error_app2, Nat.sub_diag by lia. reflexivity. }
    inversion Hk as [|? ? [F1 F2] Hr]; subst.
    assert (Len : @length (thread L V) (pre ++ (l, f :: r) :: post) = @length (thread L V) (pre ++ (fst (f l m), r) :: post)) by (rewrite !app_length; reflexivity).
    assert (Kl : k < @length (thread L V) (pre ++ (l, f :: r) :: post)) by (unfold k; rewrite app_length; cbn; lia).
    destruct IH as [IH1 IH2].
    { split.
      - intros i t Hi. apply (step_nth _ _ (l, f :: r)) in Hi. destruct Hi as [[-> ->]|[_ Hi]]; [exact Hr|now apply (D1 i)].
      - rewrite <- Len. exact D2. }
    split.
    + intros i t p Hi Hp. assert (Il : i < @length (thread L V) (pre ++ (l, f :: r) :: post)) by (apply nth_error_Some; congruence).
      apply (step_nth _ _ (fst (f l m), r)) in Hi. destruct Hi as [[-> ->]|[Ni Hi]].
      * rewrite (IH1 (length pre) (fst (f l m), r) p); [|rewrite nth_error_app2, Nat.sub_diag by lia; reflexivity|exact Hp].
        unfold run_thread. cbn. destruct (f l m). reflexivity.
      * rewrite (IH1 i t p Hi Hp). unfold run_thread. apply (run_inside (R i)); [|intros q Hq; apply F2|exact Hp].
        -- apply (D1 i t). apply (step_nth _ _ (l, f :: r)) in Hi. destruct Hi as [[? _]|[_ Hi]]; [contradiction|exact Hi].
        -- intros Q. apply Ni. apply (D2 i k q); auto.
    + intros p Hp. rewrite IH2 by (rewrite <- Len; exact Hp). apply F2. now apply Hp.
Qed.
Lemma par_deterministic ts (m m1 m2 : mem V) R : par ts m m1 -> par ts m m2 -> disjoint_regions ts R -> (forall i p, R i p \/ ~ R i p) -> forall p, m1 p = m2 p.
Proof.
  intros P1 P2 D Dec p. destruct (par_regions _ _ _ _ P1 D) as [A1 B1]. destruct (par_regions _ _ _ _ P2 D) as [A2 B2].
  assert (G : forall k, (exists i, i < k /\ R i p) \/ (forall i, i < k -> ~ R i p)).
  { induction k as [|k [(i & Hi & HR)|IH]]; [right; lia|left; exists i; auto|]. destruct (Dec k p) as [H|H]; [left; exists k; auto|].
    right. intros i Hi. destruct (Nat.eq_dec i k) as [->|]; [exact H|apply IH; lia]. }
  destruct (G (length ts)) as [(i & Hi & HR)|H].
  - destruct (nth_error ts i) as [t|] eqn:E; [|apply nth_error_None in E; lia]. rewrite (A1 i t p E HR), (A2 i t p E HR). reflexivity.
  - rewrite B1, B2 by exact H. reflexivity.
Qed.
Lemma par_exists (ts : list (thread L V)) m : exists m2, par ts m m2 /\ m2 = run_all ts m.
Proof.
  assert (G : forall n (pre post : list (thread L V)) (m : mem V), length (concat (map snd post)) = n -> Forall (fun t => snd t = []) pre -> par (pre ++ post) m (run_all post m)).
  { induction n as [n IH] using lt_wf_ind. intros pre post m0 Hn F. revert pre F Hn. induction post as [|[l is] post IHp]; intros pre F Hn.
    - rewrite app_nil_r. now apply par_done.
    - destruct is as [|f r].
      + assert (Q : (pre ++ [(l, [])]) ++ post = pre ++ (l, []) :: post) by (now rewrite <- app_assoc). rewrite <- Q.
        apply IHp; [|exact Hn]. apply Forall_app. split; [exact F|]. constructor; [reflexivity|constructor].
      + apply par_step. assert (Q := IH (n - 1)). replace (run_all ((l, f :: r) :: post) m0) with (run_all ((fst (f l m0), r) :: post) (snd (f l m0))).
        * apply Q; [cbn in Hn; lia|cbn in *; lia|exact F].
        * unfold run_all. cbn [fold_left]. f_equal. unfold run_thread. cbn. destruct (f l m0). reflexivity. }
  exists (run_all ts m). split; [|reflexivity]. now apply (G _ [] ts m eq_refl).
Qed.
End Facts.
