(* Lemmas for C214-C216. *)
From Coq Require Import List ZArith QArith Bool Lia Permutation.
From Verif Require Import RdSpec RdModel.
Import ListNotations.
Local Open Scope Q_scope.

Lemma qplus_comm a b : a + b = b + a.
Proof. destruct a as [n d], b as [m e]. unfold Qplus. cbn [Qnum Qden]. rewrite (Pos.mul_comm d e). f_equal. ring. Qed.
Lemma qplus_assoc a b c : a + (b + c) = (a + b) + c.
Proof. destruct a as [n d], b as [m e], c as [o f]. unfold Qplus. cbn [Qnum Qden]. rewrite !Pos2Z.inj_mul, Pos.mul_assoc. f_equal. ring. Qed.
Lemma qplus_0 a : 0 + a = a.
Proof. destruct a as [n d]. unfold Qplus. cbn [Qnum Qden]. f_equal. rewrite Z.mul_0_l, Z.mul_1_r. reflexivity. Qed.

Lemma oadd_comm a b : oadd a b = oadd b a.
Proof. destruct a, b; cbn; auto. now rewrite qplus_comm. Qed.
Lemma oadd_assoc a b c : oadd a (oadd b c) = oadd (oadd a b) c.
Proof. destruct a, b, c; cbn; auto. now rewrite qplus_assoc. Qed.
Lemma oadd_0 a : oadd (Some 0) a = a.
Proof. destruct a; cbn [oadd]; auto. now rewrite qplus_0. Qed.
Lemma oadd_0r a : oadd a (Some 0) = a.
Proof. rewrite oadd_comm. apply oadd_0. Qed.

Definition e0 : acc := (Some 0, 0%nat).
Lemma plus_comm a b : plus a b = plus b a.
Proof. unfold plus. now rewrite oadd_comm, Nat.add_comm. Qed.
Lemma plus_assoc a b c : plus a (plus b c) = plus (plus a b) c.
Proof. unfold plus. cbn [fst snd]. now rewrite oadd_assoc, Nat.add_assoc. Qed.
Lemma plus_0 a : plus e0 a = a.
Proof. destruct a. unfold plus, e0. cbn [fst snd]. now rewrite oadd_0. Qed.

Definition psum (l : list acc) : acc := fold_right plus e0 l.
Lemma psum_app a b : psum (a ++ b) = plus (psum a) (psum b).
Proof. induction a as [|x a IH]; cbn; [now rewrite plus_0|]. unfold psum in IH. rewrite IH. apply plus_assoc. Qed.
Lemma psum_perm a b : Permutation a b -> psum a = psum b.
Proof.
  unfold psum. induction 1; cbn [fold_right]; auto.
  - now rewrite IHPermutation.
  - rewrite !plus_assoc. f_equal. apply plus_comm.
  - congruence.
Qed.

Lemma prange_sum body (delta : nat -> acc) s :
  (forall i a, body i a = plus a (delta i)) -> prange body s = psum (map delta (concat s)).
Proof.
  intro B. unfold prange.
  assert (T : forall t a, fold_left (fun a i => body i a) t a = plus a (psum (map delta t))).
  { induction t as [|i t IH]; intro a; cbn; [now rewrite plus_comm, plus_0|]. rewrite IH, B. cbn. now rewrite plus_assoc. }
  assert (G : forall s a, fold_left (fun a t => plus a (fold_left (fun a i => body i a) t (Some 0, 0%nat))) s a = plus a (psum (map delta (concat s)))).
  { clear s. induction s as [|t s IH]; intro a; cbn [fold_left concat]; [cbn; now rewrite plus_comm, plus_0|].
    rewrite IH, T, map_app, psum_app. rewrite <- !plus_assoc. f_equal. change (Some 0, 0%nat) with e0. rewrite plus_0. reflexivity. }
  rewrite G. change (Some 0, 0%nat) with e0. apply plus_0.
Qed.

Lemma map_nth_combine {A} (g : option Q -> bool -> A) (x : list (option Q)) (b : list bool) :
  length b = length x ->
  map (fun i => g (nth i x None) (nth i b false)) (seq 0 (length x)) = map (fun p => g (fst p) (snd p)) (combine x b).
Proof.
  revert b. induction x as [|v x IH]; intros [|c b] L; try discriminate; [reflexivity|].
  cbn [length seq map combine nth fst snd]. f_equal. rewrite <- seq_shift, map_map. cbn [nth]. apply IH. cbn in L. lia.
Qed.

(* what one element adds: [h] of its value, if it counts *)
Definition part (h : option Q -> option Q) (ok : option Q -> bool) (v : option Q) (c : bool) : acc :=
  if c && ok v then (h v, 1%nat) else e0.
Lemma psum_parts h ok x b : length b = length x ->
  psum (map (fun p => part h ok (fst p) (snd p)) (combine x b)) =
  (total (map h (filter ok (chosen x b))), length (filter ok (chosen x b))).
Proof.
  revert b. induction x as [|v x IH]; intros [|c b] L; try discriminate; [reflexivity|].
  cbn [combine map chosen fst snd]. cbn [psum fold_right]. fold (psum (map (fun p => part h ok (fst p) (snd p)) (combine x b))).
  rewrite IH by (cbn in L; lia). unfold part at 1. destruct c; cbn [andb]; [|apply plus_0].
  cbn [filter]. destruct (ok v); [|apply plus_0]. reflexivity.
Qed.

Lemma loop_parts h ok x b s : schedule (length x) s -> length b = length x ->
  prange (fun i a => if on b i && ok (at_ x i) then (oadd (fst a) (h (at_ x i)), S (snd a)) else a) s =
  (total (map h (filter ok (chosen x b))), length (filter ok (chosen x b))).
Proof.
  intros SC L.
  rewrite (prange_sum _ (fun i => part h ok (nth i x None) (nth i b false))).
  - rewrite (psum_perm _ (map (fun i => part h ok (nth i x None) (nth i b false)) (seq 0 (length x)))) by (apply Permutation_map; exact SC).
    rewrite (map_nth_combine (part h ok)) by exact L. now apply psum_parts.
  - intros i a. unfold part, on, at_. destruct (_ && _).
    + unfold plus. cbn [fst snd]. f_equal. lia.
    + now rewrite plus_comm, plus_0.
Qed.
Lemma prange_ext f g s : (forall i a, f i a = g i a) -> prange f s = prange g s.
Proof.
  intro F. unfold prange. generalize (Some 0, 0%nat) at 2 4 as a. induction s as [|t s IH]; intro a; cbn [fold_left]; [reflexivity|].
  rewrite IH. f_equal. f_equal. generalize (Some 0, 0%nat) as z. induction t as [|i t IHt]; intro z; cbn [fold_left]; [reflexivity|]. now rewrite IHt, F.
Qed.

Lemma nansum_parts x b s : schedule (length x) s -> length b = length x ->
  fnansumhelper s x b = (total (present (chosen x b)), length (present (chosen x b))).
Proof.
  intros SC L. unfold fnansumhelper.
  assert (LP := loop_parts (fun v => v) (fun v => negb (isnan v)) x b s SC L). cbv beta in LP. rewrite LP, map_id. clear LP.
  assert (E : filter (fun v => negb (isnan v)) (chosen x b) = present (chosen x b)) by (apply filter_ext; intros [q|]; reflexivity).
  now rewrite E.
Qed.
Lemma filter_true {A} (l : list A) : filter (fun _ => true) l = l.
Proof. induction l; cbn; congruence. Qed.
Lemma sum_parts x b s : schedule (length x) s -> length b = length x ->
  fsumhelper s x b = (total (chosen x b), length (chosen x b)).
Proof.
  intros SC L. unfold fsumhelper.
  rewrite (prange_ext _ (fun i a => if on b i && (fun _ => true) (at_ x i) then (oadd (fst a) ((fun v => v) (at_ x i)), S (snd a)) else a)).
  - rewrite (loop_parts (fun v => v) (fun _ => true) x b s SC L). rewrite map_id. now rewrite filter_true.
  - intros i a. now rewrite andb_true_r.
Qed.

Lemma total_none l : total l = None <-> In None l.
Proof.
  induction l as [|v l IH]; cbn; [split; [discriminate|tauto]|]. fold (total l).
  destruct v as [q|]; cbn [oadd].
  - destruct (total l) eqn:E; split.
    + discriminate.
    + intros [H|H]; [discriminate|]. now apply IH in H.
    + intros _. right. now apply IH.
    + reflexivity.
  - split; auto.
Qed.
Lemma size_pos l : l <> [] -> ~ size l == 0.
Proof.
  intros H E. unfold size in E. destruct l as [|v l]; [congruence|]. cbn [length] in E.
  unfold Qeq in E. cbn [Qnum Qden inject_Z] in E. lia.
Qed.
Lemma odiv_mean l : l <> [] -> exists m, odiv (total l) (length l) = Ok m /\ is_mean l m.
Proof.
  intro H. assert (P := size_pos l H). unfold odiv. destruct (length l) as [|n] eqn:E; [destruct l; [congruence|discriminate]|].
  destruct (total l) as [q|] eqn:T; eexists; (split; [reflexivity|]); cbn [is_mean].
  - rewrite T. cbn [same]. unfold size in *. rewrite E in *. field. exact P.
  - now apply total_none.
Qed.
Lemma odiv_nil l : l = [] -> odiv (total l) (length l) = ZeroDivision.
Proof. now intros ->. Qed.

Lemma var_parts l (m : option Q) :
  is_mean l m -> l <> [] ->
  exists v, (if Nat.ltb 1 (length l) then odiv (total (map (fun v => osquare v m) l)) (length l - 1) else Ok None) = Ok v /\ is_var l v.
Proof.
  intros M NE. destruct (Nat.ltb 1 (length l)) eqn:B.
  - apply Nat.ltb_lt in B. unfold odiv. destruct (length l - 1)%nat as [|n] eqn:E; [lia|].
    destruct m as [q|].
    + destruct (total (map (fun v => osquare v (Some q)) l)) as [t|] eqn:T; eexists; (split; [reflexivity|]); cbn [is_var].
      * split; [lia|]. exists q. split; [exact M|].
        replace (map _ l) with (map (fun v => osquare v (Some q)) l) by (apply map_ext; intros [x|]; reflexivity).
        rewrite T. cbn [same]. unfold size. replace (length l) with (S (S n)) by lia.
        replace (inject_Z (Z.of_nat (S (S n))) - 1) with (inject_Z (Z.of_nat (S n))).
        -- field. intro X. unfold Qeq in X. cbn [Qnum Qden inject_Z] in X. lia.
        -- unfold inject_Z, Qminus, Qplus, Qopp. cbn [Qnum Qden]. f_equal. lia.
      * left. apply total_none in T. apply in_map_iff in T as (o & O1 & O2). destruct o; [discriminate|exact O2].
    + assert (T : total (map (fun v => osquare v None) l) = None).
      { apply total_none. destruct l as [|v l]; [congruence|]. left. destruct v; reflexivity. }
      rewrite T. eexists; split; [reflexivity|]. cbn [is_var]. left. exact M.
  - apply Nat.ltb_ge in B. eexists; split; [reflexivity|]. cbn. right. destruct l as [|v [|w l]]; [congruence|reflexivity|cbn in B; lia].
Qed.

Lemma chosen_repeat {A} (x : list A) c : chosen x (repeat c (length x)) = if c then x else [].
Proof. induction x as [|v x IH]; cbn; [destruct c; reflexivity|]. rewrite IH. now destruct c. Qed.
