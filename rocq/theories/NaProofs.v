(** Proofs about the invalid category of Categoricals. *)
From Coq Require Import List ZArith Bool Lia.
From Verif Require Import FlattenModel CatModel CatSpec CatProofs MkSpec MkModel MkProps NaSpec NaModel.
Import ListNotations.
Local Open Scope Z_scope.

Section Facts.
Context {A : Type} (o : ord A) (T : total o).

Lemma bin_is : forall (k : kind A) (s : A) (c : Z), sound o k ->
  (bin_of o k s = Some c <-> is_cat k c s).
Proof.
  intros [sorted base l|m] s c H; cbn [bin_of is_cat].
  - destruct H as (_ & H). destruct (C182_single_roundtrip A o T sorted base l H s c) as (R & _).
    assert (F : from_bin_single base l c = Got s <-> base <= c /\ nth_error l (Z.to_nat (c - base)) = Some s).
    { unfold from_bin_single. destruct (Z.ltb_spec c base); [split; [discriminate|lia]|].
      destruct (nth_error l (Z.to_nat (c - base))) as [a|]; split; try discriminate.
      - intros [= ->]. auto.
      - intros (_ & [= ->]). reflexivity.
      - intros (_ & X). discriminate. }
    rewrite <- F, <- R. destruct (from_category_single o sorted base l s); split; congruence.
  - destruct H as (N1 & N2). destruct (find (fun p => o_eqb o s (snd p)) m) as [[c' a]|] eqn:E.
    + apply find_some in E. destruct E as (I & E). cbn in E. apply (t_eq o T) in E. subst a. cbn. split.
      * intros [= ->]. exact I.
      * intro J. f_equal. clear - I J N2. induction m as [|[x y] m IH]; [destruct I|].
        cbn in N2. inversion N2 as [|? ? X N]; subst. destruct I as [I|I], J as [J|J]; [congruence| | |auto].
        { exfalso. apply X. replace y with (snd (c, s)) by (cbn; congruence). now apply in_map. }
        { exfalso. apply X. replace y with (snd (c', s)) by (cbn; congruence). now apply in_map. }
    + split; [discriminate|]. intro I. pose proof (find_none _ _ E _ I) as Q. cbn in Q.
      assert (o_eqb o s s = true) by now apply (t_eq o T). congruence.
Qed.

Lemma update_len : forall X i (x : X) l, length (update i x l) = length l.
Proof. intros X i x l. revert i. induction l as [|y l IH]; intros [|i]; cbn; auto. Qed.
Lemma update_same : forall X i (x y : X) l, nth_error l i = Some y -> nth_error (update i x l) i = Some x.
Proof. intros X i x y l. revert i. induction l as [|z l IH]; intros [|i] E; try discriminate; cbn in *; auto. Qed.
Lemma update_other : forall X i j (x : X) l, i <> j -> nth_error (update i x l) j = nth_error l j.
Proof. intros X i j x l. revert i j. induction l as [|z l IH]; intros [|i] [|j] E; cbn; auto; congruence. Qed.

(** a step keeps the Categoricals there are, except for what is set on them *)
Lemma step_old : forall st e j k, nth_error st j = Some k ->
  nth_error (step st e) j = Some (match e with
    | SetInvalid i (Str s) => if Nat.eqb i j then mkK (k_codes k) (k_kind k) (Some s) (k_name k) else k
    | SetName i n => if Nat.eqb i j then mkK (k_codes k) (k_kind k) (k_inv k) (Some n) else k
    | _ => k
    end) /\ (length st <= length (@step A st e))%nat.
Proof.
  intros st e j k E. assert (L : (j < length st)%nat) by (apply nth_error_Some; congruence).
  assert (P : forall x, nth_error (st ++ [x]) j = Some k /\ (length st <= length (st ++ [x]))%nat).
  { intro x. split; [now rewrite nth_error_app1|rewrite app_length; lia]. }
  destruct e as [codes kd inv|i pos|i|i n|i|i a|i n]; cbn [step]; try (destruct (nth_error st i) as [q|] eqn:Q; auto); auto.
  - unfold copy_invalid. destruct (k_kind q) as [sd base l|m]; auto. destruct (base =? 1); auto.
  - destruct a as [s|s|]; cbn [invalid_set]; auto. rewrite update_len. split; [|lia].
    destruct (Nat.eqb_spec i j) as [->|D]; [|now rewrite update_other]. assert (q = k) by congruence. subst q.
    apply (update_same _ _ _ k). exact Q.
  - destruct a; auto. destruct (Nat.eqb_spec i j) as [->|D]; auto. congruence.
  - rewrite update_len. split; [|lia]. destruct (Nat.eqb_spec i j) as [->|D]; [|now rewrite update_other].
    assert (q = k) by congruence. subst q. apply (update_same _ _ _ k). exact Q.
  - destruct (Nat.eqb_spec i j) as [->|D]; auto. congruence.
Qed.
(** a new one has the invalid category it is made with, or none *)
Lemma step_new : forall st e k, nth_error (step st e) (length st) = Some k ->
  k_inv k = match e with New _ _ inv => inv | _ => None end /\ length (@step A st e) = S (length st).
Proof.
  intros st e k E.
  assert (N : nth_error st (length st) = None) by (apply nth_error_None; lia).
  assert (P : forall x, nth_error (st ++ [x]) (length st) = Some k -> x = k /\ length (st ++ [x]) = S (length st)).
  { intros x. rewrite nth_error_app2, Nat.sub_diag by lia. cbn. intros [= ->]. split; [reflexivity|]. rewrite app_length. cbn. lia. }
  destruct e as [codes kd inv|i pos|i|i n|i|i a|i n]; cbn [step] in *; try (destruct (nth_error st i) as [q|] eqn:Q; [|congruence]).
  - destruct (P _ E) as (<- & L). auto.
  - destruct (P _ E) as (<- & L). auto.
  - destruct (P _ E) as (<- & L). auto.
  - destruct (P _ E) as (<- & L). auto.
  - unfold copy_invalid in *. destruct (k_kind q) as [sd base l|m]; [|congruence]. destruct (base =? 1); [|congruence].
    destruct (P _ E) as (<- & L). auto.
  - exfalso. destruct (invalid_set q a); [|congruence]. assert (X : nth_error (update i k0 st) (length st) <> None) by congruence.
    apply nth_error_Some in X. rewrite update_len in X. lia.
  - exfalso. assert (X : nth_error (update i (filtered_set_name q n) st) (length st) <> None) by congruence.
    apply nth_error_Some in X. rewrite update_len in X. lia.
Qed.
Lemma step_len : forall st e, (length (@step A st e) <= S (length st))%nat.
Proof.
  intros st e. assert (P : forall x, (length (st ++ [x]) <= S (length st))%nat) by (intro x; rewrite app_length; cbn; lia).
  destruct e as [codes kd inv|i pos|i|i n|i|i a|i n]; cbn [step]; auto; destruct (nth_error st i) as [q|]; auto.
  - destruct (copy_invalid q); auto.
  - destruct (invalid_set q a); auto. rewrite update_len. lia.
  - rewrite update_len. lia.
Qed.
Lemma run_snoc : forall ops e, run (ops ++ [e]) = @step A (run ops) e.
Proof. intros ops e. unfold run. now rewrite fold_left_app. Qed.
Lemma told_snoc : forall (ops : list (op A)) (e : op A) j s,
  told (ops ++ [e]) j s <->
  ((exists codes k, e = New codes k (Some s)) /\ length (run ops) = j) \/ (e = SetInvalid j (Str s) /\ (j < length (run ops))%nat) \/
  (told ops j s /\ forall s', e <> SetInvalid j (Str s')).
Proof.
  intros ops e j s. split.
  - intros (pre & x & post & E & H & N). destruct post as [|y post _] using rev_ind.
    + apply app_inj_tail in E. destruct E as (-> & ->). destruct H as [(H & L)|(H & L)]; auto.
    + rewrite app_comm_cons, app_assoc in E. apply app_inj_tail in E. destruct E as (-> & ->). right. right. split.
      * exists pre, x, post. split; [reflexivity|]. split; [exact H|]. intros s' I. apply (N s'). apply in_or_app. now left.
      * intros s' ->. apply (N s'). apply in_or_app. right. now left.
  - intros [(H & L)|[(H & L)|((pre & x & post & -> & H & N) & D)]].
    + exists ops, e, []. split; [reflexivity|]. split; [left; auto|]. intros s' [].
    + exists ops, e, []. split; [reflexivity|]. split; [right; auto|]. intros s' [].
    + exists pre, x, (post ++ [e]). split; [now rewrite <- app_assoc|]. split; [exact H|]. intros s' I. apply in_app_or in I.
      destruct I as [I|[I|[]]]; [now apply (N s')|now apply (D s')].
Qed.
Lemma told_lt : forall (ops : list (op A)) j s, told ops j s -> (j < length (run ops))%nat.
Proof.
  intros ops j s. induction ops as [|e ops IH] using rev_ind.
  - intros (pre & x & post & E & _). destruct pre; discriminate.
  - rewrite told_snoc, run_snoc. assert (M : (length (run ops) <= length (step (run ops) e))%nat).
    { destruct (run ops) as [|k st] eqn:R; [cbn; lia|]. apply (step_old (k :: st) e 0 k eq_refl). }
    intros [((codes & k & ->) & <-)|[(_ & L)|(H & _)]].
    + cbn [step]. rewrite app_length. cbn. lia.
    + lia.
    + specialize (IH H). lia.
Qed.
Lemma told_is : forall (ops : list (op A)) j k s, nth_error (run ops) j = Some k -> (k_inv k = Some s <-> told ops j s).
Proof.
  induction ops as [|e ops IH] using rev_ind; intros j k s E.
  - destruct j; discriminate.
  - rewrite run_snoc in E. rewrite told_snoc. destruct (nth_error (run ops) j) as [k0|] eqn:E0.
    + destruct (step_old _ e _ _ E0) as (S1 & _). rewrite S1 in E. injection E as <-.
      assert (L : (j < length (run ops))%nat) by (apply nth_error_Some; congruence). specialize (IH j k0 s E0).
      destruct e as [codes kd inv|i pos|i|i n|i|i a|i n];
        try (rewrite IH; split; [intro H; right; right; split; [exact H|discriminate]|intros [(_ & X)|[(X & _)|(H & _)]]; [lia|discriminate|exact H]]).
      * destruct a as [s'|s'|].
        -- destruct (Nat.eqb_spec i j) as [->|D]; cbn [k_inv].
           ++ split; [intros [= ->]; right; left; auto|]. intros [((? & ? & X) & _)|[([= ->] & _)|(_ & X)]]; [discriminate|reflexivity|].
              now destruct (X s').
           ++ rewrite IH. split; [intro H; right; right; split; [exact H|intros s2 [= X _]; auto]|].
              intros [(_ & X)|[([= X _] & _)|(H & _)]]; [lia|auto|exact H]. contradiction.
        -- rewrite IH. split; [intro H; right; right; split; [exact H|discriminate]|]. intros [(_ & X)|[(X & _)|(H & _)]]; [lia|discriminate|exact H].
        -- rewrite IH. split; [intro H; right; right; split; [exact H|discriminate]|]. intros [(_ & X)|[(X & _)|(H & _)]]; [lia|discriminate|exact H].
      * destruct (Nat.eqb i j); cbn [k_inv]; rewrite IH;
          (split; [intro H; right; right; split; [exact H|discriminate]|intros [(_ & X)|[(X & _)|(H & _)]]; [lia|discriminate|exact H]]).
    + assert (J : j = length (run ops)).
      { apply nth_error_None in E0. assert ((j < length (step (run ops) e))%nat) by (apply nth_error_Some; congruence).
        pose proof (step_len (run ops) e). lia. }
      subst j. destruct (step_new _ _ _ E) as (-> & _). split.
      * intro H. left. split; [|reflexivity]. destruct e; try discriminate. subst. eauto.
      * intros [((codes & kd & ->) & _)|[(_ & X)|(H & _)]]; [reflexivity|lia|]. apply told_lt in H. lia.
Qed.
End Facts.
