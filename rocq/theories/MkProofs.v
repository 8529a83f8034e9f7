(** Proofs about Categoricals over several key columns. *)
From Coq Require Import List Arith ZArith Bool Lia.
From Verif Require Import FlattenModel GroupModel CatModel CatSpec MkSpec MkModel.
Import ListNotations.
Local Open Scope Z_scope.

Lemma name_eqb_eq a b : name_eqb a b = true <-> a = b.
Proof. unfold name_eqb. destruct (name_dec a b); split; congruence. Qed.

Lemma nth_map_b {X} (f : X -> bool) l r d : (r < length l)%nat -> nth r (map f l) false = f (nth r l d).
Proof. intros L. rewrite (nth_indep _ false (f d)) by (now rewrite map_length). apply map_nth. Qed.
Lemma nth_map_c {X} (f : X -> cell) l r d e : (r < length l)%nat -> nth r (map f l) e = f (nth r l d).
Proof. intros L. rewrite (nth_indep _ e (f d)) by (now rewrite map_length). apply map_nth. Qed.

Lemma col_mask_spec c v : askable c v = true ->
  (col_mask c v = inl None /\ forall r, (r < length (col_cells c))%nat -> nth r (col_cells c) (Cn 0) <> v) \/
  (exists m, col_mask c v = inl (Some m) /\ length m = length (col_cells c) /\
     forall r, (r < length (col_cells c))%nat -> (nth r m false = true <-> nth r (col_cells c) (Cn 0) = v)).
Proof.
  destruct c as [l|l|l], v as [s|z]; cbn [askable col_mask col_cells]; intros A; try discriminate; rewrite ?map_length.
  - rewrite A. right. eexists. split; [reflexivity|]. split; [apply map_length|]. intros r L.
    rewrite (nth_map_b _ l r [] L), (nth_map_c Cs l r [] _ L), name_eqb_eq. split; congruence.
  - left. split; [reflexivity|]. intros r L. rewrite (nth_map_c Cs l r [] _ L). discriminate.
  - right. eexists. split; [reflexivity|]. split; [apply map_length|]. intros r L.
    rewrite (nth_map_b _ l r [] L), (nth_map_c Cs l r [] _ L), name_eqb_eq. split; congruence.
  - left. split; [reflexivity|]. intros r L. rewrite (nth_map_c Cs l r [] _ L). discriminate.
  - right. eexists. split; [reflexivity|]. split; [apply map_length|]. intros r L.
    rewrite (nth_map_b _ l r 0 L), (nth_map_c Cn l r 0 _ L), Z.eqb_eq. split; congruence.
Qed.

Lemma nth_and a b r : length a = length b -> nth r (map (fun p : bool * bool => fst p && snd p) (combine a b)) false = nth r a false && nth r b false.
Proof.
  revert b r. induction a as [|x a IH]; intros [|y b] r L; try discriminate; [destruct r; reflexivity|].
  destruct r; [reflexivity|]. cbn. apply IH. injection L. auto.
Qed.

Lemma masks_spec n cols : forall q acc, length q = length cols ->
  forallb (fun p => askable (fst p) (snd p)) (combine cols q) = true ->
  (forall c, In c cols -> length (col_cells c) = n) -> length acc = n ->
  (masks n cols q acc = Got None /\ forall r, (r < n)%nat -> map (fun c => nth r (col_cells c) (Cn 0)) cols <> q) \/
  (exists m, masks n cols q acc = Got (Some m) /\ length m = n /\
     forall r, (r < n)%nat -> (nth r m false = true <-> nth r acc false = true /\ map (fun c => nth r (col_cells c) (Cn 0)) cols = q)).
Proof.
  induction cols as [|c cols IH]; intros [|v q] acc L A Lc La; try discriminate.
  - right. exists acc. split; [reflexivity|]. split; [exact La|]. intros r _. cbn. intuition.
  - cbn [combine forallb fst snd] in A. apply andb_prop in A. destruct A as [A1 A2].
    assert (Hc : length (col_cells c) = n) by (apply Lc; now left).
    cbn [masks]. destruct (col_mask_spec c v A1) as [[E N]|[m [E [Lm M]]]]; rewrite E.
    + left. split; [reflexivity|]. intros r Hr Q. cbn [map] in Q. injection Q as Q1 Q2. apply (N r); [lia|exact Q1].
    + destruct (IH q (map (fun p => fst p && snd p) (combine acc m))) as [[E2 N]|[m2 [E2 [L2 M2]]]].
      * injection L. auto.
      * exact A2.
      * intros d I. apply Lc. now right.
      * rewrite map_length, combine_length. lia.
      * left. split; [exact E2|]. intros r Hr Q. cbn [map] in Q. injection Q as Q1 Q2. apply (N r Hr Q2).
      * right. exists m2. split; [exact E2|]. split; [exact L2|]. intros r Hr. rewrite (M2 r Hr), nth_and by lia.
        rewrite andb_true_iff, (M r) by lia. cbn [map]. split.
        -- intros [[P1 P2] P3]. split; [exact P1|]. congruence.
        -- intros [P1 P2]. injection P2 as P2 P3. auto.
Qed.

Lemma first_true_spec l : forall i, match first_true l i with
  | Some j => (i <= j < i + length l)%nat /\ nth (j - i) l false = true
  | None => forall r, nth r l false = false
  end.
Proof.
  induction l as [|b l IH]; intros i; cbn [first_true]; [intros [|r]; reflexivity|].
  destruct b; [cbn; split; [lia|now rewrite Nat.sub_diag]|]. specialize (IH (S i)).
  destruct (first_true l (S i)) as [j|].
  - destruct IH as [B T]. split; [cbn [length]; lia|]. replace (j - i)%nat with (S (j - S i)) by lia. exact T.
  - intros [|r]; [reflexivity|apply IH].
Qed.

Lemma uniq_length k : length (uniq k) = ncats k.
Proof. unfold uniq. now rewrite map_length, seq_length. Qed.
Lemma uniq_nth k r : (r < ncats k)%nat -> nth_error (uniq k) r = Some (map (fun c => nth r (col_cells c) (Cn 0)) (k_cols k)).
Proof.
  intros L. unfold uniq. rewrite (map_nth_error _ r (seq 0 (ncats k)) (d := r)); [reflexivity|].
  rewrite (nth_error_nth' _ 0%nat) by (rewrite seq_length; lia). now rewrite seq_nth.
Qed.

(** the index found is the number of the category asked for, or lies below all codes *)
Lemma index_spec k q : regular k -> asks k q ->
  (exists i, nth_error (uniq k) i = Some q /\ multikey_index k q = Got (Z.of_nat i + k_base k)) \/
  (~ In q (uniq k) /\ multikey_index k q = Got (-2 + k_base k)).
Proof.
  intros [Ne [Lc [ND [B R]]]] [L A]. unfold multikey_index. rewrite L, Nat.eqb_refl. cbn [negb].
  destruct (masks_spec (ncats k) (k_cols k) q (repeat true (ncats k)) L A Lc (repeat_length _ _)) as [[E N]|[m [E [Lm M]]]]; rewrite E.
  - right. split; [|reflexivity]. intros I. destruct (In_nth_error _ _ I) as [r Er].
    assert (Hr : (r < ncats k)%nat) by (rewrite <- uniq_length; apply nth_error_Some; congruence).
    rewrite (uniq_nth k r Hr) in Er. apply (N r Hr). congruence.
  - pose proof (first_true_spec m 0) as F. destruct (first_true m 0) as [j|].
    + destruct F as [Bj T]. rewrite Nat.sub_0_r in T. left. exists j. split; [|reflexivity].
      rewrite uniq_nth by lia. f_equal. apply (M j); [lia|exact T].
    + right. split; [|reflexivity]. intros I. destruct (In_nth_error _ _ I) as [r Er].
      assert (Hr : (r < ncats k)%nat) by (rewrite <- uniq_length; apply nth_error_Some; congruence).
      rewrite (uniq_nth k r Hr) in Er. specialize (F r). assert (nth r m false = true) as T; [|congruence].
      apply (M r Hr). split; [rewrite (nth_indep _ false true) by (rewrite repeat_length; lia); now rewrite nth_repeat|congruence].
Qed.

Lemma tuple_of_cval k code : tuple_of k code = CatSpec.cval (k_base k) (uniq k) code.
Proof. reflexivity. Qed.

Lemma code_tuple k code i q : regular k -> nth_error (uniq k) i = Some q -> (code = Z.of_nat i + k_base k <-> tuple_of k code = Some q).
Proof.
  intros [Ne [Lc [ND [B R]]]] E. unfold tuple_of. destruct (Z.ltb_spec code (k_base k)) as [Lt|Ge]; [split; [lia|discriminate]|].
  split.
  - intros ->. replace (Z.to_nat (Z.of_nat i + k_base k - k_base k)) with i by lia. exact E.
  - intros E2. assert (Z.to_nat (code - k_base k) = i); [|lia].
    apply (proj1 (NoDup_nth_error (uniq k)) ND); [apply nth_error_Some; congruence|congruence].
Qed.
Lemma code_missing k code q : regular k -> In code (k_codes k) -> ~ In q (uniq k) -> code <> -2 + k_base k /\ tuple_of k code <> Some q.
Proof.
  intros [Ne [Lc [ND [B R]]]] I N. split; [specialize (R code I); lia|]. unfold tuple_of. destruct (code <? k_base k); [discriminate|].
  intros E. apply N. eapply nth_error_In. exact E.
Qed.

Lemma eq_row k q i code : regular k -> asks k q -> multikey_index k q = Got i -> In code (k_codes k) ->
  (code = i <-> tuple_of k code = Some q).
Proof.
  intros Rg A E I. destruct (index_spec k q Rg A) as [[j [Ej E2]]|[N E2]].
  - assert (i = Z.of_nat j + k_base k) as -> by congruence. apply code_tuple; assumption.
  - assert (i = -2 + k_base k) as -> by congruence. destruct (code_missing k code q Rg I N). tauto.
Qed.
Lemma index_got k q : regular k -> asks k q -> exists i, multikey_index k q = Got i.
Proof. intros Rg A. destruct (index_spec k q Rg A) as [[j [_ E]]|[_ E]]; eauto. Qed.

Lemma all_indices_got k qs : regular k -> Forall (asks k) qs ->
  exists l, all_indices k qs = Got l /\ Forall2 (fun q i => multikey_index k q = Got i) qs l.
Proof.
  intros Rg. induction 1 as [|q qs A _ [l [E F]]]; [exists []; split; [reflexivity|constructor]|].
  destruct (index_got k q Rg A) as [i Ei]. exists (i :: l). cbn [all_indices]. rewrite Ei, E. split; [reflexivity|now constructor].
Qed.

Lemma show_tuple_row k code : regular k -> In code (k_codes k) ->
  show_tuple k code = match tuple_of k code with Some t => Val t | None => if k_base k =? 1 then Filtered else Bang code end.
Proof.
  intros [Ne [Lc [ND [B R]]]] I. specialize (R code I). unfold show_tuple, show_code, tuple_of. rewrite uniq_length.
  destruct (Z.ltb_spec (code - k_base k) 0), (Z.ltb_spec code (k_base k)); try lia; cbn [orb].
  - destruct (Z.eqb_spec (k_base k) 1) as [E|_]; [|reflexivity]. destruct (Z.eqb_spec code 0); [reflexivity|lia].
  - destruct (Z.leb_spec (Z.of_nat (ncats k)) (code - k_base k)); [lia|].
    destruct (nth_error (uniq k) (Z.to_nat (code - k_base k))) eqn:E; [reflexivity|].
    apply nth_error_None in E. rewrite uniq_length in E. lia.
Qed.

(** ** assignment *)
Lemma put_mask_nth m v : forall codes r, length m = length codes -> nth_error (put_mask m v codes) r =
  match nth_error m r with Some true => Some v | Some false => nth_error codes r | None => None end.
Proof.
  unfold put_mask. induction m as [|b m IH]; intros [|c codes] r L; try discriminate; [destruct r; reflexivity|].
  destruct r; [cbn; destruct b; reflexivity|]. cbn. apply IH. injection L. auto.
Qed.
Lemma put_mask_in m v : forall codes x, In x (put_mask m v codes) -> x = v \/ In x codes.
Proof.
  unfold put_mask. intros codes x I. apply in_map_iff in I. destruct I as [[b c] [E I]]. cbn [fst snd] in E.
  apply in_combine_r in I. destruct b; subst; auto.
Qed.
Lemma masks_len n : forall cols q acc m, (length acc <= n)%nat -> masks n cols q acc = Got (Some m) -> (length m <= n)%nat.
Proof.
  induction cols as [|c cols IH]; intros [|v q] acc m L M; cbn [masks] in M; try (assert (acc = m) as <- by congruence; exact L).
  destruct (col_mask c v) as [[m1|]|o]; [|discriminate|destruct o; discriminate].
  eapply IH; [|exact M]. rewrite map_length, combine_length. lia.
Qed.
Lemma source_range k v z : regular k -> source_code k v = Got z -> (k_base k - 1 <= z < k_base k + Z.of_nat (ncats k)).
Proof.
  intros Rg E. pose proof Rg as Rg'. destruct Rg' as [Ne [Lc [ND [B R]]]]. destruct v as [q|c]; cbn [source_code] in E.
  - destruct (multikey_index k q) as [i| |] eqn:Ei; try discriminate.
    destruct (Z.ltb_spec (-1) i) as [P|]; [|discriminate]. injection E as <-.
    unfold multikey_index in Ei. destruct (negb (length q =? length (k_cols k))%nat) eqn:L; [discriminate|].
    apply negb_false_iff, Nat.eqb_eq in L.
    destruct (masks (ncats k) (k_cols k) q (repeat true (ncats k))) as [[m|]| |] eqn:M; try discriminate; [|assert (i = -2 + k_base k) by congruence; lia].
    assert (Lm : (length m <= ncats k)%nat).
    { eapply masks_len; [|exact M]. rewrite repeat_length. lia. }
    pose proof (first_true_spec m 0) as F. destruct (first_true m 0) as [j|];
      [assert (i = Z.of_nat j + k_base k) by congruence|assert (i = -2 + k_base k) by congruence]; lia.
  - destruct (Z.ltb_spec c 0), (Z.ltb_spec (Z.of_nat (ncats k) - 1 + k_base k) c); cbn [orb] in E; try discriminate. injection E as <-. lia.
Qed.
Lemma assign_regular k t v k' : regular k -> assign k t v = Got k' -> regular k' /\ k_base k' = k_base k /\ k_cols k' = k_cols k.
Proof.
  intros Rg E. unfold assign in E. destruct (source_code k v) as [z| |] eqn:Ez; try discriminate.
  pose proof (source_range k v z Rg Ez) as Z0. destruct Rg as [Ne [Lc [ND [B R]]]].
  destruct (target_mask k t) as [m| |]; try discriminate. injection E as <-. split; [|split; reflexivity].
  repeat split; try assumption.
  - cbn [k_codes k_base] in *. destruct (put_mask_in _ _ _ _ H) as [->|I]; [lia|apply R; exact I].
  - cbn [k_codes k_base] in *. change (ncats _) with (ncats k). destruct (put_mask_in _ _ _ _ H) as [->|I]; [lia|apply R; exact I].
Qed.
Lemma steps_regular h : forall k, regular k -> regular (fold_left assign_step h k) /\ k_base (fold_left assign_step h k) = k_base k /\ k_cols (fold_left assign_step h k) = k_cols k.
Proof.
  induction h as [|a h IH]; intros k Rg; [split; [exact Rg|split; reflexivity]|]. cbn [fold_left].
  assert (G : regular (assign_step k a) /\ k_base (assign_step k a) = k_base k /\ k_cols (assign_step k a) = k_cols k).
  { unfold assign_step. destruct (assign k (fst a) (snd a)) eqn:E; [eapply assign_regular; eassumption| |]; (split; [exact Rg|split; reflexivity]). }
  destruct G as [G1 [G2 G3]]. destruct (IH _ G1) as [H1 [H2 H3]]. rewrite <- G2, <- G3. auto.
Qed.
