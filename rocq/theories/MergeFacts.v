(** Array lemmas for the merge proofs. *)
From Coq Require Import List Arith Bool Lia Permutation.
From Verif Require Import Sched SchedFacts GroupModel GroupFacts MergeModel MergeSpec.
Import ListNotations.

(** *** parallel loops whose stores agree *)
Lemma interleave_in {V} (its : list (list (store V))) ws : interleave its ws -> forall w, In w ws <-> In w (concat its).
Proof.
  induction 1 as [its H|pre w l post ws H IH]; intros x.
  - cbn. split; [tauto|]. intros Hx. apply in_concat in Hx. destruct Hx as (l & Hl & Hx).
    rewrite Forall_forall in H. rewrite (H l Hl) in Hx. contradiction.
  - cbn. rewrite IH, !concat_app. cbn. rewrite !in_app_iff. cbn. rewrite in_app_iff. tauto.
Qed.
Lemma run_agree {V} (ws : list (store V)) m p v :
  (forall w, In w ws -> fst w = p -> snd w = v) -> (exists w, In w ws /\ fst w = p) -> run_stores ws m p = v.
Proof.
  induction ws as [|[a u] ws IH] using rev_ind; intros A (w & Hw & E); [contradiction|].
  rewrite run_stores_app. cbn. unfold do_store. cbn. destruct (Nat.eqb_spec p a) as [->|Ne].
  - apply (A (a, u)); [apply in_or_app; right; now left|reflexivity].
  - apply IH.
    + intros w' Hw'. apply A. apply in_or_app. now left.
    + apply in_app_or in Hw. destruct Hw as [Hw|[<-|[]]]; [|cbn in E; congruence]. eauto.
Qed.
Lemma nth_map_d {X Y} (f : X -> Y) l i d d' : i < length l -> nth i (map f l) d' = f (nth i l d).
Proof. intros H. rewrite (nth_indep _ d' (f d)) by (now rewrite map_length). apply map_nth. Qed.
Lemma map_nth_seq {X} (l : list X) d : map (fun i => nth i l d) (seq 0 (length l)) = l.
Proof.
  apply (nth_ext _ _ d d); [now rewrite map_length, seq_length|]. intros i Hi. rewrite map_length, seq_length in Hi.
  now rewrite nth_map_seq by exact Hi.
Qed.
Lemma map_seq_ext {X} (f g : nat -> X) n : (forall i, i < n -> f i = g i) -> map f (seq 0 n) = map g (seq 0 n).
Proof. intros H. apply map_ext_in. intros i Hi. apply in_seq in Hi. apply H. lia. Qed.

(** *** running sums *)
Lemma cumsum_from_length l : forall s, length (cumsum_from s l) = length l.
Proof. induction l; intros; cbn; auto. Qed.
Lemma cumsum_length l : length (cumsum l) = length l.
Proof. apply cumsum_from_length. Qed.
Section Blocks.
Context {X Y : Type} (f : X -> list Y).
Definition upto (l : list X) (n : nat) : list Y := concat (map f (firstn n l)).
Lemma cumsum_from_nth l : forall s i, i < length l -> nth i (cumsum_from s (map (fun x => length (f x)) l)) 0 = s + length (upto l (S i)).
Proof.
  induction l as [|x l IH]; cbn; intros s i H; [lia|]. unfold upto in *. destruct i as [|i]; cbn [nth firstn map concat].
  - rewrite app_nil_r. reflexivity.
  - rewrite IH by lia. cbn [firstn map concat]. rewrite !app_length. lia.
Qed.
Lemma cumsum_nth l i : i < length l -> nth i (cumsum (map (fun x => length (f x)) l)) 0 = length (upto l (S i)).
Proof. intros H. unfold cumsum. now rewrite cumsum_from_nth by exact H. Qed.
Lemma cumsum_off l i : i < length l -> (if i =? 0 then 0 else nth (i - 1) (cumsum (map (fun x => length (f x)) l)) 0) = length (upto l i).
Proof.
  intros H. destruct i as [|i]; [reflexivity|]. cbn [Nat.eqb]. replace (S i - 1) with i by lia. apply cumsum_nth. lia.
Qed.
Lemma upto_S l i d : i < length l -> upto l (S i) = upto l i ++ f (nth i l d).
Proof.
  intros H. unfold upto. assert (E : firstn (S i) l = firstn i l ++ [nth i l d]).
  { revert i H. induction l as [|x l IH]; cbn; intros i H; [lia|]. destruct i as [|i]; [reflexivity|].
    cbn [firstn app]. f_equal. apply IH. lia. }
  rewrite E, map_app, concat_app. cbn. now rewrite app_nil_r.
Qed.
Lemma upto_all l : upto l (length l) = concat (map f l).
Proof. unfold upto. now rewrite firstn_all. Qed.
Lemma upto_le l i j : i <= j -> length (upto l i) <= length (upto l j).
Proof.
  intros H. unfold upto. rewrite <- (firstn_skipn i (firstn j l)), firstn_firstn, Nat.min_l by lia.
  rewrite map_app, concat_app, app_length. lia.
Qed.
Lemma cumsum_last l : last (cumsum (map (fun x => length (f x)) l)) 0 = length (concat (map f l)).
Proof.
  rewrite <- upto_all. destruct l as [|x l]; [reflexivity|].
  assert (H := cumsum_nth (x :: l) (length l) ltac:(cbn; lia)).
  cbn [length]. rewrite <- H.
  assert (G : forall (q : list nat) n, length q = S n -> last q 0 = nth n q 0).
  { clear. induction q as [|a q IH]; cbn; intros n Hn; [lia|]. destruct q as [|b q]; [cbn in Hn; assert (n = 0) by lia; now subst|].
    destruct n as [|n]; [cbn in Hn; lia|]. apply IH. cbn in *. lia. }
  apply G. rewrite cumsum_length, map_length. reflexivity.
Qed.
(** position [p] of the concatenation lies in block [i] *)
Lemma block_of l p d : p < length (concat (map f l)) -> exists i, i < length l /\ length (upto l i) <= p < length (upto l (S i)) /\
  forall dy, nth p (concat (map f l)) dy = nth (p - length (upto l i)) (f (nth i l d)) dy.
Proof.
  intros H. rewrite <- upto_all in *.
  assert (G : forall n, n <= length l -> p < length (upto l n) -> exists i, i < n /\ length (upto l i) <= p < length (upto l (S i)) /\
     forall dy, nth p (upto l n) dy = nth (p - length (upto l i)) (f (nth i l d)) dy).
  { induction n as [|n IH]; intros Ln Hp; [cbn in Hp; lia|].
    destruct (Nat.lt_ge_cases p (length (upto l n))) as [C|C].
    - destruct (IH ltac:(lia) C) as (i & Hi & B & E). exists i. split; [lia|]. split; [exact B|]. intros dy.
      rewrite (upto_S l n d) by lia. rewrite app_nth1 by exact C. apply E.
    - exists n. split; [lia|]. split; [lia|]. intros dy. rewrite (upto_S l n d) by lia. now rewrite app_nth2 by exact C. }
  destruct (G (length l) ltac:(lia) H) as (i & Hi & B & E). exists i. auto.
Qed.
Lemma in_block l i j d dy : i < length l -> j < length (f (nth i l d)) ->
  length (upto l i) + j < length (concat (map f l)) /\ nth (length (upto l i) + j) (concat (map f l)) dy = nth j (f (nth i l d)) dy.
Proof.
  intros Hi Hj. assert (L1 : length (upto l (S i)) = length (upto l i) + length (f (nth i l d))) by (rewrite (upto_S l i d) by exact Hi; apply app_length).
  assert (L2 := upto_le l (S i) (length l) ltac:(lia)). rewrite upto_all in L2. split; [lia|].
  replace (concat (map f l)) with (upto l (S i) ++ concat (map f (skipn (S i) l)))
    by (unfold upto; now rewrite <- concat_app, <- map_app, firstn_skipn).
  rewrite app_nth1 by lia. rewrite (upto_S l i d) by exact Hi.
  rewrite app_nth2 by lia. f_equal. lia.
Qed.
End Blocks.

(** *** masks and scatters *)
Lemma compress_length {X} (m : list bool) (l : list X) : length m = length l -> length (compress m l) = length (filter (fun b => b) m).
Proof. revert l. induction m as [|b m IH]; destruct l; cbn; intros H; try lia. destruct b; cbn; rewrite IH by lia; reflexivity. Qed.
Lemma compress_map {X Y} (f : X -> Y) m l : compress m (map f l) = map f (compress m l).
Proof. revert l. induction m as [|b m IH]; destruct l; cbn; auto. destruct b; cbn; now rewrite IH. Qed.
Lemma compress_filter {X} (f : X -> bool) l : compress (map f l) l = filter f l.
Proof. induction l as [|x l IH]; cbn; auto. destruct (f x); now rewrite IH. Qed.
Lemma upd_length {X} i (v : X) l : length (upd i v l) = length l.
Proof.
  unfold upd. destruct (Nat.ltb_spec i (length l)); [|reflexivity]. rewrite app_length, firstn_length. cbn [length].
  rewrite skipn_length. lia.
Qed.
Lemma nth_upd {X} i (v : X) l k d : i < length l -> nth k (upd i v l) d = if k =? i then v else nth k l d.
Proof.
  intros H. unfold upd. destruct (Nat.ltb_spec i (length l)); [|lia].
  destruct (Nat.eqb_spec k i) as [->|Ne].
  - rewrite app_nth2; rewrite firstn_length, Nat.min_l by lia; [|lia]. now rewrite Nat.sub_diag.
  - destruct (Nat.lt_ge_cases k i) as [C|C].
    + rewrite app_nth1 by (rewrite firstn_length; lia).
      rewrite <- (firstn_skipn i l) at 2. rewrite app_nth1; [reflexivity|]. rewrite firstn_length. lia.
    + rewrite app_nth2; rewrite firstn_length, Nat.min_l by lia; [|lia].
      destruct (k - i) as [|q] eqn:E; [lia|]. cbn [nth].
      rewrite <- (firstn_skipn (S i) l) at 2. rewrite app_nth2; rewrite firstn_length, Nat.min_l by lia; [|lia].
      f_equal. lia.
Qed.
Lemma scatter_length {X} idx (vals : list X) arr : length (scatter idx vals arr) = length arr.
Proof. revert vals arr. induction idx as [|i idx IH]; destruct vals; cbn; intros; auto. rewrite IH. apply upd_length. Qed.
Section Scatter.
Context {X : Type}.
Lemma scatter_miss (l : list (option nat)) (vals arr : list X) k d :
  (forall k', nth_error l k' <> Some (Some k)) -> (forall j, In (Some j) l -> j < length arr) ->
  nth k (scatter (somes l) (compress (map is_some l) vals) arr) d = nth k arr d.
Proof.
  revert vals arr. induction l as [|o l IH]; cbn; intros vals arr H R; [reflexivity|].
  assert (Hl : forall k', nth_error l k' <> Some (Some k)) by (intros k'; exact (H (S k'))).
  destruct o as [j|]; cbn; destruct vals as [|v vals]; cbn; try reflexivity.
  - rewrite IH; [|exact Hl|intros j' Hj'; rewrite upd_length; apply R; now right].
    rewrite nth_upd by (apply R; now left). destruct (Nat.eqb_spec k j) as [->|]; [|reflexivity]. elim (H 0). reflexivity.
  - destruct (somes l); reflexivity.
  - apply IH; [exact Hl|]. intros j Hj. apply R. now right.
Qed.
Lemma scatter_hit (l : list (option nat)) (vals arr : list X) k k' d :
  nth_error l k' = Some (Some k) -> (forall k'', nth_error l k'' = Some (Some k) -> k'' = k') ->
  (forall j, In (Some j) l -> j < length arr) -> length vals = length l ->
  nth k (scatter (somes l) (compress (map is_some l) vals) arr) d = nth k' vals d.
Proof.
  revert k' vals arr. induction l as [|o l IH]; cbn; intros k' vals arr H U R L; [now destruct k'|].
  destruct vals as [|v vals]; [cbn in L; lia|]. destruct k' as [|k'].
  - cbn in H. injection H as ->. cbn.
    rewrite scatter_miss.
    + rewrite nth_upd by (apply R; now left). now rewrite Nat.eqb_refl.
    + intros q Hq. specialize (U (S q) Hq). lia.
    + intros j Hj. rewrite upd_length. apply R. now right.
  - destruct o as [j|]; cbn; apply IH; auto.
    + intros q Hq. specialize (U (S q) Hq). lia.
    + intros j' Hj'. rewrite upd_length. apply R. now right.
    + intros q Hq. specialize (U (S q) Hq). lia.
Qed.
End Scatter.
Lemma somes_length {X} (l : list (option X)) : length (somes l) = length (filter (fun b => b) (map is_some l)).
Proof. induction l as [|[x|] l IH]; cbn; auto. Qed.
Lemma compress_repeat {X} m (x : X) n : length m = n -> compress m (repeat x n) = repeat x (length (filter (fun b => b) m)).
Proof. revert n. induction m as [|b m IH]; cbn; intros n H; [now destruct n|]. destruct n; [lia|]. cbn. destruct b; cbn; rewrite IH by lia; reflexivity. Qed.
Lemma somes_map {X Y} (f : X -> option Y) l : somes (map f l) = flat_map (fun x => match f x with Some y => [y] | None => [] end) l.
Proof. induction l as [|x l IH]; cbn; auto. destruct (f x); cbn; now rewrite IH. Qed.
