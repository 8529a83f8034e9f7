From Coq Require Import List Arith Bool ZArith Permutation Lia.
From Verif Require Import FlattenModel DsModel DsProofs3 GroupingModel GroupingSpec AggModel AggSpec AggProofs AggProofs2 Acc2Model Acc2Spec.
Import ListNotations.

Section A.
Context {V : Type}.
Variable inv : V.

Lemma slice_seq (g : nat -> V) N s e : s <= e -> e <= N -> slice (map g (seq 0 N)) s e = map g (seq s (e - s)).
Proof.
  intros H1 H2. unfold slice. rewrite skipn_map. rewrite firstn_map. f_equal.
  replace N with (s + ((e - s) + (N - e))) by lia. rewrite seq_app, skipn_app, seq_length, Nat.sub_diag. rewrite skipn_all2 by (rewrite seq_length; lia).
  cbn [skipn app]. rewrite seq_app, firstn_app, seq_length, Nat.sub_diag. cbn [firstn]. rewrite app_nil_r. apply firstn_all2. rewrite seq_length. lia.
Qed.
Lemma map_seq_shift (g : nat -> V) n : forall a k, map g (seq (a + k) n) = map (fun i => g (k + i)) (seq a n).
Proof. induction n as [|n IH]; intros a k; cbn [seq map]; [reflexivity|]. f_equal; [f_equal; lia|]. apply (IH (S a)). Qed.
Lemma slice_raw (g : nat -> V) N (sf : bool) R j : S j * S R <= N ->
  slice (map g (seq 0 N)) ((if sf then 0 else 1) + j * (R + 1)) ((if sf then 0 else 1) + j * (R + 1) + (R + 1) - (if sf then 0 else 1)) = raw sf (fun i => g (j * S R + i)) R.
Proof.
  intros H. unfold raw. rewrite slice_seq by (destruct sf; lia). rewrite map_seq_shift.
  destruct sf; cbn [lead].
  - replace (0 + j * (R + 1) + (R + 1) - 0 - (0 + j * (R + 1))) with (S R) by lia. cbn [seq map app]. f_equal; [f_equal; lia|].
    rewrite <- seq_shift, map_map. apply map_ext. intros i. f_equal. lia.
  - replace (1 + j * (R + 1) + (R + 1) - 1 - (1 + j * (R + 1))) with R by lia. cbn [app]. rewrite <- seq_shift, map_map. apply map_ext. intros i. f_equal. lia.
Qed.
Lemma slice_full (g : nat -> V) N R j : S j * S R <= N -> slice (map g (seq 0 N)) (j * S R) (j * S R + S R) = map (fun i => g (j * S R + i)) (seq 0 (S R)).
Proof. intros H. rewrite slice_seq by lia. replace (j * S R + S R - j * S R) with (S R) by lia. rewrite <- (map_seq_shift g (S R) 0 (j * S R)). f_equal. Qed.

Lemma nth_map {X Y} (f : X -> Y) l r d d0 : r < length l -> nth r (map f l) d = f (nth r l d0).
Proof. intros H. rewrite (nth_indep _ d (f d0)) by now rewrite map_length. apply map_nth. Qed.
(** ** cells *)
Lemma codes_nth n l r : codes_in n l -> nth r l 0 <= n.
Proof.
  intros H. destruct (lt_dec r (length l)) as [L|L]; [|rewrite nth_overflow by lia; lia]. unfold codes_in in H. rewrite Forall_forall in H. apply H, nth_In, L.
Qed.
Lemma ikey2_length a : length (x_code (a_col a)) = length (x_code (a_row a)) -> filter_ok (length (x_code (a_row a))) (a_flt a) ->
  length (ikey2 (V := V) a) = length (x_code (a_row a)).
Proof.
  intros L F. unfold ikey2, combine2keys. destruct (a_flt a) as [f|] eqn:E.
  - rewrite map_length, combine_length, map_length, combine_length, L, (F f eq_refl). lia.
  - rewrite map_length, combine_length. lia.
Qed.
Lemma ikey2_nth a r : length (x_code (a_col a)) = length (x_code (a_row a)) -> filter_ok (length (x_code (a_row a))) (a_flt a) -> r < length (x_code (a_row a)) ->
  nth r (ikey2 (V := V) a) 0 = if passes (a_flt a) r then nth r (x_code (a_col a)) 0 * S (x_n (a_row a)) + nth r (x_code (a_row a)) 0 else 0.
Proof.
  intros L F H. unfold ikey2, combine2keys. 
  set (bins := map _ (combine _ _)).
  assert (B : length bins = length (x_code (a_row a))) by (unfold bins; rewrite map_length, combine_length; lia).
  assert (N : nth r bins 0 = nth r (x_code (a_col a)) 0 * S (x_n (a_row a)) + nth r (x_code (a_row a)) 0).
  { unfold bins. rewrite (nth_map _ _ _ _ (0, 0)) by (rewrite combine_length; lia). rewrite combine_nth by lia. reflexivity. }
  destruct (a_flt a) as [f|] eqn:E; cbn [passes]; [|exact N].
  rewrite (nth_map _ _ _ _ (0, false)) by (rewrite combine_length, (F f eq_refl); lia). rewrite combine_nth by (rewrite (F f eq_refl); lia). cbn [fst snd]. now rewrite N.
Qed.
Lemma bin_place n R (m : nat) i j : i <= R -> m <= R -> n * S R + m = j * S R + i <-> (m = i /\ n = j).
Proof. intros H1 H2. split; [|intros [-> ->]; reflexivity]. intros H. assert (n = j) by nia. subst. split; lia. Qed.
Lemma passes_and f g n r : filter_ok n f -> filter_ok n g -> r < n -> passes (and_filter f g) r = passes f r && passes g r.
Proof.
  intros F G H. destruct f as [f|], g as [g|]; cbn [and_filter passes]; auto; [|now rewrite andb_true_r].
  rewrite (nth_map _ _ _ _ (false, false)) by (rewrite combine_length, (F f eq_refl), (G g eq_refl); lia). rewrite combine_nth by (rewrite (F f eq_refl), (G g eq_refl); lia). reflexivity.
Qed.
Lemma and_filter_ok f g n : filter_ok n f -> filter_ok n g -> filter_ok n (and_filter f g).
Proof.
  intros F G h. destruct f as [f|], g as [g|]; cbn [and_filter]; intros E; auto. injection E as <-. rewrite map_length, combine_length, (F f eq_refl), (G g eq_refl). lia.
Qed.
Section Cell.
Variables (a : acc2 (V := V)) (flt : option (list bool)) (x : list V).
Notation rk := (x_code (a_row a)).
Notation ck := (x_code (a_col a)).
Variable L : length ck = length rk.
Variable F1 : filter_ok (length rk) (a_flt a).
Variable F2 : filter_ok (length rk) flt.
Variable X : length x = length rk.
Variable RC : codes_in (x_n (a_row a)) rk.
(** the call's filter, with or without the constructor's *)
Lemma bin_cell g i j : (g = flt \/ g = and_filter (a_flt a) flt) -> i <= x_n (a_row a) ->
  in_bin (passing g (ikey2 a)) x (j * S (x_n (a_row a)) + i) = select inv rk ck (a_flt a) flt x (cell i j).
Proof.
  intros G I. pose proof (ikey2_length a L F1) as IL.
  assert (FG : filter_ok (length rk) g) by (destruct G as [->| ->]; [exact F2|now apply and_filter_ok]).
  rewrite (in_bin_values inv (ikey2 a) g x) by (rewrite IL; assumption). unfold bin_values, select. rewrite IL. f_equal.
  apply filter_ext_in. intros r Hr. apply in_seq in Hr. unfold bin_of, place, cell.
  rewrite (ikey2_nth a r L F1) by lia.
  assert (PG : match g with Some f => if nth r f false then (if passes (a_flt a) r then nth r ck 0 * S (x_n (a_row a)) + nth r rk 0 else 0) else 0
               | None => if passes (a_flt a) r then nth r ck 0 * S (x_n (a_row a)) + nth r rk 0 else 0 end
             = if passes (a_flt a) r && passes flt r then nth r ck 0 * S (x_n (a_row a)) + nth r rk 0 else 0).
  { assert (Q : passes g r = passes flt r \/ passes g r = passes (a_flt a) r && passes flt r) by (destruct G as [->| ->]; [now left|right; apply (passes_and _ _ _ r F1 F2); lia]).
    transitivity (if passes g r then (if passes (a_flt a) r then nth r ck 0 * S (x_n (a_row a)) + nth r rk 0 else 0) else 0); [now destruct g|].
    destruct Q as [-> | ->]; destruct (passes (a_flt a) r), (passes flt r); reflexivity. }
  rewrite PG. destruct (passes (a_flt a) r && passes flt r); cbn [fst snd].
  - apply eq_true_iff_eq. rewrite Nat.eqb_eq, andb_true_iff, !Nat.eqb_eq. apply bin_place; [exact I|]. now apply codes_nth.
  - apply eq_true_iff_eq. rewrite Nat.eqb_eq, andb_true_iff, !Nat.eqb_eq. pose proof (bin_place 0 (x_n (a_row a)) 0 i j I (Nat.le_0_l _)) as B. cbn [Nat.mul Nat.add] in B. exact B.
Qed.
End Cell.

Lemma filter_filter' {X} (f g : X -> bool) l : filter g (filter f l) = filter (fun x => f x && g x) l.
Proof. induction l as [|x l IH]; cbn [filter]; [reflexivity|]. destruct (f x); cbn [filter andb]; rewrite IH; reflexivity. Qed.
(** ** splitting a selection *)
Lemma split_perm (key : nat -> nat) js : NoDup js -> forall l, Permutation (concat (map (fun j => filter (fun r => key r =? j) l) js)) (filter (fun r => existsb (Nat.eqb (key r)) js) l).
Proof.
  induction 1 as [|j js NI ND IH]; intros l; cbn [map concat existsb].
  - rewrite filter_nil; [constructor|reflexivity].
  - rewrite (IH l). clear IH. induction l as [|r l IHl]; cbn [filter]; [constructor|].
    destruct (Nat.eqb_spec (key r) j) as [E|E]; cbn [orb].
    + assert (N : existsb (Nat.eqb (key r)) js = false).
      { destruct (existsb _ js) eqn:X; [|reflexivity]. apply existsb_exists in X. destruct X as [y [I Y]]. apply Nat.eqb_eq in Y. congruence. }
      rewrite N. cbn [app]. now constructor.
    + destruct (existsb (Nat.eqb (key r)) js); [|exact IHl]. rewrite <- Permutation_middle. now constructor.
Qed.
Lemma select_split rk ck f1 f2 (x : list V) (sel : nat -> nat * nat -> bool) (key : nat * nat -> nat) (base all : nat * nat -> bool) js : NoDup js ->
  (forall j p, sel j p = base p && (key p =? j)) ->
  (forall r, r < length rk -> all (place rk ck f1 f2 r) = base (place rk ck f1 f2 r) && existsb (Nat.eqb (key (place rk ck f1 f2 r))) js) ->
  Permutation (concat (map (fun j => select inv rk ck f1 f2 x (sel j)) js)) (select inv rk ck f1 f2 x all).
Proof.
  intros ND S A. unfold select.
  set (l := filter (fun r => base (place rk ck f1 f2 r)) (seq 0 (length rk))).
  assert (E1 : map (fun j => map (fun r => nth r x inv) (filter (fun r => sel j (place rk ck f1 f2 r)) (seq 0 (length rk)))) js
             = map (map (fun r => nth r x inv)) (map (fun j => filter (fun r => key (place rk ck f1 f2 r) =? j) l) js)).
  { rewrite map_map. apply map_ext. intros j. f_equal. unfold l. rewrite filter_filter'. apply filter_ext. intros r. rewrite S. reflexivity. }
  rewrite E1, <- concat_map. apply Permutation_map. etransitivity; [apply (split_perm _ js ND)|].
  unfold l. rewrite filter_filter'. apply Permutation_refl'. apply filter_ext_in. intros r Hr. apply in_seq in Hr. symmetry. rewrite andb_comm. rewrite andb_comm. apply A. lia.
Qed.
End A.
