(** from_jagged_dict with stacked=True *)
From Coq Require Import List Arith Bool Lia.
From Verif Require Import FlattenModel MergeModel MergeColsProofs2 GroupingModel GroupingProofs4 DsModel DsSpec.
Import ListNotations.

Section Stacked.
Context {V : Type}.
Variable zero : V.
Definition prod (l : list nat) : nat := fold_right Nat.mul 1 l.
Definition lens (vs : list (list V)) : list nat := map (@length V) vs.
Lemma prod_app a b : prod (a ++ b) = prod a * prod b.
Proof. unfold prod. induction a as [|x a IH]; cbn; [lia|]. rewrite IH. lia. Qed.
Lemma flat_concat {X Y} (f : X -> list Y) ls : flat_map f (concat ls) = concat (map (flat_map f) ls).
Proof. induction ls as [|l ls IH]; cbn; [reflexivity|]. now rewrite flat_map_app, IH. Qed.
Lemma flat_repeat {X} (x : X) k r : flat_map (fun y => repeat y k) (repeat x r) = repeat x (r * k).
Proof. induction r as [|r IH]; cbn; [reflexivity|]. now rewrite IH, <- repeat_app. Qed.
Lemma map_repeat {X Y} (f : X -> Y) x k : map f (repeat x k) = repeat (f x) k.
Proof. induction k; cbn; congruence. Qed.
Lemma flat_ones {X} (l : list X) : flat_map (fun x => repeat x 1) l = l.
Proof. induction l as [|x l IH]; [reflexivity|]. cbn. cbn in IH. now rewrite IH. Qed.
Lemma block_flat T R (v : list V) : block T R v = concat (repeat (flat_map (fun x => repeat x R) v) T).
Proof. unfold block. now rewrite flat_map_concat_map. Qed.
Lemma block_repeat T R k (v : list V) : flat_map (fun y => repeat y k) (block T R v) = block T (R * k) v.
Proof.
  rewrite !block_flat, flat_concat, map_repeat. do 2 f_equal. induction v as [|x v IH]; cbn; [reflexivity|].
  now rewrite flat_map_app, IH, flat_repeat.
Qed.
Lemma combinations_length (vs : list (list V)) : length (combinations vs) = prod (lens vs).
Proof.
  induction vs as [|l r IH]; [reflexivity|]. change (prod (lens (l :: r))) with (length l * prod (lens r)). rewrite <- IH. cbn [combinations]. clear IH. induction (combinations r) as [|x c IHc]; cbn; [lia|].
  rewrite app_length, map_length, IHc. lia.
Qed.
(** one column of the combinations *)
Definition comb_col (vs : list (list V)) (j : nat) : list V := map (fun r => nth j r zero) (combinations vs).
Lemma comb_col_length vs j : length (comb_col vs j) = prod (lens vs).
Proof. unfold comb_col. now rewrite map_length, combinations_length. Qed.
Lemma comb_col_block vs : forall j, j < length vs ->
  comb_col vs j = block (prod (skipn (S j) (lens vs))) (prod (firstn j (lens vs))) (nth j vs []).
Proof.
  unfold comb_col. induction vs as [|l r IH]; intros j Hj; [cbn in Hj; lia|]. cbn [combinations]. destruct j as [|j].
  - change (skipn 1 (lens (l :: r))) with (lens r). change (prod (firstn 0 (lens (l :: r)))) with 1. cbn [nth]. rewrite block_flat, <- combinations_length.
    rewrite flat_ones. clear IH.
    induction (combinations r) as [|c cs IHc]; cbn; [reflexivity|]. rewrite map_app, IHc, map_map. cbn. now rewrite map_id.
  - cbn [nth]. change (skipn (S (S j)) (lens (l :: r))) with (skipn (S j) (lens r)). change (firstn (S j) (lens (l :: r))) with (length l :: firstn j (lens r)).
    cbn in Hj. specialize (IH j ltac:(lia)). change (prod (length l :: firstn j (lens r))) with (length l * prod (firstn j (lens r))).
    rewrite Nat.mul_comm, <- block_repeat, <- IH. clear IH.
    induction (combinations r) as [|c cs IHc]; [reflexivity|]. cbn [flat_map map]. rewrite map_app, IHc, map_map. f_equal.
    cbn [nth]. clear. induction l as [|y l IHl]; [reflexivity|]. cbn. now rewrite IHl.
Qed.

(** what one pass over the columns does, given the block each unfinished column should receive *)
Section Row.
Variable i out num_out : nat.
Fixpoint row_ok (R : nat) (cols : list (list (list V))) (st : list (list V * bool)) (es : list (list V)) : Prop :=
  match cols, st, es with
  | vals :: cols', (arr, done) :: st', e :: es' =>
      if done then row_ok R cols' st' es'
      else R * length (nth i vals []) <> 0 /\
           block (num_out / (R * length (nth i vals []))) R (nth i vals []) = e /\
           row_ok (R * length (nth i vals [])) cols' st' es'
  | [], [], [] => True
  | _, _, _ => False
  end.
Definition write_col (p : list V * bool) (e : list V) : list V * bool := if snd p then p else (put_slice (fst p) out e, false).
Lemma fill_row_ok cols : forall R st es, row_ok R cols st es ->
  fill_row i out num_out R cols st = Some (map (fun q => write_col (fst q) (snd q)) (combine st es)).
Proof.
  induction cols as [|vals cols IH]; intros R [|[arr done] st] [|e es] H; cbn [row_ok] in H; try contradiction; [reflexivity|].
  cbn [fill_row combine map fst snd]. unfold write_col at 1. cbn [fst snd]. destruct done.
  - rewrite (IH _ _ es H). reflexivity.
  - destruct H as (H1 & H2 & H3). destruct (R * length (nth i vals []) =? 0) eqn:E; [apply Nat.eqb_eq in E; lia|].
    rewrite (IH _ _ es H3). cbn [option_map]. now rewrite H2.
Qed.
End Row.

Section Whole.
Variable cols : list (list (list V)).
Variable m : nat.
Hypothesis LEN : forall vals, In vals cols -> length vals = m.
Hypothesis NE : forall vals i, In vals cols -> i < m -> nth i vals [] <> [].
Definition row (i : nat) : list (list V) := map (fun vals => nth i vals []) cols.
Definition P (i : nat) : nat := prod (lens (row i)).
Definition expected (i j : nat) : list V := comb_col (row i) j.
Lemma row_length i : length (row i) = length cols. Proof. unfold row. apply map_length. Qed.
Lemma row_nth i j vals : nth_error cols j = Some vals -> nth j (row i) [] = nth i vals [].
Proof. intros H. unfold row. apply nth_error_nth. now apply (map_nth_error (fun vals => nth i vals [])). Qed.

Lemma num_rows_ok : num_rows_ar cols m = map P (seq 0 m).
Proof.
  unfold num_rows_ar.
  assert (A : forall cs f, (forall vals, In vals cs -> length vals = m) ->
     fold_left (fun ar vals => map (fun p => fst p * length (snd p)) (combine ar vals)) cs (map f (seq 0 m))
     = map (fun i => f i * prod (lens (map (fun vals => nth i vals []) cs))) (seq 0 m)).
  { induction cs as [|v cs IH]; intros f L; cbn [fold_left].
    - apply map_ext. intros i. cbn. lia.
    - assert (E : map (fun p => fst p * length (snd p)) (combine (map f (seq 0 m)) v) = map (fun i => f i * length (nth i v [])) (seq 0 m)).
      { pose proof (L v (or_introl eq_refl)) as Lv. rewrite <- (map_nth_all [] v) at 1. rewrite Lv. generalize (seq 0 m) as s. induction s as [|x s IHs]; cbn; [reflexivity|]. now rewrite IHs. }
      rewrite E, IH by (intros w Hw; apply L; now right). apply map_ext. intros i.
      change (prod (lens (map (fun vals => nth i vals []) (v :: cs)))) with (length (nth i v []) * prod (lens (map (fun vals => nth i vals []) cs))). lia. }
  assert (R1 : repeat 1 m = map (fun _ => 1) (seq 0 m)) by (rewrite <- (seq_length m 0) at 1; generalize (seq 0 m) as s; induction s; cbn; congruence).
  rewrite R1, (A cols (fun _ => 1) LEN). apply map_ext. intros i. unfold P, row. lia.
Qed.
Definition total := list_sum (map P (seq 0 m)).

Lemma len_pos i l : i < m -> In l (row i) -> 1 <= length l.
Proof. intros Hi H. unfold row in H. apply in_map_iff in H. destruct H as (vals & <- & I). specialize (NE vals i I Hi). destruct (nth i vals []); [congruence|cbn; lia]. Qed.
Lemma prod_pos l : (forall x, In x l -> 1 <= x) -> 1 <= prod l.
Proof. induction l as [|x l IH]; cbn; intros H; [lia|]. specialize (IH (fun y Hy => H y (or_intror Hy))). pose proof (H x (or_introl eq_refl)). fold (prod l). nia. Qed.
Lemma prod_one l x : (forall y, In y l -> 1 <= y) -> prod l = 1 -> In x l -> x = 1.
Proof.
  induction l as [|y l IH]; cbn [In]; intros H E I; [contradiction|]. change (prod (y :: l)) with (y * prod l) in E.
  assert (1 <= prod l) by (apply prod_pos; intros z Hz; apply H; now right). pose proof (H y (or_introl eq_refl)).
  destruct I as [->|I]; [nia|]. apply IH; [intros z Hz; apply H; now right|nia|exact I].
Qed.
Lemma prod_ones l : (forall x, In x l -> x = 1) -> prod l = 1.
Proof. induction l as [|x l IH]; cbn; intros H; [reflexivity|]. fold (prod l). rewrite IH by (intros y Hy; apply H; now right). rewrite (H x (or_introl eq_refl)). reflexivity. Qed.
Lemma lens_in i x : i < m -> In x (lens (row i)) -> 1 <= x.
Proof. intros Hi H. unfold lens in H. apply in_map_iff in H. destruct H as (l & <- & I). eapply len_pos; eauto. Qed.
Lemma lens_split i j vals : nth_error cols j = Some vals ->
  lens (row i) = firstn j (lens (row i)) ++ length (nth i vals []) :: skipn (S j) (lens (row i)).
Proof.
  intros H. assert (Q : nth_error (lens (row i)) j = Some (length (nth i vals []))).
  { unfold lens, row. rewrite map_map. now apply (map_nth_error (fun x => length (nth i x []))). }
  generalize dependent (lens (row i)). clear. intros l. revert j. induction l as [|x l IH]; intros [|j] Q; cbn in *; try discriminate; [congruence|]. f_equal. now apply IH.
Qed.
Lemma P_split i j vals : nth_error cols j = Some vals ->
  P i = length (nth i vals []) * (prod (firstn j (lens (row i))) * prod (skipn (S j) (lens (row i)))).
Proof. intros H. unfold P. rewrite (lens_split i j vals H) at 1. rewrite prod_app. change (prod (length (nth i vals []) :: skipn (S j) (lens (row i)))) with (length (nth i vals []) * prod (skipn (S j) (lens (row i)))). lia. Qed.
Lemma sub_pos i j : i < m -> 1 <= prod (firstn j (lens (row i))) /\ 1 <= prod (skipn (S j) (lens (row i))).
Proof.
  intros Hi. split; apply prod_pos; intros x Hx; apply (lens_in i x Hi); rewrite <- (firstn_skipn j (lens (row i))); apply in_or_app; [now left|right].
  clear -Hx. revert Hx. generalize (lens (row i)). induction j as [|j IH]; intros l Hx; destruct l; cbn in *; auto. 
Qed.
Lemma le_mul3 x p q : 1 <= p -> 1 <= q -> x <= x * (p * q).
Proof. intros. assert (1 <= p * q) by nia. nia. Qed.
Lemma eq_mul3 x p q : 1 <= x -> 1 <= p -> 1 <= q -> x * (p * q) = x -> p = 1 /\ q = 1.
Proof. intros. assert (p * q = 1) by nia. apply Nat.eq_mul_1. assumption. Qed.
Lemma sum_le_eq {X} (f g : X -> nat) l : (forall x, In x l -> f x <= g x) -> list_sum (map f l) = list_sum (map g l) -> forall x, In x l -> f x = g x.
Proof.
  induction l as [|y l IH]; cbn [map In]; intros H E x I; [contradiction|].
  assert (A : list_sum (map f l) <= list_sum (map g l)).
  { assert (H' : forall x, In x l -> f x <= g x) by (intros z Hz; apply H; now right). clear -H'. induction l as [|z l IH]; cbn; [lia|]. pose proof (H' z (or_introl eq_refl)). assert (list_sum (map f l) <= list_sum (map g l)) by (apply IH; intros w Hw; apply H'; now right). unfold list_sum in *. lia. }
  pose proof (H y (or_introl eq_refl)). change (f y + list_sum (map f l) = g y + list_sum (map g l)) in E.
  destruct I as [->|I]; [lia|]. apply IH; [intros z Hz; apply H; now right|lia|exact I].
Qed.
Lemma concat_length_sum {X} (ls : list (list X)) : length (concat ls) = list_sum (map (@length X) ls).
Proof. induction ls; cbn; [reflexivity|]. rewrite app_length. unfold list_sum in *. lia. Qed.
(** a column that is complete from the start: every other list is a single value *)
Lemma done_col j vals : nth_error cols j = Some vals -> length (concat vals) = total ->
  forall i, i < m -> P i = length (nth i vals []) /\ prod (firstn j (lens (row i))) = 1 /\ prod (skipn (S j) (lens (row i))) = 1.
Proof.
  intros H E. assert (Q : forall i, In i (seq 0 m) -> length (nth i vals []) = P i).
  { apply (sum_le_eq (fun i => length (nth i vals [])) P).
    - intros i Hi. apply in_seq in Hi. rewrite (P_split i j vals H). destruct (sub_pos i j (proj2 Hi)). now apply le_mul3.
    - unfold total in E. rewrite <- E. rewrite concat_length_sum. f_equal.
      transitivity (map (@length V) (map (fun i => nth i vals []) (seq 0 (length vals)))); [|now rewrite map_nth_all]. rewrite map_map.
      now rewrite (LEN vals (nth_error_In _ _ H)). }
  intros i Hi. specialize (Q i ltac:(apply in_seq; lia)). split; [congruence|]. pose proof (P_split i j vals H) as S1. destruct (sub_pos i j Hi).
  assert (1 <= length (nth i vals [])) by (apply (len_pos i); [exact Hi|unfold row; apply (in_map (fun v => nth i v [])); eapply nth_error_In; eauto]). apply eq_mul3 with (length (nth i vals [])); auto. congruence.
Qed.
Lemma map_concat_expected j : concat (map (fun i => expected i j) (seq 0 m)) = map (fun r => nth j r zero) (concat (map (fun i => combinations (row i)) (seq 0 m))).
Proof. rewrite concat_map, map_map. reflexivity. Qed.
Lemma block_11 (v : list V) : block 1 1 v = v.
Proof. rewrite block_flat. cbn [repeat concat]. rewrite app_nil_r. apply flat_ones. Qed.
Lemma done_expected j vals : nth_error cols j = Some vals -> length (concat vals) = total -> concat vals = concat (map (fun i => expected i j) (seq 0 m)).
Proof.
  intros H E. rewrite <- (map_nth_all [] vals) at 1. rewrite (LEN vals (nth_error_In _ _ H)). f_equal. apply map_ext_in. intros i Hi. apply in_seq in Hi.
  destruct (done_col j vals H E i ltac:(lia)) as (_ & E1 & E2). unfold expected. rewrite comb_col_block by (rewrite row_length; apply nth_error_Some; congruence).
  rewrite E1, E2, block_11. symmetry. now apply row_nth.
Qed.

(** ** one row *)
Lemma div_three a b c : 1 <= a -> 1 <= b -> b * (a * c) / (a * b) = c.
Proof. intros. replace (b * (a * c)) with (c * (a * b)) by lia. apply Nat.div_mul. nia. Qed.
Definition is_done (vals : list (list V)) : bool := length (concat vals) =? total.
Lemma row_okA i : forall suf pre st, i < m -> cols = pre ++ suf -> map snd st = map is_done suf -> (forall vals, In vals suf -> is_done vals = false) ->
  row_ok i (P i) (prod (lens (map (fun vals => nth i vals []) pre))) suf st (map (expected i) (seq (length pre) (length suf))).
Proof.
  induction suf as [|vals suf IH]; intros pre st Hi E S1 ND; destruct st as [|[arr done] st]; try discriminate; [exact I|].
  cbn [map] in S1. injection S1 as Sd S1. cbn [snd] in Sd. rewrite (ND vals (or_introl eq_refl)) in Sd. subst done. cbn [length seq map row_ok].
  assert (HC : nth_error cols (length pre) = Some vals) by (rewrite E, nth_error_app2, Nat.sub_diag by lia; reflexivity).
  assert (F : firstn (length pre) (lens (row i)) = lens (map (fun vals => nth i vals []) pre)).
  { unfold row, lens. rewrite E, !map_app, firstn_app, !map_length, Nat.sub_diag. cbn [firstn]. rewrite app_nil_r. apply firstn_all2. now rewrite !map_length. }
  assert (R1 : 1 <= length (nth i vals [])) by (apply (len_pos i); [exact Hi|unfold row; apply (in_map (fun v => nth i v [])); eapply nth_error_In; eauto]).
  destruct (sub_pos i (length pre) Hi) as (R2 & R3). rewrite F in R2.
  split; [nia|]. split.
  - unfold expected. rewrite comb_col_block by (rewrite row_length; apply nth_error_Some; congruence). rewrite (row_nth i (length pre) vals HC), F. f_equal.
    rewrite (P_split i (length pre) vals HC), F. apply div_three; lia.
  - specialize (IH (pre ++ [vals]) st Hi). rewrite app_length in IH. cbn [length] in IH. rewrite Nat.add_1_r in IH.
    replace (prod (lens (map (fun vals => nth i vals []) (pre ++ [vals])))) with (prod (lens (map (fun vals => nth i vals []) pre)) * length (nth i vals [])) in IH.
    + apply IH; [rewrite E, <- app_assoc; reflexivity|exact S1|intros w Hw; apply ND; now right].
    + unfold lens. rewrite !map_app, prod_app. cbn. lia.
Qed.
Lemma row_okB i : forall suf pre st d, i < m -> cols = pre ++ suf -> map snd st = map is_done suf -> In d cols -> is_done d = true ->
  row_ok i (P i) 1 suf st (map (expected i) (seq (length pre) (length suf))).
Proof.
  induction suf as [|vals suf IH]; intros pre st d Hi E S1 Hd D; destruct st as [|[arr done] st]; try discriminate; [exact I|].
  cbn [map] in S1. injection S1 as Sd S1. cbn [snd] in Sd. subst done. cbn [length seq map row_ok].
  assert (HC : nth_error cols (length pre) = Some vals) by (rewrite E, nth_error_app2, Nat.sub_diag by lia; reflexivity).
  assert (NEXT : row_ok i (P i) 1 suf st (map (expected i) (seq (S (length pre)) (length suf)))).
  { specialize (IH (pre ++ [vals]) st d Hi). rewrite app_length in IH. cbn [length] in IH. rewrite Nat.add_1_r in IH.
    apply IH; [rewrite E, <- app_assoc; reflexivity|exact S1|exact Hd|exact D]. }
  destruct (is_done vals) eqn:ED; [exact NEXT|].
  apply In_nth_error in Hd. destruct Hd as (jd & Hd). unfold is_done in D. apply Nat.eqb_eq in D.
  destruct (done_col jd d Hd D i Hi) as (P1 & P2 & P3).
  assert (L1 : length (nth i vals []) = 1).
  { assert (NJ : jd <> length pre) by (intros ->; rewrite HC in Hd; injection Hd as <-; unfold is_done in ED; apply Nat.eqb_neq in ED; congruence).
    assert (NI : nth_error (lens (row i)) (length pre) = Some (length (nth i vals []))).
    { unfold lens, row. rewrite map_map. now apply (map_nth_error (fun x => length (nth i x []))). }
    rewrite (lens_split i jd d Hd) in NI. 
    assert (LF : length (firstn jd (lens (row i))) = jd).
    { rewrite firstn_length. unfold lens. rewrite map_length, row_length. assert (jd < length cols) by (apply nth_error_Some; congruence). lia. }
    destruct (le_lt_dec jd (length pre)) as [LE|LT].
    - rewrite nth_error_app2 in NI by lia. rewrite LF in NI. destruct (length pre - jd) as [|k] eqn:Ek; [lia|]. cbn [nth_error] in NI. apply nth_error_In in NI.
      eapply prod_one; [|exact P3|exact NI]. intros y Hy. apply (lens_in i y Hi). rewrite (lens_split i jd d Hd). apply in_or_app. right. now right.
    - rewrite nth_error_app1 in NI by lia. apply nth_error_In in NI. eapply prod_one; [|exact P2|exact NI].
      intros y Hy. apply (lens_in i y Hi). rewrite (lens_split i jd d Hd). apply in_or_app. now left. }
  rewrite L1. cbn [Nat.mul]. split; [lia|]. split; [|exact NEXT].
  unfold expected. rewrite comb_col_block by (rewrite row_length; apply nth_error_Some; congruence). rewrite (row_nth i (length pre) vals HC).
  assert (PS := P_split i (length pre) vals HC). rewrite L1, Nat.mul_1_l in PS.
  destruct (nth i vals []) as [|x [|y l]]; try discriminate.
  assert (BX : forall T R, block T R [x] = repeat x (R * T)).
  { intros T R. rewrite block_flat. cbn [flat_map]. rewrite app_nil_r. induction T as [|T IHT]; cbn [repeat concat]; [now rewrite Nat.mul_0_r|]. rewrite IHT, <- repeat_app. f_equal. lia. }
  rewrite !BX. f_equal. rewrite Nat.div_1_r, PS. lia.
Qed.

(** ** all rows *)
Definition remaining (i : nat) : nat := list_sum (map P (seq i (m - i))).
Definition stc (i j : nat) : list V * bool :=
  if is_done (nth j cols []) then (concat (nth j cols []), true)
  else (concat (map (fun i' => expected i' j) (seq 0 i)) ++ repeat zero (remaining i), false).
Definition st_at (i : nat) : list (list V * bool) := map (stc i) (seq 0 (length cols)).
Lemma combine_map {X Y Z} (f : X -> Y) (g : X -> Z) l : combine (map f l) (map g l) = map (fun x => (f x, g x)) l.
Proof. induction l; cbn; congruence. Qed.
Lemma start_ok : map (start_col zero total) cols = st_at 0.
Proof.
  unfold st_at. rewrite <- (map_nth_all [] cols) at 1. rewrite map_map. apply map_ext. intros j. unfold stc, start_col, is_done. cbn [seq map concat app].
  unfold remaining. rewrite Nat.sub_0_r. reflexivity.
Qed.
Lemma dones i : map snd (st_at i) = map is_done cols.
Proof.
  unfold st_at. rewrite map_map. rewrite <- (map_nth_all [] cols) at 2. rewrite map_map. apply map_ext. intros j. unfold stc. now destruct (is_done _).
Qed.
Lemma prefix_length i j : length (concat (map (fun i' => expected i' j) (seq 0 i))) = list_sum (map P (seq 0 i)).
Proof. rewrite concat_length_sum, map_map. f_equal. apply map_ext. intros k. unfold expected. apply comb_col_length. Qed.
Lemma step_ok i : i < m -> fill_row i (list_sum (map P (seq 0 i))) (P i) 1 cols (st_at i) = Some (st_at (S i)).
Proof.
  intros Hi. rewrite (fill_row_ok i _ _ cols 1 (st_at i) (map (expected i) (seq 0 (length cols)))).
  - f_equal. unfold st_at at 1 2. rewrite combine_map, map_map. apply map_ext_in. intros j Hj. apply in_seq in Hj. cbn [fst snd].
    unfold stc, write_col. destruct (is_done (nth j cols [])); [reflexivity|]. cbn [fst snd]. f_equal.
    rewrite <- (prefix_length i j). rewrite put_slice_at.
    + rewrite seq_S, map_app, concat_app. cbn [map concat Nat.add]. rewrite app_nil_r. f_equal.
      unfold remaining. replace (m - i) with (S (m - S i)) by lia. cbn [seq map]. change (list_sum (P i :: map P (seq (S i) (m - S i)))) with (P i + list_sum (map P (seq (S i) (m - S i)))).
      unfold expected. rewrite comb_col_length. fold (P i). rewrite repeat_app, skipn_app, repeat_length, Nat.sub_diag, skipn_all2 by (rewrite repeat_length; lia). reflexivity.
    + unfold expected. rewrite comb_col_length, repeat_length. fold (P i). unfold remaining. replace (m - i) with (S (m - S i)) by lia. cbn [seq map].
      change (list_sum (P i :: map P (seq (S i) (m - S i)))) with (P i + list_sum (map P (seq (S i) (m - S i)))). lia.
  - destruct (existsb is_done cols) eqn:E.
    + apply existsb_exists in E. destruct E as (d & Hd & D). apply (row_okB i cols [] (st_at i) d Hi eq_refl (dones i) Hd D).
    + apply (row_okA i cols [] (st_at i) Hi eq_refl (dones i)). intros vals Hv. destruct (is_done vals) eqn:D; [|reflexivity].
      assert (existsb is_done cols = true) by (apply existsb_exists; eauto). congruence.
Qed.
Lemma fill_rows_ok : fill_rows cols (map P (seq 0 m)) m (st_at 0) = Some (st_at m).
Proof.
  unfold fill_rows.
  assert (A : forall k, k <= m ->
    fold_left (fun acc i => match acc with
         | (Some st, out) => (fill_row i out (nth i (map P (seq 0 m)) 0) 1 cols st, out + nth i (map P (seq 0 m)) 0)
         | (None, out) => (None, out) end) (seq 0 k) (Some (st_at 0), 0) = (Some (st_at k), list_sum (map P (seq 0 k)))).
  { induction k as [|k IH]; intros Hk; [reflexivity|]. rewrite seq_S, fold_left_app, IH by lia. cbn [fold_left Nat.add].
    assert (N : nth k (map P (seq 0 m)) 0 = P k) by (rewrite (nth_indep _ 0 (P 0)) by (rewrite map_length, seq_length; lia); rewrite map_nth, seq_nth by lia; reflexivity).
    rewrite N, step_ok by lia. f_equal. rewrite map_app, list_sum_app. cbn. lia. }
  now rewrite (A m (le_n m)).
Qed.
Lemma all_cols : map fst (st_at m) = map (fun j => concat (map (fun i => expected i j) (seq 0 m))) (seq 0 (length cols)).
Proof.
  unfold st_at. rewrite map_map. apply map_ext_in. intros j Hj. apply in_seq in Hj. unfold stc. destruct (is_done (nth j cols [])) eqn:D; cbn [fst].
  - apply done_expected; [|unfold is_done in D; now apply Nat.eqb_eq in D]. apply nth_error_nth'. lia.
  - unfold remaining. rewrite Nat.sub_diag. cbn. now rewrite app_nil_r.
Qed.
End Whole.

Lemma first_len (cols : list (list (list V))) m : (forall vals, In vals cols -> length vals = m) ->
  cols <> [] -> fold_left (fun m vals => if m =? 0 then length vals else m) cols 0 = m.
Proof.
  intros H N. destruct cols as [|v cols]; [congruence|]. cbn [fold_left]. rewrite Nat.eqb_refl, (H v (or_introl eq_refl)).
  assert (A : forall vals, In vals cols -> length vals = m) by (intros w Hw; apply H; now right). clear H N v.
  induction cols as [|w cols IH]; [reflexivity|]. cbn [fold_left]. rewrite (A w (or_introl eq_refl)).
  replace (if m =? 0 then m else m) with m by (now destruct (m =? 0)). apply IH. intros z Hz. apply A. now right.
Qed.
Lemma stacked_ok (d : jdict (V := V)) m : d <> [] -> (forall n vals, In (n, vals) d -> length vals = m) ->
  (forall n vals l, In (n, vals) d -> In l vals -> l <> []) ->
  from_jagged_dict_stacked zero d =
    Some (combine (map fst d) (map (fun j => map (fun r => nth j r zero)
            (concat (map (fun i => combinations (map (fun p => nth i (snd p) []) d)) (seq 0 m)))) (seq 0 (length d)))).
Proof.
  intros N L NE. unfold from_jagged_dict_stacked.
  assert (LEN : forall vals, In vals (map snd d) -> length vals = m).
  { intros vals H. apply in_map_iff in H. destruct H as ([n v] & <- & I). eapply L; eauto. }
  assert (NE' : forall vals i, In vals (map snd d) -> i < m -> nth i vals [] <> []).
  { intros vals i H Hi. pose proof (LEN vals H) as Lv. apply in_map_iff in H. destruct H as ([n v] & <- & I). cbn [snd] in *. eapply NE; eauto. apply nth_In. lia. }
  rewrite (first_len (map snd d) m LEN) by (destruct d; [congruence|discriminate]).
  assert (F : forallb (fun vals => length vals =? m) (map snd d) = true) by (apply forallb_forall; intros v Hv; apply Nat.eqb_eq; auto).
  rewrite F. cbn [negb]. rewrite (num_rows_ok (map snd d) m LEN). fold (total (map snd d) m). rewrite start_ok, (fill_rows_ok (map snd d) m LEN NE'), (all_cols (map snd d) m LEN NE').
  do 2 f_equal. rewrite map_length. apply map_ext. intros j. rewrite map_concat_expected. unfold row. do 2 f_equal. apply map_ext. intros i. now rewrite map_map.
Qed.
End Stacked.
