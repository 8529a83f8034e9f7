(* Lemmas about the row mask, the cells of a column and the width of a column. *)
From Coq Require Import List Arith Bool PeanoNat Lia.
From Verif Require Import DpSpec DpModel.
Import ListNotations.

Lemma text_eqb_eq a b : text_eqb a b = true <-> a = b.
Proof. unfold text_eqb. destruct (list_eq_dec Nat.eq_dec a b); split; congruence. Qed.
Lemma text_eqb_neq a b : text_eqb a b = false <-> a <> b.
Proof. unfold text_eqb. destruct (list_eq_dec Nat.eq_dec a b); split; congruence. Qed.

Lemma filter_all {A} (f : A -> bool) l : (forall x, In x l -> f x = true) -> filter f l = l.
Proof. induction l as [|x r IH]; cbn; intros H; [reflexivity|]. rewrite (H x) by now left. f_equal. apply IH. intros; apply H; now right. Qed.
Lemma filter_none {A} (f : A -> bool) l : (forall x, In x l -> f x = false) -> filter f l = [].
Proof. induction l as [|x r IH]; cbn; intros H; [reflexivity|]. rewrite (H x) by now left. apply IH. intros; apply H; now right. Qed.

(* ---- the row mask ---- *)
Lemma shown_rows_all n h t a : (n <= h + t \/ a = true) -> shown_rows n h t a = map Some (seq 0 n).
Proof.
  intros H. unfold shown_rows.
  assert (E : forall p, In p (seq 0 n) -> kept n h t a p = true).
  { intros p I1. apply in_seq in I1. unfold kept. destruct H as [H|H]; [|now rewrite H].
    destruct (p <? h) eqn:E1; [now rewrite orb_true_r|]. apply Nat.ltb_ge in E1.
    replace (n <=? p + t) with true by (symmetry; apply Nat.leb_le; lia). now rewrite orb_true_r. }
  replace (forallb _ _) with true by (symmetry; apply forallb_forall; exact E).
  now rewrite filter_all.
Qed.

Lemma shown_rows_some n h t : h + t < n ->
  shown_rows n h t false = map Some (seq 0 h) ++ [None] ++ map Some (seq (n - t) t).
Proof.
  intros H. unfold shown_rows.
  assert (F : forallb (kept n h t false) (seq 0 n) = false).
  { apply not_true_iff_false. intros F. rewrite forallb_forall in F. specialize (F h).
    rewrite in_seq in F. assert (K := F ltac:(lia)). unfold kept in K. cbn in K.
    apply orb_true_iff in K. destruct K as [K|K]; [apply Nat.ltb_lt in K|apply Nat.leb_le in K]; lia. }
  rewrite F.
  assert (R : filter (kept n h t false) (seq 0 n) = seq 0 h ++ seq (n - t) t).
  { replace n with (h + ((n - h - t) + t)) at 2 by lia. rewrite !seq_app, !filter_app. cbn [plus].
    rewrite filter_all, filter_none, filter_all.
    - cbn. f_equal. f_equal; lia.
    - intros x X. apply in_seq in X. unfold kept. cbn. rewrite orb_true_iff. right. apply Nat.leb_le. lia.
    - intros x X. apply in_seq in X. unfold kept. cbn. rewrite orb_false_iff. split; [apply Nat.ltb_ge|apply Nat.leb_gt]; lia.
    - intros x X. apply in_seq in X. unfold kept. cbn. rewrite orb_true_iff. left. apply Nat.ltb_lt. lia. }
  rewrite R, !filter_app.
  rewrite (filter_all (fun p => p <? h) (seq 0 h)), (filter_none (fun p => p <? h) (seq (n - t) t)),
          (filter_none _ (seq 0 h)), (filter_all _ (seq (n - t) t)), app_nil_r; [reflexivity| | | |];
    intros x X; apply in_seq in X.
  - apply negb_true_iff, Nat.ltb_ge; lia.
  - apply negb_false_iff, Nat.ltb_lt; lia.
  - apply Nat.ltb_ge; lia.
  - apply Nat.ltb_lt; lia.
Qed.

Definition with_break (m : list nat) (rb : option nat) : list (option nat) :=
  match rb with
  | None => map Some m
  | Some b => map Some (firstn b m) ++ [None] ++ map Some (skipn b m)
  end.

Lemma row_mask_spec h t n a m rb : row_mask h t n a = (m, rb) ->
  shown_rows n h t a = with_break m rb /\ (forall i, In i m -> i < n) /\
  (match rb with Some b => b <= length m | None => True end).
Proof.
  unfold row_mask. destruct ((n <=? h + t) || a) eqn:E; intros H; injection H as <- <-.
  - split; [|split; [|exact I]].
    + cbn. apply shown_rows_all. apply orb_true_iff in E. destruct E as [E|E]; [left; now apply Nat.leb_le|now right].
    + intros i X. apply in_seq in X. lia.
  - apply orb_false_iff in E. destruct E as [E ->]. apply Nat.leb_gt in E. split; [|split].
    + rewrite (shown_rows_some _ _ _ E). cbn [with_break].
      rewrite firstn_app, skipn_app, seq_length, Nat.sub_diag. cbn [firstn skipn].
      rewrite firstn_all2 by (now rewrite seq_length). rewrite skipn_all2 by (now rewrite seq_length).
      now rewrite app_nil_r.
    + intros i X. apply in_app_iff in X. destruct X as [X|X]; apply in_seq in X; lia.
    + rewrite app_length, seq_length. lia.
Qed.

(* ---- fancy indexing ---- *)
Lemma fancy_map {A} (l : list A) d idx : (forall i, In i idx -> i < length l) ->
  fancy l idx = Some (map (fun i => nth i l d) idx).
Proof.
  induction idx as [|i r IH]; cbn; intros H; [reflexivity|].
  rewrite (nth_error_nth' l d) by (apply H; now left).
  unfold fancy in IH. rewrite IH by (intros; apply H; now right). reflexivity.
Qed.
Lemma fancy_id {A} (l : list A) : fancy l (seq 0 (length l)) = Some l.
Proof.
  destruct l as [|d l]; [reflexivity|].
  rewrite (fancy_map (d :: l) d) by (intros i X; apply in_seq in X; lia). f_equal.
  apply nth_ext with (d := d) (d' := d); [now rewrite map_length, seq_length|].
  intros i Hi. rewrite map_length, seq_length in Hi.
  rewrite nth_indep with (d' := nth 0 (d :: l) d) by (now rewrite map_length, seq_length).
  rewrite (map_nth (fun j => nth j (d :: l) d)). now rewrite seq_nth.
Qed.
Lemma fancy_seq {A} (l : list A) k m : k + m <= length l ->
  fancy l (seq k m) = Some (firstn m (skipn k l)).
Proof.
  revert k. induction m as [|m IH]; intros k H; [reflexivity|]. cbn [seq fancy fold_right].
  unfold fancy in IH. rewrite IH by lia.
  destruct (nth_error l k) eqn:E.
  - f_equal. clear -E. revert l E. induction k as [|k IHk]; intros [|x l] E; try discriminate; cbn in *.
    + injection E as ->. reflexivity.
    + apply IHk. exact E.
  - apply nth_error_None in E. lia.
Qed.

(* ---- the cells of a column ---- *)
Definition cell_at {A} (f : A -> text) (vals : list A) (g : nat -> nat) (p : option nat) : text :=
  match p with
  | None => dots
  | Some i => match nth_error vals (g i) with Some v => f v | None => [] end
  end.

Lemma fancy_cells {A} (f : A -> text) (vals : list A) (g : nat -> nat) idx :
  (forall i, In i idx -> g i < length vals) ->
  exists x, fancy vals (map g idx) = Some x /\ map f x = map (cell_at f vals g) (map Some idx).
Proof.
  induction idx as [|i r IH]; cbn; intros H; [now exists []|].
  destruct IH as (x & E & M); [intros; apply H; now right|].
  destruct (nth_error vals (g i)) as [v|] eqn:N.
  - exists (v :: x). unfold fancy in E. rewrite E. split; [reflexivity|]. cbn. now rewrite M.
  - apply nth_error_None in N. specialize (H i (or_introl eq_refl)). lia.
Qed.

Lemma column_cells_ok {A} (f : A -> text) (g : nat -> nat) m rb vals :
  (forall i, In i m -> g i < length vals) ->
  column_cells f (map g m) rb false vals = Some (map (cell_at f vals g) (with_break m rb)).
Proof.
  intros H. unfold column_cells. destruct rb as [b|]; cbn [with_break].
  - rewrite firstn_map, skipn_map.
    destruct (fancy_cells f vals g (firstn b m)) as (x & E1 & M1).
    { intros i X. apply H. rewrite <- (firstn_skipn b m). apply in_or_app. now left. }
    destruct (fancy_cells f vals g (skipn b m)) as (y & E2 & M2).
    { intros i X. apply H. rewrite <- (firstn_skipn b m). apply in_or_app. now right. }
    rewrite E1, E2, M1, M2. rewrite !map_app. reflexivity.
  - destruct (fancy_cells f vals g m H) as (x & E1 & M1). now rewrite E1, M1.
Qed.

Lemma firstn_seq' k n : k <= n -> firstn k (seq 0 n) = seq 0 k.
Proof. intros H. replace n with (k + (n - k)) by lia. rewrite seq_app, firstn_app, seq_length, Nat.sub_diag.
  rewrite firstn_all2 by now rewrite seq_length. cbn. now rewrite app_nil_r. Qed.
Lemma skipn_seq' k n : k <= n -> skipn k (seq 0 n) = seq k (n - k).
Proof. intros H. replace n with (k + (n - k)) at 1 by lia. rewrite seq_app, skipn_app, seq_length, Nat.sub_diag.
  rewrite skipn_all2 by now rewrite seq_length. reflexivity. Qed.

(* a column cut before: the row numbers *)
Lemma column_cells_cut {A} (f : A -> text) mask rb (vals : list A) :
  (match rb with Some b => b <= length vals | None => True end) ->
  column_cells f mask rb true vals =
  Some (match rb with Some b => map f (firstn b vals) ++ [dots] ++ map f (skipn b vals) | None => map f vals end).
Proof.
  intros H. unfold column_cells. destruct rb as [b|].
  - rewrite firstn_seq', skipn_seq' by exact H.
    rewrite fancy_seq, fancy_seq by lia. cbn [skipn].
    f_equal. f_equal. f_equal. f_equal. apply firstn_all2. rewrite skipn_length. lia.
  - now rewrite fancy_id.
Qed.

Lemma rownum_cells num g m rb :
  (match rb with Some b => b <= length m | None => True end) ->
  column_cells num (map g m) rb true (map g m) =
  Some (map (fun p => match p with None => dots | Some i => num (g i) end) (with_break m rb)).
Proof.
  intros H. rewrite column_cells_cut by (destruct rb; [now rewrite map_length|exact I]).
  destruct rb as [b|]; cbn [with_break].
  - rewrite firstn_map, skipn_map, !map_app, !map_map. reflexivity.
  - now rewrite !map_map.
Qed.

(* ---- widths ---- *)
Lemma longest_widest l : longest l = widest l.
Proof. unfold longest, widest. induction l; cbn; congruence. Qed.
Lemma widest_app a b : widest (a ++ b) = Nat.max (widest a) (widest b).
Proof. unfold widest. rewrite map_app, fold_right_app. induction a as [|x r IH]; [reflexivity|]. cbn in *. lia. Qed.
Lemma widest_cons x l : widest (x :: l) = Nat.max (length x) (widest l).
Proof. reflexivity. Qed.
Lemma widest_in x l : In x l -> length x <= widest l.
Proof. induction l as [|y r IH]; cbn; [easy|]. intros [->|H]; [lia|]. apply IH in H. unfold widest in *. lia. Qed.

Lemma total_app a b : total (a ++ b) = total a + total b.
Proof. unfold total. induction a; cbn in *; lia. Qed.

Lemma all_some_map {A B} (f : A -> option B) (g : A -> B) l :
  (forall x, In x l -> f x = Some (g x)) -> all_some (map f l) = Some (map g l).
Proof. induction l as [|x r IH]; cbn; intros H; [reflexivity|]. rewrite (H x) by now left. rewrite IH; [reflexivity|]. intros; apply H; now right. Qed.
Lemma all_some_inv {A} (l : list (option A)) vs : all_some l = Some vs -> l = map Some vs.
Proof. revert vs. induction l as [|x r IH]; cbn; intros vs H; [now injection H as <-|].
  destruct x as [v|]; [|discriminate]. destruct (all_some r); [|discriminate]. injection H as <-. cbn. f_equal. now apply IH. Qed.

(* ---- zip ---- *)
Lemma zip_all_map {A B} (ps : list B) (fs : list (B -> A)) : fs <> [] ->
  zip_all (map (fun f => map f ps) fs) = map (fun p => map (fun f => f p) fs) ps.
Proof.
  induction fs as [|f r IH]; [easy|]. intros _. destruct r as [|f2 r].
  - cbn. rewrite map_map. reflexivity.
  - cbn [map zip_all] in *. rewrite IH by discriminate. clear IH.
    induction ps as [|p ps IHp]; [reflexivity|]. cbn in *. f_equal. exact IHp.
Qed.
Lemma zip_all_nil {A} : @zip_all A [] = [].
Proof. reflexivity. Qed.
