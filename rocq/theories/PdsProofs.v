(** Proofs about PDataset's partition bookkeeping. *)
From Coq Require Import List Arith Bool Lia.
From Verif Require Import FlattenModel FlattenProofs MergeColsProofs DsModel DsSpec DsProofs3 DsProofs4 DsProofs5 GroupFacts GroupingProofs2 GroupingProofs3 GroupingProofs4 GroupingProofs5 PdsModel.
Import ListNotations.

Definition start_of (lens : list nat) (i : nat) : nat := list_sum (firstn i lens).

Lemma start_0 lens : start_of lens 0 = 0.
Proof. reflexivity. Qed.
Lemma start_S lens i n : nth_error lens i = Some n -> start_of lens (S i) = start_of lens i + n.
Proof.
  unfold start_of. revert i. induction lens as [|x lens IH]; intros [|i] E; try discriminate.
  - injection E as ->. cbn. lia.
  - cbn [nth_error] in E. specialize (IH i E). change (firstn (S (S i)) (x :: lens)) with (x :: firstn (S i) lens). change (firstn (S i) (x :: lens)) with (x :: firstn i lens).
    change (x + list_sum (firstn (S i) lens) = x + list_sum (firstn i lens) + n). lia.
Qed.
Lemma start_mono lens i j : i <= j -> start_of lens i <= start_of lens j.
Proof.
  intros H. induction H as [|j H IH]; [lia|]. destruct (nth_error lens j) as [n|] eqn:E; [rewrite (start_S _ _ _ E); lia|].
  apply nth_error_None in E. unfold start_of in *. rewrite (firstn_all2 lens (n := S j)) by lia. rewrite (firstn_all2 lens (n := j)) in IH by lia. exact IH.
Qed.
Lemma cumsum_from_nth lens : forall acc i, i < length lens -> nth_error (cumsum_from acc lens) i = Some (acc + start_of lens (S i)).
Proof.
  induction lens as [|x lens IH]; intros acc [|i] H; cbn in H; try lia.
  - cbn. f_equal. unfold start_of. cbn. lia.
  - cbn [cumsum_from nth_error]. rewrite IH by lia. f_equal. unfold start_of. change (firstn (S (S i)) (x :: lens)) with (x :: firstn (S i) lens).
    change (acc + x + list_sum (firstn (S i) lens) = acc + (x + list_sum (firstn (S i) lens))). lia.
Qed.
Lemma cumsum_length lens : forall acc, length (cumsum_from acc lens) = length lens.
Proof. induction lens; intros acc; cbn; auto. Qed.
Lemma prows_ok lens : prows_of (cumsum lens) = lens.
Proof.
  unfold cumsum, prows_of. destruct lens as [|x lens]; [reflexivity|]. cbn [cumsum_from]. f_equal.
  change (0 + x) with x. generalize x. clear x. induction lens as [|y lens IH]; intros x; [reflexivity|]. cbn [cumsum_from combine map]. f_equal; [cbn; lia|]. apply IH.
Qed.
(** every row lies in exactly one range *)
Lemma row_range lens row : row < list_sum lens ->
  exists i, i < length lens /\ start_of lens i <= row < start_of lens (S i).
Proof.
  revert row. induction lens as [|x lens IH]; intros row H; [cbn in H; lia|]. change (list_sum (x :: lens)) with (x + list_sum lens) in H.
  destruct (Nat.lt_ge_cases row x) as [B|B].
  - exists 0. unfold start_of. cbn. lia.
  - destruct (IH (row - x) ltac:(lia)) as (i & L & R). exists (S i). split; [cbn; lia|]. unfold start_of in *.
    change (firstn (S i) (x :: lens)) with (x :: firstn i lens). change (firstn (S (S i)) (x :: lens)) with (x :: firstn (S i) lens).
    change (list_sum (x :: firstn i lens)) with (x + list_sum (firstn i lens)). change (list_sum (x :: firstn (S i) lens)) with (x + list_sum (firstn (S i) lens)). lia.
Qed.
Lemma range_unique lens row i j : start_of lens i <= row < start_of lens (S i) -> start_of lens j <= row < start_of lens (S j) -> i = j.
Proof.
  intros H1 H2. destruct (Nat.lt_trichotomy i j) as [L|[E|L]]; [|exact E|].
  - pose proof (start_mono lens (S i) j L). lia.
  - pose proof (start_mono lens (S j) i L). lia.
Qed.
(** the number of cutoffs not above a row *)
Lemma search_ok lens row i : i < length lens -> start_of lens i <= row < start_of lens (S i) -> searchsorted_right (cumsum lens) row = i.
Proof.
  intros L R. unfold searchsorted_right. assert (CN : forall k, k < length lens -> nth_error (cumsum lens) k = Some (start_of lens (S k))) by (intros k Hk; exact (cumsum_from_nth lens 0 k Hk)).
  assert (CL : length (cumsum lens) = length lens) by apply cumsum_length. rewrite <- (firstn_skipn i (cumsum lens)), filter_app, app_length.
  assert (A : forall c, In c (firstn i (cumsum lens)) -> c <= row).
  { intros c H. apply In_nth_error in H. destruct H as (k & E). assert (k < i).
    { assert (k < length (firstn i (cumsum lens))) by (apply nth_error_Some; congruence). rewrite firstn_length in *. lia. }
    rewrite nth_error_firstn' in E by lia. rewrite CN in E by lia. injection E as <-. pose proof (start_mono lens (S k) i ltac:(lia)). lia. }
  assert (B : forall c, In c (skipn i (cumsum lens)) -> row < c).
  { intros c H. apply In_nth_error in H. destruct H as (k & E). assert (i + k < length lens).
    { assert (k < length (skipn i (cumsum lens))) by (apply nth_error_Some; congruence). rewrite skipn_length in *. lia. }
    rewrite FillProofs.nth_error_skipn in E. rewrite CN in E by lia. injection E as <-. pose proof (start_mono lens (S i) (S (i + k)) ltac:(lia)). lia. }
  rewrite (forallb_filter_id _ (firstn i (cumsum lens))), firstn_length by (apply forallb_forall; intros c H; apply Nat.leb_le; auto).
  replace (filter _ (skipn i (cumsum lens))) with (@nil nat); [cbn; lia|]. symmetry. clear - B. induction (skipn i (cumsum lens)) as [|c l IH]; [reflexivity|]. cbn.
  assert (row < c) by (apply B; now left). destruct (Nat.leb_spec c row); [lia|]. apply IH. intros c' H'. apply B. now right.
Qed.

Section P.
Context {V : Type}.
Variable inv : name -> V.
Definition ok_list (dl : list (@dset_ V)) : Prop :=
  (forall d, In d dl -> d_nrows d = None -> d_cols d = []) /\
  (forall d n c, In d dl -> In (n, c) (d_cols d) -> length c = shape0 d) /\
  (forall d, In d dl -> NoDup (map fst (d_cols d))).
Lemma shape_rows (d : @dset_ V) : shape0 d = rows_of d.
Proof. reflexivity. Qed.

Lemma from_list_fields dl ns p : from_list inv dl ns = Some p ->
  dl <> [] /\ p_cutoffs p = cumsum (map shape0 dl) /\ p_rows p = map shape0 dl /\ p_names p = enumerate_names ns /\ p_pcat p = None /\
  p_cols p = d_cols (hstack_datasets inv dl) /\ p_nrows p = shape0 (hstack_datasets inv dl).
Proof.
  unfold from_list. destruct dl as [|d dl]; [discriminate|]. intros H. match type of H with Some ?x = Some ?y => assert (E : y = x) by congruence end. rewrite E. cbn [p_cutoffs p_rows p_names p_pcat p_cols p_nrows]. rewrite prows_ok. repeat split. discriminate.
Qed.
Lemma pslice_gen (p : @pds V) lens i : p_cutoffs p = cumsum lens -> i < length lens -> pslice p i = Some (start_of lens i, start_of lens (S i)).
Proof.
  intros E H. assert (CN : forall k, k < length lens -> nth_error (p_cutoffs p) k = Some (start_of lens (S k))) by (intros k Hk; rewrite E; exact (cumsum_from_nth lens 0 k Hk)).
  unfold pslice. destruct i as [|i]; [now rewrite CN by exact H|]. now rewrite (CN i), (CN (S i)) by lia.
Qed.
Lemma pslice_none (p : @pds V) lens i : p_cutoffs p = cumsum lens -> length lens <= i -> pslice p i = None.
Proof.
  intros E H. assert (CN : nth_error (p_cutoffs p) i = None) by (apply nth_error_None; rewrite E; unfold cumsum; now rewrite cumsum_length).
  unfold pslice. destruct i as [|i]; [now rewrite CN|]. rewrite CN. now destruct (nth_error (p_cutoffs p) i).
Qed.

(** the stacked columns, for any number of datasets *)
Lemma stacked dl : dl <> [] -> ok_list dl ->
  let cols := d_cols (hstack_datasets inv dl) in
  NoDup (map fst cols) /\ map fst cols = first_seen (concat (map (fun d => map fst (d_cols d)) dl)) /\
  (forall n c, In (n, c) cols -> c = concat (map (fun d => piece inv n (shape0 d) (d_cols d)) dl) /\ length c = list_sum (map shape0 dl)) /\
  (cols <> [] -> shape0 (hstack_datasets inv dl) = list_sum (map shape0 dl)).
Proof.
  intros NE (H0 & H1 & H2) cols.
  assert (PL : forall n d, In d dl -> length (piece inv n (shape0 d) (d_cols d)) = shape0 d).
  { intros n d Hd. unfold piece. destruct (dget n (d_cols d)) eqn:E; [apply (H1 d n _ Hd); now apply dget_some_in|apply repeat_length]. }
  assert (CL : forall n ds, (forall d, In d ds -> In d dl) -> length (concat (map (fun d => piece inv n (shape0 d) (d_cols d)) ds)) = list_sum (map shape0 ds)).
  { intros n ds. induction ds as [|d ds IH]; intros S1; [reflexivity|]. cbn [map concat]. rewrite app_length, IH by (intros x Hx; apply S1; now right). rewrite PL by (apply S1; now left). reflexivity. }
  destruct dl as [|d [|d2 dl]]; [congruence| |].
  - cbn in cols. unfold cols. cbn [map concat]. rewrite app_nil_r. assert (Id : In d [d]) by now left. specialize (H2 d Id).
    split; [exact H2|]. split; [symmetry; now apply first_seen_id|]. split; [|intros _; cbn; lia].
    intros n c I. rewrite app_nil_r. unfold piece. rewrite (dget_in _ _ _ H2 I). split; [reflexivity|]. rewrite (H1 d n c Id I). cbn. lia.
  - assert (L2 : 2 <= length (d :: d2 :: dl)) by (cbn; lia). destruct (hstack_ok inv _ L2 H0) as (N & G). fold cols in N, G.
    assert (ND : NoDup (map fst cols)) by (change (map fst cols) with (names cols); rewrite N; apply first_seen_nodup).
    assert (EACH : forall n c, In (n, c) cols -> c = concat (map (fun d => piece inv n (shape0 d) (d_cols d)) (d :: d2 :: dl)) /\ length c = list_sum (map shape0 (d :: d2 :: dl))).
    { intros n c I. pose proof (dget_in _ _ _ ND I) as E. rewrite (G n) in E by (change n with (fst (n, c)); now apply in_map).
      assert (c = concat (map (fun d => piece inv n (shape0 d) (d_cols d)) (d :: d2 :: dl))) as -> by (now injection E as <-). split; [reflexivity|]. apply CL. auto. }
    split; [exact ND|]. split; [exact N|]. split; [exact EACH|].
    intros CN. unfold shape0 at 1. change (hstack_datasets inv (d :: d2 :: dl)) with (mkD (nrows_of cols) cols). cbn [d_nrows]. destruct cols as [|[n c] cs]; [congruence|]. cbn [nrows_of]. apply (EACH n c). now left.
Qed.

Lemma take_piece {X} (pre c post : list X) a b : length pre = a -> b = a + length c -> take_slice (a, b) (pre ++ c ++ post) = c.
Proof.
  intros <- ->. unfold take_slice. cbn [fst snd]. rewrite skipn_app, Nat.sub_diag, skipn_all. cbn [skipn app]. replace (length pre + length c - length pre) with (length c) by lia.
  rewrite firstn_app, Nat.sub_diag, firstn_all. cbn. apply app_nil_r.
Qed.
Lemma partition_ok dl ns p i d : ok_list dl -> from_list inv dl ns = Some p -> nth_error dl i = Some d ->
  exists t, partition p i = Some t /\ map fst t = first_seen (concat (map (fun d => map fst (d_cols d)) dl)) /\
    forall n, In n (map fst t) -> dget n t = Some (piece inv n (shape0 d) (d_cols d)).
Proof.
  intros OK F ND. destruct (from_list_fields dl ns p F) as (NE & PC & _ & _ & _ & COLS & _). pose proof OK as (_ & H1 & _). destruct (stacked dl NE OK) as (SN & SF & SE & _). rewrite <- COLS in *.
  assert (Hi : i < length dl) by (apply nth_error_Some; congruence).
  unfold partition. rewrite (pslice_gen p (map shape0 dl) i PC) by now rewrite map_length. eexists. split; [reflexivity|].
  set (f := fun q : name * list V => _). assert (FF : map fst (map f (p_cols p)) = map fst (p_cols p)) by (rewrite map_map; reflexivity). rewrite FF. split; [exact SF|].
  intros n In'. apply in_map_iff in In'. destruct In' as ([n' c] & E & I). cbn in E. subst n'.
  apply dget_in; [rewrite FF; exact SN|]. apply in_map_iff. exists (n, c). split; [|exact I]. unfold f. cbn [fst snd]. f_equal.
  destruct (SE n c I) as (-> & _). apply nth_error_split in ND. destruct ND as (pre & post & -> & <-). rewrite !map_app. cbn [map]. rewrite concat_app. cbn [concat].
  assert (PL : forall ds, (forall e, In e ds -> In e (pre ++ d :: post)) -> length (concat (map (fun d => piece inv n (shape0 d) (d_cols d)) ds)) = list_sum (map shape0 ds)).
  { induction ds as [|e ds IH]; intros S1; [reflexivity|]. cbn [map concat]. rewrite app_length, IH by (intros x Hx; apply S1; now right). change (list_sum (shape0 e :: map shape0 ds)) with (shape0 e + list_sum (map shape0 ds)). f_equal.
    unfold piece. destruct (dget n (d_cols e)) eqn:E; [apply (H1 e n); [apply S1; now left|now apply dget_some_in]|apply repeat_length]. }
  assert (ST : start_of (map shape0 pre ++ shape0 d :: map shape0 post) (length pre) = list_sum (map shape0 pre)).
  { unfold start_of. rewrite firstn_app. rewrite map_length, Nat.sub_diag, firstn_all2 by (rewrite map_length; lia). cbn. now rewrite app_nil_r. }
  apply take_piece.
  - rewrite PL by (intros e He; apply in_or_app; now left). now rewrite ST.
  - rewrite ST. rewrite (start_S _ _ (shape0 d)), ST by (rewrite nth_error_app2 by (rewrite map_length; lia); rewrite map_length, Nat.sub_diag; reflexivity). f_equal.
    specialize (PL [d] ltac:(intros e [<-|[]]; apply in_or_app; right; now left)). cbn in PL. rewrite app_nil_r in PL. lia.
Qed.

(** the codes written by pcat *)
Lemma fill_length s v idx : length (fill_slice s v idx) = length idx.
Proof. unfold fill_slice. rewrite map_length, combine_length, seq_length. lia. Qed.
Lemma fill_nth s v idx r : r < length idx -> nth_error (fill_slice s v idx) r = if (fst s <=? r) && (r <? snd s) then Some v else nth_error idx r.
Proof.
  intros H. unfold fill_slice. destruct (nth_error idx r) as [x|] eqn:E; [|apply nth_error_None in E; lia].
  rewrite (map_nth_error _ r (combine (seq 0 (length idx)) idx) (d := (r, x))); [cbn [fst snd]; now destruct (_ && _)|].
  apply GroupingProofs.nth_error_combine; [|exact E]. rewrite nth_error_seq. now apply Nat.ltb_lt in H as ->.
Qed.
Lemma codes_ok (p : @pds V) lens junk row i : p_cutoffs p = cumsum lens -> pcount p = length lens -> i < length lens ->
  start_of lens i <= row < start_of lens (S i) -> row < p_nrows p -> nth_error (pcat_codes p junk) row = Some (S i) /\ length (pcat_codes p junk) = p_nrows p.
Proof.
  intros PC PN Hi R HR. unfold pcat_codes. rewrite PN.
  assert (G : forall k, k <= length lens -> let idx := fold_left (fun idx j => match pslice p j with Some s => fill_slice s (j + 1) idx | None => idx end) (seq 0 k) (map junk (seq 0 (p_nrows p))) in
    length idx = p_nrows p /\ (i < k -> nth_error idx row = Some (S i))).
  { induction k as [|k IH]; intros Hk; cbn zeta.
    - cbn. rewrite map_length, seq_length. split; [reflexivity|lia].
    - rewrite seq_S, fold_left_app. cbn [fold_left Nat.add]. specialize (IH ltac:(lia)). cbn zeta in IH. destruct IH as (L & N). set (idx := fold_left _ (seq 0 k) _) in *.
      rewrite (pslice_gen p lens k PC) by lia. rewrite fill_length. split; [exact L|]. intros Hik. rewrite fill_nth by lia. cbn [fst snd].
      destruct (Nat.eq_dec i k) as [->|NE].
      + destruct (Nat.leb_spec (start_of lens k) row), (Nat.ltb_spec row (start_of lens (S k))); cbn; try lia. f_equal. lia.
      + replace ((start_of lens k <=? row) && (row <? start_of lens (S k))) with false; [apply N; lia|]. symmetry.
        destruct (Nat.leb_spec (start_of lens k) row), (Nat.ltb_spec row (start_of lens (S k))); cbn; try reflexivity. elim NE. exact (range_unique lens row i k R (conj H H0)). }
  destruct (G (length lens) (le_n _)) as (L & N). split; [now apply N|exact L].
Qed.
Lemma enumerate_ok ns : NoDup ns -> enumerate_names ns = combine ns (seq 0 (length ns)).
Proof.
  intros ND. unfold enumerate_names. rewrite dset_all_fresh; [reflexivity| |]; (rewrite map_fst_combine by now rewrite seq_length); auto.
Qed.
End P.
