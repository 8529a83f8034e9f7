(* Proofs about the csv loader and the numpy directories. *)
From Coq Require Import List String Ascii Bool Arith Lia Permutation.
From Verif Require Import CsvfModel CsvfSpec.
Import ListNotations.

(* ---- dicts and Datasets ---- *)

Lemma dset_new : forall A k (v : A) d, ~ In k (map fst d) -> dset k v d = d ++ [(k, v)].
Proof.
  induction d as [|[k' v'] r IH]; cbn; intro H; auto.
  destruct (String.eqb_spec k k') as [E|E].
  - exfalso; apply H; left; auto.
  - rewrite IH; auto.
Qed.

Lemma fold_dset_new : forall A B (f : B -> string) (g : B -> A) l acc,
  NoDup (map fst acc ++ map f l) ->
  fold_left (fun d x => dset (f x) (g x) d) l acc = acc ++ map (fun x => (f x, g x)) l.
Proof.
  induction l as [|x l IH]; cbn; intros acc H.
  - rewrite app_nil_r; auto.
  - pose proof (NoDup_remove_2 _ _ _ H) as H2.
    rewrite dset_new.
    + rewrite IH.
      * rewrite <- app_assoc; auto.
      * rewrite map_app, <- app_assoc; cbn; auto.
    + intro J; apply H2; apply in_or_app; auto.
Qed.

Lemma map_pair_id : forall A (l : list (string * A)), map (fun x => (fst x, snd x)) l = l.
Proof. induction l as [|[a b] l IH]; cbn; congruence. Qed.

Lemma mkdict_id : forall A (l : list (string * A)), NoDup (map fst l) -> mkdict l = l.
Proof.
  intros; unfold mkdict.
  rewrite (fold_dset_new A (string * A) fst snd l []); cbn; auto using map_pair_id.
Qed.

Lemma hidden_us : forall s, hidden s = true -> exists t, s = String "_" t.
Proof.
  intros [|c t]; unfold hidden; cbn [String.prefix]; intro H; [discriminate|].
  destruct (ascii_dec "_" c) as [<-|]; [eauto|discriminate].
Qed.

Lemma stored_id : forall V stored (d : list (string * list V)),
  NoDup (map fst d) -> (forall n, In n (map fst d) -> stored n = n) ->
  fold_left (fun c kv => dset (stored (fst kv)) (snd kv) c) d [] = d.
Proof.
  intros V stored d ND ST.
  assert (E : map (fun kv : string * list V => stored (fst kv)) d = map fst d).
  { apply map_ext_in. intros kv J. apply ST. apply in_map; auto. }
  rewrite (fold_dset_new (list V) (string * list V) (fun kv => stored (fst kv)) snd d []).
  - cbn [app]. rewrite <- (map_id d) at 2. apply map_ext_in. intros [k c] J. cbn [fst snd].
    rewrite ST; auto. apply in_map with (f := fst) in J. exact J.
  - cbn [map app]. rewrite E. auto.
Qed.

Lemma hidden_none : forall V (d : list (string * list V)),
  existsb (fun kv => hidden (fst kv)) d = false <-> forall n t, In n (map fst d) -> n <> String "_" t.
Proof.
  intros V d. rewrite <- not_true_iff_false, existsb_exists. split.
  - intros H n t J ->. apply H. apply in_map_iff in J. destruct J as [kv [E J]].
    exists kv. split; auto. rewrite E. unfold hidden. cbn [String.prefix].
    destruct (ascii_dec "_" "_"); [destruct t; auto|congruence].
  - intros H [kv [J E]]. destruct (hidden_us _ E) as [t T]. apply (H (fst kv) t); auto. apply in_map; auto.
Qed.

Lemma dataset_of_plain : forall V stored (d : list (string * list V)),
  plain_names (map fst d) -> (forall n, In n (map fst d) -> stored n = n) ->
  (forall k c k' c', In (k, c) d -> In (k', c') d -> List.length c = List.length c') ->
  dataset_of stored d = Some d.
Proof.
  intros V stored d [ND HU] ST HL. unfold dataset_of.
  apply hidden_none in HU. rewrite HU, stored_id; auto.
  destruct d as [|[k c] r]; auto.
  destruct (forallb _ r) eqn:E; auto. exfalso.
  rewrite <- not_true_iff_false in E. apply E, forallb_forall. intros [k' c'] J; cbn.
  apply Nat.eqb_eq, (HL k' c' k c); [right | left]; auto.
Qed.

Lemma dataset_of_some : forall V stored (d ds : list (string * list V)),
  NoDup (map fst d) -> (forall n, In n (map fst d) -> stored n = n) -> dataset_of stored d = Some ds ->
  plain_names (map fst d) /\
  forall k c k' c', In (k, c) d -> In (k', c') d -> List.length c = List.length c'.
Proof.
  intros V stored d ds ND ST. unfold dataset_of.
  destruct (existsb _ d) eqn:HU; [discriminate|].
  rewrite stored_id; auto. intro H. split; [split; auto; apply hidden_none; auto|].
  destruct d as [|[k c] r]; [intros ? ? ? ? []|].
  destruct (forallb _ r) eqn:E; [|discriminate].
  rewrite forallb_forall in E.
  assert (A : forall k' c', In (k', c') ((k, c) :: r) -> List.length c' = List.length c).
  { intros k' c' [J|J]; [inversion J; auto|]. apply Nat.eqb_eq, (E _ J). }
  intros k1 c1 k2 c2 J1 J2; rewrite (A _ _ J1), (A _ _ J2); auto.
Qed.

(* ---- the columns of the rows ---- *)

Section CSV.
Variable V : Type.
Variable conv : string -> string -> V.
Variable stored : string -> string.

Definition cell (n : string) (i : nat) (r : list string) : list V :=
  match nth_error r i with Some f => [conv n f] | None => [] end.
Definition pick (rows : list (list string)) (i : nat) (n : string) : list V :=
  flat_map (cell n i) rows.
Fixpoint picks (rows : list (list string)) (i : nat) (names : list string) : list (list V) :=
  match names with [] => [] | n :: ns => pick rows i n :: picks rows (S i) ns end.

Lemma skipn_nth : forall (r : list string) i,
  match nth_error r i with
  | Some f => skipn i r = f :: skipn (S i) r
  | None => skipn i r = [] /\ skipn (S i) r = []
  end.
Proof.
  induction r as [|a r IH]; intros [|i]; cbn; auto.
  apply IH.
Qed.

Lemma push_nil : forall names cols, push V conv names [] cols = cols.
Proof. intros [|n ns] [|c cs]; auto. Qed.

Lemma push_picks : forall names i rs r,
  push V conv names (skipn i r) (picks rs i names) = picks (rs ++ [r]) i names.
Proof.
  induction names as [|n ns IH]; intros i rs r; auto.
  pose proof (skipn_nth r i) as K. cbn [picks].
  unfold pick at 2. rewrite flat_map_app. cbn [flat_map]. unfold cell at 2.
  rewrite <- IH.
  destruct (nth_error r i) as [f|].
  - rewrite K. cbn [push]. auto.
  - destruct K as [-> ->]. rewrite push_nil, push_nil. cbn. rewrite app_nil_r. auto.
Qed.

Lemma picks_nil : forall names i, picks [] i names = map (fun _ => []) names.
Proof. induction names; intros; cbn; auto; rewrite IHnames; auto. Qed.

Lemma fold_push : forall names rows rs,
  fold_left (fun cols r => push V conv names r cols) rows (picks rs 0 names) = picks (rs ++ rows) 0 names.
Proof.
  intros names; induction rows as [|r rows IH]; intros rs; cbn.
  - rewrite app_nil_r; auto.
  - pose proof (push_picks names 0 rs r) as K. cbn [skipn] in K. rewrite K, IH, <- app_assoc. auto.
Qed.

Lemma by_row_picks : forall names rows,
  fold_left (fun cols r => push V conv names r cols) rows (map (fun _ => []) names) = picks rows 0 names.
Proof. intros; rewrite <- (picks_nil names 0), fold_push; auto. Qed.

Lemma push_row_conv : forall names r cols,
  push_row V (conv_row V conv names r) cols = push V conv names r cols.
Proof.
  induction names as [|n ns IH]; intros [|f r] [|c cols]; cbn; auto; rewrite IH; auto.
Qed.

Lemma fold_push_row : forall names rows cols,
  fold_left (fun cols r => push_row V r cols) (map (conv_row V conv names) rows) cols =
  fold_left (fun cols r => push V conv names r cols) rows cols.
Proof. induction rows; intros; cbn; auto. rewrite push_row_conv; auto. Qed.

Lemma conv_row_len : forall names r,
  List.length (conv_row V conv names r) = Nat.min (List.length names) (List.length r).
Proof. induction names; intros [|f r]; cbn; auto. Qed.

Lemma col_at_pick : forall rows i n,
  (forall r, In r rows -> i < List.length r) -> col_at V conv rows i n = Some (pick rows i n).
Proof.
  unfold col_at, pick. induction rows as [|r rows IH]; intros i n H; cbn; auto.
  unfold cell at 1. destruct (nth_error r i) as [f|] eqn:E.
  - rewrite IH; [auto | intros; apply H; cbn; auto].
  - apply nth_error_None in E. specialize (H r (or_introl eq_refl)). lia.
Qed.

Lemma col_at_some : forall rows i n c, col_at V conv rows i n = Some c ->
  forall r, In r rows -> i < List.length r.
Proof.
  unfold col_at. induction rows as [|r rows IH]; intros i n c H r' J; [destruct J|].
  cbn in H. destruct (nth_error r i) as [f|] eqn:E; [|discriminate].
  destruct (all_some _ ) as [l|] eqn:E2 in H; [|discriminate].
  destruct J as [<-|J].
  - apply nth_error_Some; congruence.
  - eapply IH; eauto.
Qed.

Lemma cols_from_picks : forall names rows i,
  (forall r, In r rows -> i + List.length names <= List.length r) ->
  cols_from V conv rows i names = Some (picks rows i names).
Proof.
  induction names as [|n ns IH]; intros rows i H; auto. cbn.
  cbn in H. rewrite col_at_pick, IH; auto; intros r J; specialize (H r J); lia.
Qed.

Lemma cols_from_some : forall names rows i cs,
  cols_from V conv rows i names = Some cs -> names <> [] ->
  forall r, In r rows -> i + List.length names <= List.length r.
Proof.
  induction names as [|n ns IH]; intros rows i cs H NE r J; [congruence|]. cbn in H.
  destruct (col_at V conv rows i n) eqn:E; [|discriminate].
  destruct (cols_from V conv rows (S i) ns) eqn:E2; [|discriminate].
  pose proof (col_at_some _ _ _ _ E r J) as K. cbn.
  destruct ns as [|n2 ns]; [cbn; lia|].
  assert (NE2 : n2 :: ns <> []) by discriminate.
  specialize (IH _ _ _ E2 NE2 r J). cbn in *. lia.
Qed.

Lemma picks_len : forall names rows i, List.length (picks rows i names) = List.length names.
Proof. induction names; intros; cbn; auto. Qed.

Lemma combine_fst : forall A (names : list string) (cs : list A),
  List.length cs = List.length names -> map fst (combine names cs) = names.
Proof.
  induction names; intros [|c cs] H; cbn in *; try discriminate; auto.
  rewrite IHnames; auto.
Qed.

Lemma nth_picks : forall names rows i k n c,
  nth_error (combine names (picks rows i names)) k = Some (n, c) ->
  nth_error names k = Some n /\ c = pick rows (i + k) n.
Proof.
  induction names as [|a ns IH]; intros rows i [|k] n c H; cbn in H; try discriminate.
  - inversion H; subst. rewrite Nat.add_0_r; auto.
  - apply IH in H. rewrite Nat.add_succ_r. auto.
Qed.

Lemma nth_picks_in : forall names rows i k n,
  nth_error names k = Some n ->
  In (n, pick rows (i + k) n) (combine names (picks rows i names)).
Proof.
  induction names as [|a ns IH]; intros rows i [|k] n H; cbn in H; try discriminate.
  - inversion H; subst. rewrite Nat.add_0_r; left; auto.
  - right. rewrite Nat.add_succ_r. apply (IH rows (S i)); auto.
Qed.

Lemma pick_long : forall rows i n, (forall r, In r rows -> i < List.length r) ->
  List.length (pick rows i n) = List.length rows /\
  forall j r, nth_error rows j = Some r ->
    exists f, nth_error r i = Some f /\ nth_error (pick rows i n) j = Some (conv n f).
Proof.
  unfold pick. induction rows as [|r rows IH]; intros i n H.
  - split; auto. intros [|j] r J; discriminate.
  - destruct (IH i n) as [A B]; [intros; apply H; cbn; auto|].
    cbn [flat_map]. unfold cell at 1 3. destruct (nth_error r i) as [f|] eqn:E.
    + split; [cbn; rewrite A; auto|].
      intros [|j] r' J; cbn in *.
      * inversion J; subst. eauto.
      * apply B; auto.
    + apply nth_error_None in E. specialize (H r (or_introl eq_refl)). lia.
Qed.

Lemma table_picks : forall names rows,
  (forall r, In r rows -> List.length names <= List.length r) ->
  table_of conv names rows (combine names (picks rows 0 names)).
Proof.
  intros names rows H. split.
  - apply combine_fst, picks_len.
  - intros i n c J. apply nth_picks in J. destruct J as [J ->]. cbn.
    assert (K : i < List.length names) by (apply nth_error_Some; congruence).
    apply pick_long. intros r R. specialize (H r R). lia.
Qed.

Lemma dataset_picks : forall names rows,
  plain_names names -> (forall n, In n names -> stored n = n) ->
  (forall r, In r rows -> List.length names <= List.length r) ->
  dataset_of stored (mkdict (combine names (picks rows 0 names))) = Some (combine names (picks rows 0 names)).
Proof.
  intros names rows HP ST H.
  assert (F : map fst (combine names (picks rows 0 names)) = names) by apply combine_fst, picks_len.
  rewrite mkdict_id by (rewrite F; apply HP).
  apply dataset_of_plain; [rewrite F; auto | rewrite F; auto |].
  assert (A : forall k c, In (k, c) (combine names (picks rows 0 names)) -> List.length c = List.length rows).
  { intros k c J. apply In_nth_error in J. destruct J as [i J].
    destruct (table_picks names rows H) as [_ T]. apply (T i k c J). }
  intros k1 c1 k2 c2 J1 J2; rewrite (A _ _ J1), (A _ _ J2); auto.
Qed.

Definition full (r : list string) : bool := match r with [] => false | _ => true end.

Lemma pick_full : forall rows i n, pick (filter full rows) i n = pick rows i n.
Proof.
  unfold pick. induction rows as [|[|f r] rows IH]; intros; cbn; auto.
  - rewrite IH. unfold cell at 2. destruct i; auto.
  - rewrite IH; auto.
Qed.

Lemma picks_full : forall names rows i, picks (filter full rows) i names = picks rows i names.
Proof. induction names; intros; cbn; auto. rewrite pick_full, IHnames; auto. Qed.

Lemma pick_count : forall rows i n,
  List.length (pick rows i n) = List.length (filter (fun r => Nat.ltb i (List.length r)) rows).
Proof.
  unfold pick. induction rows as [|r rows IH]; intros; cbn [flat_map filter]; auto.
  rewrite app_length, IH. unfold cell.
  destruct (nth_error r i) eqn:E; destruct (Nat.ltb_spec i (List.length r)) as [L|L]; auto.
  - assert (i < List.length r) by (apply nth_error_Some; congruence). lia.
  - apply nth_error_None in E. lia.
Qed.

Lemma filter_count : forall A (p q : A -> bool) l,
  (forall x, q x = true -> p x = true) ->
  List.length (filter q l) <= List.length (filter p l) /\
  (List.length (filter q l) = List.length (filter p l) -> forall x, In x l -> p x = true -> q x = true).
Proof.
  intros A p q l PQ. induction l as [|a l [IH1 IH2]]; cbn.
  - split; auto; intros _ x [].
  - destruct (q a) eqn:Q.
    + rewrite (PQ a Q). cbn. split; [lia|]. intros E x [<-|J]; auto.
    + destruct (p a) eqn:P; cbn.
      * split; [lia|]. intros E; lia.
      * split; auto. intros E x [<-|J]; [congruence|auto].
Qed.

Lemma same_len_long : forall names rows,
  (forall k c k' c', In (k, c) (combine names (picks rows 0 names)) ->
     In (k', c') (combine names (picks rows 0 names)) -> List.length c = List.length c') ->
  names <> [] -> forall r, In r (filter full rows) -> List.length names <= List.length r.
Proof.
  intros names rows H NE r J. apply filter_In in J. destruct J as [J F].
  destruct (nth_error names 0) as [n0|] eqn:E0; [|destruct names; [congruence|discriminate]].
  destruct (nth_error names (List.length names - 1)) as [n1|] eqn:E1.
  2:{ apply nth_error_None in E1. destruct names; [congruence|cbn in E1; lia]. }
  pose proof (nth_picks_in _ rows 0 _ _ E0) as A0.
  pose proof (nth_picks_in _ rows 0 _ _ E1) as A1.
  specialize (H _ _ _ _ A1 A0). rewrite !pick_count in H. cbn [Nat.add] in H.
  destruct (filter_count _ (fun r => Nat.ltb 0 (List.length r))
     (fun r => Nat.ltb (List.length names - 1) (List.length r)) rows) as [_ K].
  { intros x X. apply Nat.ltb_lt in X. apply Nat.ltb_lt. lia. }
  specialize (K H r J).
  assert (X : Nat.ltb 0 (List.length r) = true) by (destruct r; [discriminate|auto]).
  specialize (K X). apply Nat.ltb_lt in K. lia.
Qed.

Lemma dataset_picks_some : forall names rows ds,
  NoDup names -> (forall n, In n names -> stored n = n) -> names <> [] ->
  dataset_of stored (mkdict (combine names (picks rows 0 names))) = Some ds ->
  plain_names names /\ forall r, In r (filter full rows) -> List.length names <= List.length r.
Proof.
  intros names rows ds ND ST NE.
  assert (F : map fst (combine names (picks rows 0 names)) = names) by apply combine_fst, picks_len.
  rewrite mkdict_id by (rewrite F; auto).
  intro H. apply dataset_of_some in H; [|rewrite F; auto|rewrite F; auto].
  rewrite F in H. destruct H as [HP HL]. split; auto. apply same_len_long; auto.
Qed.

Lemma by_col_ok : forall names rows, NoDup names -> (forall n, In n names -> stored n = n) -> names <> [] ->
  (plain_names names -> (forall r, In r rows -> List.length names <= List.length r) ->
     load_by_col V conv stored names rows = Some (combine names (picks rows 0 names))) /\
  (forall ds, load_by_col V conv stored names rows = Some ds ->
     plain_names names /\ forall r, In r rows -> List.length names <= List.length r).
Proof.
  intros names rows ND ST NE. unfold load_by_col. split.
  - intros HP H. rewrite cols_from_picks; auto. apply dataset_picks; auto.
  - intros ds H. destruct (cols_from V conv rows 0 names) eqn:E; [|discriminate].
    assert (L : forall r, In r rows -> List.length names <= List.length r)
      by (intros r J; apply (cols_from_some _ _ _ _ E NE r J)).
    split; auto. rewrite cols_from_picks in E; auto. injection E as <-.
    apply (dataset_picks_some _ _ _ ND ST NE H).
Qed.

Lemma by_row_ok : forall names rows, NoDup names -> (forall n, In n names -> stored n = n) -> names <> [] ->
  (plain_names names -> (forall r, In r (filter full rows) -> List.length names <= List.length r) ->
     load_by_row V conv stored names rows = Some (combine names (picks (filter full rows) 0 names))) /\
  (forall ds, load_by_row V conv stored names rows = Some ds ->
     plain_names names /\ forall r, In r (filter full rows) -> List.length names <= List.length r).
Proof.
  intros names rows ND ST NE. unfold load_by_row. rewrite by_row_picks. split.
  - intros HP H. rewrite <- picks_full. apply dataset_picks; auto.
  - intros ds H. exact (dataset_picks_some _ _ _ ND ST NE H).
Qed.

Lemma rows_cols_ok : forall names rows, NoDup names -> (forall n, In n names -> stored n = n) -> names <> [] ->
  (plain_names names -> (forall r, In r rows -> List.length names <= List.length r) ->
     load_rows_cols V conv stored names rows = Some (combine names (picks rows 0 names))) /\
  (forall ds, load_rows_cols V conv stored names rows = Some ds ->
     plain_names names /\ forall r, In r rows -> List.length names <= List.length r).
Proof.
  intros names rows ND ST NE. unfold load_rows_cols, from_rows.
  destruct names as [|n0 ns] eqn:EN; [congruence|]. rewrite <- EN in *.
  rewrite fold_push_row, by_row_picks. split.
  - intros HP H. destruct (forallb _ _) eqn:E; [apply dataset_picks; auto|]. exfalso.
    rewrite <- not_true_iff_false in E. apply E, forallb_forall. intros x X. apply in_map_iff in X. destruct X as [r [<- R]].
    rewrite conv_row_len. apply Nat.eqb_eq. specialize (H r R). lia.
  - intros ds H. destruct (forallb _ _) eqn:E in H; [|discriminate].
    split; [apply (dataset_picks_some _ _ _ ND ST NE H)|].
    rewrite forallb_forall in E. intros r R.
    specialize (E (conv_row V conv names r) (in_map _ _ _ R)).
    rewrite conv_row_len in E. apply Nat.eqb_eq in E. lia.
Qed.

(* version 2 *)
Lemma tag_nth : forall names r k n, NoDup names -> nth_error names k = Some n ->
  tag V n (combine names (conv_row V conv names r)) = option_map (conv n) (nth_error r k).
Proof.
  unfold tag. induction names as [|a ns IH]; intros r k n ND H; [destruct k; discriminate|].
  inversion ND as [|? ? NI ND']; subst.
  destruct r as [|f r]; [destruct k; reflexivity|]. cbn [conv_row combine find fst].
  destruct k as [|k]; cbn in H.
  - inversion H; subst. rewrite String.eqb_refl. reflexivity.
  - destruct (String.eqb_spec n a) as [->|E].
    + exfalso; apply NI. eapply nth_error_In; eauto.
    + cbn [nth_error]. apply IH; auto.
Qed.

Lemma trow_id : forall names r, NoDup names ->
  mkdict (combine names (conv_row V conv names r)) = combine names (conv_row V conv names r).
Proof.
  intros names r ND. apply mkdict_id. revert r.
  induction names as [|a ns IH]; intros r; [constructor|].
  inversion ND as [|? ? NI ND']; subst. destruct r as [|f r]; cbn; [constructor|].
  constructor; auto. intro J. apply NI. apply in_map_iff in J. destruct J as [[x v] [<- J]].
  apply in_combine_l in J. exact J.
Qed.

Definition trows (names : list string) (rows : list (list string)) :=
  map (fun r => mkdict (combine names (conv_row V conv names r))) rows.

Lemma tags_pick : forall names rows k n, NoDup names -> nth_error names k = Some n ->
  tags V n (trows names rows) = pick rows k n /\ tag_count V n (trows names rows) = List.length (pick rows k n).
Proof.
  intros names rows k n ND H. unfold tags, tag_count, pick, trows.
  induction rows as [|r rows [IH1 IH2]]; [split; reflexivity|].
  cbn [map flat_map filter]. rewrite (trow_id names r ND), (tag_nth names r k n ND H).
  unfold cell at 1 3. destruct (nth_error r k) as [f|]; cbn; rewrite ?IH1, ?IH2; auto.
Qed.

Lemma pick_pos : forall rows k n, List.length (pick rows k n) <> 0 <-> exists r, In r rows /\ k < List.length r.
Proof.
  intros rows k n. rewrite pick_count. split.
  - intro H. destruct (filter _ rows) as [|r l] eqn:E; [cbn in H; congruence|].
    assert (J : In r (filter (fun r => Nat.ltb k (List.length r)) rows)) by (rewrite E; left; auto).
    apply filter_In in J. destruct J as [J L]. apply Nat.ltb_lt in L. eauto.
  - intros [r [J L]] Z. apply length_zero_iff_nil in Z.
    assert (K : In r (filter (fun r => Nat.ltb k (List.length r)) rows)) by (apply filter_In; rewrite Nat.ltb_lt; auto).
    rewrite Z in K. destruct K.
Qed.

(* The keys found are the first names. *)
Lemma keys_first : forall all rows names i, NoDup all -> skipn i all = names ->
  exists m, filter (fun k => negb (Nat.eqb (tag_count V k (trows all rows)) 0)) names = firstn m names /\
    (m < List.length names -> forall r, In r rows -> List.length r <= i + m).
Proof.
  intros all rows names. induction names as [|n ns IH]; intros i ND H.
  - exists 0. split; auto. cbn. lia.
  - assert (N : nth_error all i = Some n /\ skipn (S i) all = ns).
    { clear - H. revert all H. induction i as [|i IH]; intros [|a all] H; cbn in *; try discriminate.
      - inversion H; auto.
      - apply IH in H. auto. }
    destruct N as [N S1]. destruct (tags_pick all rows i n ND N) as [_ C].
    cbn [filter]. rewrite C. destruct (Nat.eqb_spec (List.length (pick rows i n)) 0) as [Z|Z]; cbn [negb].
    + assert (A : forall r, In r rows -> List.length r <= i).
      { intros r J. destruct (le_lt_dec (List.length r) i); auto. exfalso.
        apply (proj2 (pick_pos rows i n)) in Z; eauto. }
      destruct (IH (S i) ND S1) as [m [E L]]. exists 0. split.
      * rewrite E. destruct m as [|m]; auto. destruct ns as [|n2 ns2]; auto. exfalso.
        assert (J : In n2 (firstn (S m) (n2 :: ns2))) by (left; auto). rewrite <- E in J.
        apply filter_In in J. destruct J as [_ J].
        assert (N2 : nth_error all (S i) = Some n2).
        { clear - S1. revert all S1. generalize (S i) as j. induction j as [|j IHj]; intros [|a all] H; cbn in *; try discriminate.
          - inversion H; auto. - apply IHj in H. auto. }
        destruct (tags_pick all rows (S i) n2 ND N2) as [_ C2]. rewrite C2 in J.
        apply negb_true_iff, Nat.eqb_neq in J. apply pick_pos in J. destruct J as [r [R1 R2]].
        specialize (A r R1). lia.
      * intros _ r J. specialize (A r J). lia.
    + destruct (IH (S i) ND S1) as [m [E L]]. exists (S m). split.
      * cbn [firstn]. rewrite E. auto.
      * cbn. intros M r J. assert (M' : m < List.length ns) by lia. specialize (L M' r J). lia.
Qed.

Lemma map_tags : forall all rows names i, NoDup all ->
  (forall k n, nth_error names k = Some n -> nth_error all (i + k) = Some n) ->
  map (fun k => (k, tags V k (trows all rows))) names = combine names (picks rows i names).
Proof.
  intros all rows names. induction names as [|n ns IH]; intros i ND H; auto.
  cbn [map picks combine]. f_equal.
  - pose proof (H 0 n eq_refl) as K. rewrite Nat.add_0_r in K.
    rewrite (proj1 (tags_pick all rows i n ND K)). auto.
  - apply (IH (S i) ND). intros k n' J. specialize (H (S k) n' J). rewrite Nat.add_succ_r in H. exact H.
Qed.

Lemma nth_firstn : forall (l : list string) m k n, nth_error (firstn m l) k = Some n -> nth_error l k = Some n.
Proof. induction l as [|a l IH]; intros [|m] [|k] n H; cbn in *; try discriminate; eauto. Qed.

Lemma firstn_in : forall (l : list string) m n, In n (firstn m l) -> In n l.
Proof. induction l as [|a l IH]; intros [|m] n H; cbn in *; auto; try contradiction. destruct H; eauto. Qed.

Lemma firstn_NoDup : forall (l : list string) m, NoDup l -> NoDup (firstn m l).
Proof.
  induction l as [|a l IH]; intros [|m] H; cbn; try constructor; inversion H; subst; auto.
  intro J. apply firstn_in in J. auto.
Qed.

Lemma tagged_some : forall names rows ds, NoDup names -> (forall n, In n names -> stored n = n) -> names <> [] ->
  load_tagged V conv stored names rows = Some ds ->
  plain_names names /\ filter full rows <> [] /\
  forall r, In r (filter full rows) -> List.length names <= List.length r.
Proof.
  intros names rows ds ND ST NE. unfold load_tagged, from_tagged_rows. fold (trows names rows).
  rewrite nodup_fixed_point by exact ND.
  destruct (keys_first names rows names 0 ND eq_refl) as [m [E _]]. rewrite E.
  destruct (firstn m names) as [|k0 ks] eqn:F.
  - destruct names; [congruence|]. discriminate.
  - rewrite <- F. destruct (forallb _ _); [|discriminate].
    rewrite (map_tags names rows (firstn m names) 0 ND) by (intros k n J; cbn; eapply nth_firstn; eauto).
    assert (ND2 := firstn_NoDup names m ND).
    assert (ST2 : forall n, In n (firstn m names) -> stored n = n) by (intros n J; apply ST; eapply firstn_in; eauto).
    assert (NE2 : firstn m names <> []) by (rewrite F; discriminate).
    set (fn := firstn m names) in *.
    assert (FF : map fst (combine fn (picks rows 0 fn)) = fn) by apply combine_fst, picks_len.
    destruct (dataset_of stored (combine fn (picks rows 0 fn))) as [ds'|] eqn:H; [|discriminate].
    assert (H' : dataset_of stored (mkdict (combine fn (picks rows 0 fn))) = Some ds') by (rewrite mkdict_id; [exact H | rewrite FF; exact ND2]).
    destruct (dataset_picks_some fn rows ds' ND2 ST2 NE2 H') as [HP L].
    rewrite <- picks_full, dataset_picks in H' by assumption. injection H' as <-.
    destruct (Nat.ltb_spec (List.length (combine fn (picks (filter full rows) 0 fn))) (List.length names)) as [Q|Q]; [discriminate|].
    intros _. rewrite combine_length, picks_len, Nat.min_id in Q.
    assert (A : fn = names).
    { unfold fn in *. rewrite firstn_length in Q. apply firstn_all2. lia. }
    split; [rewrite <- A; exact HP|]. split; [|rewrite <- A; exact L].
    assert (K0 : In k0 (k0 :: ks)) by (left; auto). rewrite <- E in K0. apply filter_In in K0. destruct K0 as [K0 C].
    apply In_nth_error in K0. destruct K0 as [k K].
    rewrite (proj2 (tags_pick names rows k k0 ND K)) in C.
    apply negb_true_iff, Nat.eqb_neq in C. apply pick_pos in C. destruct C as [r [R1 R2]].
    intro Z. assert (J : In r (filter full rows)) by (apply filter_In; split; auto; destruct r; cbn in *; [lia|auto]).
    rewrite Z in J. destruct J.
Qed.

Lemma tagged_ok : forall names rows, plain_names names -> (forall n, In n names -> stored n = n) -> names <> [] ->
  filter full rows <> [] -> (forall r, In r (filter full rows) -> List.length names <= List.length r) ->
  load_tagged V conv stored names rows = Some (combine names (picks (filter full rows) 0 names)).
Proof.
  intros names rows HP ST NE RE L. assert (ND : NoDup names) by apply HP.
  unfold load_tagged, from_tagged_rows. fold (trows names rows).
  rewrite nodup_fixed_point by exact ND.
  assert (C : forall n, In n names -> tag_count V n (trows names rows) = List.length (filter full rows)).
  { intros n J. apply In_nth_error in J. destruct J as [k K].
    rewrite (proj2 (tags_pick names rows k n ND K)), <- pick_full.
    apply (pick_long (filter full rows) k n).
    intros r R. specialize (L r R). assert (k < List.length names) by (apply nth_error_Some; congruence). lia. }
  assert (P : List.length (filter full rows) <> 0) by (intro Z; apply length_zero_iff_nil in Z; auto).
  assert (FA : filter (fun k => negb (Nat.eqb (tag_count V k (trows names rows)) 0)) names = names).
  { assert (G : forall l, (forall n, In n l -> In n names) ->
      filter (fun k => negb (Nat.eqb (tag_count V k (trows names rows)) 0)) l = l).
    { induction l as [|a l IH]; intros H; auto. cbn [filter]. rewrite (C a) by (apply H; left; auto).
      apply Nat.eqb_neq in P. rewrite P. cbn [negb]. rewrite IH; auto. intros; apply H; right; auto. }
    apply G; auto. }
  rewrite FA. destruct names as [|k0 ks] eqn:EN; [congruence|]. rewrite <- EN in *.
  destruct (forallb _ names) eqn:E.
  - rewrite (map_tags names rows names 0 ND) by auto.
    rewrite <- picks_full. rewrite <- (mkdict_id _ (combine names _)).
    + rewrite dataset_picks; auto. rewrite combine_length, picks_len, Nat.min_id, Nat.ltb_irrefl.
      rewrite mkdict_id; auto. rewrite combine_fst; auto using picks_len.
    + rewrite combine_fst; auto using picks_len.
  - exfalso. rewrite <- not_true_iff_false in E. apply E, forallb_forall. intros k J.
    apply Nat.eqb_eq. rewrite (C k), (C k0); auto. rewrite EN; left; auto.
Qed.
End CSV.

(* ---- numpy directories ---- *)

Lemma prefix_npy_app : forall n, String.prefix ".npy" (n ++ ".npy") = true ->
  n = EmptyString \/ String.prefix ".npy" n = true.
Proof.
  intros [|a n]; auto. intro H; right. cbn [String.append String.prefix] in *.
  destruct (ascii_dec "." a); [|discriminate].
  destruct n as [|b n]; cbn [String.append String.prefix] in *; [discriminate|].
  destruct (ascii_dec "n" b); [|discriminate].
  destruct n as [|c n]; cbn [String.append String.prefix] in *; [discriminate|].
  destruct (ascii_dec "p" c); [|discriminate].
  destruct n as [|d n]; cbn [String.append String.prefix] in *; [discriminate|].
  destruct (ascii_dec "y" d); [|discriminate]. destruct n; auto.
Qed.

Lemma prefix_split : forall p s, String.prefix p s = true -> exists b, s = (p ++ b)%string.
Proof.
  induction p as [|a p IH]; intros s H; [exists s; auto|].
  destruct s as [|c s]; cbn [String.prefix] in H; [discriminate|].
  destruct (ascii_dec a c) as [<-|]; [|discriminate].
  destruct (IH _ H) as [b ->]. exists b; auto.
Qed.

Lemma strip_app : forall n, ~ occurs ".npy" n -> strip_npy 0 (n ++ ".npy") = n.
Proof.
  induction n as [|c n IH]; intro H; auto.
  change ((String c n ++ ".npy")%string) with (String c (n ++ ".npy")%string).
  cbn [strip_npy].
  destruct (String.prefix ".npy" (String c (n ++ ".npy")%string)) eqn:E.
  - destruct (prefix_npy_app (String c n) E) as [K|K]; [discriminate|].
    destruct (prefix_split _ _ K) as [b B].
    exfalso; apply H. exists EmptyString, b. rewrite B; auto.
  - rewrite IH; auto. intros [a [b B]]. apply H. exists (String c a), b. rewrite B; auto.
Qed.

Lemma ends_occurs : forall s, ends_npy s = true -> occurs ".npy" s.
Proof.
  induction s as [|c s IH]; intro H; [discriminate|]. cbn [ends_npy] in H.
  apply orb_true_iff in H. destruct H as [H|H].
  - apply String.eqb_eq in H. rewrite H. exists EmptyString, EmptyString. auto.
  - destruct (IH H) as [a [b ->]]. exists (String c a), b. auto.
Qed.

Lemma npy_file_plain : forall s, ~ occurs ".npy" s -> strip_npy 0 (npy_file s) = s.
Proof.
  intros s H. unfold npy_file. destruct (ends_npy s) eqn:E.
  - exfalso; apply H, ends_occurs, E.
  - apply strip_app, H.
Qed.

Lemma on_disk_new : forall V (d : disk V) name fs,
  on_disk d name = None -> on_disk (d ++ [(name, fs)]) name = Some fs.
Proof.
  unfold on_disk. induction d as [|[k v] d IH]; cbn; intros name fs H.
  - rewrite String.eqb_refl; auto.
  - destruct (String.eqb name k); [discriminate|auto].
Qed.

Lemma on_disk_old : forall V (d : disk V) name fs other,
  other <> name -> on_disk (d ++ [(name, fs)]) other = on_disk d other.
Proof.
  unfold on_disk. induction d as [|[k v] d IH]; cbn; intros name fs other H.
  - apply String.eqb_neq in H. rewrite H; auto.
  - destruct (String.eqb other k); auto.
Qed.

Lemma np_roundtrip : forall V stored (d : disk V) name ds (listing : list (string * list V) -> list (string * list V)),
  is_dataset ds -> (forall n, In n (map fst ds) -> stored n = n) ->
  (forall k, In k (map fst ds) -> ~ occurs ".npy" k) ->
  (forall l, Permutation l (listing l)) -> on_disk d name = None ->
  exists d' ds', write_np d name ds = Some d' /\ read_np stored listing d' name = Some ds' /\
    Permutation ds ds' /\ (forall other, other <> name -> on_disk d' other = on_disk d other).
Proof.
  intros V stored d name ds listing [HP HL] ST HO HLi HN.
  set (fs := map (fun kv : string * list V => (npy_file (fst kv), snd kv)) ds).
  assert (INV : map (fun kv => strip_npy 0 (fst kv)) fs = map fst ds).
  { unfold fs. rewrite map_map. apply map_ext_in. intros [k c] J; cbn.
    apply npy_file_plain, HO. apply in_map with (f := fst) in J; exact J. }
  assert (W : fold_left (fun f kv => dset (npy_file (fst kv)) (snd kv) f) ds [] = fs).
  { rewrite (fold_dset_new (list V) (string * list V) (fun kv => npy_file (fst kv)) snd ds []); auto.
    cbn. assert (N : NoDup (map (fun kv => strip_npy 0 (fst kv)) fs)) by (rewrite INV; apply HP).
    replace (map (fun kv => strip_npy 0 (fst kv)) fs)
      with (map (strip_npy 0) (map (fun x : string * list V => npy_file (fst x)) ds)) in N.
    - apply NoDup_map_inv in N; auto.
    - unfold fs. rewrite !map_map. auto. }
  unfold write_np, read_np. rewrite HN, W.
  exists (d ++ [(name, fs)]).
  rewrite on_disk_new; auto.
  pose proof (HLi fs) as P.
  pose (ds' := map (fun kv => (strip_npy 0 (fst kv), snd kv)) (listing fs)).
  assert (P' : Permutation ds ds').
  { unfold ds'. rewrite <- P. unfold fs. rewrite map_map.
    match goal with |- Permutation _ ?m => enough (K : ds = m) by (rewrite <- K; auto) end.
    rewrite <- (map_id ds) at 1. apply map_ext_in. intros [k c] J; cbn.
    rewrite npy_file_plain; auto. apply HO. apply in_map with (f := fst) in J; exact J. }
  exists ds'. split; auto.
  assert (N' : NoDup (map fst ds')).
  { rewrite <- (Permutation_map fst P'). apply HP. }
  split; [|split; auto].
  - rewrite (fold_dset_new (list V) (string * list V) (fun kv => strip_npy 0 (fst kv)) snd).
    + cbn. change (dataset_of stored ds' = Some ds'). apply dataset_of_plain.
      * split; auto. intros n t J.
        apply (Permutation_in n (Permutation_sym (Permutation_map fst P'))) in J.
        apply HP; auto.
      * intros n J.
        apply (Permutation_in n (Permutation_sym (Permutation_map fst P'))) in J. auto.
      * intros k c k' c' J J'.
        apply (HL k c k' c'); eapply Permutation_in; try apply Permutation_sym; eauto.
    + cbn. unfold ds' in N'. rewrite map_map in N'. auto.
  - intros other H. apply on_disk_old; auto.
Qed.
