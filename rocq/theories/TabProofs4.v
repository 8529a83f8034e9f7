(** Proofs about the Dataset container (4): contents after cell assignment and putmask. *)
From Coq Require Import List Arith Bool ZArith Lia.
From Verif Require Import FlattenModel FlattenProofs MergeModel MergeFacts DsModel DsProofs DsProofs3 DsProofs4 TabModel TabSpec TabProofs TabProofs2 TabProofs3.
Import ListNotations.

Lemma scatter_over {X} : forall idx (vals l : list X), length vals = length idx -> (forall i, In i idx -> i < length l) ->
  overwritten l (scatter idx vals l) idx vals.
Proof.
  induction idx as [|i idx IH]; intros [|v vals] l E R; try discriminate; cbn [scatter].
  - split; [reflexivity|]. split; [reflexivity|]. intros [|q] r H; discriminate.
  - cbn in E. assert (Hi : i < length l) by (apply R; now left).
    destruct (IH vals (upd i v l)) as (A & B & C); [lia| |].
    { intros j Hj. rewrite upd_len. apply R. now right. }
    rewrite upd_len in A. split; [assumption|]. split.
    + intros r Nr. rewrite B by (intros H; apply Nr; now right). destruct (Nat.ltb_spec r (length l)) as [L|L].
      * rewrite nth_error_upd by assumption. destruct (Nat.eqb_spec r i) as [->|]; [exfalso; apply Nr; now left|reflexivity].
      * rewrite (proj2 (nth_error_None _ _)) by (rewrite upd_len; assumption). symmetry. now apply nth_error_None.
    + intros [|q] r H L.
      * cbn in H. assert (r = i) by congruence. subst r. rewrite B.
        { rewrite nth_error_upd by assumption. rewrite Nat.eqb_refl. reflexivity. }
        intros Hin. apply In_nth_error in Hin. destruct Hin as [q Hq]. apply (L (S q)); [lia|exact Hq].
      * cbn in H. cbn [nth_error]. apply (C q r H). intros q' Lq. apply (L (S q')). lia.
Qed.

Section Tab.
Context {V : Type}.
Variable junk inv : V.
Notation read := (read junk).
Implicit Types w : world V.

Lemma store_other w a ps vals b : base b <> base a -> read (store w a ps vals) b = read w b.
Proof.
  intros N. unfold TabModel.read, block, store. cbn [mem]. apply map_ext. intros p. f_equal.
  destruct (Nat.ltb_spec (base a) (length (mem w))) as [L|L].
  - rewrite nth_upd by assumption. destruct (Nat.eqb_spec (base b) (base a)); [congruence|reflexivity].
  - unfold upd. now rewrite (proj2 (Nat.ltb_ge _ _)).
Qed.
Lemma store_self w a ps vals : inside w a -> (forall r, In r ps -> r < alen a) -> length vals = length ps ->
  overwritten (read w a) (read (store w a ps vals) a) ps vals.
Proof.
  intros (A & B & C) R E. unfold TabModel.read. unfold alen in R.
  assert (EB : block (store w a ps vals) (base a) = scatter (map (fun r => nth r (pos a) 0) ps) vals (block w (base a))).
  { unfold block, store. cbn [mem]. rewrite nth_upd by assumption. now rewrite Nat.eqb_refl. }
  rewrite EB. destruct (scatter_over (map (fun r => nth r (pos a) 0) ps) vals (block w (base a))) as (L & K & W).
  { now rewrite map_length. }
  { intros i H. apply in_map_iff in H. destruct H as (r & <- & Hr). apply B. apply nth_In. auto. }
  set (new := scatter _ _ _) in *. set (old := block w (base a)) in *.
  assert (At : forall (blk : list V) r p, nth_error (pos a) r = Some p -> p < length blk -> nth_error (map (fun p => nth p blk junk) (pos a)) r = nth_error blk p).
  { intros blk r p Hr Hp. rewrite nth_error_map, Hr. cbn. symmetry. now apply nth_error_nth'. }
  assert (Inj : forall r r', r < length (pos a) -> r' < length (pos a) -> nth r (pos a) 0 = nth r' (pos a) 0 -> r = r').
  { intros r r' H1 H2 E'. now apply (proj1 (NoDup_nth (pos a) 0) C). }
  split; [now rewrite !map_length|]. split.
  - intros r Nr. destruct (nth_error (pos a) r) as [p|] eqn:Ep.
    + assert (Hp : p < length old) by (apply B; eapply nth_error_In, Ep). rewrite (At new r p Ep), (At old r p Ep) by (rewrite ?L; assumption).
      apply K. intros Hin. apply in_map_iff in Hin. destruct Hin as (r' & E' & Hr'). apply Nr. replace r with r'; [assumption|].
      assert (r < length (pos a)) by (apply nth_error_Some; congruence). apply Inj; auto. rewrite E'. symmetry. now apply nth_error_nth.
    + rewrite !nth_error_map, Ep. reflexivity.
  - intros q r Hq Hl. assert (Hr : r < length (pos a)) by (apply R; eapply nth_error_In, Hq).
    assert (Ep : nth_error (pos a) r = Some (nth r (pos a) 0)) by now apply nth_error_nth'.
    rewrite (At new r _ Ep) by (rewrite L; apply B; now apply nth_In).
    apply W; [now rewrite nth_error_map, Hq|]. intros q' Lq H'. rewrite nth_error_map in H'. destruct (nth_error ps q') as [r'|] eqn:E'; [|discriminate].
    apply (Hl q' Lq). f_equal. cbn in H'. assert (nth r' (pos a) 0 = nth r (pos a) 0) by congruence. rewrite E'. f_equal. apply Inj; auto. apply R. eapply nth_error_In, E'.
Qed.

(** positions are in range *)
Lemma firstn_skipn_in {X} n k (l : list X) x : In x (firstn n (skipn k l)) -> In x l.
Proof.
  intros H. rewrite <- (firstn_skipn k l). apply in_app_iff. right. rewrite <- (firstn_skipn n (skipn k l)). apply in_app_iff. now left.
Qed.
Lemma fancy_range m r : In r (bool_to_fancy m) -> r < length m.
Proof.
  unfold bool_to_fancy. assert (Q : forall (m : list bool) l, In r (compress m l) -> In r l).
  { induction m0 as [|b m0 IH]; intros [|x l] H; cbn in *; try easy. destruct b; [destruct H as [->|H]; [now left|right; auto]|right; auto]. }
  intros H. apply Q in H. apply in_seq in H. lia.
Qed.
Lemma resolve_range n i r : resolve n i = Some r -> r < n.
Proof.
  unfold resolve. set (j := if (i <? 0)%Z then _ else _). destruct (Z.leb_spec 0 j), (Z.ltb_spec j (Z.of_nat n)); cbn; try discriminate.
  intros [= <-]. lia.
Qed.
Lemma resolve_all_range n : forall idx ps, resolve_all n idx = Some ps -> forall r, In r ps -> r < n.
Proof.
  induction idx as [|i idx IH]; intros ps; cbn [resolve_all]; [intros [= <-]; easy|].
  destruct (resolve n i) as [j|] eqn:E; [|discriminate]. destruct (resolve_all n idx) as [l|]; [|discriminate]. intros [= <-] r [<-|H]; [now apply resolve_range in E|eauto].
Qed.
Lemma row_positions_range n r ps : row_positions n r = Some ps -> forall i, In i ps -> i < n.
Proof.
  destruct r as [|lo hi|m|idx]; cbn [row_positions].
  - intros [= <-] i H. apply in_seq in H. lia.
  - intros [= <-] i H. apply firstn_skipn_in, in_seq in H. lia.
  - destruct (Nat.eqb_spec (length m) n) as [<-|]; [|discriminate]. intros [= <-] i H. now apply fancy_range.
  - intros H. eapply resolve_all_range, H.
Qed.

Lemma assign_spec w a r vals w' : inside w a -> assign w a r vals = (w', None) ->
  (exists ps, row_positions (alen a) r = Some ps /\ length (spread (length ps) vals) = length ps /\
     overwritten (read w a) (read w' a) ps (spread (length ps) vals)) /\
  (forall b, base b <> base a -> read w' b = read w b) /\ (forall b, inside w b -> inside w' b).
Proof.
  intros I. unfold assign. destruct (row_positions (alen a) r) as [ps|] eqn:E; [|discriminate].
  pose proof (row_positions_range _ _ _ E) as R.
  destruct (Nat.eqb_spec (length vals) (length ps)) as [L|L].
  - intros H. assert (w' = store w a ps vals) by congruence. subst w'.
    assert (Es : spread (length ps) vals = vals) by (destruct vals as [|x [|y q]]; try reflexivity; cbn in *; now rewrite <- L).
    split; [exists ps; rewrite Es; split; [reflexivity|]; split; [assumption|]; now apply store_self|].
    split; [intros b Nb; now apply store_other|intros b; apply inside_store].
  - destruct vals as [|x [|y q]]; try discriminate. intros H. assert (w' = store w a ps (repeat x (length ps))) by congruence. subst w'.
    split; [exists ps; cbn [spread]; split; [reflexivity|]; split; [apply repeat_length|]; apply store_self; auto; apply repeat_length|].
    split; [intros b Nb; now apply store_other|intros b; apply inside_store].
Qed.
Lemma assign_succeeds w a r vals ps : row_positions (alen a) r = Some ps -> length (spread (length ps) vals) = length ps -> snd (assign w a r vals) = None.
Proof.
  intros E L. unfold assign. rewrite E. destruct (Nat.eqb_spec (length vals) (length ps)); [reflexivity|]. destruct vals as [|x [|y q]]; cbn in *; congruence.
Qed.

Lemma assign_columns_spec d r : forall cols src w w', assign_columns junk w d r cols src = (w', None) ->
  (forall n it, In (n, it) (items d) -> inside w (arr it)) -> separate (dests d cols) -> apart (dests d cols) src ->
  (forall i n, nth_error cols i = Some n -> exists it a, dget n (items d) = Some it /\ nth_error src i = Some a /\
     exists ps, row_positions (alen (arr it)) r = Some ps /\ length (spread (length ps) (read w a)) = length ps /\
       overwritten (read w (arr it)) (read w' (arr it)) ps (spread (length ps) (read w a))) /\
  (forall b, apart (dests d cols) [b] -> read w' b = read w b).
Proof.
  induction cols as [|n cols IH]; intros src w w'; cbn [assign_columns].
  - intros H _ _ _. assert (w' = w) by congruence. subst. split; [intros [|i] n; discriminate|reflexivity].
  - destruct (dget n (items d)) as [it|] eqn:En; [|discriminate]. destruct src as [|a src]; [discriminate|].
    destruct (assign w (arr it) r (read w a)) as [w1 [e|]] eqn:Ea; [discriminate|]. intros H I Sep Ap.
    assert (Hit : In (n, it) (items d)) by now apply dget_some_in.
    assert (ED : dests d (n :: cols) = arr it :: dests d cols) by (unfold dests; cbn [flat_map]; now rewrite En).
    rewrite ED in *. unfold separate in Sep. cbn [map] in Sep. inversion Sep as [|? ? Nb Sp]; subst.
    destruct (assign_spec w (arr it) r (read w a) w1 (I n it Hit) Ea) as ((ps & Ep & Lp & Ov) & Oth & Ins).
    assert (Rs : forall b, In b src -> read w1 b = read w b).
    { intros b Hb. apply Oth. intros E. apply (Ap (arr it) b); [now left|now right|congruence]. }
    destruct (IH src w1 w' H) as [Cells Rest].
    { intros m x Hm. apply Ins. eauto. }
    { exact Sp. }
    { intros x y Hx Hy. apply Ap; [now right|now right]. }
    assert (Ri : read w' (arr it) = read w1 (arr it)).
    { apply Rest. intros x y Hx [<-|[]] E. apply Nb. rewrite <- E. now apply in_map. }
    split.
    + intros [|i] m Hm.
      * cbn in Hm. assert (m = n) by congruence. subst m. exists it, a. split; [assumption|]. split; [reflexivity|]. exists ps. rewrite Ri. auto.
      * cbn in Hm. destruct (Cells i m Hm) as (it' & a' & Em & Ea' & ps' & Ep' & Lp' & Ov'). exists it', a'. split; [assumption|]. split; [assumption|].
        exists ps'. rewrite <- (Rs a') by (eapply nth_error_In, Ea'). split; [assumption|]. split; [assumption|].
        assert (Hd : In (arr it') (dests d cols)).
        { unfold dests. apply in_flat_map. exists m. split; [eapply nth_error_In, Hm|]. rewrite Em. now left. }
        rewrite <- (Oth (arr it')); [assumption|]. intros E. apply Nb. rewrite <- E. now apply in_map.
    + intros b Hb. rewrite Rest; [apply Oth|].
      * intros E. apply (Hb (arr it) b); [now left|now left|congruence].
      * intros x y Hx Hy. apply Hb; [now right|assumption].
Qed.

(** putmask *)
Lemma mask_over (old new src : list V) m : length m = length old -> length src = length old -> overwritten old new (bool_to_fancy m) (compress m src) ->
  forall i, nth_error new i = if nth i m false then nth_error src i else nth_error old i.
Proof.
  intros Lm Ls (A & B & C) i.
  assert (Q : forall (m : list bool) s (l : list V), length m = length l ->
     (forall q r, nth_error (compress m (seq s (length m))) q = Some r -> s <= r /\ nth (r - s) m false = true /\ nth_error (compress m l) q = nth_error l (r - s)) /\
     (forall r, r < length m -> nth r m false = true -> In (s + r) (compress m (seq s (length m)))) /\ NoDup (compress m (seq s (length m)))).
  { clear. induction m as [|b m IH]; intros s [|x l] E; try discriminate; cbn [compress length seq].
    - split; [intros [|q] r; discriminate|]. split; [cbn; lia|constructor].
    - cbn in E. destruct (IH (S s) l) as (P1 & P2 & P3); [lia|]. 
      assert (P1' : forall q r, nth_error (compress m (seq (S s) (length m))) q = Some r -> s <= r /\ nth (r - s) (b :: m) false = true /\ nth_error (compress m l) q = nth_error (x :: l) (r - s)).
      { intros q r H. destruct (P1 q r H) as (U & W & Z). replace (r - s) with (S (r - S s)) by lia. cbn. split; [lia|]. auto. }
      destruct b.
      + split; [|split].
        * intros [|q] r H; cbn in H; [|exact (P1' q r H)]. assert (r = s) by congruence. subst. rewrite Nat.sub_diag. cbn. auto.
        * intros [|r] Hr Hn; [left; lia|]. right. cbn in Hn. replace (s + S r) with (S s + r) by lia. apply P2; [lia|assumption].
        * constructor; [|assumption]. intros Hin. apply In_nth_error in Hin. destruct Hin as [q Hq]. apply P1 in Hq. lia.
      + split; [exact P1'|]. split; [|assumption]. intros [|r] Hr Hn; [discriminate|]. cbn in Hn. replace (s + S r) with (S s + r) by lia. apply P2; [lia|assumption]. }
  destruct (Q m 0 src) as (P1 & P2 & P3); [congruence|]. unfold bool_to_fancy in *.
  destruct (nth i m false) eqn:Em.
  - assert (Hi : i < length m) by (destruct (Nat.ltb_spec i (length m)); [assumption|rewrite nth_overflow in Em by assumption; discriminate]).
    pose proof (P2 i Hi Em) as Hin. cbn in Hin. apply In_nth_error in Hin. destruct Hin as [q Hq]. rewrite (C q i Hq).
    + destruct (P1 q i Hq) as (_ & _ & ->). now rewrite Nat.sub_0_r.
    + intros q' L H'. assert (q = q'); [|lia]. eapply (proj1 (NoDup_nth_error _) P3); [apply nth_error_Some; congruence|congruence].
  - apply B. intros Hin. apply In_nth_error in Hin. destruct Hin as [q Hq]. destruct (P1 q i Hq) as (_ & U & _). rewrite Nat.sub_0_r in U. congruence.
Qed.
Lemma put1_spec w a m src : inside w a -> length m = alen a -> alen src = alen a ->
  (forall i, nth_error (read (put1 junk w a m src) a) i = if nth i m false then nth_error (read w src) i else nth_error (read w a) i).
Proof.
  intros I Lm Ls. apply mask_over; [now rewrite read_length|now rewrite !read_length|]. apply store_self; auto.
  - intros r Hr. apply fancy_range in Hr. lia.
  - unfold bool_to_fancy. rewrite !compress_length; [reflexivity|now rewrite seq_length|rewrite read_length; lia].
Qed.
Lemma put_all_spec m : forall dst src w, (forall a, In a dst -> inside w a /\ alen a = length m) -> (forall b, In b src -> alen b = length m) -> length src = length dst ->
  separate dst -> apart dst src ->
  (forall k a b, nth_error dst k = Some a -> nth_error src k = Some b ->
     forall i, nth_error (read (put_all junk w m dst src) a) i = if nth i m false then nth_error (read w b) i else nth_error (read w a) i) /\
  (forall b, apart dst [b] -> read (put_all junk w m dst src) b = read w b).
Proof.
  induction dst as [|a dst IH]; intros [|b src] w Id Is L Sep Ap; try discriminate; cbn [put_all].
  - split; [intros [|k]; discriminate|reflexivity].
  - unfold separate in Sep. cbn [map] in Sep. inversion Sep as [|? ? Nb Sp]; subst.
    destruct (Id a (or_introl eq_refl)) as [Ia La]. pose proof (Is b (or_introl eq_refl)) as Lb.
    destruct (IH src (put1 junk w a m b)) as [Cells Rest].
    { intros x Hx. destruct (Id x (or_intror Hx)). split; [now apply inside_store|assumption]. }
    { intros x Hx. apply Is. now right. }
    { cbn in L. lia. }
    { exact Sp. }
    { intros x y Hx Hy. apply Ap; now right. }
    split.
    + intros [|k] x y Hx Hy i; cbn in Hx, Hy.
      * assert (x = a) by congruence. assert (y = b) by congruence. subst x y. rewrite Rest.
        { apply put1_spec; auto; lia. }
        { intros x y Hx' [<-|[]] E. apply Nb. rewrite <- E. now apply in_map. }
      * rewrite (Cells k x y Hx Hy). pose proof (nth_error_In _ _ Hx). pose proof (nth_error_In _ _ Hy). unfold put1. rewrite !store_other; [reflexivity| |].
        -- intros E. apply Nb. rewrite <- E. now apply in_map.
        -- intros E. apply (Ap a y); [now left|now right|congruence].
    + intros x Hx. rewrite Rest; [unfold put1; apply store_other|].
      * intros E. apply (Hx a x); [now left|now left|congruence].
      * intros u v Hu Hv. apply Hx; [now right|assumption].
Qed.
End Tab.
