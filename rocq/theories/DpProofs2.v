(* The columns built for a table are the shown columns of the specification. *)
From Coq Require Import List Arith Bool PeanoNat Lia.
From Verif Require Import DpSpec DpModel DpSpec2 DpProofs.
Import ListNotations.

Lemma mem_in n l : mem n l = true <-> In n l.
Proof. unfold mem. rewrite existsb_exists. split.
  - intros (x & I1 & E). apply text_eqb_eq in E. now subst.
  - intros H. exists n. split; [exact H|now apply text_eqb_eq]. Qed.
Lemma mem_not n l : mem n l = false <-> ~ In n l.
Proof. rewrite <- mem_in. now destruct (mem n l). Qed.

Section P.
  Variable V : Type.
  Variable fmt : V -> text.
  Variable num : nat -> text.
  Variable just : list V -> align.

  Definition al_of (s : shown V) : align :=
    match s with SRow _ _ => ARight | SCol _ c => just (cvals c) | SDots _ => ARight end.
  Definition mk (g : nat -> nat) (ps : list (option nat)) (s : shown V) : dcol :=
    new_col (al_of s) (heading s) (map (cell fmt num g s) ps) (footing s).

  Lemma mk_width g ps s : d_width (mk g ps s) = width fmt num g ps s.
  Proof.
    unfold mk, new_col, width. cbn [d_width]. rewrite !longest_widest, widest_cons, widest_app. lia.
  Qed.
  Lemma mk_widths g ps ss : map d_width (map (mk g ps) ss) = map (width fmt num g ps) ss.
  Proof. rewrite map_map. apply map_ext. intros; apply mk_width. Qed.

  Lemma find_col_ok cols n : In n (map cname cols) ->
    exists c, find_col cols n = Some c /\ In c cols /\ cname (V := V) c = n.
  Proof.
    induction cols as [|c r IH]; cbn; [easy|]. intros H. unfold find_col. cbn.
    destruct (text_eqb (cname c) n) eqn:E.
    - apply text_eqb_eq in E. exists c. auto.
    - apply text_eqb_neq in E. destruct H as [H|H]; [easy|]. destruct (IH H) as (c' & F & I1 & N).
      exists c'. auto.
  Qed.
  Lemma get_cols_ok cols ns : incl ns (map cname cols) ->
    exists cs, get_cols cols ns = Some cs /\ incl cs cols /\ map (cname (V := V)) cs = ns.
  Proof.
    induction ns as [|n r IH]; intros H.
    - exists []. cbn. repeat split. easy.
    - destruct (find_col_ok cols n) as (c & F & I1 & N); [apply H; now left|].
      destruct IH as (cs & E & I2 & M); [intros x X; apply H; now right|].
      exists (c :: cs). unfold get_cols in *. cbn. rewrite F, E. split; [reflexivity|].
      split; [intros x [<-|X]; auto|]. cbn. congruence.
  Qed.

  Definition not_hash (ds : dset V) : Prop := s_labels ds <> [] \/ ~ In hash (map cname (s_cols ds)).

  Lemma prepare_ok ds : ok_dset ds -> not_hash ds ->
    exists labels ms rs, laid_out ds labels ms rs /\ prepare ds = Some (labels, ms ++ rs).
  Proof.
    intros [N1 N2 N3 N4] NH. unfold prepare. fold (sort_names ds).
    set (keep := fun n => negb (mem n (match s_labels ds with [] => [hash] | l => l end))
                          && negb (mem n (s_summary ds)) && negb (mem n (sort_names ds))).
    destruct (get_cols_ok (s_cols ds) (s_labels ds)) as (l & E1 & I1 & M1).
    { intros x X. apply N3. apply in_or_app. now left. }
    destruct (get_cols_ok (s_cols ds) (sort_names ds)) as (s & E2 & I2 & M2).
    { intros x X. apply N3. apply in_or_app. right. apply in_or_app. now right. }
    destruct (get_cols_ok (s_cols ds) (filter keep (map cname (s_cols ds)))) as (m & E3 & I3 & M3).
    { intros x X. apply filter_In in X. apply X. }
    destruct (get_cols_ok (s_cols ds) (s_summary ds)) as (r & E4 & I4 & M4).
    { intros x X. apply N3. apply in_or_app. right. apply in_or_app. now left. }
    rewrite E1, E2, E3, E4. exists l, (s ++ m), r. split; [|now rewrite app_assoc].
    split; [|split; [exact M1|split; [exact M4|]]].
    - intros x X. rewrite !in_app_iff in X. destruct X as [X|[[X|X]|X]]; auto.
    - rewrite map_app, M2, M3. f_equal. apply filter_ext_in. intros n Hn. unfold keep.
      destruct (s_labels ds) as [|a b] eqn:EL; [|reflexivity].
      destruct NH as [NH|NH]; [easy|]. f_equal. f_equal. f_equal. cbn.
      rewrite orb_false_r. apply text_eqb_neq. intros ->. contradiction.
  Qed.

  Lemma build_all_ok g m rb heads cols frows ss :
    (forall c i, In c cols -> In i m -> g i < length (cvals c)) ->
    length ss = length cols ->
    (forall i c, nth_error cols i = Some c -> exists h, nth_error heads i = Some h /\
       nth_error ss i = Some (SCol h (Col (cname c) (cvals c) (footer_at frows i)))) ->
    build_all fmt just (map g m) rb heads cols frows = Some (map (mk g (with_break m rb)) ss).
  Proof.
    intros B L H. unfold build_all.
    destruct ss as [|d0 ss0] eqn:ES.
    { destruct cols; [reflexivity|discriminate]. }
    rewrite <- ES in *. clear ES ss0.
    rewrite all_some_map with (g := fun i => mk g (with_break m rb) (nth i ss d0)).
    - f_equal. rewrite <- (map_map (fun i => nth i ss d0)). f_equal.
      apply nth_ext with (d := d0) (d' := d0); [now rewrite map_length, seq_length|].
      intros i Hi. rewrite map_length, seq_length in Hi.
      rewrite nth_indep with (d' := nth 0 ss d0) by (now rewrite map_length, seq_length).
      rewrite (map_nth (fun j => nth j ss d0)). now rewrite seq_nth.
    - intros i X. apply in_seq in X.
      destruct (nth_error cols i) as [c|] eqn:EC.
      2:{ apply nth_error_None in EC. lia. }
      destruct (H i c EC) as (h & E1 & E2). rewrite E1.
      rewrite (nth_error_nth _ _ d0 E2). unfold build_column.
      rewrite column_cells_ok by (intros j J; apply B; [eapply nth_error_In; eauto|exact J]).
      unfold mk. cbn [heading footing al_of cvals cfoot]. f_equal.
  Qed.

  (* ---- footers ---- *)
  Lemma nth_seq_all {A} (l : list A) d : map (fun j => nth j l d) (seq 0 (length l)) = l.
  Proof.
    apply nth_ext with (d := d) (d' := d); [now rewrite map_length, seq_length|].
    intros i Hi. rewrite map_length, seq_length in Hi.
    rewrite nth_indep with (d' := nth 0 l d) by (now rewrite map_length, seq_length).
    rewrite (map_nth (fun j => nth j l d)). now rewrite seq_nth.
  Qed.

  Lemma nth_map_err {A B} (f : A -> B) l i x d : nth_error l i = Some x -> nth i (map f l) d = f x.
  Proof. intros E. apply nth_error_nth. now rewrite nth_error_map, E. Qed.

  Lemma footer_mid nl foots others k i c :
    k = S (nl - 1) -> nth_error others i = Some c -> length (cfoot (V := V) c) = length foots ->
    footer_at (map (skipn k) (footer_rows nl foots others)) i = cfoot c.
  Proof.
    intros -> E L. unfold footer_at, footer_rows. rewrite !map_map.
    rewrite <- (nth_seq_all (cfoot c) []), L. apply map_ext. intros j.
    rewrite skipn_app, repeat_length. rewrite skipn_all2 by (rewrite repeat_length; lia).
    replace (S (nl - 1) - (nl - 1)) with 1 by lia. cbn [app skipn].
    apply (nth_map_err (fun c : column V => nth j (cfoot c) [])). exact E.
  Qed.
  Lemma footer_right nl foots others nr i c :
    nr <= length others ->
    nth_error (skipn (length others - nr) others) i = Some c -> length (cfoot (V := V) c) = length foots ->
    footer_at (map (fun f => skipn (length f - nr) f) (footer_rows nl foots others)) i = cfoot c.
  Proof.
    intros LE E L. unfold footer_at, footer_rows. rewrite !map_map.
    rewrite <- (nth_seq_all (cfoot c) []), L. apply map_ext. intros j.
    rewrite !app_length, repeat_length, map_length. cbn [length].
    rewrite app_assoc, skipn_app. rewrite skipn_all2 by (rewrite app_length, repeat_length; cbn; lia).
    rewrite app_length, repeat_length. cbn [length app].
    replace (nl - 1 + (1 + length others) - nr - (nl - 1 + 1)) with (length others - nr) by lia.
    rewrite skipn_map.
    apply (nth_map_err (fun c : column V => nth j (cfoot c) [])). exact E.
  Qed.
  Lemma footer_left nl foots others i : i < nl ->
    footer_at (map (firstn nl) (footer_rows (V := V) nl foots others)) i
    = if S i =? nl then foots else map (fun _ => []) foots.
  Proof.
    intros H. unfold footer_at, footer_rows. rewrite !map_map.
    assert (E : forall j, nth i (firstn nl (repeat [] (nl - 1) ++ [nth j foots []]
                                  ++ map (fun c : column V => nth j (cfoot c) []) others)) []
                          = if S i =? nl then nth j foots [] else []).
    { intros j. rewrite firstn_app, repeat_length, firstn_all2 by (rewrite repeat_length; lia).
      replace (nl - (nl - 1)) with 1 by lia. cbn [firstn app].
      destruct (Nat.eqb_spec (S i) nl) as [E|E].
      - rewrite app_nth2 by (rewrite repeat_length; lia). rewrite repeat_length.
        replace (i - (nl - 1)) with 0 by lia. reflexivity.
      - rewrite app_nth1 by (rewrite repeat_length; lia). apply nth_repeat. }
    erewrite map_ext by (intros j; apply E).
    destruct (S i =? nl); [apply nth_seq_all|]. clear.
    enough (K : forall k, map (fun _ : nat => [] : text) (seq k (length foots)) = map (fun _ => []) foots) by apply K.
    induction foots as [|f r IH]; intros k; cbn; [reflexivity|]. f_equal. apply IH.
  Qed.
  Lemma footer_rownum foots others :
    footer_at (map (firstn 1) (footer_rows (V := V) 0 foots others)) 0 = foots.
  Proof. unfold footer_at, footer_rows. rewrite !map_map. cbn. apply nth_seq_all. Qed.

  Lemma label_cols_nth prefix foots labels i c : nth_error labels i = Some c ->
    nth_error (label_cols (V := V) prefix foots labels) i
    = Some (SCol (prefix ++ cname c) (Col (cname c) (cvals c)
             (if S i =? length labels then foots else map (fun _ => []) foots))).
  Proof.
    revert i. induction labels as [|x r IH]; intros [|i] H; try discriminate.
    - injection H as ->. destruct r; reflexivity.
    - destruct r as [|y r]; [destruct i; discriminate|]. cbn [nth_error] in H.
      specialize (IH i H). cbn [length] in *.
      change (nth_error (label_cols prefix foots (x :: y :: r)) (S i))
        with (nth_error (label_cols prefix foots (y :: r)) i). rewrite IH. reflexivity.
  Qed.
  Lemma label_cols_length prefix foots labels : length (label_cols (V := V) prefix foots labels) = length labels.
  Proof. induction labels as [|x r IH]; [reflexivity|]. destruct r; [reflexivity|]. cbn [length] in *.
    change (length (label_cols prefix foots (x :: c :: r))) with (S (length (label_cols prefix foots (c :: r)))). now rewrite IH. Qed.
  Lemma label_heads prefix foots labels :
    map heading (label_cols (V := V) prefix foots labels) = map (fun c => prefix ++ cname c) labels.
  Proof. induction labels as [|x r IH]; [reflexivity|]. destruct r; [reflexivity|]. 
    change (map heading (label_cols prefix foots (x :: c :: r))) with
      ((prefix ++ cname x) :: map heading (label_cols prefix foots (c :: r))). now rewrite IH. Qed.
End P.
Arguments mk {V} _ _ _ _ _ _. Arguments al_of {V} _ _.
