(* The display of a Dataset as a whole. *)
From Coq Require Import List Arith Bool PeanoNat Lia.
From Verif Require Import DpSpec DpModel DpSpec2 DpProofs DpProofs2 DpProofs3.
Import ListNotations.

Section D.
  Variable V : Type.
  Variable fmt : V -> text.
  Variable num : nat -> text.
  Variable just : list V -> align.
  Notation mk := (mk fmt num just).

  Lemma mask_ok (ds : dset V) m : ok_dset ds -> (forall i, In i m -> i < s_nrows ds) ->
    (match s_order ds with None => Some m | Some idx => fancy idx m end) = Some (map (row_of ds) m) /\
    (forall i, In i m -> row_of ds i < s_nrows ds).
  Proof.
    intros [_ _ _ O1] H. unfold row_of. destruct (s_order ds) as [idx|].
    - destruct O1 as [L B]. split.
      + apply fancy_map. intros i X. rewrite L. auto.
      + intros i X. apply B. apply nth_In. rewrite L. auto.
    - split; [now rewrite map_id|exact H].
  Qed.

  Lemma plain_build g m rb cs frows :
    (forall c i, In c cs -> In i m -> g i < length (cvals c)) ->
    (forall i c, nth_error cs i = Some c -> footer_at frows i = cfoot c) ->
    build_all fmt just (map g m) rb (map cname cs) cs frows = Some (map (mk g (with_break m rb)) (plain cs)).
  Proof.
    intros B F. apply build_all_ok; [exact B|unfold plain; now rewrite map_length|].
    intros i c E. exists (cname c). split; [now rewrite nth_error_map, E|].
    unfold plain. rewrite nth_error_map, E. cbn. rewrite (F i c E). now destruct c.
  Qed.

  Definition no_foot (cs : list (column V)) : list (shown V) :=
    map (fun c => SCol (cname c) (Col (cname c) (cvals c) [])) cs.
  Lemma no_foot_build g m rb cs :
    (forall c i, In c cs -> In i m -> g i < length (cvals c)) ->
    build_all fmt just (map g m) rb (map cname cs) cs [] = Some (map (mk g (with_break m rb)) (no_foot cs)).
  Proof.
    intros B. apply build_all_ok; [exact B|unfold no_foot; now rewrite map_length|].
    intros i c E. exists (cname c). split; [now rewrite nth_error_map, E|].
    unfold no_foot. now rewrite nth_error_map, E.
  Qed.

  Definition has_foots (ds : dset V) : bool := match s_foots ds with [] => false | _ => true end.

  Theorem display_eq o ds : ok_dset ds -> not_hash V ds ->
    exists labels ms rs, laid_out ds labels ms rs /\
      let g := row_of ds in let ps := positions o ds in
      let L := left_cols (o_prefix o) (s_foots ds) labels in
      let l := hide1 (length (s_labels ds)) (map (mk g ps) L) in
      let tot := total (map (width fmt num g ps) L) + total (map (width fmt num g ps) (plain rs)) in
      exists m0 rb, ps = with_break m0 rb /\ length (map (row_of ds) m0) = length m0 /\
      display fmt num just o ds =
        if o_colall o then
          let sets := column_sets (o_pad o) (o_console o) tot tot [] (map (mk g ps) (no_foot ms)) in
          if length (hd [] sets) <? length (sort_names ds) then None
          else Some (map (fun s => make_table false l s (map (mk g ps) (plain rs))) sets)
        else
          let '(a, b) := fit_max (o_pad o) (o_console o) false tot (length m0) rb (length (s_foots ds))
                                 (map (mk g ps) (plain ms)) in
          if length (a ++ b) <? length (sort_names ds) then None
          else Some [make_table (has_foots ds) l (a ++ b) (map (mk g ps) (plain rs))].
  Proof.
    intros OK NH. destruct (prepare_ok V ds OK NH) as (labels & ms & rs & LO & PR).
    exists labels, ms, rs. split; [exact LO|]. cbv zeta. unfold display. rewrite PR.
    destruct (row_mask (o_head o) (o_tail o) (s_nrows ds) (o_rowall o)) as [m0 rb] eqn:RM.
    destruct (row_mask_spec _ _ _ _ _ _ RM) as (PS & B & RB).
    change (shown_rows (s_nrows ds) (o_head o) (o_tail o) (o_rowall o)) with (positions o ds) in PS.
    destruct (mask_ok ds m0 OK B) as [MK GB]. rewrite MK.
    destruct LO as (INC & NL & NR & NM).
    exists m0, rb. split; [exact PS|]. split; [apply map_length|].
    assert (LN : length rs = length (s_summary ds)) by (rewrite <- NR; now rewrite map_length).
    assert (LL : length (s_labels ds) = length labels) by (rewrite <- NL; now rewrite map_length).
    assert (SZ : forall c i, In c (labels ++ ms ++ rs) -> In i m0 -> row_of ds i < length (cvals c)).
    { intros c i C1 I1. destruct OK as [_ O2 _ _]. destruct (O2 c (INC c C1)) as [-> _]. auto. }
    assert (FT : forall c, In c (labels ++ ms ++ rs) -> length (cfoot c) = length (s_foots ds)).
    { intros c C1. destruct OK as [_ O2 _ _]. apply (O2 c (INC c C1)). }
    rewrite app_length, <- LN. replace (length ms + length rs - length rs) with (length ms) by lia.
    rewrite firstn_app, firstn_all, Nat.sub_diag. cbn [firstn]. rewrite app_nil_r.
    rewrite skipn_app, skipn_all, Nat.sub_diag. cbn [skipn app].
    (* right *)
    rewrite (plain_build (row_of ds) m0 rb rs (map (fun f => skipn (length f - length rs) f) _)).
    2:{ intros; apply SZ; [rewrite !in_app_iff|]; auto. }
    2:{ intros i c E. apply footer_right; [rewrite app_length; lia| |].
        - rewrite app_length. replace (length ms + length rs - length rs) with (length ms) by lia.
          rewrite skipn_app, skipn_all, Nat.sub_diag. exact E.
        - apply FT. rewrite !in_app_iff. apply nth_error_In in E. auto. }
    (* main *)
    rewrite (plain_build (row_of ds) m0 rb ms (map (skipn _) _)).
    2:{ intros; apply SZ; [rewrite !in_app_iff|]; auto. }
    2:{ intros i c E. apply footer_mid.
        - destruct labels; cbn [length]; lia.
        - rewrite nth_error_app1; [exact E|]. apply nth_error_Some. congruence.
        - apply FT. rewrite !in_app_iff. apply nth_error_In in E. auto. }
    rewrite no_foot_build by (intros; apply SZ; [rewrite !in_app_iff|]; auto).
    rewrite <- PS.
    cbv zeta.
    match goal with |- match ?X with _ => _ end = _ => assert (LEFT : X = Some (hide1 (length (s_labels ds)) (map (mk (row_of ds) (positions o ds)) (left_cols (o_prefix o) (s_foots ds) labels)))) end.
    { rewrite LL. destruct labels as [|c0 labels0] eqn:EL.
      - unfold build_column. rewrite rownum_cells by exact RB.
        cbn [length]. rewrite footer_rownum. rewrite <- PS. reflexivity.
      - rewrite <- EL in *.
        rewrite (build_all_ok V fmt num just) with (ss := label_cols (o_prefix o) (s_foots ds) labels).
        + rewrite <- PS. unfold hide1, left_cols. rewrite EL. reflexivity.
        + intros; apply SZ; [rewrite !in_app_iff|]; auto.
        + apply label_cols_length.
        + intros i c E. exists (o_prefix o ++ cname c). split; [now rewrite nth_error_map, E|].
          rewrite (label_cols_nth _ _ _ _ _ _ E). do 3 f_equal. symmetry. apply footer_left.
          apply nth_error_Some. congruence. }
    rewrite LEFT. rewrite hide1_width, !mk_widths. rewrite map_length.
    replace (match s_sort ds with Some s => length s | None => 0 end) with (length (sort_names ds))
      by (unfold sort_names; now destruct (s_sort ds)).
    unfold has_foots. reflexivity.
  Qed.
End D.
