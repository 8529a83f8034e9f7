(* Fitting the columns, putting the rows side by side, and the display of a
   Dataset as a whole. *)
From Coq Require Import List Arith Bool PeanoNat Lia.
From Verif Require Import DpSpec DpModel DpSpec2 DpProofs DpProofs2.
Import ListNotations.

(* ---- fitting ---- *)
Lemma total_le_app a b : total (map (dw 0) a) <= total (map (dw 0) (a ++ b)).
Proof. rewrite map_app, total_app. lia. Qed.

Lemma split_last {A} (r : list A) (d : A) : r <> [] -> r = removelast r ++ [last r d].
Proof. apply app_removelast_last. Qed.
Lemma removelast_length {A} (r : list A) : length (removelast r) = length r - 1.
Proof. induction r as [|x r IH]; [reflexivity|]. destruct r; [reflexivity|]. cbn [removelast length] in *. lia. Qed.

Lemma fit_loop_spec p console fuel : forall tot mid left right,
  length mid <= fuel -> tot <= console ->
  exists pre hid suf brk,
    fit_loop fuel p console false tot mid left right = (left ++ pre, suf ++ right, brk) /\
    mid = pre ++ hid ++ suf /\ (brk = true <-> hid <> []) /\
    length suf <= length pre <= S (length suf) /\
    tot + total (map (dw p) (pre ++ suf)) <= console /\
    (hid <> [] -> console < tot + total (map (dw p) mid)).
Proof.
  induction fuel as [|f IH]; intros tot mid left right Hf Ht; cbn [fit_loop].
  - destruct mid; [|cbn in Hf; lia]. exists [], [], [], false. cbn. rewrite app_nil_r. repeat split; auto; try lia; try easy.
  - replace (tot <=? console) with true by (symmetry; now apply Nat.leb_le). cbn [orb].
    destruct mid as [|first rest].
    { exists [], [], [], false. cbn. rewrite app_nil_r. repeat split; auto; try lia; try easy. }
    rewrite andb_true_r. destruct (console <? tot + dw p first) eqn:E1.
    { apply Nat.ltb_lt in E1. exists [], (first :: rest), [], true. cbn. rewrite !app_nil_r.
      repeat split; auto; try lia; try easy. }
    apply Nat.ltb_ge in E1. destruct rest as [|x rest].
    { exists [first], [], [], false. cbn. repeat split; auto; try lia; try easy. }
    set (rs := x :: rest) in *. rewrite andb_true_r.
    assert (RS : rs = removelast rs ++ [last rs first]) by (apply split_last; discriminate).
    destruct (console <? tot + dw p first + dw p (last rs first)) eqn:E2.
    { apply Nat.ltb_lt in E2. exists [first], rs, [], true. rewrite app_nil_r. cbn [app length].
      repeat split; auto; try lia; try easy.
      - cbn. lia.
      - intros _. cbn [map]. rewrite RS, map_app. unfold total in *. cbn [fold_right]. rewrite fold_right_app.
        cbn [map fold_right]. fold (total (map (dw p) (removelast rs))).
        assert (K : forall l a, fold_right Nat.add a l = fold_right Nat.add 0 l + a)
          by (clear; induction l; cbn; intros; [lia|rewrite IHl; lia]).
        rewrite K. lia. }
    apply Nat.ltb_ge in E2.
    destruct (IH (tot + dw p first + dw p (last rs first)) (removelast rs) (left ++ [first])
                 (last rs first :: right)) as (pre & hid & suf & brk & F & M & B & L & T & W).
    { rewrite removelast_length. unfold rs in *. cbn [length] in *. lia. }
    { lia. }
    exists (first :: pre), hid, (suf ++ [last rs first]), brk. rewrite F.
    assert (TT : forall l, total (map (dw p) (l ++ [last rs first])) = total (map (dw p) l) + dw p (last rs first)).
    { intros l. rewrite map_app, total_app. cbn. lia. }
    split; [|split; [|split; [exact B|split; [|split]]]].
    + f_equal. rewrite <- !app_assoc. reflexivity.
    + cbn [app]. f_equal. transitivity (removelast rs ++ [last rs first]); [exact RS|]. rewrite M at 1. now rewrite <- !app_assoc.
    + rewrite app_length. cbn [length]. lia.
    + cbn [app map]. rewrite app_assoc. unfold total in *. cbn [fold_right].
      specialize (TT (pre ++ suf)). unfold total in TT. rewrite TT. lia.
    + intros H. specialize (W H). cbn [map]. rewrite RS.
      unfold total in *. cbn [fold_right]. rewrite TT. lia.
Qed.

Lemma fit_loop_wide p console fuel tot mid : console < tot ->
  fit_loop fuel p console false tot mid [] [] = ([], [], false).
Proof. intros H. destruct fuel; [reflexivity|]. cbn. now replace (tot <=? console) with false by (symmetry; now apply Nat.leb_gt). Qed.

(* ---- rows ---- *)
Definition row_at (cs : list dcol) (i : nat) : list text := map (fun c => nth i (d_cells c) []) cs.

Lemma cells_map (l : list text) n : length l = n -> l = map (fun i => nth i l []) (seq 0 n).
Proof. intros <-. symmetry. apply nth_seq_all. Qed.

Lemma zip_group (g : list dcol) n : (forall c, In c g -> length (d_cells c) = n) -> g <> [] ->
  zip_all (map d_cells g) = map (row_at g) (seq 0 n).
Proof.
  intros H NE.
  replace (map d_cells g) with (map (fun f => map f (seq 0 n)) (map (fun c i => nth i (d_cells c) []) g)).
  - rewrite zip_all_map by (destruct g; easy). apply map_ext. intros i. unfold row_at. now rewrite map_map.
  - rewrite map_map. apply map_ext_in. intros c I1. symmetry. apply cells_map. auto.
Qed.

Lemma side_ok (l m r : list dcol) n :
  (forall c, In c (l ++ m ++ r) -> length (d_cells c) = n) -> l <> [] ->
  side_by_side [l; m; r] = map (row_at (l ++ m ++ r)) (seq 0 n).
Proof.
  intros H NE. unfold side_by_side.
  assert (Z : forall g, (forall c, In c g -> length (d_cells c) = n) ->
            zip_all (map d_cells g) = match g with [] => [] | _ => map (row_at g) (seq 0 n) end).
  { intros g Hg. destruct g as [|c g]; [reflexivity|]. apply zip_group; [exact Hg|discriminate]. }
  cbn [map]. rewrite !Z by (intros; apply H; rewrite !in_app_iff; auto).
  destruct n as [|n].
  { destruct l, m, r; reflexivity. }
  assert (K : forall gs : list (list dcol), gs <> [] -> Forall (fun g => g <> []) gs ->
     map (@concat text) (zip_all (filter (fun g => match g with [] => false | _ => true end)
        (map (fun g => map (row_at g) (seq 0 (S n))) gs))) = map (row_at (concat gs)) (seq 0 (S n))).
  { intros gs G1 G2. rewrite filter_all.
    - replace (map (fun g => map (row_at g) (seq 0 (S n))) gs)
        with (map (fun f => map f (seq 0 (S n))) (map row_at gs)) by now rewrite map_map.
      rewrite zip_all_map by (destruct gs; easy). rewrite map_map. apply map_ext. intros i.
      rewrite map_map. clear. induction gs as [|g gs IH]; [reflexivity|]. cbn [map concat].
      rewrite IH. unfold row_at. now rewrite map_app.
    - intros x X. apply in_map_iff in X. destruct X as (g & <- & _). reflexivity. }
  destruct l as [|a l]; [easy|].
  destruct m as [|b m]; destruct r as [|c r].
  - specialize (K [a :: l] ltac:(easy) ltac:(repeat constructor; easy)). cbn [concat] in K. rewrite app_nil_r in K.
    cbn [app]. rewrite app_nil_r. exact K.
  - specialize (K [a :: l; c :: r] ltac:(easy) ltac:(repeat constructor; easy)). cbn [concat] in K. rewrite app_nil_r in K. exact K.
  - specialize (K [a :: l; b :: m] ltac:(easy) ltac:(repeat constructor; easy)). cbn [concat] in K. rewrite app_nil_r in K. rewrite app_nil_r. exact K.
  - specialize (K [a :: l; b :: m; c :: r] ltac:(easy) ltac:(repeat constructor; easy)). cbn [concat] in K. rewrite app_nil_r in K. exact K.
Qed.

(* ---- repeated keys ---- *)
Lemma hide_from_after prev l : hide_from prev l = hide_after prev l.
Proof.
  revert prev. induction l as [|x r IH]; intros prev; cbn; [reflexivity|].
  destruct (text_eqb x prev) eqn:E; [|now rewrite IH]. apply text_eqb_eq in E. subst. now rewrite IH.
Qed.
Lemma hide_after_length prev l : length (hide_after prev l) = length l.
Proof. revert prev. induction l; intros; cbn; congruence. Qed.
Lemma hide_repeats_length l : length (hide_repeats l) = length l.
Proof. destruct l; cbn; [reflexivity|]. now rewrite hide_after_length. Qed.

Lemma with_first_map (f : list text -> list text) (F : nat -> text) (G : nat -> list text) n :
  length (f (map F (seq 0 n))) = n ->
  with_first f (map (fun i => F i :: G i) (seq 0 n))
  = map (fun i => nth i (f (map F (seq 0 n))) [] :: G i) (seq 0 n).
Proof.
  intros H. unfold with_first. rewrite map_map. cbn [hd].
  set (x := f _) in *. rewrite (cells_map x n H) at 1. clearbody x. clear H.
  generalize (seq 0 n). intros s. induction s as [|i s IH]; [reflexivity|]. cbn. f_equal. exact IH.
Qed.

Section D.
  Variable V : Type.
  Variable fmt : V -> text.
  Variable num : nat -> text.
  Variable just : list V -> align.
  Notation mk := (mk fmt num just).

  Definition unhidden (s : shown V) : bool := match s with SDots _ => false | _ => true end.

  Lemma break_mk g m rb nf : mk g (with_break m rb) (SDots (repeat dots nf)) = break_column (length m) rb nf.
  Proof.
    unfold DpProofs2.mk, break_column. cbn [al_of heading footing]. f_equal.
    assert (K : forall l : list (option nat), map (cell fmt num g (SDots (V := V) (repeat dots nf))) l = repeat dots (length l)).
    { induction l as [|[i|] l IH]; cbn in *; congruence. }
    rewrite K. destruct rb as [b|]; cbn [with_break].
    - rewrite !app_length, !map_length, firstn_length, skipn_length. cbn [length].
      rewrite repeat_app. reflexivity.
    - now rewrite map_length.
  Qed.

  Lemma mk_cells_length g ps s : length (d_cells (mk g ps s)) = length ps.
  Proof. unfold DpProofs2.mk, new_col. cbn. now rewrite map_length. Qed.

  Lemma rows_mk g ps (ss : list (shown V)) :
    map (row_at (map (mk g ps) ss)) (seq 0 (length ps)) = map (fun p => map (fun s => cell fmt num g s p) ss) ps.
  Proof.
    destruct ps as [|p0 ps0] eqn:EP; [reflexivity|]. rewrite <- EP in *.
    transitivity (map (fun i => map (fun s => cell fmt num g s (nth i ps p0)) ss) (seq 0 (length ps))).
    - apply map_ext_in. intros i I1. apply in_seq in I1. unfold row_at. rewrite map_map. apply map_ext. intros s.
      cbn [DpProofs2.mk new_col d_cells].
      rewrite nth_indep with (d' := cell fmt num g s p0) by (rewrite map_length; lia). now rewrite map_nth.
    - rewrite <- (map_map (fun i => nth i ps p0) (fun p => map (fun s => cell fmt num g s p) ss)).
      f_equal. apply nth_seq_all.
  Qed.

  (* the columns as they end up in the table *)
  Definition hide1 (nl : nat) (cs : list dcol) : list dcol := if 1 <? nl then fix_repeated cs else cs.

  Lemma hide1_head nl cs : map d_head (hide1 nl cs) = map d_head cs.
  Proof. unfold hide1. destruct (1 <? nl); [|reflexivity]. now destruct cs. Qed.
  Lemma hide1_width nl cs : map d_width (hide1 nl cs) = map d_width cs.
  Proof. unfold hide1. destruct (1 <? nl); [|reflexivity]. now destruct cs. Qed.
  Lemma hide1_foot nl cs : map d_foot (hide1 nl cs) = map d_foot cs.
  Proof. unfold hide1. destruct (1 <? nl); [|reflexivity]. now destruct cs. Qed.
  Lemma hide1_nil nl cs : hide1 nl cs = [] <-> cs = [].
  Proof. unfold hide1. destruct (1 <? nl); [|reflexivity]. destruct cs; cbn; split; congruence. Qed.

  Lemma table_rows g ps nl (L M R : list (shown V)) : L <> [] ->
    side_by_side [hide1 nl (map (mk g ps) L); map (mk g ps) M; map (mk g ps) R]
    = (if 1 <? nl then with_first hide_repeats else fun x => x)
        (map (fun p => map (fun s => cell fmt num g s p) (L ++ M ++ R)) ps).
  Proof.
    intros NE.
    assert (LEN : forall ss c, In c (map (mk g ps) ss) -> length (d_cells c) = length ps).
    { intros ss c X. apply in_map_iff in X. destruct X as (s & <- & _). apply mk_cells_length. }
    unfold hide1. destruct (1 <? nl) eqn:E.
    2:{ rewrite side_ok with (n := length ps).
        - rewrite <- !map_app. apply rows_mk.
        - intros c X. rewrite !in_app_iff in X. destruct X as [X|[X|X]]; eapply LEN; eauto.
        - destruct L; easy. }
    destruct L as [|s0 L]; [easy|].
    rewrite side_ok with (n := length ps).
    2:{ intros c X. rewrite !in_app_iff in X. destruct X as [X|[X|X]]; try (eapply LEN; eassumption).
        cbn [map fix_repeated] in X. destruct X as [X|X]; [|eapply LEN with (ss := L); exact X].
        subst c. cbn [d_cells]. rewrite <- (mk_cells_length g ps s0).
        destruct (d_cells (mk g ps s0)) as [|x l]; [reflexivity|]. cbn [length]. f_equal.
        rewrite hide_from_after. apply hide_after_length. }
    2:{ discriminate. }
    rewrite <- rows_mk. cbn [map fix_repeated app]. unfold row_at at 1 2. cbn [map].
    set (rest := map (mk g ps) L ++ map (mk g ps) M ++ map (mk g ps) R).
    replace (map (mk g ps) (L ++ M ++ R)) with rest by (unfold rest; now rewrite !map_app).
    set (F := fun i => nth i (d_cells (mk g ps s0)) []).
    set (G := fun i => map (fun c => nth i (d_cells c) []) rest).
    transitivity (map (fun i => nth i (hide_repeats (map F (seq 0 (length ps)))) [] :: G i) (seq 0 (length ps))).
    - apply map_ext_in. intros i I1. apply in_seq in I1. cbn beta. unfold G. f_equal. cbn [d_cells]. f_equal.
      unfold F. rewrite <- (cells_map (d_cells (mk g ps s0))) by (apply mk_cells_length).
      destruct (d_cells (mk g ps s0)) as [|x l]; [reflexivity|]. cbn [hide_repeats]. now rewrite hide_from_after.
    - symmetry. apply (with_first_map hide_repeats F G).
      rewrite hide_repeats_length, map_length, seq_length. reflexivity.
  Qed.
End D.
