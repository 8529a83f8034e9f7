(** The left index, and the joins as a whole. *)
From Coq Require Import List Arith Bool Lia Permutation.
From Verif Require Import Sched SchedFacts GroupModel GroupFacts MergeModel MergeSpec MergeFacts MergeProofs.
Import ListNotations.

Lemma concat_map_nil {X Y} (f : X -> list Y) l : (forall x, In x l -> f x = []) -> concat (map f l) = [].
Proof. induction l as [|x l IH]; cbn; intros H; [reflexivity|]. rewrite H by now left. apply IH. intros. apply H. now right. Qed.
Lemma concat_map_if {X Y} (c : X -> bool) (g : X -> Y) l : concat (map (fun x => if c x then [g x] else []) l) = map g (filter c l).
Proof. induction l as [|x l IH]; cbn; [reflexivity|]. destruct (c x); cbn; now rewrite IH. Qed.
Lemma concat_map_one {X Y} (g : X -> Y) l : concat (map (fun x => [g x]) l) = map g l.
Proof. induction l as [|x l IH]; cbn; [reflexivity|]. now rewrite IH. Qed.
Lemma concat_map_ext {X Y} (f g : X -> list Y) l : (forall x, In x l -> f x = g x) -> concat (map f l) = concat (map g l).
Proof. intros H. f_equal. now apply map_ext_in. Qed.
Lemma compress_map2 {X Y} (c : X -> bool) (g : X -> Y) l : compress (map c l) (map g l) = map g (filter c l).
Proof. rewrite compress_map. now rewrite compress_filter. Qed.

Section Core.
Context {B : Type}.
Variable eqb : B -> B -> bool.
Hypothesis eqb_eq : forall a b, eqb a b = true <-> a = b.
Variable sched : list (list (store (option nat))) -> list (store (option nat)).
Hypothesis HS : forall its, interleave its (sched its).
Variable junk : mem (option nat).
Variables lkeys rkeys : list (option B).
Variables lus rus : list B.
Variables likey rikey : list nat.
Hypothesis GL : grouping_of lkeys lus likey.
Hypothesis GR : grouping_of rkeys rus rikey.
Hypothesis OL : forall b, In b lus -> In (Some b) lkeys.
Hypothesis OR : forall b, In b rus -> In (Some b) rkeys.
Notation lg := (mkKG lus likey).
Notation rg := (mkKG rus rikey).
Notation rrows := (rrows eqb rkeys).
Notation blk := (blk eqb rkeys).
Notation lrows := (lrows lkeys lus likey).

Definition right_unique : bool := length rus =? length rikey.
Definition all_rows_kept (k : keep) : list nat := match k with None => seq 0 (length lkeys) | Some k1 => ifirstlast lg k1 end.
Definition lrows' (kl kr : keep) : list nat :=
  if (length rikey =? 0) || (length likey =? 0) || is_some kr || right_unique then lrows kl else all_rows_kept kl.

Lemma right_unique_rows o : right_unique = true -> length (rrows o) <= 1.
Proof using eqb_eq GR OR.
  intros H. apply Nat.eqb_eq in H. rewrite (g_length _ _ _ GR) in H.
  assert (P : Permutation (map Some rus) rkeys).
  { apply NoDup_Permutation_bis.
    - apply FinFun.Injective_map_NoDup; [congruence|exact (g_distinct _ _ _ GR)].
    - rewrite map_length. lia.
    - intros x Hx. apply in_map_iff in Hx. destruct Hx as (b & <- & Hb). now apply OR. }
  assert (N : NoDup rkeys).
  { eapply Permutation_NoDup; [exact P|]. apply FinFun.Injective_map_NoDup; [congruence|exact (g_distinct _ _ _ GR)]. }
  destruct (rrows o) as [|x [|y l]] eqn:E; cbn; try lia. exfalso.
  assert (Hx : In x (rrows o)) by (rewrite E; now left). assert (Hy : In y (rrows o)) by (rewrite E; right; now left).
  assert (Nd : NoDup (rrows o)) by (apply NoDup_filter, seq_NoDup). rewrite E in Nd.
  apply filter_In in Hx. apply filter_In in Hy. destruct Hx as [Ix Jx], Hy as [Iy Jy]. apply in_seq in Ix. apply in_seq in Iy.
  destruct o as [b|]; [|discriminate]. cbn in Jx, Jy.
  destruct (nth x rkeys None) as [bx|] eqn:Ex; [|discriminate]. destruct (nth y rkeys None) as [by_|] eqn:Ey; [|discriminate].
  apply eqb_eq in Jx. apply eqb_eq in Jy. subst bx by_.
  assert (x = y) by (apply (proj1 (NoDup_nth rkeys None) N); [lia|lia|congruence]).
  inversion Nd as [|? ? Hn _]. apply Hn. left. congruence.
Qed.

(** at most one right row per key *)
Lemma blk_short inner kr o : is_some kr || right_unique = true ->
  length (blk inner kr o) = if inner then (match rrows o with [] => 0 | _ => 1 end) else 1.
Proof using eqb_eq GR OR.
  intros H. unfold MergeProofs.blk. destruct kr as [k|]; cbn [cand].
  - destruct (rrows o); destruct inner; reflexivity.
  - cbn in H. assert (L := right_unique_rows o H). destruct (rrows o) as [|x [|y l]]; cbn in *; try lia; destruct inner; reflexivity.
Qed.
Lemma exists_iff b : (match index_of eqb b rus with Some _ => true | None => false end) = (match rrows (Some b) with [] => false | _ => true end).
Proof using eqb_eq GR OR.
  destruct (index_of eqb b rus) as [k'|] eqn:E.
  - assert (Hne : rrows (Some b) <> []).
    { apply (rrows_ne eqb eqb_eq _ _ _ GR OR). apply index_of_some in E; [|exact eqb_eq]. now apply nth_error_In in E. }
    destruct (rrows (Some b)); congruence.
  - now rewrite (rrows_none eqb eqb_eq _ _ _ GR).
Qed.
Lemma rows_key k1 : exists us', map (fun i => nth i lkeys None) (ifirstlast lg k1) = map Some us' /\ us' = lus.
Proof using GL OL.
  exists lus. split; [|reflexivity]. apply (nth_ext _ _ None None).
  - unfold ifirstlast, unique_count. now rewrite !map_length, seq_length.
  - intros k Hk. unfold ifirstlast, unique_count in *. rewrite !map_length, seq_length in Hk. cbn [kg_us kg_ikey] in *.
    rewrite map_map, nth_map_seq by exact Hk. destruct (nth_error lus k) as [b|] eqn:E; [|apply nth_error_None in E; lia].
    destruct (pick_key _ _ _ GL OL k1 k b E) as [_ ->]. symmetry. apply nth_error_nth. now rewrite nth_error_map, E.
Qed.

Theorem build_left_gen inner kl kr :
  resolve (length lkeys) (build_left sched junk (right_to_left eqb lg rg) lg rg inner kl kr) =
  concat (map (fun i => repeat (Some i) (length (blk inner kr (nth i lkeys None)))) (lrows' kl kr)).
Proof using eqb_eq GL GR OL OR HS.
  unfold build_left, lrows'. cbn [kg_ikey]. destruct (length rikey =? 0) eqn:Er; cbn [orb].
  { apply Nat.eqb_eq in Er. apply length_zero_iff_nil in Er.
    assert (Hb : forall o, blk inner kr o = if inner then [] else [None]).
    { intros o. unfold MergeProofs.blk. assert (C : cand eqb rkeys kr o = []).
      { apply cand_nil. now apply (right_empty_rows eqb _ _ _ GR). } now rewrite C. }
    rewrite (concat_map_ext _ (fun i => if inner then [] else [Some i])) by (intros; rewrite Hb; destruct inner; reflexivity).
    destruct inner; cbn [resolve].
    - rewrite concat_map_nil; reflexivity.
    - rewrite concat_map_one. destruct kl; reflexivity. }
  destruct (length likey =? 0) eqn:El; cbn [orb].
  { apply Nat.eqb_eq in El. apply length_zero_iff_nil in El. rewrite (lrows_empty _ _ _ GL OL kl El). reflexivity. }
  apply Nat.eqb_neq in Er. apply Nat.eqb_neq in El.
  change (unique_count rg =? length rikey) with right_unique.
  rewrite r2l_eq by lia. set (r2l := map (fun b => index_of eqb b lus) rus).
  destruct (is_some kr || right_unique) eqn:Eu.
  - rewrite (concat_map_ext _ (fun i => if (if inner then match rrows (nth i lkeys None) with [] => false | _ => true end else true) then [Some i] else [])).
    2:{ intros i _. rewrite blk_short by exact Eu. destruct inner; [|reflexivity]. destruct (rrows (nth i lkeys None)); reflexivity. }
    rewrite (concat_map_if _ Some). destruct inner.
    + set (lex := scatter _ _ _).
      assert (Hlex : forall k b, nth_error lus k = Some b -> nth k lex false = match rrows (Some b) with [] => false | _ => true end).
      { intros k b Hk. unfold lex.
        assert (Ec : repeat true (length (somes r2l)) = compress (map is_some r2l) (repeat true (length rus))).
        { rewrite compress_repeat by (unfold r2l; now rewrite !map_length). now rewrite somes_length. }
        rewrite Ec. unfold r2l. rewrite (scatter_r2l eqb eqb_eq _ _ _ _ _ _ GL GR _ _ k b false Hk);
          [|now rewrite repeat_length|rewrite repeat_length; unfold unique_count; cbn; lia].
        rewrite <- exists_iff. destruct (index_of eqb b rus) as [k'|] eqn:E; [|apply nth_repeat].
        assert (Lk : k' < length rus) by (apply index_of_some in E; [|exact eqb_eq]; apply nth_error_Some; congruence).
        apply (repeat_spec (length rus) true). apply nth_In. now rewrite repeat_length. }
      assert (Llex : length lex = length lus) by (unfold lex; now rewrite scatter_length, repeat_length).
      destruct kl as [k1|]; cbn [resolve].
      * cbn [tl]. unfold MergeProofs.lrows. destruct (group_rows likey 0) as [|z zs] eqn:Ez.
        -- rewrite no_null by exact Ez. f_equal.
           assert (Em : lex = map (fun i => match rrows (nth i lkeys None) with [] => false | _ => true end) (ifirstlast lg k1)).
           { destruct (rows_key k1) as (us' & Q & ->). rewrite <- (map_map (fun i => nth i lkeys None) (fun o => match rrows o with [] => false | _ => true end)), Q.
             rewrite map_map. apply (nth_ext _ _ false false); [now rewrite map_length|]. intros k Hk. rewrite Llex in Hk.
             destruct (nth_error lus k) as [b|] eqn:E; [|apply nth_error_None in E; lia]. rewrite (Hlex k b E).
             symmetry. apply nth_error_nth. now rewrite nth_error_map, E. }
           rewrite Em. apply compress_filter.
        -- rewrite null_pick by congruence. cbn [filter]. rewrite (null_key _ _ _ GL k1) by congruence. rewrite rrows_null. f_equal.
           assert (Em : lex = map (fun i => match rrows (nth i lkeys None) with [] => false | _ => true end) (ifirstlast lg k1)).
           { destruct (rows_key k1) as (us' & Q & ->). rewrite <- (map_map (fun i => nth i lkeys None) (fun o => match rrows o with [] => false | _ => true end)), Q.
             rewrite map_map. apply (nth_ext _ _ false false); [now rewrite map_length|]. intros k Hk. rewrite Llex in Hk.
             destruct (nth_error lus k) as [b|] eqn:E; [|apply nth_error_None in E; lia]. rewrite (Hlex k b E).
             symmetry. apply nth_error_nth. now rewrite nth_error_map, E. }
           rewrite Em. apply compress_filter.
      * f_equal. unfold MergeProofs.lrows. unfold bool_to_fancy.
        assert (Em : map (fun g => nth g (false :: lex) false) likey = map (fun i => match rrows (nth i lkeys None) with [] => false | _ => true end) (seq 0 (length lkeys))).
        { rewrite <- (map_nth_seq likey 0) at 1. rewrite map_map, (g_length _ _ _ GL). apply map_seq_ext. intros i Hi.
          assert (Q := ikey_of _ _ _ GL i Hi). destruct (nth i lkeys None) as [b|].
          - destruct Q as (k & -> & Hk). cbn [nth]. now apply Hlex.
          - rewrite Q, rrows_null. reflexivity. }
        rewrite Em, map_length, seq_length. apply compress_filter.
    + assert (T : forall l : list nat, filter (fun _ => true) l = l) by (induction l as [|? ? IHl]; cbn; [reflexivity|now rewrite IHl]).
      rewrite T. destruct kl; reflexivity.
  - apply orb_false_iff in Eu. destruct Eu as [Ek _]. destruct kr; [discriminate|]. clear Ek.
    set (d := if inner then 0 else 1). set (cnt := fun o => length (blk inner None o)).
    set (mult := scatter _ _ _).
    assert (Hm : forall k b, nth_error lus k = Some b -> nth k mult 0 = cnt (Some b)).
    { intros k b Hk. unfold mult, r2l. rewrite (scatter_r2l eqb eqb_eq _ _ _ _ _ _ GL GR _ _ k b 0 Hk).
      - unfold cnt, MergeProofs.blk, cand. destruct (index_of eqb b rus) as [k'|] eqn:E.
        + assert (Lk : k' < length rus) by (apply index_of_some in E; [|exact eqb_eq]; apply nth_error_Some; congruence).
          unfold kg_ncount, ncountgroup, unique_count. cbn [kg_us kg_ikey seq map tl]. rewrite <- seq_shift, map_map, nth_map_seq by exact Lk.
          rewrite (rrows_idx eqb eqb_eq _ _ _ GR b k' E).
          assert (Hne : rrows (Some b) <> []).
          { apply (rrows_ne eqb eqb_eq _ _ _ GR OR). apply index_of_some in E; [|exact eqb_eq]. now apply nth_error_In in E. }
          destruct (rrows (Some b)); [congruence|]. cbn. now rewrite map_length.
        + rewrite (rrows_none eqb eqb_eq _ _ _ GR b E). assert (Lk : k < length lus) by (apply nth_error_Some; congruence).
          transitivity d; [|unfold d; destruct inner; reflexivity].
          apply (repeat_spec (length lus) d). apply nth_In. now rewrite repeat_length.
      - unfold kg_ncount, ncountgroup, unique_count. cbn [kg_us kg_ikey seq map tl length]. now rewrite map_length, seq_length.
      - rewrite repeat_length. unfold unique_count. cbn. lia. }
    assert (Hn : cnt None = d) by (unfold cnt, MergeProofs.blk, cand; rewrite rrows_null; unfold d; destruct inner; reflexivity).
    assert (Hi : forall i, i < length lkeys -> nth (nth i likey 0) (d :: mult) 0 = cnt (nth i lkeys None)).
    { intros i Hi. assert (Q := ikey_of _ _ _ GL i Hi). destruct (nth i lkeys None) as [b|].
      - destruct Q as (k & -> & Hk). cbn [nth]. now apply Hm.
      - rewrite Q, Hn. reflexivity. }
    destruct kl as [k1|]; cbn [resolve keep_ikey all_rows_kept kg_ikey].
    + rewrite map_map. rewrite (map_ext_in _ (fun i => cnt (nth i lkeys None))).
      * apply (partial_repeat_eq sched HS junk (fun i => cnt (nth i lkeys None)) (ifirstlast lg k1)). reflexivity.
      * intros i Hin. apply Hi. now apply (ifl_range _ _ _ GL OL) in Hin.
    + unfold arange_repeat. rewrite <- (map_nth_seq likey 0) at 1. rewrite map_map, (g_length _ _ _ GL).
      rewrite (map_ext_in _ (fun i => cnt (nth i lkeys None))) by (intros i Hin; apply in_seq in Hin; apply Hi; lia).
      apply (partial_repeat_eq sched HS junk (fun i => cnt (nth i lkeys None)) (seq 0 (length lkeys))).
      intros i Hl. rewrite seq_length in Hl. now rewrite seq_nth by exact Hl.
Qed.

Lemma no_null_group : ~ In None lkeys -> group_rows likey 0 = [].
Proof using GL.
  intros H. destruct (group_rows likey 0) as [|x l] eqn:E; [reflexivity|]. elim H.
  assert (Hx : In x (group_rows likey 0)) by (rewrite E; now left). apply group_rows_in, (grouping_null GL) in Hx. now apply nth_error_In in Hx.
Qed.
(** the left rows are complete, except when null keys are dropped *)
Theorem build_left_eq inner kl kr : nulls_ok lkeys rkeys inner kl kr ->
  resolve (length lkeys) (build_left sched junk (right_to_left eqb lg rg) lg rg inner kl kr) =
  concat (map (fun i => repeat (Some i) (length (blk inner kr (nth i lkeys None)))) (lrows kl)).
Proof using eqb_eq GL GR OL OR HS.
  intros H. rewrite build_left_gen. unfold lrows'. destruct ((length rikey =? 0) || (length likey =? 0) || is_some kr || right_unique) eqn:E; [reflexivity|].
  destruct kl as [k1|]; [|reflexivity]. cbn [all_rows_kept MergeProofs.lrows].
  destruct (group_rows likey 0) as [|z zs] eqn:Ez; [now rewrite no_null by exact Ez|].
  rewrite null_pick by congruence. cbn [map concat]. rewrite (null_key _ _ _ GL k1) by congruence.
  destruct H as [-> | [H | [H | [H | H]]]].
  - unfold MergeProofs.blk at 2. replace (cand eqb rkeys kr None) with (@nil nat) by (symmetry; apply cand_nil, rrows_null). reflexivity.
  - discriminate.
  - destruct kr; [|congruence]. rewrite !orb_false_iff in E. destruct E as [[_ E] _]. discriminate.
  - apply no_null_group in H. congruence.
  - assert (L := g_length _ _ _ GR). rewrite H in L. cbn in L. rewrite L in E. discriminate.
Qed.
End Core.
