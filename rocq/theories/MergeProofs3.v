(** The join indices are the nested-loop joins. *)
From Coq Require Import List Arith Bool Lia Permutation.
From Verif Require Import Sched SchedFacts GroupModel GroupFacts MergeModel MergeSpec MergeFacts MergeProofs MergeProofs2.
Import ListNotations.

Definition incr (l : list nat) : Prop := forall i j a b, nth_error l i = Some a -> nth_error l j = Some b -> i < j -> a < b.
Lemma incr_filter_seq f s n : incr (filter f (seq s n)).
Proof. intros i j a b. apply filter_increasing. intros. eapply seq_increasing; eauto. Qed.
Lemma incr_first l i : incr l -> In i l -> (nth 0 l 0 = i <-> forall j, In j l -> ~ j < i).
Proof.
  intros H Hi. apply In_nth_error in Hi. destruct Hi as (p & Hp). destruct l as [|x l]; [now destruct p|]. cbn [nth]. split.
  - intros -> j Hj. apply In_nth_error in Hj. destruct Hj as (q & Hq). destruct q as [|q]; [cbn in Hq; injection Hq; lia|].
    specialize (H 0 (S q) i j eq_refl Hq). lia.
  - intros Q. destruct p as [|p]; [cbn in Hp; congruence|]. specialize (H 0 (S p) x i eq_refl Hp ltac:(lia)).
    elim (Q x); [now left|exact H].
Qed.
Lemma last_nth (l : list nat) : l <> [] -> nth_error l (length l - 1) = Some (last l 0).
Proof.
  intros H. destruct l as [|y l] using rev_ind; [congruence|]. rewrite last_last, app_length. cbn [length].
  rewrite nth_error_app2 by lia. replace (length l + 1 - 1 - length l) with 0 by lia. reflexivity.
Qed.
Lemma incr_last l i : incr l -> In i l -> (last l 0 = i <-> forall j, In j l -> ~ i < j).
Proof.
  intros H Hi. assert (Hne : l <> []) by (intros ->; contradiction). assert (Hl := last_nth l Hne).
  apply In_nth_error in Hi. destruct Hi as (p & Hp). assert (Lp : p < length l) by (apply nth_error_Some; congruence). split.
  - intros E j Hj. apply In_nth_error in Hj. destruct Hj as (q & Hq). assert (Lq : q < length l) by (apply nth_error_Some; congruence).
    rewrite E in Hl. destruct (Nat.eq_dec q (length l - 1)) as [->|Ne]; [rewrite Hl in Hq; injection Hq; lia|].
    specialize (H _ _ _ _ Hq Hl ltac:(lia)). lia.
  - intros Q. destruct (Nat.eq_dec p (length l - 1)) as [->|Ne]; [congruence|]. specialize (H _ _ _ _ Hp Hl ltac:(lia)).
    elim (Q (last l 0)); [|exact H]. now apply nth_error_In in Hl.
Qed.
Lemma filter_single (P : nat -> bool) l x : NoDup l -> In x l -> (forall i, In i l -> (P i = true <-> x = i)) -> filter P l = [x].
Proof.
  induction l as [|y l IH]; cbn; intros N Hx H; [contradiction|]. inversion N as [|? ? Ny N']; subst.
  destruct (P y) eqn:E.
  - apply H in E; [|now left]. subst y. f_equal. clear IH Hx. assert (G : forall l', (forall i, In i l' -> In i l) -> filter P l' = []).
    { induction l' as [|z l' IH']; cbn; intros S; [reflexivity|]. destruct (P z) eqn:Ez.
      - apply H in Ez; [|right; apply S; now left]. subst z. elim Ny. apply S. now left.
      - apply IH'. intros. apply S. now right. }
    apply G. auto.
  - apply IH; [exact N'| |intros; apply H; now right]. destruct Hx as [->|Hx]; [|exact Hx].
    assert (P x = true) by (apply H; [now left|reflexivity]). congruence.
Qed.
Lemma filter_filter_comm {X} (f g : X -> bool) l : filter f (filter g l) = filter g (filter f l).
Proof. induction l as [|x l IH]; cbn; [reflexivity|]. destruct (g x) eqn:Eg, (f x) eqn:Ef; cbn; rewrite ?Eg, ?Ef, IH; reflexivity. Qed.
Lemma NoDup_map_in {X Y} (f : X -> Y) l : NoDup l -> (forall x y, In x l -> In y l -> f x = f y -> x = y) -> NoDup (map f l).
Proof.
  induction 1 as [|x l Hx N IH]; cbn; intros H; constructor.
  - intros Hin. apply in_map_iff in Hin. destruct Hin as (y & E & Hy). apply Hx. rewrite (H x y); [exact Hy|now left|now right|congruence].
  - apply IH. intros. apply H; [now right|now right|assumption].
Qed.

Section Spec.
Context {B : Type}.
Variable eqb : B -> B -> bool.
Hypothesis eqb_eq : forall a b, eqb a b = true <-> a = b.

Definition kfilter (k1 : keep1) (keys : list (option B)) : nat -> bool :=
  match k1 with KFirst => first_of_key eqb keys | KLast => last_of_key eqb keys end.
Lemma kept_filter k1 keys : kept eqb (Some k1) keys = filter (kfilter k1 keys) (all_rows keys).
Proof using. destruct k1; reflexivity. Qed.
Definition same_rows (keys : list (option B)) (i : nat) : list nat :=
  filter (fun j => same eqb (nth i keys None) (nth j keys None)) (all_rows keys).
Lemma same_refl x : same eqb x x = true.
Proof using eqb_eq. destruct x; cbn; [now apply eqb_eq|reflexivity]. Qed.
Lemma same_iff x y : same eqb x y = true <-> x = y.
Proof using eqb_eq. destruct x, y; cbn; rewrite ?eqb_eq; split; congruence. Qed.
Lemma kfilter_pick k1 keys i : i < length keys -> (kfilter k1 keys i = true <-> pick k1 (same_rows keys i) = i).
Proof using eqb_eq.
  intros Hi. assert (Inc : incr (same_rows keys i)) by apply incr_filter_seq.
  assert (Hin : In i (same_rows keys i)) by (apply filter_In; split; [apply in_seq; lia|apply same_refl]).
  destruct k1; cbn [kfilter pick].
  - rewrite (incr_first _ i Inc Hin). unfold first_of_key. rewrite forallb_forall. split; intros H j Hj.
    + apply filter_In in Hj. destruct Hj as [_ Hj]. intros L. specialize (H j). rewrite Hj in H. specialize (H ltac:(apply in_seq; lia)). discriminate.
    + apply in_seq in Hj. destruct (same eqb (nth i keys None) (nth j keys None)) eqn:E; [|reflexivity].
      elim (H j); [|lia]. apply filter_In. split; [apply in_seq; lia|exact E].
  - rewrite (incr_last _ i Inc Hin). unfold last_of_key. rewrite forallb_forall. split; intros H j Hj.
    + apply filter_In in Hj. destruct Hj as [H1 Hj]. apply in_seq in H1. intros L. specialize (H j). rewrite Hj in H. specialize (H ltac:(apply in_seq; lia)). discriminate.
    + apply in_seq in Hj. destruct (same eqb (nth i keys None) (nth j keys None)) eqn:E; [|reflexivity].
      elim (H j); [|lia]. apply filter_In. split; [apply in_seq; lia|exact E].
Qed.
Lemma rrows_same keys b i : In i (rrows eqb keys (Some b)) -> rrows eqb keys (Some b) = same_rows keys i.
Proof using eqb_eq.
  intros H. apply filter_In in H. destruct H as [_ H]. unfold joins in H. destruct (nth i keys None) as [b'|] eqn:E; [|discriminate].
  apply eqb_eq in H. subst b'. unfold rrows, matching, same_rows. rewrite E. apply filter_ext. intros j. unfold joins, same. reflexivity.
Qed.
Lemma cand_spec kr keys o : cand eqb keys kr o = matching eqb o keys (kept eqb kr keys).
Proof using eqb_eq.
  unfold cand. destruct kr as [k1|]; [|reflexivity]. rewrite kept_filter. unfold matching. rewrite filter_filter_comm.
  change (filter (fun j => joins eqb o (nth j keys None)) (all_rows keys)) with (rrows eqb keys o).
  destruct (rrows eqb keys o) as [|x l] eqn:E; [reflexivity|]. rewrite <- E.
  destruct o as [b|]; [|rewrite rrows_null in E; discriminate].
  symmetry. apply filter_single.
  - apply NoDup_filter, seq_NoDup.
  - apply pick_in. congruence.
  - intros i Hi. rewrite (rrows_same keys b i Hi). apply kfilter_pick. apply filter_In in Hi. destruct Hi as [Hi _]. apply in_seq in Hi. lia.
Qed.

Section Rows.
Variables lkeys : list (option B).
Variables lus : list B.
Variables likey : list nat.
Hypothesis GL : grouping_of lkeys lus likey.
Hypothesis OL : forall b, In b lus -> In (Some b) lkeys.
Notation lg := (mkKG lus likey).

Lemma group_same i : i < length lkeys -> group_rows likey (nth i likey 0) = same_rows lkeys i.
Proof using eqb_eq GL.
  intros Hi. unfold group_rows, same_rows, all_rows. rewrite (g_length _ _ _ GL). apply filter_ext_in. intros j Hj. apply in_seq in Hj.
  apply eq_iff_eq_true. rewrite Nat.eqb_eq, same_iff.
  assert (Qi := ikey_of _ _ _ GL i Hi). assert (Qj := ikey_of _ _ _ GL j ltac:(lia)).
  destruct (nth i lkeys None) as [bi|], (nth j lkeys None) as [bj|].
  - destruct Qi as (ki & -> & Hki), Qj as (kj & -> & Hkj). split; intros E.
    + injection E as ->. congruence.
    + injection E as ->. f_equal. apply (proj1 (NoDup_nth_error lus) (g_distinct _ _ _ GL)); [apply nth_error_Some; congruence|congruence].
  - destruct Qi as (ki & -> & Hki). rewrite Qj. split; discriminate.
  - destruct Qj as (kj & -> & Hkj). rewrite Qi. split; discriminate.
  - rewrite Qi, Qj. tauto.
Qed.
Definition groups_kept : list nat := (match group_rows likey 0 with [] => [] | _ => [0] end) ++ map S (seq 0 (length lus)).
Lemma lrows_groups k1 : lrows lkeys lus likey (Some k1) = map (fun g => pick k1 (group_rows likey g)) groups_kept.
Proof using.
  unfold groups_kept. cbn [lrows]. rewrite map_app, map_map. destruct (group_rows likey 0) as [|z zs] eqn:E.
  - rewrite no_null by exact E. reflexivity.
  - rewrite null_pick by congruence. cbn [map app]. reflexivity.
Qed.
Lemma groups_ne g : In g groups_kept -> group_rows likey g <> [].
Proof using GL OL.
  intros H. apply in_app_or in H. destruct H as [H|H].
  - destruct (group_rows likey 0) eqn:E; [contradiction|]. destruct H as [<-|[]]. congruence.
  - apply in_map_iff in H. destruct H as (k & <- & Hk). apply in_seq in Hk. destruct (nth_error lus k) as [b|] eqn:E; [|apply nth_error_None in E; lia].
    now apply (group_rows_ne _ _ _ GL OL k b).
Qed.
Lemma pick_group k1 g : group_rows likey g <> [] -> nth (pick k1 (group_rows likey g)) likey 0 = g /\ pick k1 (group_rows likey g) < length lkeys.
Proof using GL.
  intros H. assert (Hp := pick_in k1 _ H). apply group_rows_in in Hp. split; [now apply nth_error_nth|].
  rewrite <- (g_length _ _ _ GL). apply nth_error_Some. congruence.
Qed.
Lemma lrows_perm kl : Permutation (lrows lkeys lus likey kl) (kept eqb kl lkeys).
Proof using eqb_eq GL OL.
  destruct kl as [k1|]; [|reflexivity]. rewrite lrows_groups, kept_filter. apply NoDup_Permutation.
  - apply NoDup_map_in.
    + unfold groups_kept. destruct (group_rows likey 0); cbn [app].
      * apply FinFun.Injective_map_NoDup; [congruence|apply seq_NoDup].
      * constructor; [|apply FinFun.Injective_map_NoDup; [congruence|apply seq_NoDup]].
        intros H. apply in_map_iff in H. destruct H as (? & ? & _). discriminate.
    + intros x y Hx Hy E. destruct (pick_group k1 x (groups_ne x Hx)) as [<- _]. destruct (pick_group k1 y (groups_ne y Hy)) as [<- _]. now rewrite E.
  - apply NoDup_filter, seq_NoDup.
  - intros i. rewrite in_map_iff, filter_In. split.
    + intros (g & <- & Hg). destruct (pick_group k1 g (groups_ne g Hg)) as [E L]. split; [apply in_seq; lia|].
      apply kfilter_pick; [exact L|]. rewrite <- group_same by exact L. now rewrite E.
    + intros [Hi Hk]. apply in_seq in Hi. apply kfilter_pick in Hk; [|lia]. rewrite <- group_same in Hk by lia.
      exists (nth i likey 0). split; [exact Hk|]. assert (Li : i < length likey) by (rewrite (g_length _ _ _ GL); lia).
      unfold groups_kept. apply in_or_app. assert (E := nth_error_nth' likey 0 Li). destruct (nth i likey 0) as [|k].
      * left. apply group_rows_in in E. destruct (group_rows likey 0); [contradiction|now left].
      * right. apply in_map. apply in_seq. apply (grouping_range GL) in E. lia.
Qed.
End Rows.

(** *** index arrays as rows *)
Lemma flat_map_fst {X} (f : X -> list row) l : map fst (flat_map f l) = concat (map (fun x => map fst (f x)) l).
Proof using. rewrite flat_map_concat_map, concat_map, map_map. reflexivity. Qed.
Lemma flat_map_snd {X} (f : X -> list row) l : map snd (flat_map f l) = concat (map (fun x => map snd (f x)) l).
Proof using. rewrite flat_map_concat_map, concat_map, map_map. reflexivity. Qed.
Lemma map_const {X Y} (y : Y) (l : list X) : map (fun _ => y) l = repeat y (length l).
Proof using. induction l as [|x l IH]; cbn; [reflexivity|now rewrite IH]. Qed.
Definition join_of (inner : bool) := if inner then inner_join eqb else left_join eqb.
Lemma join_left inner lkeys rkeys ls kr :
  map fst (join_of inner lkeys rkeys ls (kept eqb kr rkeys)) = concat (map (fun i => repeat (Some i) (length (blk eqb rkeys inner kr (nth i lkeys None)))) ls).
Proof using eqb_eq.
  unfold join_of, blk. destruct inner; unfold inner_join, left_join; rewrite flat_map_fst; f_equal; apply map_ext; intros i; rewrite cand_spec.
  - rewrite map_map. cbn. rewrite map_const. destruct (matching _ _ _ _); cbn; [reflexivity|]. now rewrite map_length.
  - destruct (matching _ _ _ _) as [|x l]; [reflexivity|]. rewrite map_map. cbn. now rewrite map_const, map_length.
Qed.
Lemma join_right inner lkeys rkeys ls kr :
  map snd (join_of inner lkeys rkeys ls (kept eqb kr rkeys)) = concat (map (fun i => blk eqb rkeys inner kr (nth i lkeys None)) ls).
Proof using eqb_eq.
  unfold join_of, blk. destruct inner; unfold inner_join, left_join; rewrite flat_map_snd; f_equal; apply map_ext; intros i; rewrite cand_spec.
  - rewrite map_map. cbn. destruct (matching _ _ _ _); reflexivity.
  - destruct (matching _ _ _ _) as [|x l]; [reflexivity|]. now rewrite map_map.
Qed.
End Spec.

(** *** left and inner joins on grouped keys *)
Section Joins.
Context {B : Type}.
Variable eqb : B -> B -> bool.
Hypothesis eqb_eq : forall a b, eqb a b = true <-> a = b.
Variable sched : list (list (store (option nat))) -> list (store (option nat)).
Hypothesis HS : forall its, interleave its (sched its).
Variable junk : mem (option nat).

Lemma left_or_inner_rows lkeys rkeys lg rg inner kl kr :
  groups_keys lkeys lg -> groups_keys rkeys rg ->
  nulls_ok lkeys rkeys inner kl kr ->
  exists ls, Permutation ls (kept eqb kl lkeys) /\ (kl = None -> ls = all_rows lkeys) /\
    indices_are lkeys rkeys (left_or_inner eqb sched junk lg rg inner kl kr) (join_of eqb inner lkeys rkeys ls (kept eqb kr rkeys)).
Proof using eqb_eq HS.
  intros [GL OL] [GR OR] N. destruct lg as [lus likey], rg as [rus rikey]. cbn [kg_us kg_ikey] in *.
  exists (lrows lkeys lus likey kl). split; [now apply lrows_perm|]. split; [intros ->; reflexivity|].
  unfold indices_are, left_or_inner. cbn [left_index right_index]. rewrite join_left, join_right by exact eqb_eq. split.
  - now apply build_left_eq.
  - cbn [resolve]. now apply build_right_eq.
Qed.
End Joins.
