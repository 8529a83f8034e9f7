(** rt.merge. *)
From Coq Require Import List Arith Bool Lia String Permutation.
From Verif Require Import MergeSpec MergeModel MergeColsModel MergeColsProofs MergeColsProofs2 MergeColsProofs3 MoModel MoSpec.
Import ListNotations.
Local Open Scope list_scope.

Lemma find_filter {X} (f : X -> bool) l : find f l = hd_error (filter f l).
Proof. induction l as [|x l IH]; [reflexivity|]. cbn [find filter]. destruct (f x); [reflexivity|exact IH]. Qed.
Lemma nth_some {X} (d : X) l i : i < List.length l -> nth i (map Some l) None = Some (nth i l d).
Proof. intros H. rewrite (nth_indep (map Some l) None (Some d)) by (rewrite map_length; lia). now rewrite map_nth. Qed.

Section Rows.
Context {V : Type}.
Variable veqb : V -> V -> bool.
Hypothesis veqb_eq : forall a b, veqb a b = true <-> a = b.
Notation teqb := (tuple_eqb veqb).
Notation fr := (first_row veqb).
Lemma teq a b : teqb a b = true <-> a = b. Proof using veqb_eq. apply tuple_eqb_eq, veqb_eq. Qed.
Lemma filter_ext_seq (f g : nat -> bool) a n : (forall i, a <= i < a + n -> f i = g i) -> filter f (seq a n) = filter g (seq a n).
Proof. intros H. apply filter_ext_in. intros i Hi. apply in_seq in Hi. apply H. lia. Qed.
Lemma fr_partner k t : fr k t = partner teqb (Some KFirst) (Some k) (map Some t).
Proof.
  unfold first_row, partner, matching, all_rows. rewrite map_length, find_filter. f_equal. apply filter_ext_seq. intros i H.
  rewrite (nth_some []) by lia. reflexivity.
Qed.
Lemma fr_some k t j : fr k t = Some j -> j < List.length t /\ nth j t [] = k /\ forall i, i < j -> nth i t [] <> k.
Proof using veqb_eq.
  unfold first_row. intros H. assert (G : forall n a, find (fun j => teqb k (nth j t [])) (seq a n) = Some j -> a <= j < a + n /\ nth j t [] = k /\ forall i, a <= i < j -> nth i t [] <> k).
  { clear H. induction n as [|n IH]; intros a E; [discriminate|]. cbn [seq find] in E. destruct (teqb k (nth a t [])) eqn:T.
    - injection E as <-. apply teq in T. split; [lia|]. split; [now symmetry|]. intros i Hi. lia.
    - apply IH in E. destruct E as (E1 & E2 & E3). split; [lia|]. split; [exact E2|]. intros i Hi. destruct (Nat.eq_dec i a) as [->|Hn].
      + intros <-. rewrite (proj2 (teq _ _) eq_refl) in T. discriminate.
      + apply E3. lia. }
  apply G in H. destruct H as (H1 & H2 & H3). split; [lia|]. split; [exact H2|]. intros i Hi. apply H3. lia.
Qed.
Lemma fr_intro k t j : j < List.length t -> nth j t [] = k -> (forall i, i < j -> nth i t [] <> k) -> fr k t = Some j.
Proof using veqb_eq.
  intros H1 H2 H3. unfold first_row. destruct (find _ _) as [j'|] eqn:E.
  - apply fr_some in E. destruct E as (E1 & E2 & E3). f_equal. destruct (lt_eq_lt_dec j' j) as [[Q|Q]|Q]; [|exact Q|].
    + exfalso. exact (H3 _ Q E2). + exfalso. exact (E3 _ Q H2).
  - exfalso. apply find_none with (x := j) in E; [|apply in_seq; lia]. rewrite H2, (proj2 (teq _ _) eq_refl) in E. discriminate.
Qed.
Lemma fr_none k t : fr k t = None <-> ~ In k t.
Proof using veqb_eq.
  split.
  - intros E H. apply In_nth with (d := []) in H. destruct H as (j & Hj & Q). apply find_none with (x := j) in E; [|apply in_seq; lia].
    rewrite Q, (proj2 (teq _ _) eq_refl) in E. discriminate.
  - intros H. destruct (fr k t) eqn:E; [|reflexivity]. exfalso. apply fr_some in E. destruct E as (E1 & E2 & _). apply H. rewrite <- E2. now apply nth_In.
Qed.
Lemma first_kept t i : i < List.length t ->
  first_of_key teqb (map Some t) i = match fr (nth i t []) t with Some j => j =? i | None => false end.
Proof using veqb_eq.
  intros H. unfold first_of_key. apply eq_true_iff_eq. rewrite forallb_forall. split.
  - intros F. rewrite (fr_intro _ _ i); [apply Nat.eqb_refl|exact H|reflexivity|]. intros j Hj Q. specialize (F j ltac:(apply in_seq; lia)).
    rewrite !(nth_some []) in F by lia. cbn [same] in F. rewrite Q, (proj2 (teq _ _) eq_refl) in F. discriminate.
  - destruct (fr _ _) as [j|] eqn:E; [|discriminate]. intros Q. apply Nat.eqb_eq in Q. subst j. apply fr_some in E. destruct E as (_ & _ & E).
    intros j Hj. apply in_seq in Hj. rewrite !(nth_some []) by lia. cbn [same]. apply negb_true_iff, not_true_iff_false. rewrite teq. intros Q. apply (E j); [lia|now symmetry].
Qed.
Lemma first_rows_kept t : first_rows veqb t = kept teqb (Some KFirst) (map Some t).
Proof using veqb_eq.
  unfold first_rows, kept, all_rows. rewrite map_length. apply filter_ext_seq. intros i H. symmetry. apply first_kept. lia.
Qed.

Variables L R : list (list V).
Notation l := (map Some L).
Notation r := (map Some R).
Notation jr := (join_rows teqb).
Lemma map_seq_nth {X Y} (d : X) (g : X -> Y) t : map g t = map (fun i => g (nth i t d)) (seq 0 (List.length t)).
Proof. rewrite <- (map_map (fun i => nth i t d) g). now rewrite map_nth_all. Qed.
Lemma rows_left : let rows := jr HLeft l r (all_rows l) (kept teqb (Some KFirst) r) in
  map fst rows = p_left veqb HLeft L R /\ map snd rows = p_right veqb HLeft L R.
Proof using veqb_eq.
  cbn [join_rows]. rewrite left_join_partner by (discriminate || apply teq). rewrite !map_map. cbn [fst snd p_left p_right construct_index].
  unfold all_rows. rewrite map_length. split; [reflexivity|].
  unfold ismember. rewrite (map_seq_nth [] (fun k => fr k R) L). apply map_ext_in. intros i Hi. apply in_seq in Hi. rewrite (nth_some []) by lia. symmetry. apply fr_partner.
Qed.
Lemma rows_inner_gen : let rows := map (to_first teqb l) (jr HInner l r (all_rows l) (kept teqb (Some KFirst) r)) in
  map fst rows = p_left veqb HInner L R /\ map snd rows = p_right veqb HInner L R.
Proof using veqb_eq.
  cbn [join_rows]. unfold inner_join, all_rows, p_left, p_right, ismember, construct_index. rewrite map_length. rewrite !map_map.
  assert (G : forall n a, a + n <= List.length L ->
     map (fun k => fr k L) (filter (fun k => is_some (fr k R)) (map (fun i => nth i L []) (seq a n))) =
     map (fun p => fst (to_first teqb l p)) (flat_map (fun i => map (fun j => (Some i, Some j)) (matching teqb (nth i l None) r (kept teqb (Some KFirst) r))) (seq a n)) /\
     map (fun k => fr k R) (filter (fun k => is_some (fr k R)) (map (fun i => nth i L []) (seq a n))) =
     map (fun p : row => snd (to_first teqb l p)) (flat_map (fun i => map (fun j => (Some i, Some j)) (matching teqb (nth i l None) r (kept teqb (Some KFirst) r))) (seq a n))).
  { induction n as [|n IH]; intros a Ha; [split; reflexivity|]. cbn [seq map filter flat_map]. rewrite !map_app.
    destruct (IH (Datatypes.S a) ltac:(lia)) as [I1 I2]. rewrite matching_partner by (discriminate || apply teq). rewrite (nth_some []) by lia.
    rewrite <- fr_partner. destruct (fr (nth a L []) R) as [j|] eqn:E; cbn [is_some map app].
    - rewrite I1, I2, E. cbn [to_first fst snd]. rewrite (nth_some []) by lia. rewrite <- fr_partner. split; reflexivity.
    - split; assumption. }
  specialize (G (List.length L) 0 (le_n _)). rewrite map_nth_all in G. destruct G as [G1 G2]. rewrite G1, G2. split; reflexivity.
Qed.
Lemma inner_unique : unique_keys l -> map (to_first teqb l) (jr HInner l r (all_rows l) (kept teqb (Some KFirst) r)) = jr HInner l r (all_rows l) (kept teqb (Some KFirst) r).
Proof using veqb_eq.
  intros U. rewrite <- (map_id (jr HInner l r _ _)) at 2. apply map_ext_in. intros [a b] H. cbn [join_rows] in H. unfold inner_join in H.
  apply in_flat_map in H. destruct H as (i & Hi & H). apply in_map_iff in H. destruct H as (j & Q & _). injection Q as <- <-. unfold to_first. cbn [fst snd].
  unfold all_rows in Hi. rewrite map_length in Hi. apply in_seq in Hi. rewrite (nth_some []) by lia. rewrite <- fr_partner. f_equal.
  apply fr_intro; [lia|reflexivity|]. intros k Hk Q. assert (k = i); [|lia]. apply (U k i (nth i L [])).
  - rewrite nth_error_map, (nth_error_nth' L []) by lia. cbn. now rewrite Q.
  - rewrite nth_error_map, (nth_error_nth' L []) by lia. reflexivity.
Qed.
(** first occurrences in [L ++ R] *)
Lemma filter_shift (f : nat -> bool) n m : filter f (seq n m) = map (fun j => n + j) (filter (fun j => f (n + j)) (seq 0 m)).
Proof.
  assert (G : forall m a, filter f (seq (n + a) m) = map (fun j => n + j) (filter (fun j => f (n + j)) (seq a m))).
  { clear m. induction m as [|m IH]; intros a; [reflexivity|]. cbn [seq filter]. assert (Q := IH (Datatypes.S a)). rewrite <- plus_n_Sm in Q. rewrite Q. destruct (f (n + a)); reflexivity. }
  assert (Q := G m 0). now rewrite Nat.add_0_r in Q.
Qed.
Lemma fr_app k : fr k (L ++ R) = match fr k L with Some j => Some j | None => match fr k R with Some j => Some (List.length L + j) | None => None end end.
Proof using veqb_eq.
  destruct (fr k L) as [j|] eqn:E1.
  - apply fr_some in E1. destruct E1 as (A1 & A2 & A3). apply fr_intro.
    + rewrite app_length. lia. + now rewrite app_nth1. + intros i Hi. rewrite app_nth1 by lia. now apply A3.
  - destruct (fr k R) as [j|] eqn:E2.
    + apply fr_some in E2. destruct E2 as (A1 & A2 & A3). apply fr_intro.
      * rewrite app_length. lia. * rewrite app_nth2 by lia. now replace (List.length L + j - List.length L) with j by lia.
      * intros i Hi. destruct (lt_dec i (List.length L)).
        -- rewrite app_nth1 by lia. intros <-. apply fr_none in E1. apply E1. now apply nth_In.
        -- rewrite app_nth2 by lia. apply A3. lia.
    + apply fr_none. intros H. apply in_app_or in H. apply fr_none in E1, E2. tauto.
Qed.
Lemma first_rows_app : first_rows veqb (L ++ R) =
  first_rows veqb L ++ map (fun j => List.length L + j) (filter (fun j => negb (is_some (fr (nth j R []) L))) (first_rows veqb R)).
Proof using veqb_eq.
  unfold first_rows at 1. rewrite app_length, seq_app, filter_app. cbn [Nat.add]. f_equal.
  - unfold first_rows. apply filter_ext_seq. intros i Hi. rewrite app_nth1 by lia. rewrite fr_app. destruct (fr (nth i L []) L) eqn:E; [reflexivity|].
    exfalso. apply fr_none in E. apply E, nth_In. lia.
  - rewrite filter_shift. f_equal. unfold first_rows. assert (FF : forall (f g : nat -> bool) t, filter f (filter g t) = filter (fun x => g x && f x) t).
    { intros f g t. induction t as [|x t IH]; [reflexivity|]. cbn [filter]. destruct (g x); cbn [filter andb]; [destruct (f x); now rewrite IH|exact IH]. }
    rewrite FF. apply filter_ext_seq. intros j Hj. rewrite app_nth2 by lia. replace (List.length L + j - List.length L) with j by lia. rewrite fr_app.
    destruct (fr (nth j R []) L) as [i|] eqn:E.
    + apply fr_some in E. cbn [is_some negb]. rewrite andb_false_r. apply Nat.eqb_neq. lia.
    + cbn [is_some negb]. rewrite andb_true_r. destruct (fr (nth j R []) R) as [i|]; [|reflexivity]. apply eq_true_iff_eq. rewrite !Nat.eqb_eq. lia.
Qed.
Lemma in_first_rows t i : In i (first_rows veqb t) <-> i < List.length t /\ fr (nth i t []) t = Some i.
Proof.
  unfold first_rows. rewrite filter_In, in_seq. split.
  - intros [A B]. split; [lia|]. destruct (fr _ _) as [j|]; [|discriminate]. apply Nat.eqb_eq in B. now subst.
  - intros [A B]. split; [lia|]. rewrite B. apply Nat.eqb_refl.
Qed.
Lemma rows_outer : let rows := jr HOuter l r (kept teqb (Some KFirst) l) (kept teqb (Some KFirst) r) in
  map fst rows = p_left veqb HOuter L R /\ map snd rows = p_right veqb HOuter L R.
Proof using veqb_eq.
  cbn [join_rows]. unfold outer_of. rewrite left_join_partner by (discriminate || apply teq). rewrite <- !first_rows_kept.
  unfold p_left, p_right, ismember, construct_index. cbv zeta. rewrite first_rows_app, !map_app, !map_map. cbn [fst snd].
  assert (RO : right_only_of teqb l r (first_rows veqb L) (first_rows veqb R) = map (fun j => (None, Some j)) (filter (fun j => negb (is_some (fr (nth j R []) L))) (first_rows veqb R))).
  { unfold right_only_of. f_equal. apply filter_ext_in. intros j Hj. apply in_first_rows in Hj. rewrite first_rows_kept, matching_partner by (discriminate || apply teq).
    rewrite (nth_some []) by lia. rewrite <- fr_partner. destruct (fr (nth j R []) L); reflexivity. }
  rewrite RO, !map_map. cbn [fst snd]. split; f_equal; apply map_ext_in; intros i Hi.
  - apply in_first_rows in Hi. rewrite app_nth1 by lia. now rewrite (proj2 Hi).
  - apply filter_In in Hi. destruct Hi as [_ Hi]. rewrite app_nth2 by lia. replace (List.length L + i - List.length L) with i by lia. destruct (fr _ _); [discriminate|reflexivity].
  - apply in_first_rows in Hi. rewrite app_nth1 by lia. rewrite (nth_some []) by lia. symmetry. apply fr_partner.
  - apply filter_In in Hi. destruct Hi as [Hi _]. apply in_first_rows in Hi. rewrite app_nth2 by lia. replace (List.length L + i - List.length L) with i by lia. now rewrite (proj2 Hi).
Qed.
End Rows.
Section RowsRight.
Context {V : Type}.
Variable veqb : V -> V -> bool.
Hypothesis veqb_eq : forall a b, veqb a b = true <-> a = b.
Notation teqb := (tuple_eqb veqb).
Variables L R : list (list V).
Notation l := (map Some L).
Notation r := (map Some R).
Lemma rows_right : let rows := join_rows teqb HRight l r (kept teqb (Some KFirst) l) (all_rows r) in
  map fst rows = p_left veqb HRight L R /\ map snd rows = p_right veqb HRight L R.
Proof using veqb_eq.
  destruct (rows_left veqb veqb_eq R L) as [A B]. cbn [join_rows] in *. cbv zeta. rewrite !map_map. unfold swap. cbn [fst snd]. split; [exact B|exact A].
Qed.
End RowsRight.
