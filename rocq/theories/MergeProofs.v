(** The join-index kernels compute nested loops over the rows of both tables. *)
From Coq Require Import List Arith Bool Lia Permutation.
From Verif Require Import Sched SchedFacts GroupModel GroupFacts MergeModel MergeSpec MergeFacts.
Import ListNotations.

(** *** parallel kernels, any schedule *)
Section Par.
Variable sched : list (list (store (option nat))) -> list (store (option nat)).
Hypothesis HS : forall its, interleave its (sched its).
Variable junk : mem (option nat).

Lemma par_seq (f : nat -> option nat) n : par sched junk (map (fun i => [(i, f i)]) (seq 0 n)) n = map f (seq 0 n).
Proof.
  unfold par. apply map_seq_ext. intros p Hp. apply run_agree.
  - intros w Hw E. apply (interleave_in _ _ (HS _)) in Hw. apply in_concat in Hw. destruct Hw as (l & Hl & Hw).
    apply in_map_iff in Hl. destruct Hl as (i & <- & Hi). destruct Hw as [<-|[]]. cbn in E. subst. reflexivity.
  - exists (p, f p). split; [|reflexivity]. apply (interleave_in _ _ (HS _)). apply in_concat.
    exists [(p, f p)]. split; [|now left]. apply in_map_iff. exists p. split; [reflexivity|]. apply in_seq. lia.
Qed.

Lemma partial_repeat_eq (cnt : nat -> nat) (rows : list nat) (arr : nat -> nat) :
  (forall i, i < length rows -> arr i = nth i rows 0) ->
  partial_repeat sched junk arr (cumsum (map cnt rows)) = concat (map (fun r => repeat (Some r) (cnt r)) rows).
Proof.
  intros HA. set (f := fun r : nat => repeat (Some r) (cnt r)).
  assert (E : map cnt rows = map (fun r => length (f r)) rows) by (apply map_ext; intros; unfold f; now rewrite repeat_length).
  rewrite E. unfold partial_repeat. rewrite cumsum_last. rewrite cumsum_length, map_length.
  apply (nth_ext _ _ None None); [unfold par; now rewrite map_length, seq_length|].
  intros p Hp. unfold par in *. rewrite map_length, seq_length in Hp. rewrite nth_map_seq by exact Hp.
  set (its := map _ _). apply run_agree.
  - intros w Hw Ew. apply (interleave_in _ _ (HS _)) in Hw. unfold its in Hw. apply in_concat in Hw. destruct Hw as (l & Hl & Hw).
    apply in_map_iff in Hl. destruct Hl as (i & <- & Hi). apply in_seq in Hi.
    rewrite cumsum_off, cumsum_nth in Hw by lia. rewrite (upto_S f rows i 0) in Hw by lia. rewrite app_length in Hw.
    apply in_map_iff in Hw. destruct Hw as (j & <- & Hj). apply in_seq in Hj. cbn [fst snd] in *.
    replace (length (upto f rows i) + length (f (nth i rows 0)) - length (upto f rows i)) with (length (f (nth i rows 0))) in Hj by lia.
    subst p. assert (Hj' : j < length (f (nth i rows 0))) by lia.
    destruct (in_block f rows i j 0 None ltac:(lia) Hj') as [_ Eb].
    rewrite Eb. unfold f in Hj' |- *. rewrite repeat_length in Hj'. rewrite HA by lia. symmetry.
    apply (repeat_spec (cnt (nth i rows 0)) (Some (nth i rows 0))).
    apply nth_In. now rewrite repeat_length.
  - destruct (block_of f rows p 0 Hp) as (i & Hi & Hb & _).
    exists (p, Some (arr i)). split; [|reflexivity]. apply (interleave_in _ _ (HS _)). unfold its. apply in_concat.
    eexists. split.
    + apply in_map_iff. exists i. split; [reflexivity|]. apply in_seq. lia.
    + rewrite cumsum_off, cumsum_nth by lia. apply in_map_iff. exists (p - length (upto f rows i)). split; [f_equal; lia|].
      apply in_seq. lia.
Qed.
End Par.

(** *** the sequential kernel *)
Section Seq.
Context (junk : mem (option nat)).
Variable ifirst igrp : list nat.
Variable f : option nat -> list (option nat).
(** what the kernel writes for one key id *)
Hypothesis Hnone : forall o, match o with None => True | Some kid => kid = 0 \/ length ifirst <= kid end -> f o = [] \/ f o = [None].
Hypothesis Hsome : forall kid, kid <> 0 -> kid < length ifirst ->
  f (Some kid) = map (fun j => Some (nth (nth kid ifirst 0 + j) igrp 0)) (seq 0 (length (f (Some kid)))).

Lemma right_impl_eq keyids :
  let cum := cumsum (map (fun o => length (f o)) keyids) in
  map (run_stores (right_impl keyids ifirst igrp cum (last cum 0)) junk) (seq 0 (last cum 0)) = concat (map f keyids).
Proof.
  intros cum. unfold cum. rewrite cumsum_last. fold cum.
  apply (nth_ext _ _ None None); [now rewrite map_length, seq_length|]. intros p Hp.
  rewrite map_length, seq_length in Hp. rewrite nth_map_seq by exact Hp.
  unfold right_impl. set (step := fun i : nat => _).
  assert (G : forall n, n <= length keyids -> forall p, p < length (upto f keyids n) ->
     run_stores (concat (map step (seq 0 n))) junk p = nth p (upto f keyids n) None).
  { induction n as [|n IH]; intros Hn q Hq; [cbn in Hq; lia|].
    rewrite seq_S, map_app, concat_app, run_stores_app. cbn [map concat Nat.add]. rewrite app_nil_r.
    rewrite (upto_S f keyids n None) in * by lia. rewrite app_length in Hq.
    set (off := length (upto f keyids n)) in *.
    assert (Es : step n = if off <? length (concat (map f keyids)) then
      match nth n keyids None with
      | None => [(off, None)]
      | Some kid => if (kid =? 0) || (length ifirst <=? kid) then [(off, None)]
          else map (fun j => (off + j, Some (nth (nth kid ifirst 0 + j) igrp 0))) (seq 0 (length (f (nth n keyids None))))
      end else []).
    { unfold step, cum. rewrite cumsum_off, cumsum_nth by lia. fold off.
      rewrite (upto_S f keyids n None) by lia. rewrite app_length. fold off.
      replace (off + length (f (nth n keyids None)) - off) with (length (f (nth n keyids None))) by lia. reflexivity. }
    destruct (Nat.lt_ge_cases q off) as [C|C].
    - rewrite app_nth1 by exact C. rewrite run_stores_untouched; [apply IH; [lia|exact C]|].
      intros w Hw. rewrite Es in Hw. destruct (off <? _); [|contradiction].
      destruct (nth n keyids None) as [kid|].
      + destruct ((kid =? 0) || (length ifirst <=? kid)).
        * destruct Hw as [<-|[]]. cbn. lia.
        * apply in_map_iff in Hw. destruct Hw as (j & <- & _). cbn. lia.
      + destruct Hw as [<-|[]]. cbn. lia.
    - rewrite app_nth2 by exact C. fold off.
      assert (Hj : q - off < length (f (nth n keyids None))) by lia.
      destruct (in_block f keyids n (q - off) None None ltac:(lia) Hj) as [Lb _]. fold off in Lb.
      rewrite Es. destruct (Nat.ltb_spec off (length (concat (map f keyids)))); [|lia].
      destruct (nth n keyids None) as [kid|] eqn:Ek.
      + destruct ((kid =? 0) || (length ifirst <=? kid)) eqn:Eb.
        * assert (Hb : f (Some kid) = [] \/ f (Some kid) = [None]).
          { apply (Hnone (Some kid)). apply orb_true_iff in Eb. destruct Eb as [Eb|Eb]; [left; now apply Nat.eqb_eq|right; now apply Nat.leb_le]. }
          destruct Hb as [Hb|Hb]; rewrite Hb in *; cbn [length] in Hj; [lia|].
          assert (q = off) by lia. subst q. rewrite Nat.sub_diag. cbn. unfold do_store. cbn. now rewrite Nat.eqb_refl.
        * apply orb_false_iff in Eb. destruct Eb as [E1 E2]. apply Nat.eqb_neq in E1. apply Nat.leb_gt in E2.
          rewrite (run_stores_map_seq (fun j => Some (nth (nth kid ifirst 0 + j) igrp 0))).
          destruct (Nat.leb_spec off q); [|lia]. destruct (Nat.ltb_spec q (off + length (f (Some kid)))); [|lia]. cbn [andb].
          rewrite (Hsome kid E1 E2). now rewrite nth_map_seq by exact Hj.
      + destruct (Hnone None I) as [Hb|Hb]; rewrite Hb in *; cbn [length] in Hj; [lia|].
        assert (q = off) by lia. subst q. rewrite Nat.sub_diag. cbn. unfold do_store. cbn. now rewrite Nat.eqb_refl. }
  rewrite <- (upto_all f keyids) in Hp. etransitivity; [exact (G (length keyids) (le_n _) p Hp)|]. now rewrite upto_all.
Qed.
End Seq.

(** *** the joins *)
Section Core.
Context {B : Type}.
Variable eqb : B -> B -> bool.
Hypothesis eqb_eq : forall a b, eqb a b = true <-> a = b.
Variable sched : list (list (store (option nat))) -> list (store (option nat)).
Hypothesis HS : forall its, interleave its (sched its).
Variable junk : mem (option nat).
Variables lkeys rkeys : list (option B).
Variables lus rus : list B.
Variables likey rikey : list nat.
Hypothesis GL : grouping_of lkeys lus likey.
Hypothesis GR : grouping_of rkeys rus rikey.
Hypothesis OL : forall b, In b lus -> In (Some b) lkeys.
Hypothesis OR : forall b, In b rus -> In (Some b) rkeys.
Let lg := mkKG lus likey.
Let rg := mkKG rus rikey.

Definition rrows (o : option B) : list nat := matching eqb o rkeys (all_rows rkeys).
Lemma matching_nil o keys : (forall j, j < length keys -> joins eqb o (nth j keys None) = false) -> matching eqb o keys (all_rows keys) = [].
Proof using. 
  intros H. unfold matching, all_rows. assert (G : forall l, (forall j, In j l -> j < length keys) -> filter (fun j => joins eqb o (nth j keys None)) l = []).
  { induction l as [|x l IH]; cbn; intros Hl; [reflexivity|]. rewrite H by (apply Hl; now left). apply IH. intros. apply Hl. now right. }
  apply G. intros j Hj. apply in_seq in Hj. lia.
Qed.
Lemma rrows_null : rrows None = [].
Proof using. apply matching_nil. reflexivity. Qed.
Lemma rrows_idx b k' : index_of eqb b rus = Some k' -> group_rows rikey (S k') = rrows (Some b).
Proof using eqb_eq GR.
  intros H. apply index_of_some in H; [|exact eqb_eq]. unfold group_rows, rrows, matching, all_rows. rewrite (g_length _ _ _ GR).
  apply filter_ext_in. intros i Hi. apply in_seq in Hi. 
  assert (Li : i < length rikey) by (rewrite (g_length _ _ _ GR); lia).
  assert (E1 := nth_error_nth' rikey 0 Li). assert (E2 := nth_error_nth' rkeys None (ltac:(lia) : i < length rkeys)).
  assert (Q := grouping_key GR i b k' H). rewrite E1, E2 in Q.
  apply eq_iff_eq_true. rewrite Nat.eqb_eq. destruct (nth i rkeys None) as [b'|] eqn:Eb; cbn.
  - rewrite eqb_eq. split; intros X.
    + rewrite X in Q. destruct Q as [Q _]. specialize (Q eq_refl). congruence.
    + subst b'. destruct Q as [_ Q]. specialize (Q eq_refl). congruence.
  - split; [|discriminate]. intros X. rewrite X in Q. destruct Q as [Q _]. specialize (Q eq_refl). discriminate.
Qed.
Lemma rrows_none b : index_of eqb b rus = None -> rrows (Some b) = [].
Proof using eqb_eq GR.
  intros H. apply index_of_none in H; [|exact eqb_eq]. apply matching_nil. intros j Hj.
  destruct (nth j rkeys None) as [b'|] eqn:E; cbn; [|reflexivity].
  destruct (eqb b b') eqn:Eq; [|reflexivity]. apply eqb_eq in Eq. subst b'. elim H.
  assert (E2 := nth_error_nth' rkeys None Hj). rewrite E in E2. destruct (g_key _ _ _ GR j b E2) as (k & _ & Hk).
  now apply nth_error_In in Hk.
Qed.
Lemma rrows_ne b : rrows (Some b) <> [] <-> In b rus.
Proof using eqb_eq GR OR.
  split; intros H.
  - destruct (index_of eqb b rus) as [k'|] eqn:E; [|elim H; now apply rrows_none].
    apply index_of_some in E; [|exact eqb_eq]. now apply nth_error_In in E.
  - specialize (OR b H). apply In_nth_error in OR. destruct OR as (j & Hj). intros E.
    assert (X : In j (rrows (Some b))).
    { apply filter_In. split.
      - apply in_seq. assert (j < length rkeys) by (apply nth_error_Some; congruence). lia.
      - rewrite (nth_error_nth _ _ None Hj). cbn. now apply eqb_eq. }
    rewrite E in X. contradiction.
Qed.

Lemma kl_in k b : nth_error lus k = Some b -> exists i, nth_error lkeys i = Some (Some b).
Proof using OL. intros H. apply In_nth_error. apply OL. now apply nth_error_In in H. Qed.
Lemma kr_in k b : nth_error rus k = Some b -> exists i, nth_error rkeys i = Some (Some b).
Proof using OR. intros H. apply In_nth_error. apply OR. now apply nth_error_In in H. Qed.

Definition kid (o : option B) : option nat := match o with Some b => option_map S (index_of eqb b rus) | None => None end.

(** the lookup between unique keys, both ways *)
Section Both.
Hypothesis Ll : 0 < length likey.
Hypothesis Lr : 0 < length rikey.
Lemma r2l_eq : right_to_left eqb lg rg = map (fun b => index_of eqb b lus) rus.
Proof using Ll Lr. unfold right_to_left. cbn [kg_ikey lg rg kg_us]. destruct (length likey); [lia|]. destruct (length rikey); [lia|]. reflexivity. Qed.
Lemma r2l_hit k b k' : nth_error lus k = Some b ->
  (nth_error (map (fun b => index_of eqb b lus) rus) k' = Some (Some k) <-> nth_error rus k' = Some b).
Proof using eqb_eq GL.
  intros H. rewrite nth_error_map. destruct (nth_error rus k') as [c|]; cbn; [|now split].
  split; intros X.
  - injection X as X. apply index_of_some in X; [|exact eqb_eq]. congruence.
  - injection X as ->. f_equal. apply index_of_nth; [exact eqb_eq|exact (g_distinct _ _ _ GL)|exact H].
Qed.
Lemma r2l_range j : In (Some j) (map (fun b => index_of eqb b lus) rus) -> j < length lus.
Proof using eqb_eq.
  intros H. apply in_map_iff in H. destruct H as (b & Hb & _). apply index_of_some in Hb; [|exact eqb_eq].
  apply nth_error_Some. congruence.
Qed.
Lemma scatter_r2l {X} (vals : list X) (arr : list X) k b d :
  nth_error lus k = Some b -> length vals = length rus -> length lus <= length arr ->
  let r2l := map (fun b => index_of eqb b lus) rus in
  nth k (scatter (somes r2l) (compress (map is_some r2l) vals) arr) d =
  match index_of eqb b rus with Some k' => nth k' vals d | None => nth k arr d end.
Proof using eqb_eq GL GR.
  clear Ll Lr. intros H Lv La r2l. destruct (index_of eqb b rus) as [k'|] eqn:E.
  - apply index_of_some in E; [|exact eqb_eq]. apply (scatter_hit r2l vals arr k k').
    + now apply (r2l_hit k b k' H).
    + intros k'' H''. apply (r2l_hit k b k'' H) in H''. apply (proj1 (NoDup_nth_error rus) (g_distinct _ _ _ GR)); [|congruence].
      apply nth_error_Some. congruence.
    + intros j Hj. apply r2l_range in Hj. lia.
    + unfold r2l. now rewrite map_length.
  - apply index_of_none in E; [|exact eqb_eq]. apply scatter_miss.
    + intros k' Hx. apply (r2l_hit k b k' H) in Hx. elim E. now apply nth_error_In in Hx.
    + intros j Hj. apply r2l_range in Hj. lia.
Qed.
Lemma l2r_nth k b : nth_error lus k = Some b -> nth k (left_to_right eqb lg rg) None = index_of eqb b rus.
Proof using eqb_eq GL GR Ll Lr.
  intros H. unfold left_to_right. rewrite r2l_eq. set (r2l := map _ rus). unfold bool_to_fancy. rewrite <- compress_map.
  rewrite (scatter_r2l (map Some (seq 0 (length (map is_some r2l)))) _ k b None H).
  - destruct (index_of eqb b rus) as [k'|] eqn:E.
    + rewrite nth_map_seq; [reflexivity|]. rewrite map_length. unfold r2l. rewrite map_length.
      apply index_of_some in E; [|exact eqb_eq]. apply nth_error_Some. congruence.
    + apply nth_repeat.
  - rewrite map_length, seq_length, map_length. unfold r2l. now rewrite map_length.
  - rewrite repeat_length. unfold unique_count. cbn. lia.
Qed.
Lemma l2r_length : length (left_to_right eqb lg rg) = S (length lus).
Proof using. unfold left_to_right. now rewrite scatter_length, repeat_length. Qed.

Lemma ikey_of i : i < length lkeys ->
  match nth i lkeys None with None => nth i likey 0 = 0 | Some b => exists k, nth i likey 0 = S k /\ nth_error lus k = Some b end.
Proof using GL.
  intros H. assert (E := nth_error_nth' lkeys None H). destruct (nth i lkeys None) as [b|].
  - destruct (g_key _ _ _ GL i b E) as (k & H1 & H2). exists k. split; [|exact H2]. now apply nth_error_nth.
  - apply nth_error_nth. now apply (g_null _ _ _ GL).
Qed.
Lemma fetch_eq rows : (forall i, In i rows -> i < length lkeys) ->
  fetch_keymap sched junk (left_to_right eqb lg rg) (map (fun i => nth i likey 0) rows) = map (fun i => kid (nth i lkeys None)) rows.
Proof using eqb_eq GL GR Ll Lr HS.
  intros R. unfold fetch_keymap. rewrite par_seq by exact HS. rewrite map_length, l2r_length.
  transitivity (map (fun i => kid (nth (nth i rows 0) lkeys None)) (seq 0 (length rows)));
    [|rewrite <- (map_map (fun i => nth i rows 0) (fun i => kid (nth i lkeys None))); now rewrite map_nth_seq].
  apply map_seq_ext. intros i Hi.
  rewrite (nth_map_d _ rows i 0 0) by exact Hi. assert (Hr : nth i rows 0 < length lkeys) by (apply R, nth_In; exact Hi).
  assert (Q := ikey_of _ Hr). destruct (nth (nth i rows 0) lkeys None) as [b|]; cbn [kid].
  - destruct Q as (k & -> & Hk). cbn [Nat.eqb orb]. assert (k < length lus) by (apply nth_error_Some; congruence).
    destruct (Nat.ltb_spec (S (length lus)) (S k)); [lia|]. replace (S k - 1) with k by lia. rewrite (l2r_nth k b Hk).
    destruct (index_of eqb b rus) as [k'|]; cbn; [f_equal; lia|reflexivity].
  - rewrite Q. reflexivity.
Qed.
End Both.

(** *** result blocks *)
Definition cand (kr : keep) (o : option B) : list nat :=
  match kr with None => rrows o | Some k => match rrows o with [] => [] | rs => [pick k rs] end end.
Definition blk (inner : bool) (kr : keep) (o : option B) : list (option nat) :=
  match cand kr o with [] => if inner then [] else [None] | rs => map Some rs end.
Definition lrows (kl : keep) : list nat := match kl with None => seq 0 (length lkeys) | Some k => ifirstlast_null lg k end.

Lemma cand_nil kr o : cand kr o = [] <-> rrows o = [].
Proof using. unfold cand. destruct kr; [|reflexivity]. destruct (rrows o); split; intros; congruence. Qed.
Lemma kid_some b k' : index_of eqb b rus = Some k' -> kid (Some b) = Some (S k').
Proof using. intros H. cbn. now rewrite H. Qed.
Lemma pick_in k rs : rs <> [] -> In (pick k rs) rs.
Proof using.
  intros H. destruct k; cbn.
  - destruct rs; [congruence|now left].
  - destruct rs as [|x rs] using rev_ind; [congruence|]. rewrite last_last. apply in_or_app. right. now left.
Qed.
Lemma group_rows_ne k b : nth_error lus k = Some b -> group_rows likey (S k) <> [].
Proof using GL OL.
  intros H E. destruct (kl_in k b H) as (i & Hi). apply (grouping_key GL i b k H) in Hi.
  apply group_rows_in in Hi. rewrite E in Hi. contradiction.
Qed.
Lemma pick_key k1 k b : nth_error lus k = Some b ->
  let r := pick k1 (group_rows likey (S k)) in r < length lkeys /\ nth r lkeys None = Some b.
Proof using GL OL.
  intros H r. assert (Hr : In r (group_rows likey (S k))) by (apply pick_in; now apply group_rows_ne with b).
  apply group_rows_in in Hr. apply (grouping_key GL r b k H) in Hr. split; [apply nth_error_Some; congruence|now apply nth_error_nth].
Qed.
Lemma ncount0 : nth 0 (kg_ncount lg) 0 = length (group_rows likey 0).
Proof using. unfold kg_ncount, ncountgroup. now rewrite nth_map_seq0 by lia. Qed.
Lemma null_pick k1 : group_rows likey 0 <> [] ->
  ifirstlast_null lg k1 = pick k1 (group_rows likey 0) :: ifirstlast lg k1.
Proof using.
  intros H. unfold ifirstlast_null. rewrite ncount0. destruct (group_rows likey 0) as [|x r] eqn:E; [congruence|].
  cbn [length Nat.ltb Nat.leb]. f_equal.
  assert (P := pack_slice likey (unique_count lg) 0 ltac:(lia)). unfold ifirstgroup in P. rewrite nth_map_seq0 in P by lia. cbn [seq map concat length] in P.
  assert (N := ncount0). unfold kg_ncount in N. rewrite E in N. cbn [kg_ikey lg] in *. rewrite N in P. rewrite E in P. unfold slice in P. cbn [skipn] in P.
  unfold kg_igroup. cbn [kg_ikey lg]. fold lg. set (ig := igroup likey (unique_count lg)) in *.
  assert (Q : forall j, j < length (x :: r) -> nth j ig 0 = nth j (x :: r) 0).
  { intros j Hj. rewrite <- P at 1. rewrite <- (firstn_skipn (length (x :: r)) ig) at 1. rewrite app_nth1; [reflexivity|]. rewrite P. exact Hj. }
  destruct k1.
  - rewrite Q by (cbn; lia). reflexivity.
  - rewrite Q by (cbn; lia). cbn [pick]. replace (S (length r) - 1) with (length r) by lia. clear.
    revert x. induction r as [|y r IH]; intros x; [reflexivity|]. cbn [length]. exact (IH y).
Qed.
Lemma no_null k1 : group_rows likey 0 = [] -> ifirstlast_null lg k1 = ifirstlast lg k1.
Proof using. intros H. unfold ifirstlast_null. rewrite ncount0, H. reflexivity. Qed.
Lemma ifl_range k1 i : In i (ifirstlast lg k1) -> i < length lkeys.
Proof using GL OL.
  intros H. apply in_map_iff in H. destruct H as (k & <- & Hk). apply in_seq in Hk. cbn in Hk.
  destruct (nth_error lus k) as [b|] eqn:E; [now apply (pick_key k1 k b E)|]. apply nth_error_None in E. lia.
Qed.
Lemma lrows_range kl i : In i (lrows kl) -> i < length lkeys.
Proof using GL OL.
  unfold lrows. destruct kl as [k1|]; [|intros H; apply in_seq in H; lia].
  destruct (group_rows likey 0) as [|x r] eqn:E.
  - rewrite no_null by exact E. apply ifl_range.
  - rewrite null_pick by congruence. intros [<-|H]; [|now apply ifl_range in H].
    assert (Hr : In (pick k1 (group_rows likey 0)) (group_rows likey 0)) by (apply pick_in; congruence).
    apply group_rows_in in Hr. rewrite <- (g_length _ _ _ GL). apply nth_error_Some. congruence.
Qed.
Lemma null_key k1 : group_rows likey 0 <> [] -> nth (pick k1 (group_rows likey 0)) lkeys None = None.
Proof using GL.
  intros H. assert (Hr := pick_in k1 _ H). apply group_rows_in in Hr. apply (grouping_null GL) in Hr. now apply nth_error_nth.
Qed.

Lemma left_empty : likey = [] -> lkeys = [] /\ lus = [].
Proof using GL OL.
  intros H. assert (L := g_length _ _ _ GL). rewrite H in L. cbn in L. destruct lkeys; [|discriminate]. split; [reflexivity|].
  destruct lus as [|b l]; [reflexivity|]. destruct (OL b (or_introl eq_refl)).
Qed.
Lemma lrows_empty kl : likey = [] -> lrows kl = [].
Proof using GL OL.
  intros H. destruct (left_empty H) as [E1 E2]. unfold lrows. destruct kl as [k1|]; [|now rewrite E1].
  rewrite no_null by (unfold group_rows; now rewrite H). unfold ifirstlast, unique_count. cbn. now rewrite E2.
Qed.
Lemma right_empty_rows o : rikey = [] -> rrows o = [].
Proof using GR.
  intros H. assert (L := g_length _ _ _ GR). rewrite H in L. symmetry in L. apply length_zero_iff_nil in L.
  unfold rrows, all_rows. rewrite L. reflexivity.
Qed.
Lemma map_seq_rows (l : list nat) : map (fun i => nth i l 0) (seq 0 (length l)) = l.
Proof using. apply map_nth_seq. Qed.

Lemma left_ikey_eq kl :
  match kl with None => kg_ikey lg | Some k => map (fun r => nth r (kg_ikey lg) 0) (ifirstlast_null lg k) end
  = map (fun i => nth i likey 0) (lrows kl).
Proof using GL.
  destruct kl as [k1|]; cbn [lrows kg_ikey lg]; [reflexivity|]. rewrite <- (g_length _ _ _ GL). now rewrite map_nth_seq.
Qed.

Theorem build_right_eq inner kl kr :
  build_right sched junk (left_to_right eqb lg rg) lg rg inner kl kr = concat (map (fun i => blk inner kr (nth i lkeys None)) (lrows kl)).
Proof using eqb_eq GL GR OL OR HS.
  unfold build_right. rewrite left_ikey_eq.
  destruct (map (fun i => nth i likey 0) (lrows kl)) as [|z zs] eqn:E0.
  { destruct (lrows kl); [reflexivity|discriminate]. }
  rewrite <- E0. clear z zs E0 || idtac.
  cbn [kg_ikey rg]. destruct (length rikey =? 0) eqn:Er.
  { apply Nat.eqb_eq in Er. assert (Hr : rikey = []) by (destruct rikey; [reflexivity|discriminate]).
    assert (Hb : forall o, blk inner kr o = if inner then [] else [None]).
    { intros o. unfold blk. assert (C : cand kr o = []) by (apply cand_nil, right_empty_rows, Hr). now rewrite C. }
    rewrite (map_ext _ (fun _ => if inner then [] else [None])) by (intros; apply Hb).
    rewrite map_length. destruct inner.
    - induction (lrows kl); cbn; auto.
    - induction (lrows kl); cbn; [reflexivity|]. now f_equal. }
  apply Nat.eqb_neq in Er. destruct (Nat.eq_dec (length likey) 0) as [El|El].
  { assert (Hl : likey = []) by (destruct likey; [reflexivity|discriminate]). rewrite (lrows_empty kl Hl) in *. cbn in *.
    destruct kr; [destruct inner|]; reflexivity. }
  rewrite fetch_eq; [|lia|lia|apply lrows_range].
  destruct kr as [k|].
  - assert (P : forall b k', index_of eqb b rus = Some k' -> nth (S k' - 1) (ifirstlast rg k) 0 = pick k (rrows (Some b))).
    { intros b k' H. replace (S k' - 1) with k' by lia. unfold ifirstlast. rewrite nth_map_seq0.
      - cbn [kg_ikey rg]. now rewrite (rrows_idx b k' H).
      - apply index_of_some in H; [|exact eqb_eq]. apply nth_error_Some. unfold rg. cbn. congruence. }
    assert (Hb : forall o, blk inner (Some k) o = match kid o with None => if inner then [] else [None] | Some q => [Some (nth (q - 1) (ifirstlast rg k) 0)] end).
    { intros [b|]; unfold blk, cand.
      - cbn [kid]. destruct (index_of eqb b rus) as [k'|] eqn:E; cbn [option_map].
        + rewrite (P b k' E). assert (Hne : rrows (Some b) <> []).
          { apply rrows_ne. apply index_of_some in E; [|exact eqb_eq]. now apply nth_error_In in E. }
          destruct (rrows (Some b)) eqn:Eq; [congruence|]. reflexivity.
        + rewrite rrows_none by exact E. reflexivity.
      - rewrite rrows_null. reflexivity. }
    destruct inner.
    + induction (lrows kl) as [|i l IH]; [reflexivity|]. cbn [map concat]. rewrite Hb. destruct (kid (nth i lkeys None)); cbn; [f_equal|]; exact IH.
    + induction (lrows kl) as [|i l IH]; [reflexivity|]. cbn [map concat]. rewrite Hb. destruct (kid (nth i lkeys None)); cbn; f_equal; exact IH.
  - set (f := fun o : option nat => match o with None => if inner then [] else [@None nat]
       | Some q => if (q =? 0) || (length rus <? q) then [] else map Some (group_rows rikey q) end).
    assert (Hcnt : forall o : option B, (match kid o with Some q => nth q (kg_ncount rg) 0 | None => if inner then 0 else 1 end) = length (f (kid o))
        /\ f (kid o) = blk inner None o).
    { intros [b|]; cbn [kid].
      - destruct (index_of eqb b rus) as [k'|] eqn:E; cbn [option_map].
        + assert (Lk : k' < length rus) by (apply index_of_some in E; [|exact eqb_eq]; apply nth_error_Some; congruence).
          unfold f, kg_ncount, ncountgroup. rewrite nth_map_seq0 by (unfold unique_count; cbn; lia).
          cbn [Nat.eqb orb]. destruct (Nat.ltb_spec (length rus) (S k')); [lia|]. rewrite map_length. split; [reflexivity|].
          unfold blk, cand. rewrite (rrows_idx b k' E). assert (Hne : rrows (Some b) <> []).
          { apply rrows_ne. apply index_of_some in E; [|exact eqb_eq]. now apply nth_error_In in E. }
          destruct (rrows (Some b)); [congruence|reflexivity].
        + unfold blk, cand. rewrite rrows_none by exact E. cbn. destruct inner; split; reflexivity.
      - unfold blk, cand. rewrite rrows_null. cbn. destruct inner; split; reflexivity. }
    rewrite map_map.
    rewrite (map_ext (fun x => match kid (nth x lkeys None) with Some q => nth q (kg_ncount rg) 0 | None => if inner then 0 else 1 end)
              (fun x => length (f (kid (nth x lkeys None))))) by (intros; apply Hcnt).
    rewrite <- (map_map (fun i => kid (nth i lkeys None)) (fun o => length (f o))).
    rewrite (right_impl_eq junk (kg_ifirst rg) (kg_igroup rg) f).
    + rewrite map_map. f_equal. apply map_ext. intros i. apply Hcnt.
    + intros [q|] H; cbn [f].
      * left. unfold f. destruct H as [->|H]; [reflexivity|]. unfold kg_ifirst, ifirstgroup in H. rewrite map_length, seq_length in H.
        unfold unique_count in H. cbn in H. destruct (Nat.ltb_spec (length rus) q); [|lia]. now rewrite orb_true_r.
      * unfold f. destruct inner; [now left|now right].
    + intros q Hq Lq. unfold kg_ifirst in Lq. unfold ifirstgroup in Lq. rewrite map_length, seq_length in Lq. unfold unique_count in Lq. cbn in Lq.
      unfold f. destruct q as [|q]; [congruence|]. cbn [Nat.eqb orb]. destruct (Nat.ltb_spec (length rus) (S q)); [lia|].
      rewrite map_length. assert (P := pack_slice rikey (length rus) (S q) ltac:(lia)).
      unfold kg_ifirst, kg_igroup, unique_count. cbn [kg_ikey kg_us rg].
      apply (nth_ext _ _ None None); [now rewrite !map_length, seq_length|]. intros j Hj. rewrite map_length in Hj.
      rewrite nth_map_seq by exact Hj. rewrite (nth_map_d Some _ j 0 None) by exact Hj. f_equal.
      rewrite <- P. unfold slice. set (lo := nth (S q) (ifirstgroup rikey (length rus)) 0). set (ln := nth (S q) (ncountgroup rikey (length rus)) 0).
      assert (Hln : j < length (firstn ln (skipn lo (igroup rikey (length rus))))).
      { unfold slice in P. fold lo ln in P. rewrite P. exact Hj. }
      rewrite firstn_length in Hln.
      assert (E1 : nth j (firstn ln (skipn lo (igroup rikey (length rus)))) 0 = nth j (skipn lo (igroup rikey (length rus))) 0).
      { rewrite <- (firstn_skipn ln (skipn lo (igroup rikey (length rus)))) at 2. rewrite app_nth1; [reflexivity|]. rewrite firstn_length. lia. }
      rewrite E1. rewrite <- (firstn_skipn lo (igroup rikey (length rus))) at 2. rewrite app_nth2; rewrite firstn_length; [|lia].
      rewrite skipn_length in Hln. f_equal. lia.
Qed.
End Core.
