(** The sort cache never changes an answer. *)
From Coq Require Import List Arith Bool ZArith Lia.
From Verif Require Import FlattenModel FlattenProofs MergeModel DsModel DsProofs DsProofs3 DsProofs4 SortModel SortSpec.
Import ListNotations.

Lemma any_differ_eq {X} (eqb : X -> X -> bool) (E : forall a b, eqb a b = true -> a = b) a : forall b, length a = length b -> any_differ eqb a b = false -> a = b.
Proof.
  unfold any_differ. induction a as [|x a IH]; intros [|y b] L H; cbn in *; try discriminate; [reflexivity|].
  apply orb_false_iff in H. destruct H as (H1 & H2). apply negb_false_iff, E in H1. subst. f_equal. apply IH; [lia|exact H2].
Qed.
Lemma cget_invalidate uid uid' c : cget uid (invalidate uid' c) = if uid' =? uid then None else cget uid c.
Proof.
  unfold invalidate. induction c as [|[u e] c IH]; cbn [filter fst cget]; [now destruct (uid' =? uid)|].
  destruct (u =? uid') eqn:E1; cbn [negb cget].
  - rewrite IH. apply Nat.eqb_eq in E1. subst u. now destruct (uid' =? uid).
  - rewrite IH. destruct (u =? uid) eqn:E2; [|reflexivity]. apply Nat.eqb_eq in E2. subst u. now rewrite (Nat.eqb_sym uid' uid), E1.
Qed.
Lemma cget_cput uid uid' e c : cget uid (cput uid' e c) = if uid' =? uid then Some e else cget uid c.
Proof. unfold cput. cbn [cget]. rewrite cget_invalidate. now destruct (uid' =? uid). Qed.

Section Cache.
Variable crc : list Z -> nat.
Variable lexsort : list col -> asc -> list nat.
Notation step := (step crc lexsort).
Notation run := (run crc lexsort).
Definition forget (w : world) : world := mkW (w_heap w) (w_ds w) [].

(** [H d c]: c is (or was) a column of dataset d *)
Definition entry_ok (H : nat -> col -> Prop) (d : nat) (e : entry) : Prop :=
  exists cols, (forall c, In c cols -> H d c) /\ e_crcs e = map (fun v => crc (c_bits v)) cols /\ e_idx e = lexsort (rev cols) (e_asc e).
Definition cache_ok (H : nat -> col -> Prop) (c : cache_t) : Prop := forall d e, cget d c = Some e -> entry_ok H d e.
Notation faithful := (faithful crc).

Lemma crcs_inj (H : nat -> col -> Prop) (F : faithful H) d a : forall b, (forall c, In c a -> H d c) -> (forall c, In c b -> H d c) ->
  map (fun v => crc (c_bits v)) a = map (fun v => crc (c_bits v)) b -> a = b.
Proof.
  induction a as [|x a IH]; intros [|y b] Ha Hb E; cbn in *; try discriminate; [reflexivity|]. injection E as E1 E2.
  f_equal; [apply (F d); auto|apply IH; auto].
Qed.
Lemma same_list_eq a b : same_list a b = true -> a = b.
Proof.
  unfold same_list. intros H. apply negb_true_iff, orb_false_iff in H. destruct H as (L & D). apply negb_false_iff, Nat.eqb_eq in L.
  exact (any_differ_eq Bool.eqb Bool.eqb_prop a b L D).
Qed.
(** a hit is what lexsort would give *)
Lemma cached_ok (H : nat -> col -> Prop) (F : faithful H) c d nrows cols a i : cache_ok H c -> (forall x, In x cols -> H d x) ->
  cached c d nrows (map (fun v => crc (c_bits v)) cols) a = Some i -> i = lexsort (rev cols) a.
Proof.
  intros OK HC. unfold cached. destruct (cget d c) as [e|] eqn:G; [|discriminate]. destruct (OK d e G) as (cols' & HC' & Q1 & Q2).
  destruct (negb (same_type _ _) || _ || _ || _) eqn:B; [discriminate|]. apply orb_false_iff in B. destruct B as (B & B4). apply orb_false_iff in B. destruct B as (B & B3).
  apply orb_false_iff in B. destruct B as (B1 & B2). apply negb_false_iff, Nat.eqb_eq in B2.
  assert (E : cols' = cols).
  { apply (crcs_inj H F d); auto. rewrite <- Q1. apply (any_differ_eq Nat.eqb); auto. intros x y. apply Nat.eqb_eq. }
  subst cols'. destruct (e_asc e) as [x|x|x], a as [y|y|y]; try discriminate.
  - destruct (Bool.eqb x y) eqn:E; [|discriminate]. intros [= <-]. apply Bool.eqb_prop in E. now subst.
  - destruct (same_list x y) eqn:E; [|discriminate]. intros [= <-]. apply same_list_eq in E. now subst.
  - destruct (same_list x y) eqn:E; [|discriminate]. intros [= <-]. apply same_list_eq in E. now subst.
Qed.
Lemma get_ok (H : nat -> col -> Prop) (F : faithful H) c d nrows sd a : cache_ok H c ->
  (forall l, sd = Some l -> forall x, In x (map snd l) -> H d x) ->
  let '(c', i) := get_sorted_row_index crc lexsort c d nrows sd a in
  cache_ok H c' /\ i = snd (get_sorted_row_index crc lexsort [] d nrows sd a).
Proof.
  intros OK HC. unfold get_sorted_row_index. destruct sd as [[|x r]|]; [now split| |now split].
  assert (HC' : forall y, In y (map snd (x :: r)) -> H d y) by (exact (HC _ eq_refl)).
  destruct (cached c d nrows _ a) as [i|] eqn:E.
  - split; [exact OK|]. unfold cached at 1. cbn [cget snd]. f_equal. exact (cached_ok H F c d nrows _ a i OK HC' E).
  - split; [|reflexivity]. intros d' e. rewrite cget_cput. destruct (d =? d') eqn:D; [|apply OK]. intros [= <-]. apply Nat.eqb_eq in D. subst d'.
    exists (map snd (x :: r)). auto.
Qed.
Lemma info_cols h x x' sd : row_sort_info h x = (x', sd) -> s_items x' = s_items x /\ s_nrows x' = s_nrows x /\
  forall l, sd = Some l -> forall c, In c (map snd l) -> exists n, dget n (s_items x) = Some c.
Proof.
  unfold row_sort_info. destruct (s_list x) as [loc|]; [|intros [= <- <-]; repeat split; discriminate].
  destruct (forallb _ _) eqn:FA; intros [= <- <-]; cbn; [|repeat split; discriminate]. split; [reflexivity|]. split; [reflexivity|]. intros l [= <-] c I.
  apply in_map_iff in I. destruct I as ([n c'] & <- & I). cbn. exists n.
  rewrite forallb_forall in FA.
  assert (N : In n (map fst (dset_all (map (fun n => (n, match dget n (s_items x) with Some c => c | None => mkCol 0 [] end)) (nth loc h [])) []))) by (change n with (fst (n, c')); now apply in_map).
  rewrite dset_all_names in N. cbn in N. rewrite fresh_nil in N. rewrite first_seen_in in N. rewrite map_map in N. cbn in N. rewrite map_id in N.
  pose proof (dget_dset_all_fun n (fun n => match dget n (s_items x) with Some c => c | None => mkCol 0 [] end) (nth loc h []) [] N) as G.
  rewrite (dget_in n c') in G; [injection G as ->| |exact I].
  - specialize (FA n N). apply mem_in in FA. apply dget_has in FA. destruct FA as (v & ->). reflexivity.
  - rewrite dset_all_names. cbn. rewrite fresh_nil. apply first_seen_nodup.
Qed.

Definition holds (w : world) (H : nat -> col -> Prop) : Prop :=
  forall d x n c, nth_error (w_ds w) d = Some x -> dget n (s_items x) = Some c -> H d c.
(** a Load whose index really sorts the stored columns, ascending *)
Notation honest := (honest lexsort).

Lemma sorted_index_ok H (F : faithful H) w d x : cache_ok H (w_cache w) -> holds w H -> nth_error (w_ds w) d = Some x ->
  let '(w', i) := sorted_index crc lexsort w d x in
  let '(w2, i2) := sorted_index crc lexsort (forget w) d x in
  cache_ok H (w_cache w') /\ i = i2 /\ w_heap w' = w_heap w2 /\ w_ds w' = w_ds w2.
Proof.
  intros OK HO NX. unfold sorted_index. cbn [w_heap w_ds w_cache forget]. destruct (row_sort_info (w_heap w) x) as [x' sd] eqn:E.
  destruct (info_cols _ _ _ _ E) as (_ & _ & IC).
  pose proof (get_ok H F (w_cache w) d (s_nrows x') sd (s_asc x') OK) as G.
  specialize (G (fun l Hl c Hc => match IC l Hl c Hc with ex_intro _ n Hn => HO d x n c NX Hn end)).
  destruct (get_sorted_row_index crc lexsort (w_cache w) d (s_nrows x') sd (s_asc x')) as [c' i]. destruct G as (G1 & G2).
  destruct (get_sorted_row_index crc lexsort [] d (s_nrows x') sd (s_asc x')) as [c2 i2]. cbn in *. auto.
Qed.
Lemma display_ok H (F : faithful H) w d x : cache_ok H (w_cache w) -> holds w H -> nth_error (w_ds w) d = Some x ->
  let '(w', i) := display_index crc lexsort w d x in
  let '(w2, i2) := display_index crc lexsort (forget w) d x in
  cache_ok H (w_cache w') /\ i = i2 /\ w_heap w' = w_heap w2 /\ w_ds w' = w_ds w2.
Proof.
  intros OK HO NX. unfold display_index. destruct (s_disp x); [exact (sorted_index_ok H F w d x OK HO NX)|]. cbn. auto.
Qed.

(** one step: same answer and same datasets as without the cache, and the cache stays right *)
Lemma step_ok H (F : faithful H) w o : cache_ok H (w_cache w) -> holds w H -> (forall a b c e, o = Load a b c e -> holds (fst (step w o)) H) -> honest o ->
  cache_ok H (w_cache (fst (step w o))) /\ snd (step w o) = snd (step (forget w) o) /\
  w_heap (fst (step w o)) = w_heap (fst (step (forget w) o)) /\ w_ds (fst (step w o)) = w_ds (fst (step (forget w) o)).
Proof.
  intros OK HO HO' HN.
  assert (ODS : forall d (k k2 : dsr -> world * out),
     (forall x, nth_error (w_ds w) d = Some x -> cache_ok H (w_cache (fst (k x))) /\ snd (k x) = snd (k2 x) /\ w_heap (fst (k x)) = w_heap (fst (k2 x)) /\ w_ds (fst (k x)) = w_ds (fst (k2 x))) ->
     cache_ok H (w_cache (fst (on_ds w d k))) /\ snd (on_ds w d k) = snd (on_ds (forget w) d k2) /\ w_heap (fst (on_ds w d k)) = w_heap (fst (on_ds (forget w) d k2)) /\ w_ds (fst (on_ds w d k)) = w_ds (fst (on_ds (forget w) d k2))).
  { intros d k k2 K. unfold on_ds. cbn [forget w_ds]. destruct (nth_error (w_ds w) d) as [x|] eqn:E; [now apply K|]. cbn. auto. }
  destruct o; unfold step; cbn [forget w_heap w_ds w_cache fst snd] in *.
  - cbn. auto.
  - cbn. auto.
  - cbn. auto.
  - apply ODS. intros x _. destruct (parse_sort _ _ _ _) as [[bl a]|]; [|cbn; auto]. destruct by_; cbn; auto.
  - apply ODS. intros x _. cbn. auto.
  - apply ODS. intros x _. destruct (parse_sort _ _ _ _) as [[bl a]|]; cbn; auto.
  - apply ODS. intros x _. destruct (parse_sort _ _ _ _) as [[bl a]|]; cbn; auto.
  - apply ODS. intros x _. destruct (name_dec old new); [cbn; auto|]. destruct (_ && _); cbn; auto.
  - apply ODS. intros x _. destruct (s_list x); cbn; auto.
  - apply ODS. intros x _. destruct (negb _); [cbn; auto|]. destruct (s_list x); cbn; auto.
  - apply ODS. intros x _. destruct (mem _ _); cbn; auto.
  - apply ODS. intros x _. destruct (_ =? _); cbn; auto.
  - apply ODS. intros x _. destruct (dget _ _); [|cbn; auto]. destruct (_ =? _); cbn; auto.
  - apply ODS. intros x _. destruct (copy_attributes _ _ _) as [[h ds]|]; cbn; auto.
  - split; [|cbn; auto]. cbn [w_cache fst]. intros d e. unfold store_sort. rewrite cget_cput. destruct (length (w_ds w) =? d) eqn:D; [|apply OK].
    intros [= <-]. apply Nat.eqb_eq in D. subst d. destruct HN as (HK & ->).
    exists (map (fun n => match dget n items with Some c => c | None => mkCol 0 [] end) keys). split; [|split; reflexivity].
    intros c I. apply in_map_iff in I. destruct I as (n & <- & I). destruct (dget_has n items (HK n I)) as (v & V). rewrite V.
    eapply (HO' _ _ _ _ eq_refl (length (w_ds w)) _ n v); [unfold SortModel.step; cbn [fst w_ds]; rewrite nth_error_app2 by lia; rewrite Nat.sub_diag; reflexivity|exact V].
  - apply ODS. intros x NX. pose proof (display_ok H F w d x OK HO NX) as D. destruct (display_index crc lexsort w d x) as [w' i]. destruct (display_index crc lexsort (forget w) d x) as [w2 i2]. cbn. destruct D as (D1 & -> & D2 & D3). auto.
  - apply ODS. intros x NX. pose proof (display_ok H F w d x OK HO NX) as D. destruct (display_index crc lexsort w d x) as [w' i]. destruct (display_index crc lexsort (forget w) d x) as [w2 i2]. cbn. destruct D as (D1 & -> & D2 & D3). rewrite D3.
    destruct (nth_error (w_ds w2) d); cbn; rewrite ?D3; auto.
  - apply ODS. intros x NX. pose proof (sorted_index_ok H F w d x OK HO NX) as D. destruct (sorted_index crc lexsort w d x) as [w' i]. destruct (sorted_index crc lexsort (forget w) d x) as [w2 i2]. cbn. destruct D as (D1 & -> & D2 & D3). auto.
  - cbn. split; [|auto]. intros d' e. rewrite cget_invalidate. destruct (d =? d'); [discriminate|apply OK].
  - cbn. split; [|auto]. intros d' e. discriminate.
Qed.

(** every column that dataset d has during the history *)
Notation had := (had crc lexsort).
Lemma run_app a b w : run (a ++ b) w = run b (run a w).
Proof. unfold SortModel.run. now rewrite fold_left_app. Qed.
Lemma cache_invariant ops : faithful (had ops) -> (forall o, In o ops -> honest o) ->
  forall k, k <= length ops -> cache_ok (had ops) (w_cache (run (firstn k ops) init)).
Proof.
  intros F HN. assert (HO : forall k, holds (run (firstn k ops) init) (had ops)) by (intros k d x n c NX G; exists k, x, n; auto).
  induction k as [|k IH]; intros Hk; [intros d e; discriminate|].
  destruct (nth_error ops k) as [o|] eqn:E; [|apply nth_error_None in E; lia].
  assert (FS : firstn (S k) ops = firstn k ops ++ [o]).
  { clear - E. revert k E. induction ops as [|y l IH]; intros [|k] E; try discriminate; cbn in *; [now injection E as ->|]. f_equal. now apply IH. }
  rewrite FS, run_app. cbn [SortModel.run fold_left]. apply step_ok; auto; [apply IH; lia| |apply HN; now apply nth_error_In in E].
  intros _ _ _ _ _. pose proof (HO (S k)) as Q. rewrite FS, run_app in Q. exact Q.
Qed.
End Cache.
