(** from_rows, from_tagged_rows, from_jagged_rows *)
From Coq Require Import List Arith Bool Lia Permutation.
From Verif Require Import FlattenModel FlattenProofs MergeModel GroupingModel DsModel DsSpec.
Import ListNotations.

Lemma mem_in n l : mem n l = true <-> In n l.
Proof.
  unfold mem. rewrite existsb_exists. split.
  - intros (x & I & E). destruct (name_dec x n); [now subst|discriminate].
  - intros I. exists n. split; [exact I|]. now destruct (name_dec n n).
Qed.
Lemma mem_not n l : mem n l = false <-> ~ In n l.
Proof. rewrite <- mem_in. destruct (mem n l); split; congruence. Qed.
Lemma dget_dset {X} k k' (v : X) d : dget k (dset k' v d) = if name_dec k' k then Some v else dget k d.
Proof.
  induction d as [|[q w] d IH]; cbn [dset dget]; [reflexivity|]. destruct (name_dec q k') as [->|N]; cbn [dget].
  - destruct (name_dec k' k); reflexivity.
  - rewrite IH. destruct (name_dec q k) as [->|]; [|reflexivity]. destruct (name_dec k' k); [congruence|reflexivity].
Qed.
Lemma dget_none {X} k (d : list (name * X)) : dget k d = None <-> ~ In k (map fst d).
Proof.
  induction d as [|[q w] d IH]; cbn; [tauto|]. destruct (name_dec q k) as [->|N]; [split; [discriminate|tauto]|]. rewrite IH. tauto.
Qed.
Lemma dget_some_in {X} k (v : X) d : dget k d = Some v -> In (k, v) d.
Proof. induction d as [|[q w] d IH]; cbn; [discriminate|]. destruct (name_dec q k) as [->|]; [intros [= ->]; now left|auto]. Qed.
Lemma dget_has {X} k (d : list (name * X)) : In k (map fst d) -> exists v, dget k d = Some v.
Proof. intros H. destruct (dget k d) eqn:E; [eauto|]. apply dget_none in E. contradiction. Qed.
Lemma dset_names {X} k (v : X) d : map fst (dset k v d) = if mem k (map fst d) then map fst d else map fst d ++ [k].
Proof.
  induction d as [|[q w] d IH]; [reflexivity|]. cbn [dset]. destruct (name_dec q k) as [->|N].
  - cbn [map fst mem existsb]. now destruct (name_dec k k).
  - cbn [map fst]. rewrite IH. unfold mem. cbn [existsb]. destruct (name_dec q k); [congruence|]. cbn [orb]. now destruct (existsb _ _).
Qed.
Lemma dset_nodup {X} k (v : X) d : NoDup (map fst d) -> NoDup (map fst (dset k v d)).
Proof.
  intros H. rewrite dset_names. destruct (mem k (map fst d)) eqn:E; [exact H|]. apply mem_not in E.
  rewrite <- (rev_involutive (map fst d ++ [k])), rev_app_distr. apply NoDup_rev. cbn. constructor; [rewrite <- in_rev; exact E|]. now apply NoDup_rev.
Qed.

Section Rows.
Context {V : Type}.
Lemma append_row_nth (cols : list (list V)) : forall row j d, length row = length cols -> j < length cols ->
  nth j (append_row cols row) [] = nth j cols [] ++ [nth j row d].
Proof.
  induction cols as [|c cols IH]; intros [|e row] j d L H; cbn in *; try lia. destruct j; [reflexivity|]. apply IH; lia.
Qed.
Lemma append_row_length (cols : list (list V)) : forall row, length (append_row cols row) = length cols.
Proof. induction cols as [|c cols IH]; intros [|e row]; cbn; congruence. Qed.
Lemma from_rows_loop_ok rows : forall (cols : list (list V)) d, (forall r, In r rows -> length r = length cols) ->
  exists out, from_rows_loop rows cols = Some out /\ length out = length cols /\
    forall j, j < length cols -> nth j out [] = nth j cols [] ++ map (fun r => nth j r d) rows.
Proof.
  induction rows as [|row rows IH]; intros cols d H; cbn [from_rows_loop].
  - exists cols. split; [reflexivity|]. split; [reflexivity|]. intros j _. cbn. now rewrite app_nil_r.
  - rewrite (H row (or_introl eq_refl)), Nat.eqb_refl. destruct (IH (append_row cols row) d) as (out & E & L & N).
    { intros r Hr. rewrite append_row_length. apply H. now right. }
    exists out. rewrite append_row_length in *. split; [exact E|]. split; [exact L|]. intros j Hj. rewrite N by exact Hj.
    rewrite (append_row_nth cols row j d) by (auto; apply H; now left). cbn. now rewrite <- app_assoc.
Qed.
Lemma from_rows_bad rows : forall (cols : list (list V)) r, In r rows -> length r <> length cols -> from_rows_loop rows cols = None.
Proof.
  induction rows as [|row rows IH]; intros cols r I N; [destruct I|]. destruct I as [->|I]; cbn [from_rows_loop].
  - apply Nat.eqb_neq in N. now rewrite N.
  - destruct (length row =? length cols); [|reflexivity]. apply (IH _ r I). now rewrite append_row_length.
Qed.
Lemma nth_nils {X Y} (l : list X) : forall j, nth j (map (fun _ => @nil Y) l) [] = [].
Proof. induction l as [|x l IH]; intros [|j]; cbn; auto. Qed.
Lemma map_fst_combine {X Y} (a : list X) : forall (b : list Y), length a = length b -> map fst (combine a b) = a.
Proof. induction a as [|x a IH]; intros [|y b] H; cbn in *; try lia; [reflexivity|]. f_equal. apply IH. lia. Qed.
Lemma from_rows_ok (rows : list (list V)) ns : NoDup ns -> ns <> [] -> (forall r, In r rows -> length r = length ns) ->
  exists t, from_rows rows ns = Some t /\ names t = ns /\
    forall j n i r, nth_error ns j = Some n -> nth_error rows i = Some r -> cell_of t n i = nth_error r j.
Proof.
  intros ND NE H. unfold from_rows. destruct ns as [|n0 ns']; [congruence|]. set (ns := n0 :: ns') in *.
  destruct rows as [|row0 rows'].
  - cbn [from_rows_loop]. eexists. split; [reflexivity|].
    assert (LM : length ns = length (map (fun _ : name => @nil V) ns)) by (now rewrite map_length).
    rewrite dset_all_fresh; [|now rewrite map_fst_combine|intros k _ []]. cbn [app]. split; [unfold names; now apply map_fst_combine|].
    intros j n i r _ E. destruct i; discriminate.
  - set (rows := row0 :: rows') in *. assert (exists d : V, True) as (d & _).
    { pose proof (H row0 (or_introl eq_refl)) as Q. destruct row0 as [|v ?]; [discriminate|]. now exists v. }
    destruct (from_rows_loop_ok rows (map (fun _ => []) ns) d) as (out & E & L & N).
    { intros r Hr. rewrite map_length. now apply H. }
    rewrite E. eexists. split; [reflexivity|]. rewrite map_length in *.
    rewrite dset_all_fresh; [|now rewrite map_fst_combine by congruence|intros k _ []]. cbn [app].
    split; [unfold names; apply map_fst_combine; congruence|].
    intros j n i r Hn Hr. assert (Hj : j < length ns) by (apply nth_error_Some; congruence).
    unfold cell_of. rewrite (dget_in n (nth j out [])).
    + rewrite N by exact Hj. rewrite nth_nils. cbn [app].
      rewrite (map_nth_error (fun r => nth j r d) _ _ Hr). symmetry. apply nth_error_nth'. rewrite (H r) by (eapply nth_error_In; eauto). exact Hj.
    + rewrite map_fst_combine by congruence. exact ND.
    + rewrite <- (nth_error_nth _ _ n0 Hn). rewrite <- combine_nth by congruence. apply nth_In. rewrite combine_length. lia.
Qed.
End Rows.

(** ** from_tagged_rows *)
Section Tagged.
Context {V : Type}.
Definition bump (d : list (name * nat)) (k : name) := dset k (S (match dget k d with Some c => c | None => 0 end)) d.
Lemma bump_row ks : forall d, NoDup ks -> forall k, dget k (fold_left bump ks d) =
  if mem k ks then Some (S (match dget k d with Some c => c | None => 0 end)) else dget k d.
Proof.
  induction ks as [|k0 ks IH]; intros d ND k; cbn [fold_left]; [reflexivity|]. inversion ND as [|? ? N1 N2]; subst. rewrite IH by exact N2. unfold bump. rewrite dget_dset. unfold mem. cbn [existsb].
  fold (mem k ks). destruct (name_dec k0 k) as [->|N]; cbn [orb].
  - destruct (mem k ks) eqn:E; [apply mem_in in E; contradiction|reflexivity].
  - reflexivity.
Qed.
Lemma bump_nodup ks : forall d, NoDup (map fst d) -> NoDup (map fst (fold_left bump ks d)).
Proof. induction ks as [|k ks IH]; intros d H; cbn; [exact H|]. apply IH. now apply dset_nodup. Qed.
Lemma count_keys_fold (rows : list (list (name * V))) : count_keys rows = fold_left (fun d row => fold_left bump (names row) d) rows [].
Proof. reflexivity. Qed.

Definition same_keys (ks : list name) (row : list (name * V)) := NoDup (names row) /\ forall k, In k (names row) <-> In k ks.
Lemma count_same ks (rows : list (list (name * V))) : forall d, (forall r, In r rows -> same_keys ks r) -> NoDup (map fst d) ->
  let out := fold_left (fun d row => fold_left bump (names row) d) rows d in
  NoDup (map fst out) /\ forall k, dget k out =
    if mem k ks then match rows, dget k d with
                     | [], x => x
                     | _, Some c => Some (length rows + c)
                     | _, None => Some (length rows)
                     end else dget k d.
Proof.
  induction rows as [|r rows IH]; intros d H ND; cbn [fold_left].
  - split; [exact ND|]. intros k. now destruct (mem k ks).
  - destruct (IH (fold_left bump (names r) d)) as (ND' & G).
    { intros r' Hr. apply H. now right. } { now apply bump_nodup. }
    split; [exact ND'|]. intros k. rewrite G. destruct (H r (or_introl eq_refl)) as (NDr & K). rewrite bump_row by exact NDr.
    assert (M : mem k (names r) = mem k ks).
    { destruct (mem k ks) eqn:E; [apply mem_in in E; apply mem_in; now apply K|apply mem_not in E; apply mem_not; rewrite K; exact E]. }
    rewrite M. destruct (mem k ks); [|reflexivity]. destruct rows as [|r' rows]; [destruct (dget k d); cbn; reflexivity|].
    cbn [length]. destruct (dget k d); f_equal; lia.
Qed.
Lemma all_const_nodup (l : list nat) c : l <> [] -> (forall x, In x l -> x = c) -> length (nodup Nat.eq_dec l) = 1.
Proof.
  intros N H. pose proof (NoDup_nodup Nat.eq_dec l) as ND. assert (A : forall x, In x (nodup Nat.eq_dec l) -> x = c) by (intros x I; apply nodup_In in I; auto).
  destruct (nodup Nat.eq_dec l) as [|x [|y r]] eqn:E; [|reflexivity|].
  - destruct l as [|z l]; [congruence|]. assert (In z (nodup Nat.eq_dec (z :: l))) by (apply nodup_In; now left). rewrite E in H0. destruct H0.
  - inversion ND as [|? ? N1 N2]; subst. elim N1. rewrite (A x (or_introl eq_refl)), (A y (or_intror (or_introl eq_refl))). now left.
Qed.

Variable sorted : list name -> list name.
Hypothesis SORT : forall l, Permutation (sorted l) l.

Lemma append_names (ret : table V) row : names (append_tagged ret row) = names ret.
Proof.
  unfold append_tagged, names. revert ret. induction row as [|[k v] row IH]; intros ret; cbn [fold_left fst snd]; [reflexivity|]. rewrite IH.
  destruct (dget k ret) eqn:E; [|reflexivity]. rewrite dset_names. destruct (mem k (map fst ret)) eqn:M; [reflexivity|]. apply mem_not, dget_none in M. congruence.
Qed.
Lemma append_get (row : list (name * V)) : forall (ret : table V), NoDup (names row) -> forall k c, dget k ret = Some c ->
  dget k (append_tagged ret row) = Some (c ++ match dget k row with Some v => [v] | None => [] end).
Proof.
  unfold append_tagged, names. induction row as [|[q v] row IH]; intros ret ND k c H; cbn [fold_left fst snd dget]; [now rewrite app_nil_r|].
  cbn [map fst] in ND. inversion ND as [|? ? N1 N2]; subst. destruct (name_dec q k) as [->|N].
  - rewrite H. rewrite (IH _ N2 k (c ++ [v])) by (rewrite dget_dset; now destruct (name_dec k k)).
    apply dget_none in N1. rewrite N1. now rewrite app_nil_r.
  - apply IH; [exact N2|]. destruct (dget q ret); [|exact H]. rewrite dget_dset. now destruct (name_dec q k).
Qed.
Lemma append_all ks (rows : list (list (name * V))) : forall (ret : table V), (forall r, In r rows -> same_keys ks r) ->
  names (fold_left append_tagged rows ret) = names ret /\
  forall k c, In k ks -> dget k ret = Some c -> exists l, dget k (fold_left append_tagged rows ret) = Some (c ++ l) /\ length l = length rows /\
     forall i r, nth_error rows i = Some r -> nth_error l i = dget k r.
Proof.
  induction rows as [|r rows IH]; intros ret H; cbn [fold_left].
  - split; [reflexivity|]. intros k c _ E. exists []. rewrite app_nil_r. split; [exact E|]. split; [reflexivity|]. intros [|i] r; discriminate.
  - destruct (IH (append_tagged ret r)) as (N & G); [intros r' Hr; apply H; now right|]. rewrite append_names in N. split; [exact N|].
    intros k c Hk E. destruct (H r (or_introl eq_refl)) as (NDr & K). apply K in Hk as Hk'. destruct (dget_has k r Hk') as (v & Hv).
    destruct (G k (c ++ [v]) Hk) as (l & G1 & G2 & G3); [rewrite (append_get r ret NDr k c E), Hv; reflexivity|].
    exists (v :: l). rewrite <- app_assoc in G1. split; [exact G1|]. split; [cbn; congruence|]. intros [|i] r' Hr; cbn in *; [congruence|]. now apply G3.
Qed.
Lemma dget_empty k (l : list name) : In k l -> dget k (map (fun k => (k, @nil V)) l) = Some [].
Proof. induction l as [|q l IH]; cbn; [contradiction|]. intros [->|I]; [now destruct (name_dec k k)|]. destruct (name_dec q k); [reflexivity|auto]. Qed.
Lemma tagged_ok ks (rows : list (list (name * V))) : rows <> [] -> ks <> [] -> (forall r, In r rows -> same_keys ks r) ->
  exists t, from_tagged_rows sorted rows = RowsOk t /\ NoDup (names t) /\ (exists l, names t = sorted l) /\ (forall k, In k (names t) <-> In k ks) /\
    forall k i r, In k ks -> nth_error rows i = Some r -> cell_of t k i = dget k r.
Proof.
  intros NR NK H. unfold from_tagged_rows. destruct (count_same ks rows [] H (NoDup_nil _)) as (ND & G). cbn zeta in *.
  rewrite <- count_keys_fold in ND, G. set (keys := count_keys rows) in *.
  assert (K : forall k, In k (names keys) <-> In k ks).
  { intros k. specialize (G k). cbn [dget] in G. destruct (mem k ks) eqn:M.
    - apply mem_in in M. split; [auto|]. intros _. destruct (in_dec name_dec k (names keys)) as [|N]; [assumption|]. apply dget_none in N. rewrite N in G. destruct rows; [congruence|discriminate].
    - apply dget_none in G. apply mem_not in M. unfold names. tauto. }
  assert (C : forall c, In c (map snd keys) -> c = length rows).
  { intros c I. apply in_map_iff in I. destruct I as ([k c'] & <- & I). cbn [snd]. pose proof (dget_in _ _ _ ND I) as E. rewrite G in E.
    destruct (mem k ks); [|discriminate]. destruct rows; [discriminate|]. cbn [dget] in E. congruence. }
  assert (KN : keys <> []).
  { destruct ks as [|k ks']; [congruence|]. intros E. destruct (K k) as (_ & Q). rewrite E in Q. apply (Q (or_introl eq_refl)). }
  destruct rows as [|r0 rows']; [congruence|]. set (rows := r0 :: rows') in *.
  destruct keys as [|kc keys'] eqn:EK; [congruence|]. rewrite <- EK in *.
  rewrite (all_const_nodup (map snd keys) (length rows)), Nat.eqb_refl; [|rewrite EK; discriminate|exact C].
  set (t := fold_left append_tagged rows (map (fun k => (k, [])) (sorted (names keys)))).
  destruct (append_all ks rows (map (fun k => (k, [])) (sorted (names keys))) H) as (N & A). fold t in N, A.
  assert (NT : names t = sorted (names keys)) by (rewrite N; unfold names at 1; rewrite map_map; cbn [fst]; apply map_id).
  assert (SN : NoDup (names t)) by (rewrite NT; eapply Permutation_NoDup; [apply Permutation_sym, SORT|exact ND]).
  assert (TK : forall k, In k (names t) <-> In k ks).
  { intros k. rewrite NT, <- K. split; intros I; [eapply Permutation_in; [apply SORT|exact I]|eapply Permutation_in; [apply Permutation_sym, SORT|exact I]]. }
  assert (A' : forall k, In k ks -> exists l, dget k t = Some l /\ length l = length rows /\ forall i r, nth_error rows i = Some r -> nth_error l i = dget k r).
  { intros k Hk. apply (A k [] Hk). apply dget_empty. rewrite <- NT. now apply TK. }
  rewrite (all_const_nodup (map (fun p => length (snd p)) t) (length rows)), Nat.eqb_refl.
  - exists t. split; [reflexivity|]. split; [exact SN|]. split; [eauto|]. split; [exact TK|]. intros k i r Hk Hr. destruct (A' k Hk) as (l & E1 & _ & E3). unfold cell_of. rewrite E1. now apply E3.
  - destruct t as [|p t'] eqn:ET; [|discriminate]. destruct ks as [|k ks']; [congruence|]. destruct (proj2 (TK k) (or_introl eq_refl)).
  - intros x I. apply in_map_iff in I. destruct I as ([k c] & <- & I). cbn [snd].
    assert (Hk : In k ks) by (apply TK; unfold names; change k with (fst (k, c)); now apply in_map). destruct (A' k Hk) as (l & E1 & E2 & _). rewrite (dget_in _ _ _ SN I) in E1. congruence.
Qed.
End Tagged.

(** ** from_jagged_rows *)
Section JaggedRows.
Variable decimal : nat -> name.
Lemma jagged_col_ok rows width inv i : (forall r s, In r rows -> nth_error (sr_items r) i = Some s -> length s <= width) ->
  jagged_col rows width (Some inv) i = Some (map (fun r => match nth_error (sr_items r) i with Some s => s | None => firstn width inv end) rows).
Proof.
  unfold jagged_col. intros H. match goal with |- fold_left ?f _ _ = Some (map ?g _) => cut (forall acc, fold_left f rows (Some acc) = Some (acc ++ map g rows)) end; [intros A; apply (A [])|].
  induction rows as [|r rows IH]; intros acc; cbn [fold_left map]; [now rewrite app_nil_r|].
  destruct (nth_error (sr_items r) i) as [s|] eqn:E.
  - rewrite IH by (intros r' s' Hr; apply H; now right). rewrite <- app_assoc. cbn. rewrite firstn_all2; [reflexivity|]. eapply H; eauto. now left.
  - rewrite IH by (intros r' s' Hr; apply H; now right). rewrite <- app_assoc. reflexivity.
Qed.
Lemma list_max0_ge l : forall x, In x l -> x <= list_max0 l.
Proof.
  unfold list_max0. assert (A : forall l a, a <= fold_left Nat.max l a /\ forall x, In x l -> x <= fold_left Nat.max l a).
  { clear l. induction l as [|y l IH]; intros a; cbn; [split; [lia|contradiction]|]. destruct (IH (Nat.max a y)) as (H1 & H2). split; [lia|]. intros x I. destruct I as [->|I]; [lia|auto]. }
  apply A.
Qed.
Lemma jagged_loop rows width inv base : (forall i j, decimal i = decimal j -> i = j) ->
  (forall i r s, In r rows -> nth_error (sr_items r) i = Some s -> length s <= width) ->
  forall k, fold_left (fun acc i => match acc with
         | JagOk t => match jagged_col rows width (Some inv) i with
                      | Some col => JagOk (dset (base ++ decimal i) col t)
                      | None => JagUnbound end
         | e => e end) (seq 0 k) (JagOk [])
  = JagOk (map (fun i => (base ++ decimal i, map (fun r => match nth_error (sr_items r) i with Some s => s | None => firstn width inv end) rows)) (seq 0 k)).
Proof.
  intros INJ W. induction k as [|k IH]; [reflexivity|]. rewrite seq_S, fold_left_app, IH. cbn [fold_left Nat.add]. rewrite jagged_col_ok by (intros r s; apply W).
  f_equal. rewrite dset_fresh; [now rewrite map_app|]. rewrite map_map. cbn [fst]. intros I. apply in_map_iff in I. destruct I as (i & E & I). apply in_seq in I.
  apply app_inv_head in E. apply INJ in E. lia.
Qed.
End JaggedRows.
