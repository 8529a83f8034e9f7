(** melt, stacking, concat_columns *)
From Coq Require Import List Arith Bool Lia Permutation.
From Verif Require Import FlattenModel FlattenProofs MergeModel MergeFacts GroupingModel GroupFacts MergeColsProofs DsModel DsSpec DsProofs3.
Import ListNotations.

Lemma filter_comm {X} (f g : X -> bool) l : filter f (filter g l) = filter g (filter f l).
Proof. induction l as [|x l IH]; cbn; [reflexivity|]. destruct (g x) eqn:G, (f x) eqn:F; cbn; rewrite ?G, ?F, ?IH; reflexivity. Qed.
Lemma filter_true {X} (f : X -> bool) l : (forall x, In x l -> f x = true) -> filter f l = l.
Proof. induction l as [|x l IH]; cbn; intros H; [reflexivity|]. rewrite (H x (or_introl eq_refl)), IH; auto. Qed.
Lemma filter_and {X} (f g : X -> bool) l : filter f (filter g l) = filter (fun x => g x && f x) l.
Proof. induction l as [|x l IH]; cbn; [reflexivity|]. destruct (g x); cbn; [destruct (f x)|]; rewrite ?IH; reflexivity. Qed.
Definition isnt (n m : name) : bool := if name_dec m n then false else true.
Lemma first_seen_in l n : In n (first_seen l) <-> In n l.
Proof.
  induction l as [|m l IH]; cbn; [tauto|]. rewrite filter_In, IH. destruct (name_dec n m) as [->|N]; [tauto|]. split; [tauto|]. intros [->|I]; [congruence|]. right. auto.
Qed.
Lemma first_seen_nodup l : NoDup (first_seen l).
Proof.
  induction l as [|m l IH]; cbn; constructor.
  - rewrite filter_In. destruct (name_dec m m); [|congruence]. intros (_ & Q). discriminate.
  - now apply NoDup_filter.
Qed.
Lemma first_seen_id l : NoDup l -> first_seen l = l.
Proof.
  induction l as [|m l IH]; cbn; intros H; [reflexivity|]. inversion H as [|? ? N1 N2]; subst. rewrite IH by exact N2. f_equal. apply filter_true.
  intros x I. destruct (name_dec x m); [subst; contradiction|reflexivity].
Qed.
Definition fresh (ns : list name) (l : list name) : list name := filter (fun n => negb (mem n ns)) l.
Lemma fresh_nil l : fresh [] l = l. Proof. unfold fresh. apply filter_true. reflexivity. Qed.
Lemma fresh_snoc ns n l : fresh (ns ++ [n]) (first_seen l) = fresh ns (filter (isnt n) (first_seen l)).
Proof.
  unfold fresh. rewrite filter_and. apply filter_ext. intros m. unfold mem, isnt. rewrite existsb_app. cbn [existsb]. rewrite orb_false_r, negb_orb, andb_comm. 
  destruct (name_dec n m) as [E|N], (name_dec m n) as [E'|N']; try congruence; reflexivity.
Qed.
Lemma fresh_cons ns n l : fresh ns (first_seen (n :: l)) = if mem n ns then fresh ns (first_seen l) else n :: fresh (ns ++ [n]) (first_seen l).
Proof.
  rewrite fresh_snoc. cbn [first_seen]. unfold fresh at 1. cbn [filter]. fold (isnt n). change (fun m => if name_dec m n then false else true) with (isnt n). destruct (mem n ns) eqn:M; cbn [negb]; [|reflexivity].
  unfold fresh. rewrite filter_and. apply filter_ext. intros m. unfold isnt. destruct (name_dec m n) as [->|]; [now rewrite M|reflexivity].
Qed.
(** names collected one by one, skipping those present *)
Lemma collect_names l : forall ns, fold_left (fun ns n => if mem n ns then ns else ns ++ [n]) l ns = ns ++ fresh ns (first_seen l).
Proof.
  induction l as [|n l IH]; intros ns; cbn [fold_left]; [cbn; now rewrite app_nil_r|]. rewrite fresh_cons. destruct (mem n ns) eqn:M; rewrite IH; [reflexivity|].
  now rewrite <- app_assoc.
Qed.
Lemma dset_all_names {X} (l : list (name * X)) : forall d, map fst (dset_all l d) = map fst d ++ fresh (map fst d) (first_seen (map fst l)).
Proof.
  unfold dset_all. induction l as [|[n v] l IH]; intros d; cbn [fold_left map fst snd]; [cbn; now rewrite app_nil_r|]. rewrite IH, dset_names, fresh_cons.
  destruct (mem n (map fst d)); [reflexivity|]. now rewrite <- app_assoc.
Qed.
Lemma concat_equal {X} (ls : list (list X)) N k i : (forall l, In l ls -> length l = N) -> i < N -> k < length ls ->
  nth_error (concat ls) (k * N + i) = nth_error (nth k ls []) i.
Proof.
  revert k. induction ls as [|l ls IH]; intros k H Hi Hk; [cbn in Hk; lia|]. cbn [concat]. pose proof (H l (or_introl eq_refl)) as L. destruct k as [|k].
  - cbn [nth Nat.mul Nat.add]. rewrite nth_error_app1 by lia. reflexivity.
  - rewrite nth_error_app2 by (cbn; lia). replace (S k * N + i - length l) with (k * N + i) by (cbn; lia). cbn [nth]. apply IH; [intros x Hx; apply H; now right|exact Hi|cbn in Hk; lia].
Qed.
Lemma concat_equal_length {X} (ls : list (list X)) N : (forall l, In l ls -> length l = N) -> length (concat ls) = length ls * N.
Proof. induction ls as [|l ls IH]; intros H; [reflexivity|]. cbn [concat length]. rewrite app_length, (H l (or_introl eq_refl)), IH by (intros x Hx; apply H; now right). reflexivity. Qed.

(** ** melt *)
Section Melt.
Context {V : Type}.
Variable of_name : name -> V.
Variable blank : V -> bool.
Notation table := (table V).
Lemma dpop_ok {X} c (d : list (name * X)) v : NoDup (map fst d) -> dget c d = Some v -> dpop c d = Some (v, filter (fun p => isnt c (fst p)) d).
Proof.
  induction d as [|[q w] d IH]; cbn [map fst dget dpop filter]; intros ND H; [discriminate|]. inversion ND as [|? ? N1 N2]; subst. unfold isnt at 1. destruct (name_dec q c) as [->|N].
  - injection H as ->. rewrite filter_true; [reflexivity|]. intros [q w] I. cbn [fst]. unfold isnt. destruct (name_dec q c) as [->|]; [|reflexivity]. elim N1. apply (in_map fst) in I. exact I.
  - rewrite (IH N2 H). reflexivity.
Qed.
Lemma dget_filter {X} (f : name -> bool) n (d : list (name * X)) : f n = true -> dget n (filter (fun p => f (fst p)) d) = dget n d.
Proof.
  intros H. induction d as [|[q w] d IH]; cbn [filter fst dget]; [reflexivity|]. destruct (f q) eqn:E; cbn [dget]; [now rewrite IH|].
  destruct (name_dec q n) as [->|]; [congruence|exact IH].
Qed.
Lemma map_fst_filter {X} (f : name -> bool) (d : list (name * X)) : map fst (filter (fun p => f (fst p)) d) = filter f (map fst d).
Proof. induction d as [|[q w] d IH]; cbn; [reflexivity|]. destruct (f q); cbn; now rewrite IH. Qed.
Definition colv (d : table) (n : name) : list V := match dget n d with Some c => c | None => [] end.
Lemma melt_ids_ok ids k : forall (temp mdata : table), NoDup ids -> NoDup (map fst temp) -> (forall c, In c ids -> In c (map fst temp)) ->
  (forall c, In c ids -> ~ In c (map fst mdata)) ->
  melt_ids ids k temp mdata = Some (filter (fun p => negb (mem (fst p) ids)) temp, mdata ++ map (fun c => (c, tile_col (colv temp c) k)) ids).
Proof.
  induction ids as [|c ids IH]; intros temp mdata ND NT HI HM; cbn [melt_ids].
  - rewrite app_nil_r, filter_true; [reflexivity|]. reflexivity.
  - inversion ND as [|? ? N1 N2]; subst. destruct (dget_has c temp (HI c (or_introl eq_refl))) as (v & Hv). rewrite (dpop_ok c temp v NT Hv).
    rewrite IH.
    + rewrite filter_and. f_equal. f_equal.
      * apply filter_ext. intros [q w]. cbn [fst]. unfold mem. cbn [existsb]. unfold isnt. destruct (name_dec q c) as [E1|E1], (name_dec c q) as [E2|E2]; cbn; congruence || reflexivity.
      * rewrite dset_fresh by (apply HM; now left). rewrite <- app_assoc. cbn [map app]. unfold colv at 2. rewrite Hv. do 2 f_equal. apply map_ext_in. intros x Hx.
        f_equal. unfold colv. rewrite dget_filter; [reflexivity|]. unfold isnt. destruct (name_dec x c); [subst; contradiction|reflexivity].
    + exact N2.
    + rewrite map_fst_filter. now apply NoDup_filter.
    + intros x Hx. rewrite map_fst_filter, filter_In. split; [apply HI; now right|]. unfold isnt. destruct (name_dec x c); [subst; contradiction|reflexivity].
    + intros x Hx. rewrite dset_names. destruct (mem c (map fst mdata)); [apply HM; now right|]. rewrite in_app_iff. intros [I|[->|[]]]; [|contradiction]. apply (HM x); [now right|exact I].
Qed.
Lemma select_ok ns (d : table) : forall acc, (forall n, In n ns -> In n (map fst d)) ->
  select ns d acc = Some (dset_all (map (fun n => (n, colv d n)) ns) acc).
Proof.
  unfold dset_all. induction ns as [|n ns IH]; intros acc H; cbn [select map fold_left fst snd]; [reflexivity|]. destruct (dget_has n d (H n (or_introl eq_refl))) as (v & Hv). rewrite Hv, IH by (intros x Hx; apply H; now right).
  unfold colv. rewrite Hv. reflexivity.
Qed.
Lemma dget_dset_all_other {X} n (l : list (name * X)) : forall acc, ~ In n (map fst l) -> dget n (dset_all l acc) = dget n acc.
Proof.
  unfold dset_all. induction l as [|[q w] l IH]; intros acc H; cbn [fold_left fst snd]; [reflexivity|]. rewrite IH by (intros I; apply H; now right). rewrite dget_dset.
  destruct (name_dec q n) as [->|]; [elim H; now left|reflexivity].
Qed.
Lemma dget_dset_all_fun {X} n (f : name -> X) ns : forall acc, In n ns -> dget n (dset_all (map (fun n => (n, f n)) ns) acc) = Some (f n).
Proof.
  unfold dset_all. induction ns as [|q ns IH]; intros acc H; cbn [map fold_left fst snd]; [contradiction|]. destruct (in_dec name_dec n ns) as [I|I]; [now apply IH|].
  destruct H as [->|H]; [|contradiction].
  pose proof (dget_dset_all_other n (map (fun n => (n, f n)) ns) (dset n (f n) acc)) as Q. unfold dset_all in Q. rewrite Q; [rewrite dget_dset; now destruct (name_dec n n)|].
  rewrite map_map. cbn. now rewrite map_id.
Qed.
(** the columns to be stacked *)
Definition melt_vars (d : table) (ids : list name) (vv : option (list name)) : list name :=
  fresh ids (match vv with Some vs => first_seen vs | None => map fst d end).
Lemma temp_ok (d : table) ids vv : NoDup (map fst d) -> NoDup ids -> (forall c, In c ids -> In c (map fst d)) ->
  (forall vs, vv = Some vs -> forall c, In c vs -> In c (map fst d)) ->
  exists temp, match vv with Some vs => select (ids ++ vs) d [] | None => Some d end = Some temp /\ NoDup (map fst temp) /\
    (forall c, In c ids -> In c (map fst temp)) /\ (forall c, In c (map fst temp) -> dget c temp = dget c d /\ In c (map fst d)) /\
    fresh ids (map fst temp) = melt_vars d ids vv.
Proof.
  intros ND NI HI HV. destruct vv as [vs|].
  - rewrite select_ok; [|intros n Hn; apply in_app_or in Hn; destruct Hn; [auto|now apply (HV vs)]]. eexists. split; [reflexivity|].
    assert (NM : map fst (dset_all (map (fun n => (n, colv d n)) (ids ++ vs)) []) = first_seen (ids ++ vs)).
    { rewrite dset_all_names. cbn [map app]. rewrite fresh_nil, map_map. cbn. now rewrite map_id. }
    rewrite NM. split; [apply first_seen_nodup|]. split; [intros c Hc; apply first_seen_in, in_or_app; now left|]. split.
    + intros c Hc. apply (proj1 (first_seen_in _ _)) in Hc. rewrite (dget_dset_all_fun c (colv d)) by exact Hc.
      assert (In c (map fst d)) by (apply in_app_or in Hc; destruct Hc; [auto|now apply (HV vs)]). split; [|assumption]. destruct (dget_has c d H) as (v & Hv). unfold colv. now rewrite Hv.
    + unfold melt_vars. clear HI HV NM. revert NI. 
      assert (A : forall l pre, NoDup (pre ++ l) -> fresh (pre ++ l) (first_seen (l ++ vs)) = fresh (pre ++ l) (first_seen vs)).
      { induction l as [|x l IH]; intros pre N; cbn [app]; [reflexivity|]. rewrite fresh_cons.
        assert (M : mem x (pre ++ x :: l) = true) by (apply mem_in, in_or_app; right; now left). rewrite M.
        replace (pre ++ x :: l) with ((pre ++ [x]) ++ l) by (now rewrite <- app_assoc). apply IH. now rewrite <- app_assoc. }
      intros NI. apply (A ids []). exact NI.
  - exists d. split; [reflexivity|]. split; [exact ND|]. split; [exact HI|]. split; [intros c Hc; auto|reflexivity].
Qed.
Lemma count_minus (l ids : list name) : NoDup l -> NoDup ids -> (forall c, In c ids -> In c l) -> length l - length ids = length (fresh ids l).
Proof.
  intros NL NI H. assert (P : Permutation l (ids ++ fresh ids l)).
  { apply NoDup_Permutation; [exact NL| |].
    - apply NoDup_app_disj; [exact NI|now apply NoDup_filter|]. intros x Hx I. apply filter_In in I. destruct I as (_ & Q). apply mem_in in Hx. rewrite Hx in Q. discriminate.
    - intros x. rewrite in_app_iff. unfold fresh. rewrite filter_In. split.
      + intros I. destruct (mem x ids) eqn:M; [left; now apply mem_in|right; auto].
      + intros [I|(I & _)]; auto. }
  rewrite (Permutation_length P), app_length. lia.
Qed.
Lemma tile_len (c : list V) k : length (tile_col c k) = k * length c.
Proof. unfold tile_col. induction k; cbn; [reflexivity|]. rewrite app_length. lia. Qed.
(** the table before trimming *)
Lemma melt_ok (d : table) N ids vv var_name value_name : NoDup (map fst d) -> (forall n c, In (n, c) d -> length c = N) ->
  NoDup ids -> (forall c, In c ids -> In c (map fst d)) -> (forall vs, vv = Some vs -> forall c, In c vs -> In c (map fst d)) ->
  ~ In var_name ids -> ~ In value_name ids -> var_name <> value_name -> melt_vars d ids vv <> [] ->
  exists t, melt of_name blank d N ids vv var_name value_name false = Some t /\ names t = ids ++ [var_name; value_name] /\
    (forall n c, In (n, c) t -> length c = length (melt_vars d ids vv) * N) /\
    (forall k i v, nth_error (melt_vars d ids vv) k = Some v -> i < N ->
       (forall c, In c ids -> cell_of t c (k * N + i) = cell_of d c i) /\
       cell_of t var_name (k * N + i) = Some (of_name v) /\
       cell_of t value_name (k * N + i) = cell_of d v i) /\
    melt of_name blank d N ids vv var_name value_name true =
      Some (map (fun p => (fst p, compress (map (fun v => negb (blank v)) (colv t value_name)) (snd p))) t).
Proof.
  intros ND LEN NI HI HV NV1 NV2 NV3 NE. destruct (temp_ok d ids vv ND NI HI HV) as (temp & E & NT & IT & GT & FR).
  unfold melt. rewrite E.
  assert (KK : length temp - length ids = length (melt_vars d ids vv)).
  { rewrite <- FR, <- (map_length fst temp). apply count_minus; auto. }
  rewrite KK. set (K := length (melt_vars d ids vv)). rewrite (melt_ids_ok ids K temp [] NI NT IT) by (intros c _ []). cbn [app].
  set (temp' := filter (fun p => negb (mem (fst p) ids)) temp).
  assert (TN : map fst temp' = melt_vars d ids vv) by (rewrite <- FR; unfold temp', fresh; apply (map_fst_filter (fun n => negb (mem n ids)))).
  assert (TL : forall n c, In (n, c) temp' -> dget n d = Some c /\ length c = N).
  { intros n c I. unfold temp' in I. apply filter_In in I. destruct I as (I & _). pose proof (in_map fst _ _ I) as I'. cbn [fst] in I'. destruct (GT n I') as (G & _). rewrite (dget_in _ _ _ NT I) in G. split; [now symmetry|]. eapply LEN. eapply dget_some_in. symmetry. exact G. }
  assert (T0 : temp' <> []) by (intros Z; rewrite Z in TN; cbn in TN; congruence).
  destruct temp' as [|p0 rest] eqn:ET; [congruence|]. rewrite <- ET in *.
  set (m0 := map (fun c => (c, tile_col (colv temp c) K)) ids).
  assert (M0 : map fst m0 = ids) by (unfold m0; rewrite map_map; apply map_id).
  rewrite (dset_fresh var_name) by (now rewrite M0). rewrite (dset_fresh value_name).
  2:{ rewrite map_app, M0, in_app_iff. cbn. intros [I|[I|[]]]; [contradiction|congruence]. }
  set (t := (m0 ++ _) ++ _). exists t.
  assert (NMT : names t = ids ++ [var_name; value_name]) by (unfold t, names; rewrite !map_app, M0, <- app_assoc; reflexivity).
  assert (NDT : NoDup (names t)).
  { rewrite NMT. apply NoDup_app_disj; [exact NI| |].
    - constructor; [cbn; intros [->|[]]; congruence|]. constructor; [intros []|constructor].
    - intros x Hx [->|[->|[]]]; contradiction. }
  assert (LR : length (map fst temp') = K) by (rewrite TN; reflexivity). rewrite map_length in LR.
  assert (CV : forall l, In l (map snd temp') -> length l = N).
  { intros l I. apply in_map_iff in I. destruct I as ([n c] & <- & I). now apply (TL n c). }
  assert (CN : forall l, In l (map (fun p => repeat (of_name (fst p)) N) temp') -> length l = N).
  { intros l I. apply in_map_iff in I. destruct I as (q & <- & I). apply repeat_length. }
  assert (IDL : forall c, In c ids -> length (colv temp c) = N /\ dget c temp = dget c d).
  { intros c Hc. destruct (GT c (IT c Hc)) as (G & _). split; [|exact G]. destruct (dget_has c d (HI c Hc)) as (w & Hw). unfold colv. rewrite G, Hw. eapply LEN, dget_some_in. exact Hw. }
  split; [reflexivity|]. split; [exact NMT|]. split; [|split].
  - intros n c I. unfold t in I. rewrite !in_app_iff in I. destruct I as [[I|[I|[]]]|[I|[]]].
    + unfold m0 in I. apply in_map_iff in I. destruct I as (x & Ex & I). injection Ex as <- <-. rewrite tile_len. now rewrite (proj1 (IDL x I)).
    + injection I as <- <-. rewrite (concat_equal_length _ N CN), map_length. now rewrite LR.
    + injection I as <- <-. rewrite (concat_equal_length _ N CV), map_length. now rewrite LR.
  - intros k i v Hk Hi. assert (Kk : k < K) by (apply nth_error_Some; congruence). split; [|split].
    + intros c Hc. unfold cell_of. rewrite (dget_in c (tile_col (colv temp c) K)); [|exact NDT|].
      * unfold tile_col. rewrite (concat_equal _ N); [|intros l I; apply repeat_spec in I; subst l; apply (IDL c Hc)|exact Hi|now rewrite repeat_length].
        replace (nth k (repeat (colv temp c) K) []) with (colv temp c). 2:{ symmetry. apply nth_error_nth. now apply nth_error_repeat. }
        destruct (IDL c Hc) as (_ & G). unfold colv. rewrite G. destruct (dget c d) eqn:Q; [reflexivity|]. apply dget_none in Q. elim Q. auto.
      * unfold t, m0. rewrite !in_app_iff. left. left. apply (in_map (fun c => (c, tile_col (colv temp c) K))). exact Hc.
    + unfold cell_of. rewrite (dget_in var_name (concat (map (fun p => repeat (of_name (fst p)) N) temp'))); [|exact NDT|unfold t; rewrite !in_app_iff; left; right; now left].
      rewrite (concat_equal _ N) by (auto; rewrite map_length; lia). rewrite <- TN in Hk. rewrite nth_error_map in Hk.
      destruct (nth_error temp' k) as [q|] eqn:Eq; [|discriminate]. cbn in Hk. injection Hk as <-.
      rewrite (nth_error_nth _ _ [] (map_nth_error (fun p => repeat (of_name (fst p)) N) _ _ Eq)). now apply nth_error_repeat.
    + unfold cell_of at 1. rewrite (dget_in value_name (concat (map snd temp'))); [|exact NDT|unfold t; rewrite !in_app_iff; right; now left].
      rewrite (concat_equal _ N) by (auto; rewrite map_length; lia). rewrite <- TN in Hk. rewrite nth_error_map in Hk.
      destruct (nth_error temp' k) as [[q c]|] eqn:Eq; [|discriminate]. cbn in Hk. injection Hk as <-.
      rewrite (nth_error_nth _ _ [] (map_nth_error snd _ _ Eq)). cbn [snd]. unfold cell_of. destruct (TL q c (nth_error_In _ _ Eq)) as (G & _). now rewrite G.
  - destruct (dget value_name t) as [vals|] eqn:EV; [unfold colv; now rewrite EV|]. apply dget_none in EV. elim EV. fold (names t). rewrite NMT. apply in_or_app. right. right. now left.
Qed.
End Melt.

(** rows kept by a mask *)
Lemma compress_rows {X} (d : X) (m : list bool) l : length m = length l ->
  compress m l = map (fun p => nth p l d) (filter (fun p => nth p m false) (seq 0 (length l))).
Proof.
  revert l. induction m as [|b m IH]; intros [|x l] H; cbn in H; try discriminate; [reflexivity|]. injection H as H. cbn [compress length seq filter nth].
  assert (T : map (fun p => nth p (x :: l) d) (filter (fun p => nth p (b :: m) false) (seq 1 (length l))) = compress m l).
  { rewrite (IH l H). rewrite <- seq_shift. generalize (seq 0 (length l)) as s. induction s as [|p s IHs]; [reflexivity|]. cbn [map filter]. change (nth (S p) (b :: m) false) with (nth p m false). destruct (nth p m false); [|exact IHs]. cbn [map]. f_equal. exact IHs. }
  destruct b; cbn [map]; [f_equal|]; now symmetry.
Qed.
Lemma filter_seq_order (f : nat -> bool) n : in_order (filter f (seq 0 n)).
Proof. unfold in_order. intros a b x y. apply filter_increasing. intros. eapply seq_increasing; eauto. Qed.
Lemma compress_at {X} (m : list bool) (l : list X) q : length m = length l ->
  nth_error (compress m l) q = match nth_error (filter (fun p => nth p m false) (seq 0 (length l))) q with Some i => nth_error l i | None => None end.
Proof.
  intros H. destruct l as [|d l']; [destruct m; [|discriminate]; destruct q; reflexivity|]. set (l := d :: l') in *.
  rewrite (compress_rows d m l H), nth_error_map. destruct (nth_error (filter _ _) q) as [i|] eqn:E; [|reflexivity]. cbn [option_map]. symmetry. apply nth_error_nth'.
  apply nth_error_In, filter_In in E. destruct E as (E & _). apply in_seq in E. lia.
Qed.
