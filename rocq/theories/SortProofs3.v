(** Every operation keeps datasets and requests in step. *)
From Coq Require Import List Arith Bool ZArith Lia Permutation.
From Verif Require Import FlattenModel FlattenProofs MergeModel MergeFacts DsModel DsProofs DsProofs3 DsProofs4 GroupingProofs2 GroupingProofs3 GroupingProofs4 GroupingProofs5 SortModel SortSpec SortProofs SortProofs2.
Import ListNotations.

Section Step.
Variable value : nat -> Z -> Z.
Variable crc : list Z -> nat.
Variable lexsort : list col -> asc -> list nat.
Hypothesis LC : lexsort_contract value lexsort.
Notation step := (step crc lexsort).
Notation run := (run crc lexsort).

Lemma update_none h n x : s_list x = None -> update_sort h n x = x.
Proof. intros E. unfold update_sort. now rewrite E. Qed.
Lemma update_fold_none h ns : forall x, s_list x = None -> fold_left (fun x n => update_sort h n x) ns x = x.
Proof. induction ns as [|n ns IH]; intros x E; [reflexivity|]. cbn. rewrite update_none by exact E. now apply IH. Qed.
Lemma update_some h n x loc : s_list x = Some loc ->
  update_sort h n x = if mem n (nth loc h []) then mkDs (s_items x) (s_nrows x) None (s_asc x) (s_disp x) else x.
Proof. intros E. unfold update_sort. now rewrite E. Qed.
(** after an item changed: the request survives iff the column is not one of its keys *)
Lemma rel1_update h x r n items : rel1 h x r -> ds_ok (mkDs items (s_nrows x) (s_list x) (s_asc x) (s_disp x)) ->
  (forall m, m <> n -> In m (map fst (s_items x)) -> In m (map fst items)) ->
  let x' := update_sort h n (mkDs items (s_nrows x) (s_list x) (s_asc x) (s_disp x)) in
  rel1 h x' (match r with Some ps => if in_dec name_dec n (map fst ps) then None else Some ps | None => None end) /\
  (s_list x' = s_list x \/ s_list x' = None).
Proof.
  intros (OK & R) OK' SUB x'. unfold x'. destruct r as [ps|].
  - destruct R as (R1 & R2 & R3 & R4 & R5 & loc & R6 & R7). rewrite (update_some h n _ loc) by exact R6. rewrite (nth_error_nth _ _ [] R7). cbn [s_items s_nrows s_asc s_disp].
    destruct (in_dec name_dec n (map fst ps)) as [I|I].
    + rewrite (proj2 (mem_in n (map fst ps)) I). split; [|right; reflexivity]. split; [exact OK'|reflexivity].
    + rewrite (proj2 (mem_not n (map fst ps)) I). split; [|left; reflexivity]. split; [exact OK'|]. cbn. do 2 (split; [assumption|]). split; [|split; [assumption|split; [assumption|eauto]]].
      intros m Hm. apply SUB; [|now apply R3]. intros ->. contradiction.
  - rewrite update_none by exact R. cbn. split; [|left; reflexivity]. split; [exact OK'|exact R].
Qed.

Lemma nth_req (req : list request) d r : nth_error req d = Some r -> nth d req None = r.
Proof. intros E. exact (nth_error_nth _ _ _ E). Qed.

Lemma take_len idx c : length (c_bits (take_rows idx c)) = length idx.
Proof. cbn. now rewrite map_length. Qed.
Lemma names_take (idx : list nat) (items : list (name * col)) : map fst (map (fun p => (fst p, take_rows idx (snd p))) items) = map fst items.
Proof. rewrite map_map. reflexivity. Qed.
Lemma ds_ok_take idx items n l a b : NoDup (map fst items) -> length idx = n -> ds_ok (mkDs (map (fun p => (fst p, take_rows idx (snd p))) items) n l a b).
Proof.
  intros ND L. split; cbn [s_items s_nrows]; [now rewrite names_take|]. intros m c I. apply in_map_iff in I. destruct I as ([m' c'] & E & _). injection E as <- <-. now rewrite take_len.
Qed.
Lemma sorted_length keys idx n : sorted_by value keys idx n -> length idx = n.
Proof. intros (P & _). apply Permutation_length in P. now rewrite seq_length in P. Qed.

Lemma step_rel w req o : rel w req -> allowed w o -> rel (fst (step w o)) (request_step w req o (snd (step w o))).
Proof.
  intros R A. pose proof R as R'. destruct R' as (L & RR & SP).
  assert (ODS : forall d (k : dsr -> world * out) (f : out -> list request), f RError = req ->
    (forall x r, nth_error (w_ds w) d = Some x -> nth_error req d = Some r -> rel1 (w_heap w) x r -> rel (fst (k x)) (f (snd (k x)))) ->
    rel (fst (on_ds w d k)) (f (snd (on_ds w d k)))).
  { intros d k f FE K. unfold on_ds. destruct (nth_error (w_ds w) d) as [x|] eqn:E; [|cbn; now rewrite FE].
    destruct (at_some (w_ds w) d req L x E) as (r & Hr). apply (K x r); auto. now apply (RR d). }
  assert (SELF : forall d x, nth_error (w_ds w) d = Some x -> forall loc, s_list x = Some loc -> forall d' y, d' <> d -> nth_error (w_ds w) d' = Some y -> s_list y <> Some loc).
  { intros d x NX loc SL d' y N NY SY. apply N. exact (SP d' d y x loc NY NX SY SL). }
  destruct o; unfold SortModel.step; cbn [allowed] in A.
  - (* NewList *) cbn. split; [exact L|]. split; [|exact SP]. intros d x r Hx Hr. apply rel1_app. now apply (RR d).
  - (* EditList *) cbn. split; [exact L|]. split; [|exact SP]. intros d x r Hx Hr. cbn. apply (rel1_heap (w_heap w)); [|now apply (RR d)].
    intros k Sk Nk. assert (k <> loc) by (intros ->; exact (A d x Hx Sk)). destruct (Nat.lt_ge_cases loc (length (w_heap w))) as [B|B].
    + rewrite nth_error_upd' by exact B. now destruct (Nat.eqb_spec k loc).
    + unfold upd. destruct (Nat.ltb_spec loc (length (w_heap w))); [lia|reflexivity].
  - (* NewDs *) apply (rel_new w req (w_heap w)); auto. split; [exact A|reflexivity].
  - (* SortView *) destruct A as (F & A).
    apply (ODS d _ (request_step w req (SortView d by_ given)) eq_refl). intros x r NX NR R1.
    destruct (parse_sort (w_heap w) x by_ given) as [[bl a]|] eqn:P; [|exact R].
    destruct (parse_ok w x by_ given bl a F P) as (EB & NE & IN & MF & DR & AN).
    destruct by_ as [n|loc]; unfold put_ds; cbn [fst snd request_step w_heap w_ds w_cache].
    + cbn in EB. rewrite <- EB. apply (rel_put w req d x r); auto.
      * intros d' y loc _ _ _ N. apply nth_error_app1. now apply nth_error_Some.
      * split; [exact (proj1 R1)|]. cbn [s_items s_disp s_asc s_list]. rewrite MF. split; [exact AN|]. split; [subst; repeat constructor; auto|]. split; [exact IN|]. split; [reflexivity|]. split; [exact DR|].
        exists (length (w_heap w)). split; [reflexivity|]. rewrite nth_error_app2 by lia. rewrite Nat.sub_diag. now rewrite EB.
      * cbn [s_list]. intros loc [= <-] d' y N NY SY. destruct (at_some (w_ds w) d' req L y NY) as (q & Hq). destruct (RR d' y q NY Hq) as (_ & Q). destruct q as [ps|]; [|congruence].
        destruct Q as (_ & _ & _ & _ & _ & loc' & E1 & E2). rewrite SY in E1. injection E1 as <-. assert (length (w_heap w) < length (w_heap w)) by (apply nth_error_Some; congruence). lia.
    + cbn in EB. rewrite <- EB. destruct (A loc eq_refl) as (ND & FR). apply (rel_put w req d x r); auto.
      * split; [exact (proj1 R1)|]. cbn [s_items s_disp s_asc s_list]. rewrite MF. split; [exact AN|]. split; [now rewrite EB|]. split; [exact IN|]. split; [reflexivity|]. split; [exact DR|].
        exists loc. split; [reflexivity|]. assert (B : loc < length (w_heap w)).
        { destruct (Nat.lt_ge_cases loc (length (w_heap w))); [assumption|]. exfalso. apply NE. rewrite EB. now apply nth_overflow. }
        rewrite EB. now apply nth_error_nth'.
      * cbn [s_list]. intros loc' [= <-]. exact FR.
  - (* SortsOff *) apply (ODS d _ (request_step w req (SortsOff d)) eq_refl). intros x r NX NR R1. cbn. apply (rel_put w req d x r); auto; [|discriminate]. split; [exact (proj1 R1)|reflexivity].
  - (* SortInplace *) apply (ODS d _ (request_step w req (SortInplace d by_ given)) eq_refl). intros x r NX NR R1.
    destruct (parse_sort (w_heap w) x by_ given) as [[bl a]|] eqn:P; [|exact R]. cbn [fst snd request_step].
    assert (OK : ds_ok x) by exact (proj1 R1).
    pose proof (sort_ok value lexsort LC w x by_ given bl a OK A P) as SO. apply sorted_length in SO.
    set (y := if s_disp x then sorts_off x else x).
    assert (YI : s_items y = s_items x) by (unfold y; now destruct (s_disp x)). assert (YR : s_nrows y = s_nrows x) by (unfold y; now destruct (s_disp x)).
    assert (YL : s_list y = None).
    { unfold y. destruct (s_disp x) eqn:D; [reflexivity|]. destruct r as [ps|]; [|exact (proj2 R1)]. destruct R1 as (_ & _ & _ & _ & DD & _). congruence. }
    assert (YS : sort_lexsort lexsort y bl a = sort_lexsort lexsort x bl a) by (unfold sort_lexsort; now rewrite YI).
    rewrite update_fold_none by exact YL. apply (rel_put w req d x r); auto.
    + split; [|exact YL]. rewrite YI, YR, YS. apply ds_ok_take; [exact (proj1 OK)|exact SO].
    + cbn [s_list]. rewrite YL. discriminate.
  - (* SortCopy *) apply (ODS d _ (request_step w req (SortCopy d by_ given)) eq_refl). intros x r NX NR R1.
    destruct (parse_sort (w_heap w) x by_ given) as [[bl a]|] eqn:P; [|exact R]. cbn [fst snd request_step].
    assert (OK : ds_ok x) by exact (proj1 R1).
    pose proof (sort_ok value lexsort LC w x by_ given bl a OK A P) as SO. apply sorted_length in SO.
    apply (rel_new w req (w_heap w)); auto. split; [|reflexivity]. apply ds_ok_take; [exact (proj1 OK)|exact SO].
  - (* Rename *) apply (ODS d _ (request_step w req (Rename d old new)) eq_refl). intros x r NX NR R1.
    destruct (name_dec old new) as [->|NE].
    + cbn [fst snd request_step]. unfold on_req. rewrite (nth_req req d r NR).
      match goal with |- rel _ (set_nth d ?m req) => replace m with r end; [rewrite (set_nth_same req d r NR); exact R|].
      destruct r as [ps|]; [|reflexivity]. f_equal. rewrite <- (map_id ps) at 1. apply map_ext. intros [m b]. cbn [fst snd]. destruct (name_dec m new); congruence.
    + destruct (mem old (names (s_items x)) && negb (mem new (names (s_items x)))) eqn:B; [|exact R].
      apply andb_true_iff in B. destruct B as (B1 & B2). apply mem_in in B1. apply negb_true_iff, mem_not in B2. cbn [fst snd request_step]. unfold on_req. rewrite (nth_req req d r NR).
      set (ren := fun m => if name_dec m old then new else m).
      set (items := map (fun p => (if name_dec (fst p) old then new else fst p, snd p)) (s_items x)).
      assert (NI : map fst items = map ren (map fst (s_items x))) by (unfold items, ren; rewrite !map_map; reflexivity).
      assert (INJ : forall m m', m <> new -> m' <> new -> ren m = ren m' -> m = m').
      { intros m m' H1 H2. unfold ren. destruct (name_dec m old), (name_dec m' old); congruence. }
      assert (NDM : forall l, NoDup l -> ~ In new l -> NoDup (map ren l)).
      { clear -INJ. induction l as [|m l IH]; intros ND NI; cbn; [constructor|]. inversion ND; subst. constructor; [|apply IH; auto; intros H; apply NI; now right].
        intros H. apply in_map_iff in H. destruct H as (m' & E & I). apply INJ in E; [congruence| |]; intros ->; apply NI; [now right|now left]. }
      assert (OK' : forall l a b, ds_ok (mkDs items (s_nrows x) l a b)).
      { intros l a b. destruct R1 as ((ND & LEN) & _). split; cbn [s_items s_nrows]; [rewrite NI; now apply NDM|]. intros m c I. unfold items in I. apply in_map_iff in I. destruct I as ([m' c'] & E & I). injection E as <- <-. exact (LEN m' c' I). }
      destruct r as [ps|].
      * destruct R1 as (OK & P1 & P2 & P3 & P4 & P5 & loc & P6 & P7). rewrite P6. assert (B : loc < length (w_heap w)) by (apply nth_error_Some; congruence).
        unfold put_ds; cbn [w_heap w_ds w_cache]. rewrite (nth_error_nth _ _ [] P7). apply (rel_put w req d x (Some ps)); auto.
        -- intros d' y loc' N NY SY _. rewrite nth_error_upd' by exact B. destruct (Nat.eqb_spec loc' loc) as [->|]; [|reflexivity]. elim N. exact (SP d' d y x loc NY NX SY P6).
        -- split; [apply OK'|]. cbn [s_items s_disp s_asc s_list].
           assert (MP : map fst (map (fun p : name * bool => (if name_dec (fst p) old then new else fst p, snd p)) ps) = map ren (map fst ps)) by (unfold ren; rewrite !map_map; reflexivity).
           assert (MS : map snd (map (fun p : name * bool => (if name_dec (fst p) old then new else fst p, snd p)) ps) = map snd ps) by (rewrite map_map; reflexivity).
           rewrite MP, MS, map_length. split; [destruct ps; [congruence|discriminate]|]. split; [apply NDM; [exact P2|]; intros H; apply B2; now apply P3|].
           split; [intros n Hn; rewrite NI; apply in_map_iff in Hn; destruct Hn as (m & <- & Hm); apply in_map; now apply P3|]. split; [exact P4|]. split; [exact P5|].
           exists loc. split; [reflexivity|]. rewrite nth_error_upd' by exact B. now rewrite Nat.eqb_refl.
        -- cbn [s_list]. intros loc' [= <-]. exact (SELF d x NX loc P6).
      * destruct R1 as (OK & P6). rewrite P6. apply (rel_put w req d x None); auto; [|cbn; discriminate]. split; [apply OK'|reflexivity].
  - (* AddPrefix *) apply (ODS d _ (request_step w req (AddPrefix d p)) eq_refl). intros x r NX NR R1.
    set (items := map (fun q => ((p ++ fst q : name), snd q)) (s_items x)).
    assert (NI : @map (name * col) name fst items = map (fun m => p ++ m) (map fst (s_items x))) by (unfold items; rewrite !map_map; reflexivity).
    assert (NDM : forall l : list name, NoDup l -> NoDup (map (fun m => p ++ m) l)) by (intros l; apply NoDup_map_inj; intros a b; apply app_inv_head).
    assert (OK' : forall l a b, ds_ok (mkDs items (s_nrows x) l a b)).
    { intros l a b. destruct R1 as ((ND & LEN) & _). split; cbn [s_items s_nrows]; [rewrite NI; now apply NDM|]. intros m c I. unfold items in I. apply in_map_iff in I. destruct I as ([m' c'] & E & I). injection E as <- <-. exact (LEN m' c' I). }
    destruct r as [ps|].
    + destruct R1 as (OK & P1 & P2 & P3 & P4 & P5 & loc & P6 & P7). rewrite P6. unfold put_ds; cbn [fst snd request_step w_heap w_ds w_cache]. unfold on_req. rewrite (nth_req req d _ NR). rewrite (nth_error_nth _ _ [] P7).
      apply (rel_put w req d x (Some ps)); auto.
      * intros d' y loc' _ _ _ N. apply nth_error_app1. now apply nth_error_Some.
      * match goal with |- rel1 ?h ?y _ => assert (G : forall qs : list (name * bool), map fst qs = map (fun m => p ++ m) (map fst ps) -> map snd qs = map snd ps -> rel1 h y (Some qs)); [|apply G; rewrite !map_map; reflexivity] end.
        intros qs MP MS. assert (ML : length qs = length ps) by (rewrite <- (map_length snd qs), MS; apply map_length). split; [apply OK'|]. cbn [s_items s_disp s_asc s_list].
        rewrite MP, MS, ML. split; [destruct ps, qs; try congruence; discriminate|]. split; [now apply NDM|].
        split; [intros n Hn; rewrite NI; apply in_map_iff in Hn; destruct Hn as (m & <- & Hm); apply in_map; now apply P3|]. split; [exact P4|]. split; [exact P5|].
        exists (length (w_heap w)). split; [reflexivity|]. rewrite nth_error_app2 by lia. now rewrite Nat.sub_diag.
      * cbn [s_list]. intros loc' [= <-] d' y N NY SY. destruct (at_some (w_ds w) d' req L y NY) as (q & Hq). destruct (RR d' y q NY Hq) as (_ & Q). destruct q as [qs|]; [|congruence].
        destruct Q as (_ & _ & _ & _ & _ & l2 & E1 & E2). rewrite SY in E1. injection E1 as <-. assert (length (w_heap w) < length (w_heap w)) by (apply nth_error_Some; congruence). lia.
    + destruct R1 as (OK & P6). rewrite P6. unfold put_ds; cbn [fst snd request_step w_heap w_ds w_cache]. unfold on_req. rewrite (nth_req req d _ NR). apply (rel_put w req d x None); auto; [|cbn; discriminate]. split; [apply OK'|reflexivity].
  - (* StrReplace *) apply (ODS d _ (request_step w req (StrReplace d f)) eq_refl). intros x r NX NR R1. specialize (A x NX).
    destruct (negb _) eqn:B; [exact R|]. apply negb_false_iff, Nat.eqb_eq in B. rewrite A. unfold put_ds; cbn [fst snd request_step w_heap w_ds w_cache].
    rewrite <- (set_nth_same req d r NR). apply (rel_put w req d x r); auto; [|cbn; discriminate].
    assert (r = None) by (destruct r; [destruct R1 as (_ & _ & _ & _ & _ & _ & l9 & E & _); congruence|reflexivity]). subst r. split; [|reflexivity].
    destruct R1 as ((ND & LEN) & _). split; cbn [s_items s_nrows].
    + rewrite map_fst_combine by (unfold names; now rewrite !map_length).
      apply (@NoDup_incl_NoDup _ (nodup name_dec (map f (names (s_items x))))); [apply NoDup_nodup|lia|]. intros z Hz. now apply nodup_In in Hz.
    + intros n c I. apply in_combine_r in I. apply in_map_iff in I. destruct I as ([m c'] & <- & I). exact (LEN m c' I).
  - (* DelCol *) apply (ODS d _ (request_step w req (DelCol d n)) eq_refl). intros x r NX NR R1.
    destruct (mem n (names (s_items x))); [|exact R]. unfold put_ds; cbn [fst snd request_step w_heap w_ds w_cache]. unfold on_req. rewrite (nth_req req d r NR).
    set (items := filter (fun p => if name_dec (fst p) n then false else true) (s_items x)).
    assert (OK' : ds_ok (mkDs items (s_nrows x) (s_list x) (s_asc x) (s_disp x))).
    { destruct R1 as ((ND & LEN) & _). split; cbn [s_items s_nrows].
      - unfold items. rewrite (map_fst_filter (fun m => if name_dec m n then false else true)). now apply NoDup_filter.
      - intros m c I. apply filter_In in I. exact (LEN m c (proj1 I)). }
    assert (SUB : forall m, m <> n -> In m (map fst (s_items x)) -> In m (map fst items)).
    { intros m N I. unfold items. rewrite (map_fst_filter (fun m => if name_dec m n then false else true)). apply filter_In. split; [exact I|]. now destruct (name_dec m n). }
    destruct (rel1_update (w_heap w) x r n items R1 OK' SUB) as (Q1 & Q2). apply (rel_put w req d x r); auto.
    intros loc SL. destruct Q2 as [Q2|Q2]; [|congruence]. apply (SELF d x NX). congruence.
  - (* SetCol *) apply (ODS d _ (request_step w req (SetCol d n c)) eq_refl). intros x r NX NR R1.
    destruct (length (c_bits c) =? s_nrows x) eqn:B; [|exact R]. apply Nat.eqb_eq in B. unfold put_ds; cbn [fst snd request_step w_heap w_ds w_cache]. unfold on_req. rewrite (nth_req req d r NR).
    assert (OK' : ds_ok (mkDs (dset n c (s_items x)) (s_nrows x) (s_list x) (s_asc x) (s_disp x))).
    { destruct R1 as ((ND & LEN) & _). split; cbn [s_items s_nrows]; [now apply dset_nodup|]. intros m c' I.
      apply dget_in in I; [|now apply dset_nodup]. rewrite dget_dset in I. destruct (name_dec n m); [now injection I as <-|]. apply (LEN m). now apply dget_some_in. }
    assert (SUB : forall m, m <> n -> In m (map fst (s_items x)) -> In m (map fst (dset n c (s_items x)))).
    { intros m _ I. rewrite dset_names. destruct (mem n _); [exact I|]. apply in_or_app. now left. }
    destruct (rel1_update (w_heap w) x r n (dset n c (s_items x)) R1 OK' SUB) as (Q1 & Q2). apply (rel_put w req d x r); auto.
    intros loc SL. destruct Q2 as [Q2|Q2]; [|congruence]. apply (SELF d x NX). congruence.
  - (* EditCol *) apply (ODS d _ (request_step w req (EditCol d n bits)) eq_refl). intros x r NX NR R1.
    destruct (dget n (s_items x)) as [c|] eqn:G; [|exact R]. destruct (length bits =? length (c_bits c)) eqn:B; [|exact R]. apply Nat.eqb_eq in B. unfold put_ds; cbn [fst snd request_step w_heap w_ds w_cache].
    rewrite <- (set_nth_same req d r NR). apply (rel_put w req d x r); auto; [|intros loc SL; now apply (SELF d x NX)].
    assert (NM : map fst (dset n (mkCol (c_type c) bits) (s_items x)) = map fst (s_items x)).
    { rewrite dset_names. assert (I : In n (map fst (s_items x))) by (apply dget_some_in in G; change n with (fst (n, c)); now apply in_map). now rewrite (proj2 (mem_in n _) I). }
    destruct R1 as ((ND & LEN) & Q). split.
    + split; cbn [s_items s_nrows]; [now rewrite NM|]. intros m c' I. apply dget_in in I; [|now rewrite NM]. rewrite dget_dset in I.
      destruct (name_dec n m); [injection I as <-; cbn; rewrite B; apply (LEN n); now apply dget_some_in|apply (LEN m); now apply dget_some_in].
    + destruct r as [ps|]; [|exact Q]. cbn [s_items s_disp s_asc s_list]. rewrite NM. exact Q.
  - (* Copy *) apply (ODS d _ (request_step w req (Copy d rows cols)) eq_refl). intros x r NX NR R1.
    set (items := match rows with Some _ => _ | None => _ end). set (nrows := match rows with Some _ => _ | None => _ end). cbn zeta.
    assert (NI : @map (name * col) name fst items = filter (fun m => mem m cols) (map fst (s_items x))).
    { unfold items. rewrite <- (map_fst_filter (fun m => mem m cols)). destruct rows; [apply names_take|reflexivity]. }
    assert (OK' : forall l a b, ds_ok (mkDs items nrows l a b)).
    { intros l a b. destruct R1 as ((ND & LEN) & _). unfold items, nrows.
      assert (NDF : NoDup (map fst (filter (fun p : name * col => mem (fst p) cols) (s_items x)))) by (rewrite (map_fst_filter (fun m => mem m cols)); now apply NoDup_filter).
      destruct rows as [rs|]; [now apply ds_ok_take|]. split; cbn [s_items s_nrows]; [exact NDF|]. intros m c I. apply filter_In in I. exact (LEN m c (proj1 I)). }
    destruct r as [ps|].
    2:{ unfold copy_attributes. rewrite (proj2 R1). cbn [fst snd request_step]. rewrite (nth_req req d _ NR). apply (rel_new w req (w_heap w)); auto. split; [apply OK'|reflexivity]. }
    pose proof R1 as R2. destruct R2 as (_ & P1 & P2 & P3 & P4 & P5 & loc & P6 & P7). specialize (A x loc NX P6). rewrite (nth_error_nth _ _ [] P7) in A.
    unfold copy_attributes. rewrite P6. rewrite (nth_error_nth _ _ [] P7). cbn [s_items s_nrows s_list s_asc].
    assert (PR : forall n, In n (map fst ps) -> mem n (names items) = mem n cols).
    { intros n Hn. unfold names. rewrite NI. destruct (mem n cols) eqn:E.
      - apply mem_in. apply filter_In. split; [now apply P3|exact E].
      - apply mem_not. intros I. apply filter_In in I. destruct I as (_ & I). congruence. }
    destruct A as [A|A].
    + assert (PT : forall n, In n (map fst ps) -> mem n (names items) = true) by (intros n Hn; rewrite PR by exact Hn; apply mem_in; now apply A).
      assert (RQ : filter (fun p : name * bool => if in_dec name_dec (fst p) cols then true else false) ps = ps).
      { apply forallb_filter_id. apply forallb_forall. intros p Hp. destruct (in_dec name_dec (fst p) cols) as [|N]; [reflexivity|]. elim N. apply A. now apply in_map. }
      assert (PAIR : forall l, dirs (AscArr l) (length ps) = rev (map snd ps) -> filter (fun p : name * bool => mem (fst p) (names items)) (combine (map fst ps) l) = combine (map fst ps) l /\ map fst (combine (map fst ps) l) = map fst ps /\ map snd (combine (map fst ps) l) = l).
      { intros l E. cbn in E. assert (LL : length (map fst ps) = length l) by (rewrite E, rev_length, !map_length; reflexivity). split; [|split].
        - apply forallb_filter_id. apply forallb_forall. intros [n b] I. apply in_combine_l in I. now apply PT.
        - now apply map_fst_combine.
        - clear - LL. revert l LL. generalize (map fst ps). induction l as [|a l IH]; intros [|b l'] LL; try discriminate; [reflexivity|]. cbn. f_equal. apply IH. now injection LL. }
      assert (FIN : forall l, dirs (AscArr l) (length ps) = rev (map snd ps) ->
         rel (mkW (w_heap w ++ [map fst ps]) (w_ds w ++ [mkDs items nrows (Some (length (w_heap w))) (AscList l) (s_disp x)]) (w_cache w)) (req ++ [Some ps])).
      { intros l E. apply rel_new_gen; [exact R|intros k Hk; apply nth_error_app1; now apply nth_error_Some| |].
        - split; [apply OK'|]. cbn [s_items s_disp s_asc s_list]. do 2 (split; [assumption|]). split; [|split; [exact P4|split; [exact E|]]].
          + intros n Hn. rewrite NI. apply filter_In. split; [now apply P3|]. apply mem_in. now apply A.
          + exists (length (w_heap w)). split; [reflexivity|]. rewrite nth_error_app2 by lia. now rewrite Nat.sub_diag.
        - cbn [s_list]. intros k [= <-] d' y NY SY. destruct (at_some (w_ds w) d' req L y NY) as (q & Hq). destruct (RR d' y q NY Hq) as (_ & Q). destruct q as [qs|]; [|congruence].
          destruct Q as (_ & _ & _ & _ & _ & l2 & E1 & E2). rewrite SY in E1. injection E1 as <-. assert (length (w_heap w) < length (w_heap w)) by (apply nth_error_Some; congruence). lia. }
      assert (LIST : forall l, dirs (AscArr l) (length ps) = rev (map snd ps) -> 
         rel (fst (match filter (fun p : name * bool => mem (fst p) (names items)) (combine (map fst ps) l) with [] => (w, RError) | p :: q => (new_ds (mkW (w_heap w ++ [map fst (p :: q)]) (w_ds w) (w_cache w)) (mkDs items nrows (Some (length (w_heap w))) (AscList (map snd (p :: q))) (s_disp x)), RDone) end)) (req ++ [Some ps])
         /\ filter (fun p : name * bool => mem (fst p) (names items)) (combine (map fst ps) l) <> []).
      { intros l E. destruct (PAIR l E) as (F1 & F2 & F3). rewrite F1. destruct (combine (map fst ps) l) as [|p q] eqn:C; [destruct ps; [congruence|discriminate]|].
        split; [|discriminate]. rewrite F2, F3. apply (FIN l E). }
      assert (NEF : filter (fun n => mem n (names items)) (map fst ps) <> []).
      { destruct ps as [|[n b] ps]; [congruence|]. cbn [map filter fst]. rewrite (PT n) by now left. discriminate. }
      assert (RQ' : forall w2 : world * out, snd w2 = RDone -> request_step w req (Copy d rows cols) (snd w2) = req ++ [Some ps]).
      { intros [w2 o2] E. cbn in E. subst. cbn [snd request_step]. rewrite (nth_req req d _ NR), RQ. destruct ps; [congruence|reflexivity]. }
      destruct (s_asc x) as [b|l|l].
      * destruct (filter _ (map fst ps)) as [|n0 q0]; [congruence|exact R].
      * destruct (LIST l P5) as (G1 & G2). destruct (filter _ (combine _ _)) as [|p q]; [congruence|]. match goal with |- rel (fst ?v) _ => rewrite (RQ' v eq_refl) end. exact G1.
      * destruct (LIST l P5) as (G1 & G2). destruct (filter _ (combine _ _)) as [|p q]; [congruence|]. match goal with |- rel (fst ?v) _ => rewrite (RQ' v eq_refl) end. exact G1.
    + assert (PF : forall n, In n (map fst ps) -> mem n (names items) = false) by (intros n Hn; rewrite PR by exact Hn; apply mem_not; now apply A).
      assert (NILF : forall X (g : X -> bool) l, (forall v, In v l -> g v = false) -> filter g l = []).
      { clear. induction l as [|v l IH]; intros H; [reflexivity|]. cbn. rewrite (H v) by now left. apply IH. intros v' I. apply H. now right. }
      assert (RQ : filter (fun p : name * bool => if in_dec name_dec (fst p) cols then true else false) ps = []).
      { apply NILF. intros p Hp. destruct (in_dec name_dec (fst p) cols) as [I|]; [|reflexivity]. elim (A (fst p)); [now apply in_map|exact I]. }
      assert (FIN : rel (mkW (w_heap w) (w_ds w ++ [mkDs items nrows None (AscAll true) (s_disp x)]) (w_cache w)) (req ++ [None])).
      { apply (rel_new w req (w_heap w)); auto. split; [apply OK'|reflexivity]. }
      destruct (s_asc x) as [b|l|l].
      * rewrite (NILF _ _ (map fst ps)) by exact PF. cbn [fst snd request_step]. rewrite (nth_req req d _ NR), RQ. exact FIN.
      * rewrite NILF by (intros [n b] I; apply in_combine_l in I; now apply PF). cbn [fst snd request_step]. rewrite (nth_req req d _ NR), RQ. exact FIN.
      * rewrite NILF by (intros [n b] I; apply in_combine_l in I; now apply PF). cbn [fst snd request_step]. rewrite (nth_req req d _ NR), RQ. exact FIN.
  - (* Load *) destruct A.
  - (* Str *) apply (ODS d _ (request_step w req (Str d)) eq_refl). intros x r NX NR R1. unfold display_index. destruct (s_disp x); [|exact R]. unfold sorted_index.
    destruct r as [ps|]; [rewrite (info_some _ _ _ R1)|rewrite (info_none _ _ R1)]; destruct (get_sorted_row_index _ _ _ _ _ _ _); cbn; rewrite upd_same by exact NX; exact R.
  - (* Repr *) apply (ODS d _ (request_step w req (Repr d)) eq_refl). intros x r NX NR R1. unfold display_index.
    assert (FIN : forall c, rel (mkW (w_heap w) (upd d (sorts_off x) (w_ds w)) c) (set_nth d None req)).
    { intros c. apply (rel_cache (mkW (w_heap w) (upd d (sorts_off x) (w_ds w)) (w_cache w))). apply (rel_put w req d x r); auto; [|cbn; discriminate]. split; [exact (proj1 R1)|reflexivity]. }
    destruct (s_disp x).
    + unfold sorted_index. destruct r as [ps|]; [rewrite (info_some _ _ _ R1)|rewrite (info_none _ _ R1)]; destruct (get_sorted_row_index _ _ _ _ _ _ _); cbn; rewrite upd_same by exact NX; rewrite NX; apply FIN.
    + rewrite NX. apply FIN.
  - (* SortedRows *) apply (ODS d _ (request_step w req (SortedRows d)) eq_refl). intros x r NX NR R1. unfold sorted_index.
    destruct r as [ps|]; [rewrite (info_some _ _ _ R1)|rewrite (info_none _ _ R1)]; destruct (get_sorted_row_index _ _ _ _ _ _ _); cbn; rewrite upd_same by exact NX; exact R.
  - exact R.
  - exact R.
Qed.

(** the requests after a history *)
Notation requests := (requests crc lexsort).
Notation all_allowed := (all_allowed crc lexsort).
Lemma run_rel ops : forall w req, rel w req -> all_allowed w ops -> rel (run ops w) (requests w req ops).
Proof.
  induction ops as [|o ops IH]; intros w req R A; [exact R|]. destruct A as (A1 & A2). cbn [SortModel.run fold_left requests]. apply IH; [|exact A2]. now apply step_rel.
Qed.
Lemma rel_init : rel init [].
Proof. split; [reflexivity|]. split; intros [|d]; intros; discriminate. Qed.

(** the answer of a display without cache *)
Lemma answer_ok w req d x r : rel w req -> nth_error (w_ds w) d = Some x -> nth_error req d = Some r ->
  forall o, In o [Str d; Repr d; SortedRows d] ->
  match r with
  | None => snd (step (forget w) o) = RIdx None
  | Some ps => exists idx, snd (step (forget w) o) = RIdx (Some idx) /\ sorted_by value (key_cols (s_items x) ps) idx (s_nrows x)
  end.
Proof.
  intros (L & RR & SP) NX NR o IO. pose proof (RR d x r NX NR) as R1.
  assert (SI : forall y, y = forget w -> match r with
     | None => snd (sorted_index crc lexsort y d x) = None
     | Some ps => exists idx, snd (sorted_index crc lexsort y d x) = Some idx /\ sorted_by value (key_cols (s_items x) ps) idx (s_nrows x)
     end).
  { intros y ->. unfold sorted_index. cbn [forget w_heap w_cache w_ds]. destruct r as [ps|].
    - rewrite (info_some _ _ _ R1). pose proof (order_ok value lexsort LC _ x ps R1) as Q. destruct ps as [|p ps]; [destruct R1 as (_ & N & _); congruence|].
      cbn [map]. cbn [get_sorted_row_index cached cget]. eexists. split; [reflexivity|]. exact Q.
    - rewrite (info_none _ _ R1). reflexivity. }
  specialize (SI (forget w) eq_refl).
  assert (DI : match r with
     | None => snd (display_index crc lexsort (forget w) d x) = None
     | Some ps => exists idx, snd (display_index crc lexsort (forget w) d x) = Some idx /\ sorted_by value (key_cols (s_items x) ps) idx (s_nrows x)
     end).
  { unfold display_index. destruct r as [ps|]; [destruct R1 as (_ & _ & _ & _ & -> & _); exact SI|]. destruct (s_disp x); [exact SI|reflexivity]. }
  destruct IO as [<-|[<-|[<-|[]]]]; unfold SortModel.step, on_ds; cbn [forget w_ds]; rewrite NX.
  - destruct (display_index crc lexsort (forget w) d x) as [w' i]. cbn in *. destruct r; [destruct DI as (idx & -> & Q); eauto|now rewrite DI].
  - destruct (display_index crc lexsort (forget w) d x) as [w' i]. cbn in *. destruct r; [destruct DI as (idx & -> & Q); eauto|now rewrite DI].
  - destruct (sorted_index crc lexsort (forget w) d x) as [w' i]. cbn in *. destruct r; [destruct SI as (idx & -> & Q); eauto|now rewrite SI].
Qed.
End Step.
