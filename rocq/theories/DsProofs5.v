(** stacking datasets, concat_columns, iterrows, trim *)
From Coq Require Import List Arith Bool Lia.
From Verif Require Import FlattenModel FlattenProofs MergeModel MergeFacts MergeColsProofs2 GroupingModel GroupFacts MergeColsProofs DsModel DsSpec DsProofs DsProofs3 DsProofs4.
Import ListNotations.

(** ** stacking *)
Section Hstack.
Context {V : Type}.
Variable inv : name -> V.
Notation dset_ := (@dset_ V).
Definition rows_of (d : dset_) : nat := match d_nrows d with Some n => n | None => 0 end.
Definition no_cols (d : dset_) : Prop := d_nrows d = None -> d_cols d = [].
Lemma add_gap_ok n k cl : let '(k', cl') := add_gap inv n k cl in concat cl' ++ repeat (inv n) k' = concat cl ++ repeat (inv n) k /\ k' = 0.
Proof.
  unfold add_gap. destruct (0 <? k) eqn:E.
  - rewrite concat_app. cbn. now rewrite !app_nil_r.
  - apply Nat.ltb_ge in E. assert (k = 0) by lia. subst. auto.
Qed.
Lemma stack_steps n l : forall k cl, (forall d, In d l -> no_cols d) ->
  let '(k', cl') := fold_left (stack_step inv n) l (k, cl) in
  concat cl' ++ repeat (inv n) k' = concat cl ++ repeat (inv n) k ++ concat (map (fun d => piece inv n (rows_of d) (d_cols d)) l).
Proof.
  induction l as [|d l IH]; intros k cl H; cbn [fold_left map concat]; [now rewrite app_nil_r|].
  assert (H' : forall d, In d l -> no_cols d) by (intros x Hx; apply H; now right). specialize (H d (or_introl eq_refl)).
  unfold stack_step at 2. unfold rows_of at 1. unfold no_cols in H. destruct (d_nrows d) as [r|] eqn:ER.
  - unfold piece at 1. destruct (dget n (d_cols d)) as [c|] eqn:EC.
    + pose proof (add_gap_ok n k cl) as G. destruct (add_gap inv n k cl) as [k1 cl1]. destruct G as (G & ->). specialize (IH 0 (cl1 ++ [c]) H'). destruct (fold_left _ l _) as [k' cl'].
      rewrite IH, concat_app. cbn [concat repeat app]. rewrite app_nil_r. cbn [repeat] in G. rewrite app_nil_r in G. rewrite G, <- !app_assoc. reflexivity.
    + specialize (IH (k + r) cl H'). destruct (fold_left _ l _) as [k' cl']. rewrite IH, repeat_app, <- !app_assoc. reflexivity.
  - rewrite H by reflexivity. cbn [piece dget repeat app]. unfold piece at 1. cbn [dget repeat app]. specialize (IH k cl H'). destruct (fold_left _ l _) as [k' cl']. exact IH.
Qed.
Lemma stack_col_ok n l : (forall d, In d l -> no_cols d) -> stack_col inv l n = concat (map (fun d => piece inv n (rows_of d) (d_cols d)) l).
Proof.
  intros H. unfold stack_col. pose proof (stack_steps n l 0 [] H) as S1. destruct (fold_left _ l _) as [k cl]. cbn [concat repeat app] in S1.
  pose proof (add_gap_ok n k cl) as G. destruct (add_gap inv n k cl) as [k' cl']. destruct G as (G & ->). cbn [repeat snd] in *. rewrite app_nil_r in G. congruence.
Qed.
Lemma all_names_ok (l : list dset_) : all_names l = first_seen (concat (map (fun d => names (d_cols d)) l)).
Proof.
  unfold all_names. transitivity (fold_left (fun ns n => if mem n ns then ns else ns ++ [n]) (concat (map (fun d => names (d_cols d)) l)) []).
  - match goal with |- fold_left ?f _ _ = fold_left ?g _ _ => cut (forall ns, fold_left f l ns = fold_left g (concat (map (fun d => names (d_cols d)) l)) ns) end; [intros A; apply A|].
    induction l as [|d l IH]; intros ns; cbn [fold_left map concat]; [reflexivity|]. now rewrite fold_left_app, IH.
  - rewrite collect_names. cbn. apply fresh_nil.
Qed.
Lemma hstack_ok (l : list dset_) : 2 <= length l -> (forall d, In d l -> no_cols d) ->
  names (d_cols (hstack_datasets inv l)) = first_seen (concat (map (fun d => names (d_cols d)) l)) /\
  forall n, In n (names (d_cols (hstack_datasets inv l))) ->
    dget n (d_cols (hstack_datasets inv l)) = Some (concat (map (fun d => piece inv n (rows_of d) (d_cols d)) l)).
Proof.
  intros L H. destruct l as [|d1 [|d2 l]]; [cbn in L; lia|cbn in L; lia|]. set (ds := d1 :: d2 :: l) in *.
  change (hstack_datasets inv ds) with (let t := map (fun n => (n, stack_col inv ds n)) (all_names ds) in mkD (nrows_of t) t). cbn [d_cols]. unfold names at 1 3. rewrite map_map. cbn [fst]. rewrite map_id.
  split; [apply all_names_ok|]. intros n Hn. rewrite <- stack_col_ok by exact H. apply dget_in.
  - rewrite map_map. cbn [fst]. rewrite map_id, all_names_ok. apply first_seen_nodup.
  - apply (in_map (fun n => (n, stack_col inv ds n))). exact Hn.
Qed.
End Hstack.

(** ** concat_columns *)
Section Concat.
Context {V : Type}.
Notation table := (table V).
Lemma dget_app {X} n (a b : list (name * X)) : dget n (a ++ b) = match dget n a with Some v => Some v | None => dget n b end.
Proof. induction a as [|[q w] a IH]; cbn; [reflexivity|]. destruct (name_dec q n); [reflexivity|exact IH]. Qed.
Lemma first_having_concat (ts : list table) n : first_having ts n = dget n (concat ts).
Proof. induction ts as [|t ts IH]; cbn; [reflexivity|]. rewrite dget_app, IH. reflexivity. Qed.
Lemma dget_rev {X} n (d : list (name * X)) : NoDup (map fst d) -> dget n (rev d) = dget n d.
Proof.
  intros ND. destruct (dget n d) as [v|] eqn:E.
  - apply dget_in; [rewrite map_rev; now apply NoDup_rev|]. rewrite <- in_rev. now apply dget_some_in.
  - apply dget_none. rewrite map_rev, <- in_rev. now apply dget_none.
Qed.
Lemma rev_concat {X} (ls : list (list X)) : rev (concat ls) = concat (rev (map (@rev X) ls)).
Proof. induction ls as [|l ls IH]; [reflexivity|]. cbn [concat map rev]. rewrite rev_app_distr, concat_app, IH. cbn. now rewrite app_nil_r. Qed.
Lemma first_having_rev (us : list (list (name * list V))) n : (forall t, In t us -> NoDup (map fst t)) -> first_having us n = first_having (map (@rev _) us) n.
Proof.
  induction us as [|t r IH]; intros H; [reflexivity|]. cbn [map first_having]. rewrite dget_rev by (apply H; now left). rewrite IH by (intros x Hx; apply H; now right). reflexivity.
Qed.
Lemma last_having_concat (ts : list (list (name * list V))) n : (forall t, In t ts -> NoDup (map fst t)) -> last_having ts n = dget n (rev (concat ts)).
Proof.
  intros H. unfold last_having. rewrite rev_concat, <- map_rev, <- first_having_concat. apply first_having_rev. intros t Ht. apply H. now apply in_rev.
Qed.
Lemma dup_after (ret c : list name) n : mem n ret = true -> ~ NoDup (ret ++ n :: c).
Proof. intros M H. apply mem_in in M. apply NoDup_remove_2 in H. apply H. apply in_or_app. now left. Qed.
Lemma cc_loop_ok od om items : od <> DupRaise -> forall (ret : table) dups, NoDup (names ret) ->
  exists ret' dups', cc_loop od om items ret dups = Some (ret', dups') /\
    names ret' = names ret ++ fresh (names ret) (first_seen (names items)) /\
    (forall n, dget n ret' = match od with
       | DupLast => match dget n (rev items) with Some c => Some c | None => dget n ret end
       | _ => match dget n ret with Some c => Some c | None => dget n items end end) /\
    (om = MisIgnore -> dups' = dups) /\ (om <> MisIgnore -> (dups' = [] <-> dups = [] /\ NoDup (names ret ++ names items))).
Proof.
  intros OD. induction items as [|[c a] items IH]; intros ret dups ND; cbn [cc_loop].
  - exists ret, dups. split; [reflexivity|]. split; [cbn; now rewrite app_nil_r|]. split; [intros n; destruct od; cbn; destruct (dget n ret); reflexivity|].
    cbn. rewrite app_nil_r. tauto.
  - change (names ((c, a) :: items)) with (c :: names items). rewrite fresh_cons. destruct (mem c (names ret)) eqn:M.
    + pose proof M as MI. apply mem_in in MI. destruct (dget_has c ret MI) as (w & Hw).
      set (dups1 := match om with MisIgnore => dups | _ => c :: dups end).
      set (ret1 := match od with DupLast => dset c a ret | _ => ret end).
      assert (N1 : names ret1 = names ret) by (unfold ret1, names; destruct od; try reflexivity; rewrite dset_names; unfold names in M; now rewrite M).
      destruct (IH ret1 dups1) as (ret' & dups' & E & EN & EG & EI & ED); [now rewrite N1|]. exists ret', dups'.
      split; [unfold ret1, dups1 in E; destruct od; [congruence|exact E|exact E]|]. rewrite N1 in EN. split; [exact EN|]. split; [|split].
      * intros n. rewrite EG. unfold ret1. destruct od; [congruence| |].
        -- cbn [dget]. destruct (name_dec c n) as [->|]; [now rewrite Hw|reflexivity].
        -- cbn [rev]. rewrite dget_app. cbn [dget]. rewrite dget_dset. destruct (dget n (rev items)); [reflexivity|]. destruct (name_dec c n); reflexivity.
      * intros O. rewrite EI by exact O. unfold dups1. now rewrite O.
      * intros O. rewrite ED by exact O. unfold dups1. destruct om; try congruence; (split; [intros (Q & _); discriminate|intros (_ & Q); elim (dup_after (names ret) (names items) c M Q)]).
    + assert (N1 : names (dset c a ret) = names ret ++ [c]) by (unfold names; rewrite dset_names; unfold names in M; now rewrite M).
      assert (ND1 : NoDup (names (dset c a ret))) by (apply dset_nodup; exact ND).
      destruct (IH (dset c a ret) dups ND1) as (ret' & dups' & E & EN & EG & EI & ED). exists ret', dups'. split; [exact E|]. rewrite N1 in EN, ED. rewrite <- app_assoc in EN, ED. split; [exact EN|]. split; [|split; [exact EI|exact ED]].
      intros n. rewrite EG. apply mem_not in M. apply dget_none in M. destruct od; [congruence| |].
      * rewrite dget_dset. cbn [dget]. destruct (name_dec c n) as [->|]; [now rewrite M|reflexivity].
      * cbn [rev]. rewrite dget_app, dget_dset. cbn [dget]. destruct (dget n (rev items)); [reflexivity|]. destruct (name_dec c n); reflexivity.
Qed.
Lemma cc_raise om items : forall (ret : table) dups, NoDup (names ret) ->
  (NoDup (names ret ++ names items) -> exists t, cc_loop DupRaise om items ret dups = Some (t, dups) /\ t = ret ++ items) /\
  (~ NoDup (names ret ++ names items) -> cc_loop DupRaise om items ret dups = None).
Proof.
  induction items as [|[c a] items IH]; intros ret dups ND; cbn [cc_loop].
  - cbn. rewrite !app_nil_r. split; [intros _; eauto|contradiction].
  - change (names ((c, a) :: items)) with (c :: names items). destruct (mem c (names ret)) eqn:M.
    + split; [intros Q; elim (dup_after _ _ _ M Q)|reflexivity].
    + assert (N1 : names (dset c a ret) = names ret ++ [c]) by (unfold names; rewrite dset_names; unfold names in M; now rewrite M).
      assert (ND1 : NoDup (names (dset c a ret))) by (apply dset_nodup; exact ND). destruct (IH (dset c a ret) dups ND1) as (I1 & I2).
      rewrite N1, <- app_assoc in I1, I2. split; [|exact I2]. intros Q. destruct (I1 Q) as (t & E & ->). eexists. split; [exact E|].
      apply mem_not in M. rewrite dset_fresh by exact M. now rewrite <- app_assoc.
Qed.
Lemma names_concat (ts : list table) : names (concat ts) = concat (map names ts).
Proof. unfold names. now rewrite concat_map. Qed.
Lemma nodup_names_dec (l : list name) : {NoDup l} + {~ NoDup l}.
Proof. apply ListDec.NoDup_dec, name_dec. Qed.

Section CC.
Variable dsets : list (nat * table).
Variable r : nat.
Hypothesis ROWS : forall p, In p dsets -> fst p = r.
Hypothesis NE : dsets <> [].
Hypothesis NDS : forall p, In p dsets -> NoDup (names (snd p)).
Definition all_cc : list name := concat (map (fun p => names (snd p)) dsets).
Lemma all_cc_eq : names (concat (map snd dsets)) = all_cc.
Proof. rewrite names_concat, map_map. reflexivity. Qed.
Lemma cc_unfold do_copy od om : concat_columns dsets do_copy od om =
  if (length dsets =? 1) && negb do_copy then CcOk (snd (hd (0, []) dsets)) false
  else match cc_loop od om (concat (map snd dsets)) [] [] with
       | None => CcKeyError
       | Some (ret, dups) => match om, dups with MisRaise, _ :: _ => CcRuntimeError | MisWarn, _ :: _ => CcOk ret true | _, _ => CcOk ret false end
       end.
Proof.
  unfold concat_columns. destruct dsets as [|[r0 d] rest] eqn:E; [congruence|]. cbn [hd snd]. destruct ((length ((r0, d) :: rest) =? 1) && negb do_copy); [reflexivity|].
  replace (forallb (fun p => fst p =? r0) rest) with true; [reflexivity|]. symmetry. apply forallb_forall. intros p Hp. apply Nat.eqb_eq.
  pose proof (ROWS (r0, d) (or_introl eq_refl)) as Q1. pose proof (ROWS p (or_intror Hp)) as Q2. cbn [fst] in Q1. congruence.
Qed.
Lemma one_set : length dsets = 1 -> exists d, dsets = [d].
Proof. destruct dsets as [|d [|? ?]]; cbn; intros H; try discriminate. eauto. Qed.
Lemma cc_keep do_copy od om : od <> DupRaise -> (om = MisRaise -> NoDup all_cc) ->
  exists t w, concat_columns dsets do_copy od om = CcOk t w /\ names t = first_seen all_cc /\
    forall n, dget n t = match od with DupLast => last_having (map snd dsets) n | _ => first_having (map snd dsets) n end.
Proof.
  intros OD OM. rewrite cc_unfold. destruct ((length dsets =? 1) && negb do_copy) eqn:E1.
  - apply andb_true_iff in E1. destruct E1 as (E1 & _). apply Nat.eqb_eq in E1. destruct (one_set E1) as (d & E). unfold all_cc. rewrite E. cbn [hd map concat snd]. exists (snd d), false.
    split; [reflexivity|]. rewrite app_nil_r. assert (In d dsets) by (rewrite E; now left). split; [symmetry; apply first_seen_id; now apply NDS|].
    intros n. destruct od; unfold last_having; cbn; destruct (dget n (snd d)); reflexivity.
  - destruct (cc_loop_ok od om (concat (map snd dsets)) OD [] [] (NoDup_nil _)) as (t & dups & E & EN & EG & EI & ED). rewrite E. cbn [names map app] in EN. rewrite fresh_nil, all_cc_eq in EN.
    assert (GG : forall n, dget n t = match od with DupLast => last_having (map snd dsets) n | _ => first_having (map snd dsets) n end).
    { intros n. rewrite EG. cbn [dget]. destruct od; [congruence| |].
      - symmetry. apply first_having_concat.
      - rewrite last_having_concat; [destruct (dget n _); reflexivity|]. intros x Hx. apply in_map_iff in Hx. destruct Hx as (p & <- & Hp). now apply NDS. }
    destruct om.
    + assert (dups = []) as ->.
      { apply ED; [discriminate|]. split; [reflexivity|]. cbn [names map app]. rewrite all_cc_eq. now apply OM. }
      exists t, false. auto.
    + destruct dups; [exists t, false; auto|exists t, true; auto].
    + exists t, false. auto.
Qed.
Lemma cc_mismatch do_copy od : od <> DupRaise -> ~ NoDup all_cc -> concat_columns dsets do_copy od MisRaise = CcRuntimeError.
Proof.
  intros OD ND. rewrite cc_unfold. destruct ((length dsets =? 1) && negb do_copy) eqn:E1.
  - apply andb_true_iff in E1. destruct E1 as (E1 & _). apply Nat.eqb_eq in E1. destruct (one_set E1) as (d & E). elim ND. unfold all_cc. rewrite E. cbn. rewrite app_nil_r. apply NDS. rewrite E. now left.
  - destruct (cc_loop_ok od MisRaise (concat (map snd dsets)) OD [] [] (NoDup_nil _)) as (t & dups & E & EN & EG & EI & ED). rewrite E. destruct dups; [|reflexivity].
    elim ND. rewrite <- all_cc_eq. apply (proj1 (ED ltac:(discriminate)) eq_refl).
Qed.
Lemma cc_dup_raise do_copy om : (NoDup all_cc -> exists t, concat_columns dsets do_copy DupRaise om = CcOk t false /\ names t = all_cc /\ forall n, dget n t = first_having (map snd dsets) n) /\
  (~ NoDup all_cc -> concat_columns dsets do_copy DupRaise om = CcKeyError).
Proof.
  rewrite cc_unfold. destruct (cc_raise om (concat (map snd dsets)) [] [] (NoDup_nil _)) as (R1 & R2). cbn [names map app] in R1, R2. rewrite all_cc_eq in R1, R2.
  destruct ((length dsets =? 1) && negb do_copy) eqn:E1.
  - apply andb_true_iff in E1. destruct E1 as (E1 & _). apply Nat.eqb_eq in E1. destruct (one_set E1) as (d & E).
    assert (A : all_cc = names (snd d)) by (unfold all_cc; rewrite E; cbn; now rewrite app_nil_r). assert (In d dsets) by (rewrite E; now left). rewrite A. split; [|intros Q; elim Q; now apply NDS].
    intros _. exists (snd d). rewrite E. cbn. split; [reflexivity|]. split; [reflexivity|]. intros n. destruct (dget n (snd d)); reflexivity.
  - split.
    + intros Q. destruct (R1 Q) as (t & E & ->). rewrite E. exists (concat (map snd dsets)). split; [destruct om; reflexivity|]. split; [apply all_cc_eq|]. intros n. symmetry. apply first_having_concat.
    + intros Q. now rewrite (R2 Q).
Qed.
End CC.
End Concat.

(** ** iterrows *)
Section Iter.
Context {V : Type}.
Variable s : struct.
Variable h : list (@cell V).
Variable nrows : nat.
(** every item of the dataset is a column of [nrows] values *)
Hypothesis COLS : forall n loc, In (n, loc) s -> exists c, nth_error h loc = Some (Col c) /\ length c = nrows.
Definition col_at (ci : nat) : list V := match nth_error s ci with Some (_, loc) => match nth_error h loc with Some (Col c) => c | _ => [] end | None => [] end.
Lemma col_at_len ci : ci < length s -> length (col_at ci) = nrows.
Proof.
  intros H. unfold col_at. destruct (nth_error s ci) as [[n loc]|] eqn:E; [|apply nth_error_None in E; lia]. destruct (COLS n loc (nth_error_In _ _ E)) as (c & H1 & H2). now rewrite H1.
Qed.
Lemma cols_at ci : ci < length s -> nth_error (columns_of s h) ci = Some (Some (col_at ci)).
Proof.
  intros H. unfold col_at. destruct (nth_error s ci) as [[n loc]|] eqn:E; [|apply nth_error_None in E; lia]. unfold columns_of. rewrite (map_nth_error _ _ _ E). cbn [snd].
  destruct (COLS n loc (nth_error_In _ _ E)) as (c & H1 & H2). now rewrite H1.
Qed.
Lemma temp_at ci n loc : nth_error s ci = Some (n, loc) -> nth_error (temp_struct s h) ci = Some (n, length h + ci).
Proof.
  intros H. unfold temp_struct. assert (ci < length s) by (apply nth_error_Some; congruence).
  rewrite <- (map_nth_all (n, loc) s) at 1. 
  assert (A : forall (l : list (name * nat)) b ci n loc, nth_error l ci = Some (n, loc) -> nth_error (combine (map fst l) (seq b (length l))) ci = Some (n, b + ci)).
  { clear. induction l as [|p l IH]; intros b [|ci] n loc E; cbn in *; try discriminate; [injection E as ->; now rewrite Nat.add_0_r|]. rewrite (IH (S b) ci n loc E). do 2 f_equal. lia. }
  rewrite map_nth_all. apply (A _ _ _ _ _ H).
Qed.
Lemma temp_len : length (temp_struct s h) = length s.
Proof. unfold temp_struct. rewrite combine_length, map_length, seq_length. lia. Qed.
Lemma temp_heap_len : length (temp_heap s h) = length h + length s.
Proof. unfold temp_heap. now rewrite app_length, map_length. Qed.
Lemma set_row_ok hh row : length hh = length h + length s -> row < nrows ->
  length (set_row (temp_struct s h) (columns_of s h) hh row) = length h + length s /\
  forall p, nth_error (set_row (temp_struct s h) (columns_of s h) hh row) p =
    if (length h <=? p) && (p <? length h + length s) then option_map Scalar (nth_error (col_at (p - length h)) row) else nth_error hh p.
Proof.
  intros L R. unfold set_row. rewrite temp_len.
  assert (A : forall k, k <= length s ->
    let out := fold_left (fun h0 ci => match nth_error (temp_struct s h) ci, nth_error (columns_of s h) ci with
      | Some (_, loc), Some (Some c) => match nth_error c row with Some v => upd loc (Scalar v) h0 | None => h0 end
      | _, _ => h0 end) (seq 0 k) hh in
    length out = length h + length s /\ forall p, nth_error out p = if (length h <=? p) && (p <? length h + k) then option_map Scalar (nth_error (col_at (p - length h)) row) else nth_error hh p).
  { induction k as [|k IH]; intros Hk.
    - cbn zeta. cbn [seq fold_left]. split; [exact L|]. intros p. destruct (length h <=? p) eqn:E1; [|reflexivity]. destruct (p <? length h + 0) eqn:E2; [|reflexivity]. apply Nat.leb_le in E1. apply Nat.ltb_lt in E2. lia.
    - rewrite seq_S, fold_left_app. cbn [fold_left Nat.add]. destruct (IH ltac:(lia)) as (I1 & I2). cbn zeta in *. set (o := fold_left _ (seq 0 k) hh) in *.
      destruct (nth_error s k) as [[n loc]|] eqn:E; [|apply nth_error_None in E; lia]. rewrite (temp_at k n loc E), (cols_at k) by lia.
      destruct (nth_error (col_at k) row) as [v|] eqn:EV; [|apply nth_error_None in EV; rewrite col_at_len in EV by lia; lia].
      rewrite upd_length. split; [exact I1|]. intros p. destruct (le_lt_dec (length h + length s) p) as [G|G].
      + assert (nth_error (upd (length h + k) (Scalar v) o) p = None) as -> by (apply nth_error_None; rewrite upd_length; lia).
        destruct (p <? length h + S k) eqn:E2; [apply Nat.ltb_lt in E2; lia|]. rewrite andb_false_r. symmetry. apply nth_error_None. lia.
      + rewrite nth_error_upd by lia. rewrite I2. destruct (p =? length h + k) eqn:EP.
        * apply Nat.eqb_eq in EP. subst p. replace (length h <=? length h + k) with true by (symmetry; apply Nat.leb_le; lia). replace (length h + k <? length h + S k) with true by (symmetry; apply Nat.ltb_lt; lia).
          cbn [andb]. replace (length h + k - length h) with k by lia. now rewrite EV.
        * apply Nat.eqb_neq in EP. replace (p <? length h + S k) with (p <? length h + k); [reflexivity|]. destruct (p <? length h + k) eqn:Q1, (p <? length h + S k) eqn:Q2; try reflexivity; rewrite ?Nat.ltb_lt, ?Nat.ltb_ge in *; lia. }
  apply (A (length s) (le_n _)).
Qed.
Lemma iter_heap_inv k : k <= nrows -> length (iter_heap s h k) = length h + length s /\
  (forall p, p < length h -> nth_error (iter_heap s h k) p = nth_error h p) /\
  (forall ci, ci < length s -> 1 <= k -> nth_error (iter_heap s h k) (length h + ci) = option_map Scalar (nth_error (col_at ci) (k - 1))).
Proof.
  induction k as [|k IH]; intros Hk.
  - unfold iter_heap. cbn [seq fold_left]. rewrite temp_heap_len. split; [reflexivity|]. split; [|lia]. intros p Hp. unfold temp_heap. now rewrite nth_error_app1.
  - destruct (IH ltac:(lia)) as (I1 & I2 & I3). unfold iter_heap in *. rewrite seq_S, fold_left_app. cbn [fold_left Nat.add].
    destruct (set_row_ok (fold_left (set_row (temp_struct s h) (columns_of s h)) (seq 0 k) (temp_heap s h)) k I1 ltac:(lia)) as (S1 & S2).
    split; [exact S1|]. split.
    + intros p Hp. rewrite S2. destruct (length h <=? p) eqn:E; [apply Nat.leb_le in E; lia|]. cbn [andb]. now apply I2.
    + intros ci Hc _. rewrite S2. replace (length h <=? length h + ci) with true by (symmetry; apply Nat.leb_le; lia). replace (length h + ci <? length h + length s) with true by (symmetry; apply Nat.ltb_lt; lia). cbn [andb].
      replace (length h + ci - length h) with ci by lia. replace (S k - 1) with k by lia. reflexivity.
Qed.
Lemma iter_row k : k < nrows -> forall ci n loc c, nth_error s ci = Some (n, loc) -> nth_error h loc = Some (Col c) ->
  nth_error (show (temp_struct s h) (iter_heap s h (S k))) ci = Some (n, option_map Scalar (nth_error c k)).
Proof.
  intros Hk ci n loc c E H. unfold show. rewrite (map_nth_error _ _ _ (temp_at ci n loc E)). cbn [fst snd].
  assert (ci < length s) by (apply nth_error_Some; congruence). destruct (iter_heap_inv (S k) ltac:(lia)) as (_ & _ & I). rewrite I by lia. unfold col_at. rewrite E, H. replace (S k - 1) with k by lia. reflexivity.
Qed.
Lemma iter_source k : k <= nrows -> show s (iter_heap s h k) = show s h.
Proof.
  intros Hk. unfold show. apply map_ext_in. intros [n loc] I. cbn [fst snd]. f_equal. destruct (COLS n loc I) as (c & H1 & _). apply iter_heap_inv; [exact Hk|]. apply nth_error_Some. congruence.
Qed.
End Iter.
