(** C60, C85, C86: sorting datasets and the sort cache. *)
From Coq Require Import List Arith Bool ZArith Lia Permutation.
From Verif Require Import FlattenModel FlattenProofs MergeModel DsModel DsProofs3 SortModel SortSpec SortProofs SortProofs2 SortProofs3 SortProofs4.
Import ListNotations.

(** values of the examples: dtype 0 is signed, dtype 1 reads the byte 200 as -56 *)
Definition ex_value (t : nat) (b : Z) : Z := if t =? 0 then b else (if Z.ltb b 128 then b else b - 256)%Z.
Definition ex_lexsort := lex_exec ex_value.
Definition ex_crc (l : list Z) : nat := fold_left (fun h b => h * 7 + Z.to_nat b) l 1.
Definition na : name := [97]. Definition nb : name := [98]. Definition nx : name := [120].

(** ** C60: the sort cache is transparent *)
(** For every history of datasets, views, in-place edits, displays, loads and invalidations: all answers
    are those of the same history with the cache emptied before every call.  [had]: the columns a
    dataset has had; [faithful]: among the columns of one dataset the crc tells different columns
    apart; [honest]: the index in a loaded file sorts its columns ascending. *)
Theorem C60_cache_transparent_partial crc lexsort ops :
  faithful crc (had crc lexsort ops) -> (forall o, In o ops -> honest lexsort o) ->
  answers (step crc lexsort) init ops = answers (no_cache (step crc lexsort)) init ops.
Proof. apply history. Qed.
Print Assumptions C60_cache_transparent_partial.

(** Finding: the dtype is not part of the key.  Replacing a column by a view of the same bytes with
    another dtype leaves the old order in place, whatever the crc. *)
Theorem C60_dtype_refuted : exists value lexsort, lexsort_contract value lexsort /\ forall crc, exists ops,
  (forall o, In o ops -> honest lexsort o) /\
  answers (step crc lexsort) init ops <> answers (no_cache (step crc lexsort)) init ops.
Proof.
  exists ex_value, ex_lexsort. split; [apply lex_exec_contract|]. intros crc.
  exists [NewDs [(na, mkCol 0 [1; 200]%Z)] 2; SortView 0 (ByName na) [true]; Str 0; SetCol 0 na (mkCol 1 [1; 200]%Z); SortView 0 (ByName na) [true]; Str 0].
  split; [intros o H; repeat (destruct H as [<-|H]; [exact I|]); destruct H|].
  assert (E1 : answers (step crc ex_lexsort) init [NewDs [(na, mkCol 0 [1; 200]%Z)] 2; SortView 0 (ByName na) [true]; Str 0; SetCol 0 na (mkCol 1 [1; 200]%Z); SortView 0 (ByName na) [true]; Str 0]
     = [RDone; RDone; RIdx (Some [0; 1]); RDone; RDone; if negb (crc [1; 200]%Z =? crc [1; 200]%Z) || false then RIdx (Some [1; 0]) else RIdx (Some [0; 1])]).
  { cbn -[Nat.eqb]. cbn. rewrite !Nat.eqb_refl. vm_compute. reflexivity. }
  assert (E2 : answers (no_cache (step crc ex_lexsort)) init [NewDs [(na, mkCol 0 [1; 200]%Z)] 2; SortView 0 (ByName na) [true]; Str 0; SetCol 0 na (mkCol 1 [1; 200]%Z); SortView 0 (ByName na) [true]; Str 0]
     = [RDone; RDone; RIdx (Some [0; 1]); RDone; RDone; RIdx (Some [1; 0])]) by (vm_compute; reflexivity).
  rewrite E1, E2, Nat.eqb_refl. discriminate.
Qed.
Print Assumptions C60_dtype_refuted.

(** Finding: the direction of a view is not saved.  A dataset saved with a descending view is loaded as
    ascending with the descending index cached: the order flips once the cache entry is gone. *)
Theorem C60_load_refuted : exists crc value lexsort, lexsort_contract value lexsort /\ exists ops,
  faithful crc (had crc lexsort ops) /\
  answers (step crc lexsort) init ops <> answers (no_cache (step crc lexsort)) init ops.
Proof.
  exists ex_crc, ex_value, ex_lexsort. split; [apply lex_exec_contract|].
  exists [Load [(na, mkCol 0 [1; 2]%Z)] 2 [na] [1; 0]; SortedRows 0]. split.
  - intros d c1 c2 H1 H2 _. assert (forall c, had ex_crc ex_lexsort [Load [(na, mkCol 0 [1; 2]%Z)] 2 [na] [1; 0]; SortedRows 0] d c -> c = mkCol 0 [1; 2]%Z).
    { clear. intros c (k & x & n & NX & G). assert (E : w_ds (run ex_crc ex_lexsort (firstn k [Load [(na, mkCol 0 [1; 2]%Z)] 2 [na] [1; 0]; SortedRows 0]) init) = [] \/ w_ds (run ex_crc ex_lexsort (firstn k [Load [(na, mkCol 0 [1; 2]%Z)] 2 [na] [1; 0]; SortedRows 0]) init) = [mkDs [(na, mkCol 0 [1; 2]%Z)] 2 (Some 0) (AscAll true) false]).
      { destruct k as [|[|k]]; [left; reflexivity|right; reflexivity|right]. destruct k; vm_compute; reflexivity. }
      destruct E as [E|E]; rewrite E in NX; [destruct d; discriminate|]. destruct d as [|d]; [|destruct d; discriminate]. injection NX as <-. apply dget_some_in in G. destruct G as [G|[]]. now injection G as _ <-. }
    rewrite (H c1 H1), (H c2 H2). reflexivity.
  - vm_compute. discriminate.
Qed.
Print Assumptions C60_load_refuted.

(** the hypotheses of C60 hold for a history with a cache hit *)
Example C60_case : answers (step ex_crc ex_lexsort) init
   [NewDs [(na, mkCol 0 [3; 1; 2]%Z)] 3; SortView 0 (ByName na) [true]; Str 0; Str 0; EditCol 0 na [1; 3; 2]%Z; Repr 0; Str 0] =
   [RDone; RDone; RIdx (Some [1; 2; 0]); RIdx (Some [1; 2; 0]); RDone; RIdx (Some [0; 2; 1]); RIdx None] /\
  faithful ex_crc (had ex_crc ex_lexsort [NewDs [(na, mkCol 0 [3; 1; 2]%Z)] 3; SortView 0 (ByName na) [true]; Str 0; Str 0; EditCol 0 na [1; 3; 2]%Z; Repr 0; Str 0]).
Proof.
  split; [vm_compute; reflexivity|]. intros d c1 c2 H1 H2.
  assert (A : forall c, had ex_crc ex_lexsort [NewDs [(na, mkCol 0 [3; 1; 2]%Z)] 3; SortView 0 (ByName na) [true]; Str 0; Str 0; EditCol 0 na [1; 3; 2]%Z; Repr 0; Str 0] d c -> c = mkCol 0 [3; 1; 2]%Z \/ c = mkCol 0 [1; 3; 2]%Z).
  { clear. intros c (k & x & n & NX & G). assert (E : forall y, nth_error (w_ds (run ex_crc ex_lexsort (firstn k [NewDs [(na, mkCol 0 [3; 1; 2]%Z)] 3; SortView 0 (ByName na) [true]; Str 0; Str 0; EditCol 0 na [1; 3; 2]%Z; Repr 0; Str 0]) init)) d = Some y -> s_items y = [(na, mkCol 0 [3; 1; 2]%Z)] \/ s_items y = [(na, mkCol 0 [1; 3; 2]%Z)]).
    { do 8 (destruct k as [|k]; [intros y; vm_compute; destruct d as [|[|d]]; (intros [= <-]; vm_compute; auto) || discriminate|]). intros y; destruct k; vm_compute; destruct d as [|[|d]]; (intros [= <-]; vm_compute; auto) || discriminate. }
    specialize (E x NX). destruct E as [E|E]; rewrite E in G; apply dget_some_in in G; destruct G as [G|[]]; injection G as _ <-; auto. }
  destruct (A c1 H1) as [-> | ->], (A c2 H2) as [-> | ->]; auto; vm_compute; discriminate.
Qed.

(** ** C85: a sort view shows the requested order *)
(** [requests]: per dataset the keys and directions asked for, following renames and prefixes, ended by
    sorts_off, repr, sort_inplace, and by deleting or replacing a key column (SortSpec.request_step).
    After every history, displaying a dataset delivers no row order if nothing is asked, and otherwise a
    row order sorted by the requested keys over the current values.  Partial: [all_allowed] excludes
    sharing or editing a list of keys in use, repeating a key, copying some but not all of the keys,
    col_str_replace while a view is on, and loading a view.  Copying with one direction raises (below). *)
Theorem C85_view_partial value crc lexsort ops d x r :
  lexsort_contract value lexsort -> all_allowed crc lexsort init ops -> faithful crc (had crc lexsort ops) ->
  let w := run crc lexsort ops init in
  nth_error (w_ds w) d = Some x -> nth_error (requests crc lexsort init [] ops) d = Some r ->
  forall o, In o [Str d; Repr d; SortedRows d] ->
  match r with
  | None => snd (step crc lexsort w o) = RIdx None
  | Some ps => exists idx, snd (step crc lexsort w o) = RIdx (Some idx) /\ sorted_by value (key_cols (s_items x) ps) idx (s_nrows x)
  end.
Proof.
  intros LC AL F w NX NR o IO.
  assert (RW : rel w (requests crc lexsort init [] ops)) by exact (run_rel value crc lexsort LC ops init [] rel_init AL).
  assert (HN : forall o, In o ops -> honest lexsort o).
  { clear - AL. revert AL. generalize init. induction ops as [|o ops IH]; intros w0 AL o' I; [destruct I|]. destruct AL as (A1 & A2). destruct I as [<-|I]; [|exact (IH _ A2 o' I)]. destruct o; try exact Logic.I. destruct A1. }
  assert (HO : holds w (had crc lexsort ops)).
  { intros d' x' n c NX' G. exists (length ops), x', n. rewrite firstn_all. auto. }
  pose proof (cache_invariant crc lexsort ops F HN (length ops) (le_n _)) as CI. rewrite firstn_all in CI.
  assert (NL : forall a b c e, o = Load a b c e -> holds (fst (step crc lexsort w o)) (had crc lexsort ops)) by (intros a b c e ->; destruct IO as [E|[E|[E|[]]]]; discriminate).
  assert (HO1 : honest lexsort o) by (destruct IO as [<-|[<-|[<-|[]]]]; exact I).
  destruct (step_ok crc lexsort _ F w o CI HO NL HO1) as (_ & E & _). rewrite E.
  exact (answer_ok value crc lexsort LC w _ d x r RW NX NR o IO).
Qed.
Print Assumptions C85_view_partial.

(** Findings. (1) sort_view keeps the caller's list: with two datasets given the same list, renaming a
    column of the first makes the view of the second disappear.  (2) A list of keys changed after
    sort_view changes the order.  (3) Copying or slicing a dataset with a one-direction view raises.
    (4) With several directions, a copy that lacks some keys has
    the directions of the wrong keys. (5) col_str_replace raises. *)
Theorem C85_alias_refuted : exists ops,
  let w := run ex_crc ex_lexsort ops init in
  nth_error (requests ex_crc ex_lexsort init [] ops) 1 = Some (Some [(na, true)]) /\
  snd (step ex_crc ex_lexsort w (Str 1)) = RIdx None.
Proof.
  exists [NewDs [(na, mkCol 0 [2; 1]%Z)] 2; NewDs [(na, mkCol 0 [2; 1]%Z)] 2; NewList [na]; SortView 0 (ByList 0) [true]; SortView 1 (ByList 0) [true]; Rename 0 na nx].
  split; vm_compute; reflexivity.
Qed.
Print Assumptions C85_alias_refuted.
Theorem C85_copy_refuted : exists ops,
  let w := run ex_crc ex_lexsort ops init in
  nth_error (requests ex_crc ex_lexsort init [] ops) 0 = Some (Some [(na, true); (nb, false)]) /\
  let o := Copy 0 None [na] in
  let w' := fst (step ex_crc ex_lexsort w o) in
  nth_error (requests ex_crc ex_lexsort init [] (ops ++ [o])) 1 = Some (Some [(na, true)]) /\
  exists x, nth_error (w_ds w') 1 = Some x /\
  exists idx, snd (step ex_crc ex_lexsort w' (Str 1)) = RIdx (Some idx) /\
    ~ sorted_by ex_value (key_cols (s_items x) [(na, true)]) idx 3.
Proof.
  exists [NewDs [(na, mkCol 0 [1; 2; 3]%Z); (nb, mkCol 0 [5; 6; 7]%Z)] 3; NewList [na; nb]; SortView 0 (ByList 0) [true; false]].
  split; [vm_compute; reflexivity|]. split; [vm_compute; reflexivity|]. eexists. split; [vm_compute; reflexivity|]. eexists. split; [vm_compute; reflexivity|].
  intros (_ & S1). specialize (S1 0 1 _ _ ltac:(lia) eq_refl eq_refl). cbn in S1. lia.
Qed.
Print Assumptions C85_copy_refuted.
Theorem C85_raise_refuted : exists ops,
  let w := run ex_crc ex_lexsort ops init in
  snd (step ex_crc ex_lexsort w (Copy 0 (Some [0]) [na])) = RError /\
  snd (step ex_crc ex_lexsort w (StrReplace 0 (fun n => if name_dec n na then nx else n))) = RError.
Proof.
  exists [NewDs [(na, mkCol 0 [2; 1]%Z)] 2; SortView 0 (ByName na) [true]]. split; vm_compute; reflexivity.
Qed.
Print Assumptions C85_raise_refuted.
Example C85_case : let ops := [NewDs [(na, mkCol 0 [1; 2; 1]%Z); (nb, mkCol 0 [5; 6; 7]%Z)] 3; NewList [na; nb]; SortView 0 (ByList 0) [true; false]; Rename 0 na nx; AddPrefix 0 nb; EditCol 0 (nb ++ nb) [9; 6; 7]%Z] in
  all_allowed ex_crc ex_lexsort init ops /\
  nth_error (requests ex_crc ex_lexsort init [] ops) 0 = Some (Some [(nb ++ nx, true); (nb ++ nb, false)]) /\
  snd (step ex_crc ex_lexsort (run ex_crc ex_lexsort ops init) (Str 0)) = RIdx (Some [0; 2; 1]).
Proof.
  cbn zeta. split; [|split; vm_compute; reflexivity].
  split; [split; [repeat constructor; cbn; intuition discriminate|intros n c [E|[E|[]]]; injection E as _ <-; reflexivity]|].
  split; [exact I|]. split; [|repeat split]. split; [discriminate|]. intros loc [= <-]. split; [repeat constructor; cbn; intuition discriminate|].
  intros d' x Hd. vm_compute. destruct d' as [|[|d']]; try discriminate. congruence.
Qed.

(** ** C86: sort_copy and sort_inplace *)
(** Whatever the state: the sorted dataset has the same columns, in the same order, all rearranged by one and
    the same row order, which lists every row once and is sorted by the keys in the order given, each in
    its own direction.  sort_copy leaves the source alone; no other dataset changes. *)
Definition rearranged (idx : list nat) (old new : list (name * col)) : Prop :=
  map fst new = map fst old /\
  forall n c, dget n old = Some c -> exists c', dget n new = Some c' /\ c_type c' = c_type c /\ length (c_bits c') = length idx /\
    forall p i, nth_error idx p = Some i -> nth_error (c_bits c') p = nth_error (c_bits c) i.
Lemma rearranged_take idx x n : ds_ok x -> Permutation idx (seq 0 n) -> s_nrows x = n ->
  rearranged idx (s_items x) (map (fun p => (fst p, take_rows idx (snd p))) (s_items x)).
Proof.
  intros (ND & LEN) P N. split; [apply names_take|]. intros m c G. exists (take_rows idx c). split.
  - apply dget_in; [rewrite names_take; exact ND|]. apply dget_some_in in G. apply (in_map (fun p => (fst p, take_rows idx (snd p)))) in G. exact G.
  - split; [reflexivity|]. split; [apply take_len|]. intros p i E. cbn. rewrite (map_nth_error _ _ _ E).
    assert (I : In i (seq 0 n)) by (apply (Permutation_in _ P); now apply nth_error_In in E). apply in_seq in I.
    symmetry. apply nth_error_nth'. apply dget_some_in in G. rewrite (LEN m c G). lia.
Qed.
Theorem C86_sort_copy value crc lexsort w d x by_ given keys :
  lexsort_contract value lexsort -> nth_error (w_ds w) d = Some x -> ds_ok x ->
  keys = match by_ with ByName n => [n] | ByList loc => nth loc (w_heap w) [] end -> keys <> [] ->
  (forall n, In n keys -> In n (map fst (s_items x))) -> length given = 1 \/ (length given = length keys /\ exists loc, by_ = ByList loc) ->
  exists idx, sorted_by value (key_cols (s_items x) (asked keys given)) idx (s_nrows x) /\
    (exists y, w_ds (fst (step crc lexsort w (SortCopy d by_ given))) = w_ds w ++ [y] /\ rearranged idx (s_items x) (s_items y) /\ s_list y = None) /\
    (exists y, nth_error (w_ds (fst (step crc lexsort w (SortInplace d by_ given)))) d = Some y /\ rearranged idx (s_items x) (s_items y) /\
       forall d', d' <> d -> nth_error (w_ds (fst (step crc lexsort w (SortInplace d by_ given)))) d' = nth_error (w_ds w) d').
Proof.
  intros LC NX OK EK NE IN LG.
  assert (F : fits by_ given w).
  { destruct by_ as [n|loc]; cbn; [|congruence]. destruct LG as [LG|(_ & loc & E)]; [exact LG|discriminate]. }
  assert (P : exists a, parse_sort (w_heap w) x by_ given = Some (keys, a)).
  { unfold parse_sort. assert (PB : fst (parse_by (w_heap w) by_) = keys /\ forall loc, by_ = ByList loc -> snd (parse_by (w_heap w) by_) = length keys) by (destruct by_; cbn; subst; split; auto; discriminate).
    destruct (parse_by (w_heap w) by_) as [bl len]. cbn in PB. destruct PB as (-> & PL).
    assert (FA : forallb (fun n => mem n (names (s_items x))) keys = true) by (apply forallb_forall; intros n Hn; apply mem_in; now apply IN). rewrite FA.
    destruct given as [|b [|b2 g]]; [destruct LG as [LG|(LG & _)]; [discriminate|destruct keys; [congruence|discriminate]]|eauto|].
    destruct LG as [LG|(LG & loc & E)]; [discriminate|]. rewrite (PL loc E), LG, Nat.eqb_refl. eauto. }
  destruct P as (a & P). pose proof (sort_ok value lexsort LC w x by_ given keys a OK F P) as SO.
  exists (sort_lexsort lexsort x keys a). split; [exact SO|]. destruct SO as (PERM & _). split.
  - unfold step, on_ds. rewrite NX, P. eexists. cbn [fst new_ds w_ds]. split; [reflexivity|]. split; [|reflexivity]. cbn [s_items]. now apply (rearranged_take _ x (s_nrows x)).
  - unfold step, on_ds. rewrite NX, P. cbn [fst put_ds w_ds]. set (y0 := if s_disp x then sorts_off x else x).
    assert (YI : s_items y0 = s_items x) by (unfold y0; now destruct (s_disp x)).
    assert (YS : sort_lexsort lexsort y0 keys a = sort_lexsort lexsort x keys a) by (unfold sort_lexsort; now rewrite YI).
    assert (UF : forall ns z, s_items (fold_left (fun x n => update_sort (w_heap w) n x) ns z) = s_items z).
    { induction ns as [|m ns IH]; intros z; [reflexivity|]. cbn. rewrite IH. unfold update_sort. destruct (s_list z); [|reflexivity]. now destruct (mem _ _). }
    assert (Hd : d < length (w_ds w)) by (apply nth_error_Some; congruence). unfold put_ds. cbn [w_ds].
    eexists. rewrite nth_error_upd' by exact Hd. rewrite Nat.eqb_refl. split; [reflexivity|]. split.
    + rewrite UF. cbn [s_items]. rewrite YI, YS. now apply (rearranged_take _ x (s_nrows x)).
    + intros d' N. rewrite nth_error_upd' by exact Hd. now destruct (Nat.eqb_spec d' d).
Qed.
Print Assumptions C86_sort_copy.
Example C86_case : let w := run ex_crc ex_lexsort [NewDs [(na, mkCol 0 [1; 2; 1]%Z); (nb, mkCol 0 [5; 6; 7]%Z)] 3; NewList [na; nb]] init in
  map s_items (w_ds (fst (step ex_crc ex_lexsort w (SortCopy 0 (ByList 0) [true; false])))) =
  [[(na, mkCol 0 [1; 2; 1]%Z); (nb, mkCol 0 [5; 6; 7]%Z)]; [(na, mkCol 0 [1; 1; 2]%Z); (nb, mkCol 0 [7; 5; 6]%Z)]].
Proof. vm_compute. reflexivity. Qed.
