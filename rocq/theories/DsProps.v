(** C54-C59 and C81-C84: whole-table operations of Dataset. *)
From Coq Require Import List Arith Bool Lia Permutation.
From Verif Require Import FlattenModel FlattenProofs MergeModel GroupModel GroupFacts GroupingModel DsModel DsSpec DsProofs DsProofs2 DsProofs3 DsProofs4 DsProofs5 DsProofs6.
Import ListNotations.

(** ** C54: duplicated *)
(** [keys]: the (composite) key of every row; the grouping is any numbering of its unique keys.
    keep='first' marks exactly the rows whose key occurred before; keep=False leaves unmarked
    exactly the rows whose key occurs once. *)
Theorem C54_duplicated_first_none {B} (keys us : list B) ikey :
  grouping_of (map Some keys) us ikey -> (forall u, In u us -> In u keys) ->
  let n := length us in
  (exists r, duplicated KeepFirst (igroup ikey n) (ifirstgroup ikey n) (ncountgroup ikey n) = Some r /\ length r = length keys /\
     forall i, i < length keys -> exists b, nth_error r i = Some b /\ (b = true <-> seen_before keys i)) /\
  (exists r, duplicated KeepNone (igroup ikey n) (ifirstgroup ikey n) (ncountgroup ikey n) = Some r /\ length r = length keys /\
     forall i, i < length keys -> exists b, nth_error r i = Some b /\ (b = false <-> ~ seen_before keys i /\ ~ seen_after keys i)).
Proof. intros G U. split; [exact (dup_first keys us ikey G U)|exact (dup_none keys us ikey G U)]. Qed.
Print Assumptions C54_duplicated_first_none.

(** keep='last' is right for every row whose key is not the last unique key, and for the last row of
    the dataset.  Missing: the last unique key, all of whose rows but the dataset's last are marked. *)
Theorem C54_duplicated_last_partial {B} (keys us : list B) ikey :
  grouping_of (map Some keys) us ikey -> (forall u, In u us -> In u keys) -> keys <> [] ->
  let n := length us in
  exists r, duplicated KeepLast (igroup ikey n) (ifirstgroup ikey n) (ncountgroup ikey n) = Some r /\ length r = length keys /\
    forall i b, nth_error keys i = Some b -> exists v, nth_error r i = Some v /\
      (Some b <> nth_error us (length us - 1) \/ i = length keys - 1 -> (v = true <-> seen_after keys i)) /\
      (Some b = nth_error us (length us - 1) -> i <> length keys - 1 -> v = true).
Proof. intros G U N. exact (dup_last keys us ikey G U N). Qed.
Print Assumptions C54_duplicated_last_partial.

(** Finding: with keys [10, 20, 10] the row holding the only 20 is reported as a duplicate. *)
Theorem C54_duplicated_last_refuted : exists keys us ikey,
  grouping_of (map Some keys) us ikey /\ (forall u : nat, In u us -> In u keys) /\
  exists r, duplicated KeepLast (igroup ikey (length us)) (ifirstgroup ikey (length us)) (ncountgroup ikey (length us)) = Some r /\
    exists i, nth_error r i = Some true /\ ~ seen_after keys i /\ ~ seen_before keys i.
Proof.
  exists [10; 20; 10], [10; 20], [1; 2; 1]. split; [|split].
  - pose proof (ikeys_grouping Nat.eqb Nat.eqb_eq (map Some [10; 20; 10])) as Q. exact Q.
  - cbn. intuition.
  - eexists. split; [vm_compute; reflexivity|]. exists 1. split; [reflexivity|]. split; intros (j & H & E).
    + cbn in H. assert (j = 2) by lia. subst. discriminate.
    + assert (j = 0) by lia. subst. discriminate.
Qed.
Print Assumptions C54_duplicated_last_refuted.

Example C54_case : exists keys us ikey, grouping_of (map Some keys) us ikey /\ (forall u : nat, In u us -> In u keys) /\
  duplicated KeepFirst (igroup ikey (length us)) (ifirstgroup ikey (length us)) (ncountgroup ikey (length us)) = Some [false; false; true; true; false] /\
  duplicated KeepNone (igroup ikey (length us)) (ifirstgroup ikey (length us)) (ncountgroup ikey (length us)) = Some [true; true; true; true; false].
Proof.
  exists [5; 7; 5; 7; 9], [5; 7; 9], [1; 2; 1; 2; 3]. split; [exact (ikeys_grouping Nat.eqb Nat.eqb_eq (map Some [5; 7; 5; 7; 9]))|]. split; [cbn; intuition|]. split; vm_compute; reflexivity.
Qed.

(** ** C55: from_jagged_dict(stacked=True) *)
(** Every input row gives one output row for each combination of one value from each of its
    lists, the first column varying fastest; input rows keep their order.  Column j of the result
    holds the j-th value of each combination.  Partial: all lists must have a value. *)
Theorem C55_jagged_dict_partial {V} (zero : V) (d : list (name * list (list V))) m :
  d <> [] -> NoDup (map fst d) -> (forall n vals, In (n, vals) d -> length vals = m) ->
  (forall n vals l, In (n, vals) d -> In l vals -> l <> []) ->
  exists t, from_jagged_dict_stacked zero d = Some t /\ map fst t = map fst d /\
    forall j n vals, nth_error d j = Some (n, vals) ->
      dget n t = Some (map (fun r => nth j r zero)
        (concat (map (fun i => combinations (map (fun p => nth i (snd p) []) d)) (seq 0 m)))).
Proof.
  intros NE ND L N0. rewrite (stacked_ok zero d m NE L N0). eexists. split; [reflexivity|].
  assert (LC : length (map fst d) = length (map (fun j => map (fun r => nth j r zero) (concat (map (fun i => combinations (map (fun p => nth i (snd p) []) d)) (seq 0 m)))) (seq 0 (length d)))) by (now rewrite !map_length, seq_length).
  rewrite map_fst_combine by exact LC. split; [reflexivity|]. intros j n vals H.
  apply dget_in; [rewrite map_fst_combine; [exact ND|exact LC]|].
  assert (Hj : j < length d) by (apply nth_error_Some; congruence).
  assert (Q : nth_error (combine (map fst d) (map (fun j => map (fun r => nth j r zero) (concat (map (fun i => combinations (map (fun p => nth i (snd p) []) d)) (seq 0 m)))) (seq 0 (length d)))) j
     = Some (n, map (fun r => nth j r zero) (concat (map (fun i => combinations (map (fun p => nth i (snd p) []) d)) (seq 0 m))))).
  { rewrite (nth_error_nth' _ (n, [])) by (rewrite combine_length, !map_length, seq_length; lia). rewrite combine_nth by exact LC.
    rewrite (nth_error_nth _ _ n (map_nth_error fst _ _ H)). rewrite nth_map_seq0 by exact Hj. reflexivity. }
  exact (nth_error_In _ _ Q).
Qed.
Print Assumptions C55_jagged_dict_partial.
(** "combinations" really lists every combination: length is the product, and a row belongs to it
    iff it takes one value from each list. *)
Theorem C55_combinations_spec {V} (ls : list (list V)) r : In r (combinations ls) <-> Forall2 (fun x l => In x l) r ls.
Proof.
  revert r. induction ls as [|l ls IH]; intros r; cbn.
  - split; [intros [<-|[]]; constructor|]. intros H. inversion H. now left.
  - rewrite in_flat_map. split.
    + intros (rest & I & M). apply in_map_iff in M. destruct M as (x & <- & Ix). constructor; [exact Ix|]. now apply IH.
    + intros H. inversion H as [|x l' rest ls' Hx Hr]; subst. exists rest. split; [now apply IH|]. now apply (in_map (fun x => x :: rest)).
Qed.
Print Assumptions C55_combinations_spec.

(** Finding: when a list is empty and a column happens to have as many values as the result has
    rows, that column is used as it is and values end up beside the wrong partners:
    {'A': [[1], [2, 3]], 'B': [[5, 6, 7], []]} gives the rows (1,5) (2,6) (3,7); the second input row
    has no combination at all. *)
Theorem C55_jagged_dict_refuted : exists d : list (name * list (list nat)),
  from_jagged_dict_stacked 0 d = Some [([65], [1; 2; 3]); ([66], [5; 6; 7])] /\
  concat (map (fun i => combinations (map (fun p => nth i (snd p) []) d)) (seq 0 2)) = [[1; 5]; [1; 6]; [1; 7]].
Proof. exists [([65], [[1]; [2; 3]]); ([66], [[5; 6; 7]; []])]. split; vm_compute; reflexivity. Qed.
Print Assumptions C55_jagged_dict_refuted.

Example C55_case : from_jagged_dict_stacked 0 [([65], [[1; 2]; [3]]); ([66], [[7]; [8; 9]]); ([67], [[4; 5]; [6]])] =
  Some [([65], [1; 2; 1; 2; 3; 3]); ([66], [7; 7; 7; 7; 8; 9]); ([67], [4; 4; 5; 5; 6; 6])].
Proof. vm_compute. reflexivity. Qed.

(** ** C56: melt *)
(** [melt_vars]: the value columns, in order: the given ones (or all) that are not id columns. *)
Theorem C56_melt {V} (of_name : name -> V) blank (d : list (name * list V)) N ids vv var_name value_name :
  NoDup (map fst d) -> (forall n c, In (n, c) d -> length c = N) ->
  NoDup ids -> (forall c, In c ids -> In c (map fst d)) ->
  (forall vs, vv = Some vs -> forall c, In c vs -> In c (map fst d)) ->
  ~ In var_name ids -> ~ In value_name ids -> var_name <> value_name ->
  let vars := filter (fun n => negb (mem n ids)) (match vv with Some vs => first_seen vs | None => map fst d end) in
  vars <> [] ->
  exists t, melt of_name blank d N ids vv var_name value_name false = Some t /\
    map fst t = ids ++ [var_name; value_name] /\
    (forall n c, In (n, c) t -> length c = length vars * N) /\
    (forall k i v, nth_error vars k = Some v -> i < N ->
       (forall c, In c ids -> cell_of t c (k * N + i) = cell_of d c i) /\
       cell_of t var_name (k * N + i) = Some (of_name v) /\
       cell_of t value_name (k * N + i) = cell_of d v i) /\
    exists t', melt of_name blank d N ids vv var_name value_name true = Some t' /\
      taken t' t (filter (fun r => match cell_of t value_name r with Some v => negb (blank v) | None => false end) (seq 0 (length vars * N))) (map fst t).
Proof.
  intros H1 H2 H3 H4 H5 H6 H7 H8 vars H9. destruct (melt_ok of_name blank d N ids vv var_name value_name H1 H2 H3 H4 H5 H6 H7 H8 H9) as (t & E1 & E2 & E3 & E4 & E5).
  exists t. split; [exact E1|]. split; [exact E2|]. split; [exact E3|]. split; [exact E4|]. eexists. split; [exact E5|]. split; [rewrite map_map; reflexivity|].
  intros n q I. unfold cell_of at 1.
  set (m := map (fun v => negb (blank v)) (colv t value_name)).
  rewrite (dget_map_snd n (compress m)).
  assert (ND : NoDup (map fst t)).
  { change (map fst t) with (names t). rewrite E2. apply MergeColsProofs.NoDup_app_disj; [exact H3| |].
    - constructor; [cbn; intros [->|[]]; congruence|]. constructor; [intros []|constructor].
    - intros x Hx [->|[->|[]]]; contradiction. }
  destruct (dget_has n t I) as (c & Ec). unfold cell_of. rewrite Ec. cbn [option_map].
  assert (Lc : length c = length vars * N) by (eapply E3, dget_some_in; eauto).
  assert (VN : In value_name (map fst t)) by (change (map fst t) with (names t); rewrite E2; apply in_or_app; right; right; now left).
  destruct (dget_has value_name t VN) as (vals & Ev). assert (Lv : length vals = length vars * N) by (eapply E3, dget_some_in; eauto).
  assert (Em : m = map (fun v => negb (blank v)) vals) by (unfold m, colv; now rewrite Ev).
  rewrite compress_at by (rewrite Em, map_length; congruence). rewrite Lc, Ev.
  replace (filter (fun p => nth p m false) (seq 0 (length vars * N))) with
    (filter (fun r => match nth_error vals r with Some v => negb (blank v) | None => false end) (seq 0 (length vars * N))); [reflexivity|].
  apply filter_ext_in. intros r Hr. apply in_seq in Hr. destruct (nth_error vals r) as [v|] eqn:Q; [|apply nth_error_None in Q; lia].
  symmetry. rewrite Em. apply nth_error_nth. now apply (map_nth_error (fun v => negb (blank v))).
Qed.
Print Assumptions C56_melt.

(** Finding: the name of the value (or variable) column may be that of an id column; the id column is
    then silently replaced.  Here id column "value" (118) holds 1, 2 and is lost. *)
Theorem C56_name_clash_refuted : exists (d : list (name * list nat)) ids,
  NoDup (map fst d) /\ (forall c, In c ids -> In c (map fst d)) /\
  exists t, melt (fun _ => 0) (fun _ => false) d 2 ids None [97] [118] false = Some t /\
    exists c i, In c ids /\ cell_of t c i <> cell_of d c i.
Proof.
  exists [([118], [1; 2]); ([120], [8; 9])], [[118]]. split; [|split].
  - repeat constructor; cbn; intuition discriminate.
  - cbn. intuition.
  - eexists. split; [vm_compute; reflexivity|]. exists [118], 0. split; [now left|]. vm_compute. discriminate.
Qed.
Print Assumptions C56_name_clash_refuted.

Example C56_case : melt (fun n => hd 0 n) (fun v => v =? 0) [([97], [1; 2]); ([98], [5; 6]); ([99], [0; 8])] 2 [[97]] None [1] [2] false =
  Some [([97], [1; 2; 1; 2]); ([1], [98; 98; 99; 99]); ([2], [5; 6; 0; 8])] /\
  melt (fun n => hd 0 n) (fun v => v =? 0) [([97], [1; 2]); ([98], [5; 6]); ([99], [0; 8])] 2 [[97]] None [1] [2] true =
  Some [([97], [1; 2; 2]); ([1], [98; 98; 99]); ([2], [5; 6; 8])].
Proof. split; vm_compute; reflexivity. Qed.

(** ** C57: stacking datasets *)
(** [rows_of d] is the number of rows of d.  Every column of the result is the concatenation, dataset
    by dataset, of that dataset's column, or of as many invalids as it has rows; columns come in order
    of first appearance. *)
Theorem C57_hstack {V} (inv : name -> V) (l : list (@dset_ V)) : 2 <= length l ->
  (forall d, In d l -> d_nrows d = None -> d_cols d = []) ->
  let out := hstack_datasets inv l in
  map fst (d_cols out) = first_seen (concat (map (fun d => map fst (d_cols d)) l)) /\
  forall n, In n (map fst (d_cols out)) ->
    dget n (d_cols out) = Some (concat (map (fun d => piece inv n (rows_of d) (d_cols d)) l)).
Proof. intros L H. exact (hstack_ok inv l L H). Qed.
Print Assumptions C57_hstack.
(** every dataset's rows are found at its own row range, and the table is rectangular *)
Theorem C57_row_ranges {V} (inv : name -> V) (l : list (@dset_ V)) : 2 <= length l ->
  (forall d, In d l -> d_nrows d = None -> d_cols d = []) ->
  (forall d n c, In d l -> In (n, c) (d_cols d) -> length c = rows_of d) ->
  let out := hstack_datasets inv l in
  (forall n c, In (n, c) (d_cols out) -> length c = list_sum (map rows_of l)) /\
  forall pre d post n i, l = pre ++ d :: post -> In n (map fst (d_cols out)) -> i < rows_of d ->
    cell_of (d_cols out) n (list_sum (map rows_of pre) + i) =
      match dget n (d_cols d) with Some c => nth_error c i | None => Some (inv n) end.
Proof.
  intros L H R out. destruct (hstack_ok inv l L H) as (N & G). fold out in N, G.
  assert (PL : forall n d, In d l -> length (piece inv n (rows_of d) (d_cols d)) = rows_of d).
  { intros n d Hd. unfold piece. destruct (dget n (d_cols d)) eqn:E; [apply (R d n _ Hd); now apply dget_some_in|apply repeat_length]. }
  assert (CL : forall n ds, (forall d, In d ds -> In d l) -> length (concat (map (fun d => piece inv n (rows_of d) (d_cols d)) ds)) = list_sum (map rows_of ds)).
  { intros n ds. induction ds as [|d ds IH]; intros S1; [reflexivity|]. cbn [map concat]. rewrite app_length, IH by (intros x Hx; apply S1; now right). rewrite PL by (apply S1; now left). reflexivity. }
  assert (ND : NoDup (map fst (d_cols out))) by (change (map fst (d_cols out)) with (names (d_cols out)); rewrite N; apply first_seen_nodup).
  split.
  - intros n c I. pose proof (dget_in _ _ _ ND I) as E. rewrite (G n) in E by (change n with (fst (n, c)); now apply in_map). injection E as <-. apply CL. auto.
  - intros pre d post n i -> In' Hi. unfold cell_of. rewrite (G n In'). rewrite map_app, concat_app. cbn [map concat].
    rewrite <- (CL n pre) by (intros x Hx; apply in_or_app; now left). rewrite nth_error_app2 by lia. replace (_ + i - _) with i by lia.
    assert (Pd : length (piece inv n (rows_of d) (d_cols d)) = rows_of d) by (apply PL, in_or_app; right; now left).
    rewrite nth_error_app1 by lia. unfold piece. destruct (dget n (d_cols d)); [reflexivity|]. now apply nth_error_repeat.
Qed.
Print Assumptions C57_row_ranges.
Example C57_case : hstack_datasets (fun _ => 99)
   [mkD (Some 2) [([97], [1; 2])]; mkD None []; mkD (Some 1) [([98], [3])]; mkD (Some 2) [([97], [4; 5]); ([98], [6; 7])]] =
   mkD (Some 5) [([97], [1; 2; 99; 4; 5]); ([98], [99; 99; 3; 6; 7])].
Proof. vm_compute. reflexivity. Qed.

(** ** C58: concat_columns *)
(** [ts]: (number of rows, columns) of each dataset.  'first' and 'last' keep every name once, with the
    column of the first / last dataset that has it; on_mismatch='raise' refuses repeated names. *)
Theorem C58_first_last {V} (ts : list (nat * list (name * list V))) r do_copy om :
  ts <> [] -> (forall p, In p ts -> fst p = r) -> (forall p, In p ts -> NoDup (map fst (snd p))) ->
  let all := concat (map (fun p => map fst (snd p)) ts) in
  (om = MisRaise -> NoDup all) ->
  (exists t w, concat_columns ts do_copy DupFirst om = CcOk t w /\ map fst t = first_seen all /\ forall n, dget n t = first_having (map snd ts) n) /\
  (exists t w, concat_columns ts do_copy DupLast om = CcOk t w /\ map fst t = first_seen all /\ forall n, dget n t = last_having (map snd ts) n).
Proof.
  intros NE R ND all OM. split; [apply (cc_keep ts r R NE ND do_copy DupFirst om)|apply (cc_keep ts r R NE ND do_copy DupLast om)]; try discriminate; exact OM.
Qed.
Print Assumptions C58_first_last.
Theorem C58_raise {V} (ts : list (nat * list (name * list V))) r do_copy :
  ts <> [] -> (forall p, In p ts -> fst p = r) -> (forall p, In p ts -> NoDup (map fst (snd p))) ->
  let all := concat (map (fun p => map fst (snd p)) ts) in
  (forall om, NoDup all -> exists t, concat_columns ts do_copy DupRaise om = CcOk t false /\ map fst t = all /\ forall n, dget n t = first_having (map snd ts) n) /\
  (~ NoDup all -> (forall om, concat_columns ts do_copy DupRaise om = CcKeyError) /\
                  concat_columns ts do_copy DupFirst MisRaise = CcRuntimeError /\ concat_columns ts do_copy DupLast MisRaise = CcRuntimeError).
Proof.
  intros NE R ND all. split; [intros om; apply (cc_dup_raise ts r R NE ND do_copy om)|]. intros Q. split; [intros om; now apply (cc_dup_raise ts r R NE ND do_copy om)|].
  split; apply (cc_mismatch ts r R NE ND do_copy); auto; discriminate.
Qed.
Print Assumptions C58_raise.
Theorem C58_heights {V} (ts : list (nat * list (name * list V))) do_copy od om p q : In p ts -> In q ts -> fst p <> fst q ->
  concat_columns ts do_copy od om = CcValueError.
Proof.
  intros Hp Hq N. unfold concat_columns. destruct ts as [|[r d] rest]; [destruct Hp|]. destruct rest as [|x rest]; [destruct Hp as [<-|[]], Hq as [<-|[]]; congruence|].
  cbn [length Nat.eqb andb]. match goal with |- context [forallb ?f ?l] => destruct (forallb f l) eqn:E end; [|reflexivity]. exfalso. apply N.
  assert (A : forall z, In z ((r, d) :: x :: rest) -> fst z = r) by (intros z [<-|I]; [reflexivity|]; apply Nat.eqb_eq; rewrite forallb_forall in E; now apply E).
  now rewrite (A p Hp), (A q Hq).
Qed.
Print Assumptions C58_heights.
Example C58_case : concat_columns [(1, [([65], [1]); ([66], [2])]); (1, [([67], [3]); ([66], [4])]); (1, [([66], [5])])] true DupLast MisIgnore =
    CcOk [([65], [1]); ([66], [5]); ([67], [3])] false /\
  concat_columns [(1, [([65], [1]); ([66], [2])]); (1, [([67], [3]); ([66], [4])])] true DupFirst MisWarn = CcOk [([65], [1]); ([66], [2]); ([67], [3])] true.
Proof. split; vm_compute; reflexivity. Qed.

(** ** C59: iterrows *)
(** When the row with number k is delivered it shows the values of row k, and the dataset itself never
    changes.  Missing: rows delivered earlier do not keep their values (below). *)
Theorem C59_iterrows_partial {V} (s : struct) (h : list (@cell V)) nrows :
  (forall n loc, In (n, loc) s -> exists c, nth_error h loc = Some (Col c) /\ length c = nrows) ->
  map fst (yielded s h nrows) = seq 0 nrows /\
  forall k st, nth_error (yielded s h nrows) k = Some (k, st) ->
    (forall ci n loc c, nth_error s ci = Some (n, loc) -> nth_error h loc = Some (Col c) ->
       nth_error (show st (iter_heap s h (S k))) ci = Some (n, option_map Scalar (nth_error c k))) /\
    show s (iter_heap s h (S k)) = show s h.
Proof.
  intros C. split; [unfold yielded; rewrite map_map; cbn; apply map_id|]. intros k st H.
  assert (k < nrows) by (rewrite <- (seq_length nrows 0), <- (map_length (fun r => (r, temp_struct s h))); apply nth_error_Some; unfold yielded in H; congruence).
  unfold yielded in H. rewrite nth_error_map in H. destruct (nth_error (seq 0 nrows) k); [|discriminate]. cbn in H. injection H as _ <-.
  split; [now apply (iter_row s h nrows C k)|]. apply (iter_source s h nrows C). lia.
Qed.
Print Assumptions C59_iterrows_partial.
(** Finding: list(ds.iterrows()) gives the last row every time. *)
Theorem C59_iterrows_refuted : exists (s : struct) (h : list (@cell nat)) nrows k r ci n loc c,
  (forall n loc, In (n, loc) s -> exists c, nth_error h loc = Some (Col c) /\ length c = nrows) /\
  nth_error (yielded s h nrows) k = Some r /\ nth_error s ci = Some (n, loc) /\ nth_error h loc = Some (Col c) /\
  nth_error (show (snd r) (iter_heap s h nrows)) ci <> Some (n, option_map Scalar (nth_error c k)).
Proof.
  exists [([65], 0)], [Col [1; 2]], 2, 0. eexists. exists 0, [65], 0, [1; 2]. split; [|split; [|split; [|split]]]; try reflexivity.
  - intros n loc [E|[]]. injection E as <- <-. exists [1; 2]. auto.
  - vm_compute. discriminate.
Qed.
Print Assumptions C59_iterrows_refuted.
Example C59_case : forall n loc, In (n, loc) [([65], 0); ([66], 1)] ->
  exists c, nth_error [Col [1; 2]; Col [3; 4]] loc = Some (Col c) /\ length c = 2.
Proof. intros n loc [E|[E|[]]]; injection E as <- <-; eexists; split; reflexivity. Qed.

(** ** C81: from_rows *)
Theorem C81_from_rows {V} (rows : list (list V)) ns : NoDup ns -> ns <> [] ->
  ((forall r, In r rows -> length r = length ns) ->
     exists t, from_rows rows ns = Some t /\ map fst t = ns /\
       forall j n i r, nth_error ns j = Some n -> nth_error rows i = Some r -> cell_of t n i = nth_error r j) /\
  ((exists r, In r rows /\ length r <> length ns) -> from_rows rows ns = None).
Proof.
  intros ND NE. split; [intros H; exact (from_rows_ok rows ns ND NE H)|]. intros (r & I & L). unfold from_rows. destruct ns as [|n0 ns']; [congruence|].
  rewrite (from_rows_bad rows _ r I); [reflexivity|]. now rewrite map_length.
Qed.
Print Assumptions C81_from_rows.
Example C81_case : from_rows [[1; 2]; [3; 4]; [5; 6]] [[97]; [98]] = Some [([97], [1; 3; 5]); ([98], [2; 4; 6])] /\ from_rows [[1; 2]; [3]] [[97]; [98]] = None.
Proof. split; reflexivity. Qed.

(** ** C82: from_tagged_rows *)
(** Rows with the same keys (in any order) become the rows of the dataset. *)
Theorem C82_tagged_rows_partial {V} (sorted : list name -> list name) ks (rows : list (list (name * V))) :
  (forall l, Permutation (sorted l) l) -> rows <> [] -> ks <> [] ->
  (forall r, In r rows -> NoDup (map fst r) /\ forall k, In k (map fst r) <-> In k ks) ->
  exists t, from_tagged_rows sorted rows = RowsOk t /\ NoDup (map fst t) /\ (forall k, In k (map fst t) <-> In k ks) /\
    forall k i r, In k ks -> nth_error rows i = Some r -> cell_of t k i = dget k r.
Proof.
  intros S1 NR NK H. destruct (tagged_ok sorted S1 ks rows NR NK H) as (t & E & ND & _ & K & C). exists t. auto.
Qed.
Print Assumptions C82_tagged_rows_partial.
(** Finding: rows with different keys are meant to be refused, but only the number of times each key
    occurs is compared.  [{a: 1}, {b: 2}] becomes one row (a=1, b=2). *)
Theorem C82_tagged_rows_refuted : forall sorted : list name -> list name, sorted [[97]; [98]] = [[97]; [98]] ->
  exists rows : list (list (name * nat)), (exists r1 r2 k, In r1 rows /\ In r2 rows /\ In k (map fst r1) /\ ~ In k (map fst r2)) /\
    length rows = 2 /\ from_tagged_rows sorted rows = RowsOk [([97], [1]); ([98], [2])].
Proof.
  intros sorted S1. exists [[([97], 1)]; [([98], 2)]]. split; [|split; [reflexivity|]].
  - exists [([97], 1)], [([98], 2)], [97]. cbn. intuition discriminate.
  - unfold from_tagged_rows. assert (E : count_keys [[([97], 1)]; [([98], 2)]] = [([97], 1); ([98], 1)]) by reflexivity. rewrite E. cbn zeta. change (names [([97], 1); ([98], 1)]) with [[97]; [98]]. rewrite S1. reflexivity.
Qed.
Print Assumptions C82_tagged_rows_refuted.
Example C82_case : from_tagged_rows (fun l => l) [[([97], 1); ([98], 2)]; [([98], 4); ([97], 3)]] = RowsOk [([97], [1; 3]); ([98], [2; 4])].
Proof. reflexivity. Qed.

(** ** C83: from_jagged_rows *)
(** For byte-string rows (numbers are converted to those): column base+i holds the i-th item of every row
    that has one, the fill elsewhere (cut at the width of the widest row).  Missing: unicode rows and
    bytes fills, which fail (below). *)
Theorem C83_jagged_rows_partial decimal (rows : list srow) base f fill :
  (forall i j, decimal i = decimal j -> i = j) -> (forall r, In r rows -> sr_unicode r = false) ->
  (forall r s, In r rows -> In s (sr_items r) -> length s <= sr_width r) ->
  (f = FillDefault /\ fill = [] \/ f = FillStr fill \/ f = FillOther fill) ->
  exists t, from_jagged_rows decimal rows base f = JagOk t /\
    let width := list_max0 (map sr_width rows) in
    let ncols := list_max0 (map (fun r => length (sr_items r)) rows) in
    map fst t = map (fun i => base ++ decimal i) (seq 0 ncols) /\
    forall i j r, i < ncols -> nth_error rows j = Some r ->
      cell_of t (base ++ decimal i) j = Some (match nth_error (sr_items r) i with Some s => s | None => firstn width fill end).
Proof.
  intros INJ UN W F. unfold from_jagged_rows.
  assert (U : existsb sr_unicode rows = false).
  { destruct (existsb sr_unicode rows) eqn:E; [|reflexivity]. apply existsb_exists in E. destruct E as (r & I & Q). rewrite (UN r I) in Q. discriminate. }
  rewrite U, andb_false_r. assert (FI : fill_inv false f = Some fill) by (destruct F as [(-> & ->)|[-> | ->]]; reflexivity). rewrite FI.
  set (width := list_max0 (map sr_width rows)). set (ncols := list_max0 _).
  assert (WW : forall i r s, In r rows -> nth_error (sr_items r) i = Some s -> length s <= width).
  { intros i r s Hr Hs. specialize (W r s Hr (nth_error_In _ _ Hs)). assert (sr_width r <= width) by (apply list_max0_ge, in_map; exact Hr). lia. }
  rewrite (jagged_loop decimal rows width fill base INJ WW). eexists. split; [reflexivity|]. cbn zeta. split; [rewrite map_map; reflexivity|].
  intros i j r Hi Hj. unfold cell_of.
  rewrite (dget_in _ (map (fun r => match nth_error (sr_items r) i with Some s => s | None => firstn width fill end) rows)).
  - exact (map_nth_error _ _ _ Hj).
  - rewrite map_map. cbn [fst]. apply FlattenProofs.NoDup_map_inj; [intros a b E; apply app_inv_head in E; now apply INJ|apply seq_NoDup].
  - apply in_map_iff. exists i. split; [reflexivity|]. apply in_seq. lia.
Qed.
Print Assumptions C83_jagged_rows_partial.
(** Findings: any unicode row makes the call fail (a float in the dtype text); a bytes fill for byte
    rows reads an unbound variable; a fill longer than every item is cut. *)
Theorem C83_jagged_rows_refuted : forall decimal base,
  from_jagged_rows decimal [mkSrow true 1 [[97]]] base FillDefault = JagBadDtype /\
  from_jagged_rows decimal [mkSrow false 1 [[97]; [98]]; mkSrow false 1 [[99]]] base (FillBytes [45]) = JagUnbound /\
  from_jagged_rows decimal [mkSrow false 1 []; mkSrow false 1 [[99]]] base (FillStr [45; 45]) = JagOk [(base ++ decimal 0, [[45]; [99]])].
Proof. intros decimal base. repeat split. Qed.
Print Assumptions C83_jagged_rows_refuted.
Example C83_case : from_jagged_rows (fun i => [48 + i]) [mkSrow false 2 [[97]; [98; 98]]; mkSrow false 1 [[99]]] [67] FillDefault =
  JagOk [([67; 48], [[97]; [99]]); ([67; 49], [[98; 98]; []])].
Proof. reflexivity. Qed.

(** ** C84: trim *)
(** [plain n]: column n is a label or not numeric.  A value is worth keeping when the test [func] (zero or
    nan, or the user's) is not [true] of it - with keep=True, when it is.  trim keeps every plain column,
    and every other column holding a value worth keeping (all, with columns=False); and it keeps
    exactly the rows that hold a value worth keeping in some kept tested column - all rows if there is no
    such column, or with rows=False. *)
Theorem C84_trim {V} (func : V -> bool) plain keep columns rows (t : list (name * list V)) N :
  NoDup (map fst t) -> (forall n c, In (n, c) t -> length c = N) ->
  let '(t', am, cf) := trim func plain keep columns rows t in
  let worth n i := exists v, cell_of t n i = Some v /\ func v = keep in
  exists rs, in_order rs /\ taken t' t rs cf /\
    (forall n, In n cf <-> In n (map fst t) /\ (plain n = true \/ columns = false \/ exists i, worth n i)) /\
    (forall i, In i rs <-> i < N /\ (rows = false \/ (forall n, In n cf -> plain n = true) \/ exists n, In n cf /\ plain n = false /\ worth n i)).
Proof.
  intros ND L. pose proof (trim_ok func plain keep columns rows t N ND L) as T. destruct (trim func plain keep columns rows t) as [[t' am] cf]. destruct T as (-> & TK & _). cbn zeta.
  exists (filter (row_stays func plain keep columns rows t) (seq 0 N)). split; [apply filter_seq_order|]. split; [exact TK|].
  assert (LIVE : forall n c i v, In (n, c) t -> nth_error c i = Some v -> live func keep v = true -> exists v, cell_of t n i = Some v /\ func v = keep).
  { intros n c i v I E Lv. exists v. unfold cell_of. rewrite (dget_in _ _ _ ND I). split; [exact E|]. unfold live in Lv. now apply Bool.eqb_prop in Lv. }
  assert (CF : forall n, In n (map fst (filter (stays func plain keep columns) t)) <-> In n (map fst t) /\ (plain n = true \/ columns = false \/ exists i, exists v, cell_of t n i = Some v /\ func v = keep)).
  { intros n. rewrite in_map_iff. split.
    - intros ([n' c] & E & I). cbn [fst] in E. subst n'. apply filter_In in I. destruct I as (I & S1). split; [change n with (fst (n, c)); now apply in_map|].
      unfold stays in S1. cbn [fst snd] in S1. rewrite !orb_true_iff in S1. destruct S1 as [[S1|S1]|S1]; [auto|right; left; now destruct columns|].
      right. right. apply existsb_exists in S1. destruct S1 as (v & Iv & Lv). apply In_nth_error in Iv. destruct Iv as (i & Hi). exists i. eapply LIVE; eauto.
    - intros (I & D). apply in_map_iff in I. destruct I as ([n' c] & E & I). cbn [fst] in E. subst n'. exists (n, c). split; [reflexivity|]. apply filter_In. split; [exact I|].
      unfold stays. cbn [fst snd]. rewrite !orb_true_iff. destruct D as [D|[D|(i & v & C & F)]]; [auto|rewrite D; auto|]. right. apply existsb_exists. exists v.
      unfold cell_of in C. rewrite (dget_in _ _ _ ND I) in C. split; [eapply nth_error_In; eauto|]. unfold live. rewrite F. apply Bool.eqb_reflx. }
  split; [exact CF|]. intros i. rewrite filter_In, in_seq. unfold row_stays.
  assert (TE : forall p, In p (filter (tested func plain keep columns) t) <-> In p (filter (stays func plain keep columns) t) /\ plain (fst p) = false).
  { intros p. rewrite !filter_In. unfold tested. rewrite andb_true_iff, negb_true_iff. tauto. }
  assert (RL : match filter (tested func plain keep columns) t with [] => true | _ => row_live func plain keep columns t i end = true <->
    (forall n, In n (map fst (filter (stays func plain keep columns) t)) -> plain n = true) \/
    (exists n, In n (map fst (filter (stays func plain keep columns) t)) /\ plain n = false /\ exists v, cell_of t n i = Some v /\ func v = keep)).
  { destruct (filter (tested func plain keep columns) t) as [|p0 r0] eqn:ET.
    - split; [intros _; left|reflexivity]. intros n I. apply in_map_iff in I. destruct I as (p & <- & I). destruct (plain (fst p)) eqn:P; [reflexivity|]. destruct (proj2 (TE p) (conj I P)).
    - rewrite <- ET in TE. assert (P0 : In p0 (filter (stays func plain keep columns) t) /\ plain (fst p0) = false) by (apply TE; rewrite ET; now left). split.
      + intros R. right. unfold row_live in R. apply existsb_exists in R. destruct R as ([n c] & I & Lv). apply TE in I. cbn [fst snd] in *. destruct I as (I & P). exists n. split; [change n with (fst (n, c)); now apply in_map|]. split; [exact P|].
        destruct (nth_error c i) as [v|] eqn:E; [|discriminate]. apply filter_In in I. eapply LIVE; [apply (proj1 I)|exact E|exact Lv].
      + intros [A|(n & I & P & v & C & F)].
        * rewrite (A (fst p0)) in P0 by (apply in_map; apply P0). destruct P0. discriminate.
        * unfold row_live. apply existsb_exists. apply in_map_iff in I. destruct I as ([n' c] & E & I). cbn [fst] in E. subst n'. exists (n, c). split; [apply TE; auto|]. cbn [snd].
          pose proof (proj1 (filter_In _ _ _) I) as (I1 & _). unfold cell_of in C. rewrite (dget_in _ _ _ ND I1) in C. rewrite C. unfold live. rewrite F. apply Bool.eqb_reflx. }
  rewrite orb_true_iff, RL. destruct rows; cbn [negb]; intuition (try discriminate; try lia).
Qed.
Print Assumptions C84_trim.
Example C84_case : trim (fun v => v =? 0) (fun n => match n with [1] => true | _ => false end) false true true
    [([1], [7; 8; 9]); ([2], [0; 4; 0]); ([3], [0; 0; 0]); ([4], [0; 0; 5])] =
  ([([1], [8; 9]); ([2], [4; 0]); ([4], [0; 5])], Some [false; true; true], [[1]; [2]; [4]]).
Proof. reflexivity. Qed.
