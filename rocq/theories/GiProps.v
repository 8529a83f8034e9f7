(** Properties C186-C191: iterating over groups, one group, the columns of grouped calls. *)
From Coq Require Import List Arith ZArith Bool Lia Sorted Permutation.
From Verif Require Import FlattenModel GroupModel GroupFacts GroupingModel AggProofs2 DsProofs3 GiSpec GiModel GiProofs GiProofs2 GiProofs3.
Import ListNotations.

(** An example: six rows with the keys 30, 10, none, 30, 20, 10. *)
Definition ex_keys : list (option nat) := [Some 30; Some 10; None; Some 30; Some 20; Some 10].
Definition ex_us := uniques Nat.eqb ex_keys.
Definition ex_ikey := ikeys Nat.eqb ex_keys.
Lemma ex_grouping : grouping_of ex_keys ex_us ex_ikey.
Proof. apply (ikeys_grouping Nat.eqb Nat.eqb_eq). Qed.
Definition ex_table : @table nat := [([97], [100; 101; 102; 103; 104; 105]); ([98], [0; 1; 2; 3; 4; 5])].

(** *** C186: iter_groups and groups *)
(** After any history of calls without a filter, iter_groups yields every key once, in the order of the
    group numbers, with exactly the rows having it in increasing order; every row with a key is
    yielded exactly once; groups is the same as a dictionary.  Missing: histories in which
    get_groupings or apply had a filter (refuted below). *)
Theorem C186_iter_groups_partial :
  forall (K : Type) (eqb : K -> K -> bool), (forall a b, eqb a b = true <-> a = b) ->
  forall (keys : list (option K)) (us : list K) (ikey : list nat), grouping_of keys us ikey ->
  forall h, Forall without_filter h ->
  let s := fold_left (gstep ikey (length us)) h g_init in
  let it := iter_groups us ikey s in
  map fst it = us /\
  (forall k rows, In (k, rows) it -> rows_having keys k rows) /\
  NoDup (concat (map snd it)) /\ (forall i, In i (concat (map snd it)) <-> exists k, has_key keys i k) /\
  (forall k rows, kget eqb k (groups eqb us ikey s) = Some rows <-> In (k, rows) it).
Proof.
  intros K eqb EO keys us ikey G h F s it. pose proof (packed_plain ikey (length us) h F) as P. fold s in P.
  split; [apply iter_keys, P|]. split; [intros k rows; apply (iter_rows G s k rows P)|]. split; [apply (iter_nodup s P)|]. split; [apply (iter_cover G s P)|].
  rewrite (groups_is eqb EO G s P). fold it. assert (N : NoDup (map fst it)) by (unfold it; rewrite (iter_keys s P); apply (g_distinct _ _ _ G)).
  revert N. generalize it as l. clear - EO. induction l as [|[a x] l IH]; cbn; intros N k rows; [split; [discriminate|contradiction]|]. inversion N as [|? ? N1 N2]; subst.
  destruct (eqb k a) eqn:E.
  - apply EO in E. subst a. split; [intros H; injection H as ->; now left|]. intros [H|H]; [congruence|]. elim N1. apply in_map with (f := fst) in H. exact H.
  - rewrite (IH N2 k rows). split; [now right|]. intros [H|H]; [|exact H]. injection H as -> ->. assert (eqb k k = true) by now apply EO. congruence.
Qed.
Print Assumptions C186_iter_groups_partial.
(** After get_groupings(filter=f), iterating shows the rows that pass f, and no others. *)
Theorem C186_after_filter :
  forall (K : Type) (keys : list (option K)) (us : list K) (ikey : list nat), grouping_of keys us ikey ->
  forall (s : gstate) (f : list bool), length f = length keys ->
  let it := iter_groups us ikey (get_groupings ikey (length us) (Some f) s) in
  map fst it = us /\ (forall k rows, In (k, rows) it -> rows_having (only f keys) k rows).
Proof.
  intros K keys us ikey G s f L it. pose proof (grouping_only keys us ikey f L G) as G'.
  assert (E : it = iter_groups us (passing (Some f) ikey) g_init) by reflexivity.
  pose proof (packed_plain (passing (Some f) ikey) (length us) [] (Forall_nil _)) as P. cbn [fold_left] in P. rewrite E.
  split; [apply iter_keys, P|]. intros k rows. apply (iter_rows G' g_init k rows P).
Qed.
Print Assumptions C186_after_filter.
(** Finding: get_groupings(filter=...) is not a query: iter_groups, groups, first_fancy and the for loop
    over the GroupBy called afterwards leave out the rows that did not pass that filter. *)
Theorem C186_after_get_groupings_refuted :
  exists (keys : list (option nat)) us ikey f i k, grouping_of keys us ikey /\ has_key keys i k /\
    In i (concat (map snd (iter_groups us ikey g_init))) /\
    ~ In i (concat (map snd (iter_groups us ikey (get_groupings ikey (length us) (Some f) g_init)))).
Proof.
  exists ex_keys, ex_us, ex_ikey, [true; false; true; true; true; true], 1, 10. split; [apply ex_grouping|]. split; [reflexivity|].
  split; vm_compute; intuition discriminate.
Qed.
Print Assumptions C186_after_get_groupings_refuted.
Example C186_case :
  iter_groups ex_us ex_ikey (fold_left (gstep ex_ikey 3) [Igroup; Apply None; Pack None true] g_init) = [(30, [0; 3]); (10, [1; 5]); (20, [4])] /\
  kget Nat.eqb 10 (groups Nat.eqb ex_us ex_ikey g_init) = Some [1; 5].
Proof. split; vm_compute; reflexivity. Qed.

(** *** C187: for key, ds in gb *)
(** In the body of the loop, the Dataset shows exactly the rows of the key, in their order, in all
    columns; the keys come in the order of the group numbers; a Categorical iterated over with a
    dataset yields the same. *)
Theorem C187_loop_partial :
  forall (K V : Type) (inv : V) (keys : list (option K)) (us : list K) (ikey : list nat), grouping_of keys us ikey ->
  forall (t : @table V), of_length (length keys) t ->
  forall h, Forall without_filter h ->
  let s := fold_left (gstep ikey (length us)) h g_init in
  map fst (seen_in_loop inv us ikey s t) = us /\
  (forall k ds, In (k, ds) (seen_in_loop inv us ikey s t) ->
     exists rows, rows_having keys k rows /\ shows_rows t rows (o_cols ds) /\ o_nrows ds = length rows) /\
  iter_dataset inv us ikey s t = map (fun q => (fst q, o_cols (snd q))) (seen_in_loop inv us ikey s t).
Proof.
  intros K V inv keys us ikey G t L h F s. pose proof (packed_plain ikey (length us) h F) as P. fold s in P.
  unfold seen_in_loop. rewrite (loop_is inv s t P). cbn [fst]. split; [|split].
  - rewrite map_map. cbn [fst]. rewrite <- (iter_keys s P) at 3. rewrite (iter_is s P), map_map. reflexivity.
  - intros k ds I. apply in_map_iff in I. destruct I as [[i k'] [E I]]. cbn [fst snd] in E. injection E as <- <-. apply in_combine_seq in I.
    exists (group_rows ikey (S i)). split; [apply (rows_ok G i k' I)|]. split; [|reflexivity]. cbn [o_cols]. apply (@take_shows V inv ikey).
    + intros c Ic. rewrite (g_length _ _ _ G). now apply L.
    + intros r. apply rows_range.
  - unfold iter_dataset. rewrite (iter_is s P), !map_map. reflexivity.
Qed.
Print Assumptions C187_loop_partial.
(** list(gb) has the right keys, but all its entries show the rows of the last key. *)
Theorem C187_collected_last :
  forall (K V : Type) (inv : V) (keys : list (option K)) (us : list K) (k0 : K) (ikey : list nat), grouping_of keys (us ++ [k0]) ikey ->
  forall (t : @table V), of_length (length keys) t ->
  let l := collected inv (us ++ [k0]) ikey g_init t in
  map fst l = us ++ [k0] /\
  forall k ds, In (k, ds) l -> exists rows, rows_having keys k0 rows /\ shows_rows t rows (o_cols ds) /\ o_nrows ds = length rows.
Proof.
  intros K V inv keys us k0 ikey G t L l. subst l. pose proof (packed_plain ikey (length (us ++ [k0])) [] (Forall_nil _)) as P. cbn [fold_left] in P.
  unfold collected. rewrite (loop_is inv g_init t P). cbn [fst snd]. split.
  - rewrite !map_map. cbn [fst]. rewrite <- (iter_keys g_init P) at 3. rewrite (iter_is g_init P), map_map. reflexivity.
  - intros k ds I. apply in_map_iff in I. destruct I as [q [E _]]. injection E as _ E. rewrite rev_app_distr in E. cbn [rev app] in E. subst ds.
    assert (Eu : nth_error (us ++ [k0]) (length us) = Some k0) by (rewrite nth_error_app2, Nat.sub_diag by lia; reflexivity).
    assert (Ln : length (us ++ [k0]) = S (length us)) by (rewrite app_length; cbn; lia).
    exists (group_rows ikey (S (length us))). split; [apply (rows_ok G _ _ Eu)|]. rewrite Ln. split; [|reflexivity]. cbn [o_cols]. apply (@take_shows V inv ikey).
    + intros c Ic. rewrite (g_length _ _ _ G). now apply L.
    + intros r. apply rows_range.
Qed.
Print Assumptions C187_collected_last.
(** Finding: the for loop yields one and the same Dataset object every time; list(gb) or dict(gb)
    pairs every key with the rows of the last group. *)
Theorem C187_collected_refuted :
  exists (keys : list (option nat)) us ikey (t : @table nat) k ds, grouping_of keys us ikey /\ of_length (length keys) t /\
    In (k, ds) (collected 0 us ikey g_init t) /\ forall rows, rows_having keys k rows -> ~ shows_rows t rows (o_cols ds).
Proof.
  exists ex_keys, ex_us, ex_ikey, ex_table, 30, (mkObj [([97], [104]); ([98], [4])] 1). split; [apply ex_grouping|]. split; [intros c [<-|[<-|[]]]; reflexivity|].
  split; [vm_compute; now left|]. intros rows [_ R] [_ S]. specialize (S 0 ([97], [100; 101; 102; 103; 104; 105]) ([97], [104]) eq_refl eq_refl). cbn [snd map] in S.
  assert (I0 : In 0 rows) by (apply R; reflexivity). destruct rows as [|r rows]; [contradiction|]. cbn [map] in S. injection S as S S'. symmetry in S'. apply map_eq_nil in S'. subst rows.
  destruct I0 as [->|[]]. discriminate.
Qed.
Print Assumptions C187_collected_refuted.
Example C187_case :
  map (fun q => (fst q, o_cols (snd q))) (seen_in_loop 0 ex_us ex_ikey g_init ex_table)
  = [(30, [([97], [100; 103]); ([98], [0; 3])]); (10, [([97], [101; 105]); ([98], [1; 5])]); (20, [([97], [104]); ([98], [4])])].
Proof. vm_compute. reflexivity. Qed.

(** *** C188: first_fancy, last_fancy, first_bool, last_bool *)
(** For every key that some row has, first_fancy and last_fancy hold its first and last row at the
    position of the key, whatever the other keys are. *)
Theorem C188_fancy :
  forall (K : Type) (keys : list (option K)) (us : list K) (ikey : list nat), grouping_of keys us ikey ->
  forall h, Forall without_filter h ->
  let s := fold_left (gstep ikey (length us)) h g_init in
  length (first_fancy us ikey s) = length us /\ length (last_fancy us ikey s) = length us /\
  forall j k, nth_error us j = Some k -> used keys k ->
    (exists r, nth_error (first_fancy us ikey s) j = Some (Z.of_nat r) /\ first_row keys k r) /\
    (exists r, nth_error (last_fancy us ikey s) j = Some (Z.of_nat r) /\ last_row keys k r).
Proof.
  intros K keys us ikey G h F s. pose proof (packed_plain ikey (length us) h F) as P. fold s in P.
  split; [apply first_len, P|]. split; [apply last_len, P|]. intros j k E U. split; [apply (first_fancy_at G s P j k E U)|apply (last_fancy_at G s P j k E U)].
Qed.
Print Assumptions C188_fancy.
(** If every key is used, first_bool and last_bool are True exactly in the first and last row of
    every key.  Missing: categories without a row (refuted below). *)
Theorem C188_bool_partial :
  forall (K : Type) (keys : list (option K)) (us : list K) (ikey : list nat), grouping_of keys us ikey ->
  (forall k, In k us -> used keys k) ->
  forall h, Forall without_filter h ->
  let s := fold_left (gstep ikey (length us)) h g_init in
  exists first last, first_bool us ikey s = Some first /\ last_bool us ikey s = Some last /\
    length first = length keys /\ length last = length keys /\
    (forall i b, nth_error first i = Some b -> (b = true <-> exists k, has_key keys i k /\ forall i', has_key keys i' k -> i <= i')) /\
    (forall i b, nth_error last i = Some b -> (b = true <-> exists k, has_key keys i k /\ forall i', has_key keys i' k -> i' <= i)).
Proof.
  intros K keys us ikey G U h F s. pose proof (packed_plain ikey (length us) h F) as P. fold s in P.
  destruct (first_bool_ok G s P U) as [f [E1 [L1 H1]]]. destruct (last_bool_ok G s P U) as [l [E2 [L2 H2]]]. exists f, l.
  split; [exact E1|]. split; [exact E2|]. split; [exact L1|]. split; [exact L2|]. split.
  - intros i b E. rewrite (H1 i b E). unfold first_row. split; intros [k H]; exists k; tauto.
  - intros i b E. rewrite (H2 i b E). unfold last_row. split; intros [k H]; exists k; tauto.
Qed.
Print Assumptions C188_bool_partial.
(** Finding: a category that no row has gets the first row of the next category in first_fancy, or the
    invalid if there is none; then first_bool raises. *)
Theorem C188_unused_first_refuted :
  exists (keys : list (option nat)) us ikey, grouping_of keys us ikey /\
    (exists j k r, nth_error us j = Some k /\ ~ used keys k /\ nth_error (first_fancy us ikey g_init) j = Some (Z.of_nat r) /\ has_key keys r 30) /\
    (exists us' ikey', grouping_of keys us' ikey' /\ first_bool us' ikey' g_init = None).
Proof.
  exists [Some 10; Some 30], [10; 20; 30], [1; 3]. split; [|split].
  - constructor; [repeat constructor; cbn; intuition discriminate|reflexivity| |].
    + intros [|[|i]] H; cbn in H; try discriminate. destruct i; discriminate.
    + intros [|[|i]] b H; cbn in H; [injection H as <-; exists 0; now split|injection H as <-; exists 2; now split|destruct i; discriminate].
  - exists 1, 20, 1. split; [reflexivity|]. split; [intros [[|[|i]] H]; try discriminate; unfold has_key in H; cbn in H; destruct i; discriminate|]. split; vm_compute; reflexivity.
  - exists [10; 30; 20], [1; 2]. split; [|vm_compute; reflexivity]. constructor; [repeat constructor; cbn; intuition discriminate|reflexivity| |].
    + intros [|[|i]] H; cbn in H; try discriminate. destruct i; discriminate.
    + intros [|[|i]] b H; cbn in H; [injection H as <-; exists 0; now split|injection H as <-; exists 1; now split|destruct i; discriminate].
Qed.
Print Assumptions C188_unused_first_refuted.
(** Finding: if the first category has no row, last_bool marks a row that is filtered. *)
Theorem C188_unused_last_refuted :
  exists (keys : list (option nat)) us ikey m i, grouping_of keys us ikey /\ last_bool us ikey g_init = Some m /\
    nth_error m i = Some true /\ nth_error keys i = Some None.
Proof.
  exists [None; Some 20], [10; 20], [0; 2], [true; true], 0. split; [|split; [vm_compute; reflexivity|split; reflexivity]].
  constructor; [repeat constructor; cbn; intuition discriminate|reflexivity| |].
  - intros [|[|i]] H; cbn in H; try discriminate; [reflexivity|]. destruct i; discriminate.
  - intros [|[|i]] b H; cbn in H; try discriminate; [injection H as <-; exists 1; now split|destruct i; discriminate].
Qed.
Print Assumptions C188_unused_last_refuted.
Example C188_case :
  (forall k, In k ex_us -> used ex_keys k) /\
  first_fancy ex_us ex_ikey g_init = [0; 1; 4]%Z /\ last_fancy ex_us ex_ikey g_init = [3; 5; 4]%Z /\
  first_bool ex_us ex_ikey g_init = Some [true; true; false; false; true; false] /\
  last_bool ex_us ex_ikey g_init = Some [false; false; false; true; true; true].
Proof.
  split; [|repeat split; vm_compute; reflexivity]. intros k I. vm_compute in I. destruct I as [<-|[<-|[<-|[]]]]; [exists 0|exists 1|exists 4]; reflexivity.
Qed.

(** *** C189: get_group and as_categorical *)
(** Made with sort_display=False (gbu), get_group(k) has exactly the rows of k and as_categorical shows
    the key of every row.  A value that is no key raises with one key column and gives an empty
    Dataset with several. *)
Theorem C189_gbu :
  forall (K : Type) (eqb leb : K -> K -> bool), (forall a b, eqb a b = true <-> a = b) ->
  forall (keys : list (option K)) (us : list K) (ikey : list nat) (multi : bool), grouping_of keys us ikey ->
  as_categorical leb false us ikey = keys /\
  (forall k, In k us -> exists rows, get_group eqb leb false multi us ikey k = Some rows /\ rows_having keys k rows) /\
  (forall k sd, ~ In k us -> get_group eqb leb sd multi us ikey k = if multi then Some [] else None).
Proof.
  intros K eqb leb EO keys us ikey multi G. split; [apply (as_categorical_same leb G false eq_refl)|]. split.
  - intros k I. apply In_nth_error in I. destruct I as [j E]. exists (group_rows ikey (S j)). split; [apply (get_group_at eqb leb EO G false multi j k E)|apply (rows_ok G j k E)].
  - intros k sd N. apply (get_group_missing eqb leb EO (us := us) (ikey := ikey) sd multi k N).
Qed.
Print Assumptions C189_gbu.
(** With the default sort_display=True (gb), get_group is right for all keys exactly if the keys are
    first seen in sorted order; then as_categorical is right too.  Missing: all other GroupBys
    (refuted below). *)
Theorem C189_gb_partial :
  forall (K : Type) (eqb leb : K -> K -> bool), (forall a b, eqb a b = true <-> a = b) -> total_order leb ->
  forall (keys : list (option K)) (us : list K) (ikey : list nat) (multi : bool), grouping_of keys us ikey ->
  (forall k, In k us -> used keys k) ->
  ((forall k, In k us -> exists rows, get_group eqb leb true multi us ikey k = Some rows /\ rows_having keys k rows) <-> in_order leb us) /\
  (in_order leb us -> as_categorical leb true us ikey = keys).
Proof.
  intros K eqb leb EO T keys us ikey multi G U. pose proof (sorted_iff leb T (us := us)) as S. split.
  - rewrite <- S. apply (get_group_order eqb leb EO G true multi U).
  - intros I. apply (as_categorical_same leb G true). now apply S.
Qed.
Print Assumptions C189_gb_partial.
(** What get_group of a gb returns: the rows of the key whose place in the order of appearance is the
    place of the asked key in the sorted order. *)
Theorem C189_gb_exact :
  forall (K : Type) (eqb leb : K -> K -> bool), (forall a b, eqb a b = true <-> a = b) -> total_order leb ->
  forall (keys : list (option K)) (us : list K) (ikey : list nat) (multi : bool), grouping_of keys us ikey ->
  exists sorted, Permutation sorted us /\ in_order leb sorted /\
  forall j k k', nth_error sorted j = Some k -> nth_error us j = Some k' ->
    exists rows, get_group eqb leb true multi us ikey k = Some rows /\ rows_having keys k' rows.
Proof.
  intros K eqb leb EO T keys us ikey multi G. exists (ksort leb us). split; [apply ksort_perm|]. split; [apply (ksort_sorted leb T)|].
  intros j k k' E E'. exists (group_rows ikey (S j)). split; [apply (get_group_at eqb leb EO G true multi j k E)|apply (rows_ok G j k' E')].
Qed.
Print Assumptions C189_gb_exact.
(** Finding: ds.gb('key').get_group(k) returns the rows of another key, and gb.as_categorical() shows
    wrong keys, whenever the keys do not first appear in sorted order: the group numbers belong to
    the unsorted keys, the categories are sorted. *)
Theorem C189_gb_refuted :
  exists (keys : list (option nat)) us ikey k rows, grouping_of keys us ikey /\ us = uniques Nat.eqb keys /\ used keys k /\
    get_group Nat.eqb Nat.leb true false us ikey k = Some rows /\ rows <> [] /\ (forall i, In i rows -> ~ has_key keys i k) /\
    as_categorical Nat.leb true us ikey <> keys.
Proof.
  exists ex_keys, ex_us, ex_ikey, 10, [0; 3]. split; [apply ex_grouping|]. split; [reflexivity|]. split; [exists 1; reflexivity|]. split; [vm_compute; reflexivity|].
  split; [discriminate|]. split; [|vm_compute; discriminate]. intros i [<-|[<-|[]]] H; vm_compute in H; discriminate.
Qed.
Print Assumptions C189_gb_refuted.
Lemma nat_order : total_order Nat.leb.
Proof.
  split; [intros a b; rewrite !Nat.leb_le; lia|]. split; [intros a b c; rewrite !Nat.leb_le; lia|]. intros a b; rewrite !Nat.leb_le; lia.
Qed.
Example C189_case :
  total_order Nat.leb /\ get_group Nat.eqb Nat.leb false false ex_us ex_ikey 10 = Some [1; 5] /\
  get_group Nat.eqb Nat.leb false false ex_us ex_ikey 11 = None /\
  (let k := [Some 10; Some 20; None; Some 10] in in_order Nat.leb (uniques Nat.eqb k) /\
   get_group Nat.eqb Nat.leb true false (uniques Nat.eqb k) (ikeys Nat.eqb k) 10 = Some [0; 3]).
Proof.
  split; [apply nat_order|]. split; [vm_compute; reflexivity|]. split; [vm_compute; reflexivity|]. split; [vm_compute; repeat constructor|vm_compute; reflexivity].
Qed.

(** *** C190: header names of arrays *)
(** Every array gets a header; the first array wanting a name keeps it.  If no name wanted twice is
    another name wanted twice followed by digits, all headers are different, and the columns are
    the arrays, in order.  Missing: the other lists of names (refuted below). *)
Theorem C190_headers_partial :
  forall (A : Type) (l : list (option name * A)),
  let ws := wanted (map fst l) in
  length (get_header_names (map fst l)) = length l /\
  (forall j nm, nth_error ws j = Some nm -> (forall i, i < j -> nth_error ws i <> Some nm) -> nth_error (get_header_names (map fst l)) j = Some nm) /\
  ((forall a b, repeated ws a -> repeated ws b -> ~ numbered a b) ->
   NoDup (get_header_names (map fst l)) /\ zip_dict l = combine (get_header_names (map fst l)) (map snd l)).
Proof.
  intros A l ws. assert (L : length ws = length l) by (unfold ws, wanted; rewrite map_length, combine_length, seq_length, map_length; lia). split; [|split].
  - unfold get_header_names. rewrite final_len. exact L.
  - intros j nm. apply headers_first.
  - intros H. assert (N : NoDup (get_header_names (map fst l))) by (apply headers_distinct; exact H). split; [exact N|]. apply zip_dict_exact, N.
Qed.
Print Assumptions C190_headers_partial.
(** Finding: twelve arrays named a and two named a1 give two columns called a11; one array is lost. *)
Theorem C190_headers_refuted :
  exists (l : list (option name * nat)), length l = 14 /\ ~ NoDup (get_header_names (map fst l)) /\
    length (zip_dict l) = 13 /\ exists x, In x (map snd l) /\ ~ In x (map snd (zip_dict l)).
Proof.
  exists (map (fun i => (Some [97], i)) (seq 0 12) ++ [(Some [97; 49], 12); (Some [97; 49], 13)]).
  split; [reflexivity|]. split; [|split; [vm_compute; reflexivity|exists 10; split; vm_compute; intuition discriminate]].
  intros N. apply (NoDup_nth_error _) with (i := 10) (j := 13) in N; [discriminate|vm_compute; lia|vm_compute; reflexivity].
Qed.
Print Assumptions C190_headers_refuted.
Example C190_case :
  let l := [(Some [97], 1); (None, 2); (Some [97], 3); (Some [97; 49], 4); (Some [97], 5)] in
  (forall a b, repeated (wanted (map fst l)) a -> repeated (wanted (map fst l)) b -> ~ numbered a b) /\
  zip_dict l = [([97], 1); ([99; 111; 108; 95; 49], 2); ([97; 50], 3); ([97; 49], 4); ([97; 51], 5)].
Proof.
  split; [|vm_compute; reflexivity].
  assert (R : forall a, repeated (wanted (map fst [(Some [97], 1); (None, 2); (Some [97], 3); (Some [97; 49], 4); (Some [97], 5)])) a -> a = [97]).
  { intros a H. unfold repeated in H. cbn [map fst wanted length seq combine snd count_occ] in H.
    destruct (name_dec [97] a) as [<-|]; [reflexivity|]. destruct (name_dec (col_i 1) a) as [E1|]; destruct (name_dec [97; 49] a) as [E|]; try lia. rewrite <- E1 in E. vm_compute in E. discriminate. }
  intros a b Ha Hb [ds [E [N _]]]. rewrite (R a Ha), (R b Hb) in E. apply N. destruct ds; [reflexivity|discriminate].
Qed.

(** *** C191: the columns of a grouped call *)
(** Arrays or columns given to a call on a GroupBy replace the columns of the same name and are added
    otherwise; all other columns are used as they are.  A Categorical uses exactly what is given,
    and raises without data. *)
Theorem C191_call_columns :
  forall (A : Type) (d : list (name * A)) (a : arg), NoDup (map fst d) -> (forall ds, given a = Some ds -> NoDup (map fst ds)) ->
  prepare None a = given a /\
  exists t, prepare (Some d) a = Some t /\ NoDup (map fst t) /\
  forall nm, dget nm t = match (match given a with Some ds => dget nm ds | None => None end) with Some c => Some c | None => dget nm d end.
Proof.
  intros A d a N Na. split; [unfold prepare; now destruct (given a)|]. unfold prepare. destruct (given a) as [ds|] eqn:E.
  - exists (dset_all ds d). split; [reflexivity|]. split; [now apply dset_all_nodup|]. intros nm. apply dget_dset_all. now apply Na.
  - exists d. split; [reflexivity|]. split; [exact N|]. reflexivity.
Qed.
Print Assumptions C191_call_columns.
(** gb[names] works on exactly the named columns and the key columns, unchanged, the named ones first;
    a name that is no column raises.  Missing: GroupBys by an array (refuted below). *)
Theorem C191_getitem_partial :
  forall (A : Type) (d : list (name * A)) (keynames index : list name), NoDup keynames ->
  (forall k, In k keynames -> In k (map fst d)) ->
  ((forall n, In n index -> In n (map fst d)) ->
   exists t, gb_getitem keynames index d = Some t /\ NoDup (map fst t) /\
     (forall n, (In n index \/ In n keynames) -> dget n t = dget n d) /\
     (forall n, ~ In n index -> ~ In n keynames -> dget n t = None) /\
     (NoDup index -> exists rest, map fst t = index ++ rest /\ incl rest keynames)) /\
  ((exists n, In n index /\ ~ In n (map fst d)) -> gb_getitem keynames index d = None).
Proof.
  intros A d ks idx Nk Hk. assert (D : forall n, In n (map fst d) <-> dget n d <> None).
  { clear. intros n. induction d as [|[k v] d IH]; cbn; [tauto|]. destruct (name_dec k n) as [->|Ne]; [split; [discriminate|now left]|]. rewrite <- IH. split; [intros [H|H]; [contradiction|exact H]|now right]. }
  split.
  - intros Hi. destruct (select_ok d (with_keys idx ks) [] (NoDup_nil _)) as [t [E [N H]]].
    { intros n I. apply D. apply with_keys_in in I; [|exact Nk]. destruct I; auto. }
    exists t. split; [exact E|]. split; [exact N|]. split; [|split].
    + intros n I. rewrite H. apply (with_keys_in idx ks n Nk) in I. now destruct (in_dec name_dec n (with_keys idx ks)).
    + intros n N1 N2. rewrite H. destruct (in_dec name_dec n (with_keys idx ks)) as [I|]; [|reflexivity]. apply with_keys_in in I; tauto.
    + intros Ni. exists (filter (fun k => if in_dec name_dec k idx then false else true) ks). rewrite <- with_keys_is by exact Nk. split; [|intros x I; apply filter_In in I; tauto].
      apply (select_order d (with_keys idx ks) [] t); [|exact E]. cbn [map app]. rewrite with_keys_is by exact Nk. apply FlattenProofs.NoDup_app_d; [exact Ni|now apply NoDup_filter|].
      intros x I1 I2. apply filter_In in I2. destruct I2 as [_ I2]. destruct (in_dec name_dec x idx); [discriminate|contradiction].
  - intros [n [I M]]. apply (select_raises d n); [apply with_keys_in; [exact Nk|now left]|]. destruct (dget n d) eqn:E; [|reflexivity]. elim M. apply D. congruence.
Qed.
Print Assumptions C191_getitem_partial.
(** Finding: grouped by an array that is no column of the Dataset (ds.gb(array)), gb['x'] raises,
    although x is a column. *)
Theorem C191_getitem_refuted :
  exists (d : list (name * list nat)) keynames index, NoDup keynames /\ (forall n, In n index -> In n (map fst d)) /\ gb_getitem keynames index d = None.
Proof.
  exists [([120], [1; 2])], [col_i 0], [[120]]. split; [repeat constructor; intros []|]. split; [intros n [<-|[]]; now left|]. vm_compute. reflexivity.
Qed.
Print Assumptions C191_getitem_refuted.
Example C191_case :
  let d := [([107], 1); ([120], 2); ([121], 3)] in
  prepare (Some d) (Arrays [(Some [120], 7); (None, 8)]) = Some [([107], 1); ([120], 7); ([121], 3); ([99; 111; 108; 95; 49], 8)] /\
  NoDup (map fst (zip_dict [(Some [120], 7); (None, 8)])) /\ prepare None (@NoArg nat) = None /\
  gb_getitem [[107]] [[121]] d = Some [([121], 3); ([107], 1)].
Proof.
  split; [vm_compute; reflexivity|]. split; [vm_compute; repeat constructor; cbn; intuition discriminate|]. split; vm_compute; reflexivity.
Qed.
