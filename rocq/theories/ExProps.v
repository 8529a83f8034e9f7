(* C225, C226: patterns extracted from strings; Datasets as matrices. *)
From Coq Require Import List ZArith Bool Lia.
From Verif Require Import FlattenModel FlattenProofs ExSpec ExModel ExProofs.
Import ListNotations.

(* C225.  extract gives for every group an array with what it found in each
   string, or the fill value; the same with and without apply_unique; as a
   Dataset under the names of the groups if there are several, if names are
   given, or if it is asked for.  For patterns whose groups all take part in
   every match, and that have a group if the strings are str. *)
Theorem C225_extract_partial :
  forall (uniq : list text -> list text * list nat) (gname : nat -> name) (apply_unique bytes : bool) (strings : list text)
         (r : regex) (expand : option bool) (fill : text) (given : option (list name)) (ns : list name),
  is_unique uniq -> well_formed r -> total r -> (r_groups r = 0 -> bytes = true) ->
  named gname r given ns -> NoDup ns -> (expand = Some false -> arity r = 1) ->
  let out := map (fun g => map (fun s => Some (found r fill g s)) strings) (seq 0 (arity r)) in
  extract uniq gname apply_unique bytes strings r expand fill given =
  if expands r expand given then Ds (combine ns out) else Arr (nth 0 out []).
Proof.
  intros uniq gname apply_unique bytes strings r expand fill given ns U W T B N ND X out.
  unfold extract. destruct apply_unique; [|now apply extract1_is].
  specialize (U strings). destruct (uniq strings) as [u inv]. destruct U as (L & _ & _ & H).
  rewrite (extract1_is gname bytes u r expand fill given ns W T B N ND X).
  assert (G : forall g, at_index (map (fun s => Some (found r fill g s)) u) inv = map (fun s => Some (found r fill g s)) strings).
  { intro g. now apply at_index_map. }
  destruct (expands r expand given); cbn [index_result].
  - f_equal. unfold out. clear - G. generalize (seq 0 (arity r)). revert ns.
    induction ns as [|n ns IH]; intros [|g gs]; cbn; try reflexivity. unfold cell in *. rewrite G. f_equal. apply IH.
  - f_equal. unfold out. destruct (seq 0 (arity r)) as [|g gs] eqn:E.
    + exfalso. assert (Q : length (seq 0 (arity r)) = 0) by now rewrite E. rewrite seq_length in Q. unfold arity in Q. lia.
    + cbn [map nth]. unfold cell. apply G.
Qed.
Print Assumptions C225_extract_partial.

(* Asking for an array with several groups, or giving another number of names
   than there are groups, raises. *)
Theorem C225_raises :
  forall (uniq : list text -> list text * list nat) (gname : nat -> name) (apply_unique bytes : bool) (strings : list text)
         (r : regex) (expand : option bool) (fill : text) (given : option (list name)),
  (expand = Some false /\ 1 < r_groups r) \/ (exists ns, given = Some ns /\ length ns <> arity r) ->
  extract uniq gname apply_unique bytes strings r expand fill given = Raise.
Proof.
  intros uniq gname apply_unique bytes strings r expand fill given H.
  assert (E : forall l, extract1 gname bytes l r expand fill given = Raise).
  { intro l. unfold extract1.
    assert (Q : forall q, ((expand = Some false /\ 1 < r_groups q) \/ (exists ns, given = Some ns /\ length ns <> r_groups q)) ->
                extract_groups gname l q expand fill given = Raise).
    { intros q [(-> & L)|(ns & -> & L)]; unfold extract_groups.
      - cbn [negb andb]. apply Nat.ltb_lt in L. now rewrite L.
      - apply Nat.eqb_neq in L. rewrite L.
        destruct expand as [e|]; [destruct (negb e && Nat.ltb 1 (r_groups q))|]; reflexivity. }
    destruct (r_groups r) as [|k] eqn:G.
    - destruct bytes; [|reflexivity]. apply Q. destruct H as [(_ & H)|(ns & E & H)]; [lia|]. right. exists ns. split; auto.
      unfold arity in H. rewrite G in H. exact H.
    - apply Q. destruct H as [(E & H)|(ns & E & H)]; [left|right]; rewrite G in *; [auto|]. exists ns. split; auto.
      unfold arity in H. rewrite G in H. exact H. }
  unfold extract. destruct apply_unique; [|apply E]. destruct (uniq strings) as [u inv]. now rewrite E.
Qed.
Print Assumptions C225_raises.

(* Finding: for an array of str (not bytes) a pattern without groups raises:
   the code decodes the pattern as if it were bytes. *)
Theorem C225_str_refuted :
  forall uniq gname apply_unique strings r expand fill given, r_groups r = 0 ->
  extract uniq gname apply_unique false strings r expand fill given = Raise.
Proof.
  intros. unfold extract, extract1. rewrite H. destruct apply_unique; [|reflexivity]. destruct (uniq strings); reflexivity.
Qed.
Print Assumptions C225_str_refuted.

(* Finding: a group that takes no part in a match, such as the second of
   (a)|(b), gives Python's None instead of the fill value. *)
Theorem C225_optional_refuted :
  forall gname bytes (r : regex) (s m : text) (gs : list (option text)) (fill : text) (g : nat) (ns : list name),
  r_groups r = length gs -> length ns = length gs -> NoDup ns -> r_search r s = Some (m, gs) -> nth_error gs g = Some None ->
  exists cols n, extract (fun l => (l, seq 0 (length l))) gname false bytes [s] r None fill (Some ns) = Ds cols /\
  nth_error ns g = Some n /\ dget n cols = Some [None].
Proof.
  intros gname bytes r s m gs fill g ns G L ND E N.
  assert (LT : g < length gs) by (apply nth_error_Some; congruence).
  assert (C : columns r fill [s] = map (fun c => [c]) gs).
  { unfold columns. rewrite G. unfold row. cbn [map]. rewrite E. clear. induction gs as [|c gs IH]; [reflexivity|].
    cbn [length seq map nth]. f_equal. rewrite <- seq_shift, map_map. cbn [nth]. exact IH. }
  destruct (nth_error ns g) as [n|] eqn:NG; [|apply nth_error_None in NG; lia].
  exists (combine ns (map (fun c => [c]) gs)), n. split; [|split; [reflexivity|]].
  - unfold extract, extract1. destruct (r_groups r) as [|k] eqn:K; [lia|]. unfold extract_groups. rewrite orb_true_r. cbn [orb].
    rewrite K, L, G, Nat.eqb_refl, C. f_equal. rewrite dset_all_fresh; [reflexivity| |intros x _ []].
    assert (Q : forall o : list (list cell), length ns = length o -> map fst (combine ns o) = ns).
    { clear. induction ns as [|n ns IH]; intros [|o out] L; try discriminate; [reflexivity|]. cbn. f_equal. apply IH. now injection L. }
    rewrite Q; [exact ND|]. now rewrite map_length.
  - clear - L ND N NG. revert gs g L N NG. induction ND as [|x ns X ND IH]; intros [|c gs] g L N NG; try discriminate.
    + destruct g; discriminate.
    + cbn [combine map dget]. destruct g as [|g]; cbn in N, NG.
      * injection N as ->. injection NG as ->. destruct (name_dec n n); [reflexivity|congruence].
      * destruct (name_dec x n) as [->|D].
        { exfalso. apply X. now apply nth_error_In in NG. }
        apply (IH gs g); auto.
Qed.
Print Assumptions C225_optional_refuted.

(* Finding: of two groups given the same name only the last is in the result. *)
Theorem C225_names_refuted :
  forall uniq gname bytes (strings : list text) (r : regex) (fill : text) (n : name),
  well_formed r -> total r -> r_groups r = 2 ->
  extract uniq gname false bytes strings r None fill (Some [n; n]) = Ds [(n, map (fun s => Some (found r fill 1 s)) strings)].
Proof.
  intros uniq gname bytes strings r fill n W T G. unfold extract, extract1. rewrite G. unfold extract_groups. rewrite G. cbn [Nat.ltb Nat.leb orb length Nat.eqb].
  unfold columns. rewrite G. cbn [seq map combine dset_all fold_left dset fst snd].
  destruct (name_dec n n) as [_|D]; [|congruence]. do 3 f_equal. apply map_ext. intro s. unfold row, found.
  destruct W as (W & _). specialize (W s). specialize (T s). destruct (r_search r s) as [(m, gs)|]; rewrite G.
  - specialize (W m gs eq_refl). specialize (T m gs eq_refl). rewrite G in W. destruct gs as [|a [|b [|]]]; try discriminate. cbn.
    inversion T as [|? ? _ T2]; subst. inversion T2; subst. destruct b; [reflexivity|congruence].
  - reflexivity.
Qed.
Print Assumptions C225_names_refuted.

(* regex_match and regex_replace apply the pattern to every string, with and
   without apply_unique. *)
Theorem C225_mapped_partial :
  forall (A : Type) (uniq : list text -> list text * list nat) (f : text -> A) (apply_unique : bool) (strings : list text),
  is_unique uniq -> strings <> [] -> mapped uniq f apply_unique strings = Some (map f strings).
Proof.
  intros A uniq f apply_unique strings U NE. unfold mapped. destruct apply_unique; [|now destruct strings].
  specialize (U strings). destruct (uniq strings) as [u inv]. destruct U as (L & _ & _ & H).
  destruct u as [|x u].
  - destruct strings as [|s l]; [congruence|]. destruct (H 0 s eq_refl) as (j & _ & E). destruct j; discriminate.
  - cbn [vectorize]. f_equal. now apply at_index_map.
Qed.
Print Assumptions C225_mapped_partial.

(* Finding: on an array without strings they raise. *)
Theorem C225_empty_refuted :
  forall (A : Type) (uniq : list text -> list text * list nat) (f : text -> A) (apply_unique : bool),
  is_unique uniq -> mapped uniq f apply_unique [] = None.
Proof.
  intros A uniq f apply_unique U. unfold mapped. destruct apply_unique; [|reflexivity].
  specialize (U []). destruct (uniq []) as [u inv]. destruct U as (_ & _ & I & _). destruct u as [|x u]; [reflexivity|].
  destruct (I x (or_introl eq_refl)).
Qed.
Print Assumptions C225_empty_refuted.

(* a pattern (.).* with one group: the first character *)
Definition first_char : regex := mkR 1 [([102], 0)] (fun s => match s with [] => None | c :: _ => Some (s, [Some [c]]) end).
Definition uniq_ex (l : list text) : list text * list nat :=
  let u := nodup (list_eq_dec Nat.eq_dec) l in
  (u, map (fun s => match position (list_eq_dec Nat.eq_dec) s u with Some z => Z.to_nat z | None => 0 end) l).
Lemma uniq_ex_is : is_unique uniq_ex.
Proof.
  intro l. unfold uniq_ex. cbv beta iota zeta. split; [apply map_length|]. split; [apply NoDup_nodup|]. split; [intros x I; now apply nodup_In in I|].
  intros i x E. rewrite (map_nth_error _ i l E).
  destruct (position (list_eq_dec Nat.eq_dec) x (nodup (list_eq_dec Nat.eq_dec) l)) as [z|] eqn:P.
  - destruct (position_some _ _ _ _ _ P) as (j & -> & J). exists j. split; [now rewrite Nat2Z.id|exact J].
  - apply position_none in P. exfalso. apply P, nodup_In. now apply nth_error_In in E.
Qed.
Example C225_case :
  is_unique uniq_ex /\ well_formed first_char /\ total first_char /\ named (fun g => [103; 48 + g]) first_char None [[102]] /\
  extract uniq_ex (fun g => [103; 48 + g]) true true [[97; 98]; []; [97; 98]; [99]] first_char None [45] None =
    Ds [([102], [Some [97]; Some [45]; Some [97]; Some [99]])] /\
  extract uniq_ex (fun g => [103; 48 + g]) true true [[97; 98]; []; [97; 98]; [99]] first_char (Some false) [45] None =
    Arr [Some [97]; Some [45]; Some [97]; Some [99]].
Proof.
  split; [exact uniq_ex_is|]. split; [|split; [|split; [|split; vm_compute; reflexivity]]].
  - split; [|split].
    + intros [|c s] m gs; cbn; [discriminate|]. intros [= <- <-]. reflexivity.
    + constructor; [tauto|constructor].
    + intros n g [[= <- <-]|[]]. cbn. lia.
  - intros [|c s] m gs; cbn; [discriminate|]. intros [= <- <-]. constructor; [discriminate|constructor].
  - split; [reflexivity|]. split.
    + intros n g [[= <- <-]|[]]. reflexivity.
    + intros g L N. cbn in L. exfalso. apply N. left. cbn. lia.
Qed.
(* C226.  as_matrix has a column for every column of the Dataset, in order.
   Numbers stay as they are; other values can be read back: the number is the
   place of the value among the category values, and NaN for values that are not
   among those given. *)
Theorem C226_matrix :
  forall (V : Type) (eq_dec : forall a b : V, {a = b} + {a <> b}) (uniq : list V -> list V * list nat) (d : list (name * mcol)) (column_data : list (name * list V)),
  is_unique uniq ->
  let (m, info) := as_matrix eq_dec uniq d column_data in
  length m = length d /\ map fst info = map fst d /\
  forall j n c, nth_error d j = Some (n, c) ->
  exists col cats, nth_error m j = Some col /\ nth_error info j = Some (n, cats) /\
  match c with
  | Numeric l k => col = l /\ cats = k
  | Other l => exists u, cats = Some u /\ (forall k, dget n column_data = Some k -> u = k) /\ length col = length l /\
      forall i x, nth_error l i = Some x ->
        (exists p, nth_error col i = Some (Some (Z.of_nat p)) /\ nth_error u p = Some x) \/
        (nth_error col i = Some None /\ ~ In x u /\ dget n column_data <> None)
  end.
Proof.
  intros V eq_dec uniq d column_data U. unfold as_matrix. split; [apply map_length|]. split.
  { rewrite map_map. apply map_ext. reflexivity. }
  intros j n c E. do 2 eexists. split; [exact (map_nth_error _ j d E)|]. split; [exact (map_nth_error _ j d E)|]. cbn [fst snd].
  destruct c as [l k|l]; cbn [normalize_column]; [split; reflexivity|].
  destruct (dget n column_data) as [k|].
  - exists k. split; [reflexivity|]. split; [now intros ? [= ->]|]. split; [apply map_length|]. cbn [fst]. intros i x X.
    rewrite nth_error_map, X. cbn [option_map]. destruct (position eq_dec x k) as [z|] eqn:P.
    + left. destruct (position_some _ _ _ _ _ P) as (p & -> & Q). exists p. auto.
    + right. split; [reflexivity|]. split; [now apply position_none in P|discriminate].
  - specialize (U l). destruct (uniq l) as [u inv]. destruct U as (L & _ & _ & H). cbn [fst snd]. exists u. split; [reflexivity|].
    split; [discriminate|]. split; [now rewrite map_length|]. intros i x X. left. destruct (H i x X) as (p & P1 & P2).
    exists p. split; [|exact P2]. rewrite nth_error_map, P1. reflexivity.
Qed.
Print Assumptions C226_matrix.

(* Finding: bools are not taken for numbers: in the matrix a column of only True
   is a column of 0, as is a column of only False. *)
Theorem C226_bool_refuted :
  forall (uniq : list bool -> list bool * list nat) (n : name) (b : bool) (k : nat), is_unique uniq ->
  fst (as_matrix bool_dec uniq [(n, Other (repeat b k))] []) = [repeat (Some 0%Z) k].
Proof.
  intros uniq n b k U. unfold as_matrix. cbn [map fst snd dget normalize_column].
  specialize (U (repeat b k)). destruct (uniq (repeat b k)) as [u inv]. destruct U as (L & ND & I & H). cbn [fst]. f_equal.
  rewrite repeat_length in L.
  assert (Z0 : forall i j, nth_error inv i = Some j -> j = 0).
  { intros i j E. assert (LT : i < k) by (rewrite <- L; apply nth_error_Some; congruence).
    destruct (H i b) as (j' & E' & P). { rewrite (nth_error_nth' _ b) by now rewrite repeat_length. f_equal. apply nth_repeat. }
    assert (j' = j) by congruence. subst j'. destruct j as [|j]; [reflexivity|]. exfalso.
    destruct u as [|x u]; [discriminate|]. assert (x = b) by (apply (repeat_spec k), I; now left). subst x. inversion ND; subst.
    cbn in P. apply nth_error_In in P. auto. }
  apply nth_error_ext; rewrite map_length, ?repeat_length; [exact L|]. intros i LT.
  destruct (nth_error inv i) as [j|] eqn:E; [|apply nth_error_None in E; lia].
  rewrite nth_error_map, E. cbn. rewrite (Z0 i j E). rewrite (nth_error_nth' _ (Some 0%Z)) by (rewrite repeat_length; lia). f_equal. symmetry. apply nth_repeat.
Qed.
Print Assumptions C226_bool_refuted.

Example C226_case :
  let uniq := fun l : list nat => (nodup Nat.eq_dec l, map (fun s => match position Nat.eq_dec s (nodup Nat.eq_dec l) with Some z => Z.to_nat z | None => 0 end) l) in
  as_matrix Nat.eq_dec uniq [([97], Numeric [Some 5%Z; None; Some 7%Z] None); ([98], Other [30; 40; 30]); ([99], Other [1; 2; 3])] [([99], [3; 2])] =
  ([[Some 5%Z; None; Some 7%Z]; [Some 1%Z; Some 0%Z; Some 1%Z]; [None; Some 1%Z; Some 0%Z]],
   [([97], None); ([98], Some [40; 30]); ([99], Some [3; 2])]).
Proof. vm_compute. reflexivity. Qed.
