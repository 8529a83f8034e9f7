(* C212-C213: what comes back from a file. *)
From Coq Require Import List ZArith Bool Lia Permutation Sorted.
From Verif Require Import FlattenModel FlattenProofs DsModel DsProofs3 DsProofs4 SvSpec SvModel SvProofs.
Import ListNotations.
Local Open Scope Z_scope.

(* C212.  A Dataset comes back from its file with its columns, labels and the
   keys of its sorted view; without view and footers it comes back as it was. *)
Theorem C212_columns_partial :
  forall (lexsort : list (list Z) -> bool -> list Z) (d : ds),
  fine d ->
  let l := load (save lexsort d) in
  l_cols l = d_cols d /\ l_labels l = d_labels d /\
  l_keys l = (match d_keys d with [] => None | ks => Some ks end) /\
  (d_keys d = [] -> sorted_rows lexsort l = None) /\
  (d_foots d = [] -> forall fill, footer_values fill l = [] /\ copy_raises l = false).
Proof.
  intros lex d (N & NL & IL & IK). cbv zeta.
  assert (C := load_cols_save lex d N).
  assert (A := all_some_column (d_cols d) (d_keys d) IK).
  assert (L : filter (fun n => mem n (map fst (d_cols d))) (d_labels d) = d_labels d) by (apply filter_all; intros x HX; apply mem_true, IL, HX).
  unfold load. rewrite C. cbn [f_labels f_keys save]. rewrite L.
  destruct (d_keys d) as [|k ks] eqn:EK.
  - cbn [l_cols l_labels l_keys sorted_rows]. repeat split; try reflexivity.
    + unfold footer_values, footers_from. cbn [l_footers f_foots save]. now rewrite H.
    + unfold copy_raises, footers_from. cbn [l_footers f_foots save]. now rewrite H.
  - cbn [l_keys]. rewrite A. unfold save. cbn [f_arrays]. rewrite EK.
    destruct (d_cols d) as [|[c a] cols] eqn:EC.
    + exfalso. apply (IK k). now left.
    + cbn [map app snd]. cbn [l_cols l_labels l_keys]. repeat split; try reflexivity; try discriminate.
      * unfold footer_values, footers_from. cbn [l_footers f_foots]. now rewrite H.
      * unfold copy_raises, footers_from. cbn [l_footers f_foots]. now rewrite H.
Qed.
Print Assumptions C212_columns_partial.

(* Finding: the sort index is read from the wrong place: whatever the data, the
   order of the view after loading is the first column of the Dataset.  With the
   column a = [2, 0, 1] sorted by itself the rows come in the order 2, 0, 1,
   where the order is 1, 2, 0; with other values it is no row order at all. *)
Theorem C212_view_refuted :
  (forall (lexsort : list (list Z) -> bool -> list Z) (d : ds) n c rest,
     fine d -> d_cols d = (n, c) :: rest -> d_keys d <> [] ->
     sorted_rows lexsort (load (save lexsort d)) = Some c) /\
  (exists d n c, fine d /\ d_cols d = [(n, c)] /\ d_keys d = [n] /\ d_asc d = true /\ length c = 3%nat /\
     Permutation c (map Z.of_nat (seq 0 3)) /\ ~ sorts [c] 3 c) /\
  (exists d n c, fine d /\ d_cols d = [(n, c)] /\ d_keys d = [n] /\ d_asc d = true /\ length c = 2%nat /\
     ~ Permutation c (map Z.of_nat (seq 0 2))).
Proof.
  split; [|split].
  - intros lex d n c rest (N & NL & IL & IK) EC NE.
    assert (C := load_cols_save lex d N). assert (A := all_some_column (d_cols d) (d_keys d) IK).
    unfold load. rewrite C. cbn [f_labels f_keys save].
    destruct (d_keys d) as [|k ks] eqn:EK; [congruence|]. rewrite A. unfold save. cbn [f_arrays]. rewrite EC. cbn [map app snd].
    rewrite EC in A. unfold sorted_rows. cbn [l_keys l_cols l_cache l_asc]. rewrite A.
    unfold same_keys. destruct (list_eq_dec _ _ _) as [_|X]; [|exfalso; apply X; reflexivity]. cbn [nrows]. now rewrite Nat.eqb_refl.
  - exists (mkDs [([97%nat], [2; 0; 1])] [] [[97%nat]] true []), [97%nat], [2; 0; 1].
    split; [split; [repeat constructor; cbn; tauto|]; split; [constructor|]; split; [intros x HX; cbn in HX; destruct HX|]; intros x HX; cbn in HX; destruct HX as [<-|HX]; [now left|destruct HX]|].
    repeat (split; [reflexivity|]). split.
    + apply NoDup_Permutation; [repeat constructor; cbn; lia|repeat constructor; cbn; lia|]. cbn. lia.
    + intros [_ S]. inversion S as [|? ? _ F]; subst. inversion F as [|? ? _ F']; subst. inversion F' as [|? ? E _]; subst. vm_compute in E. discriminate.
  - exists (mkDs [([97%nat], [10; -5])] [] [[97%nat]] true []), [97%nat], [10; -5].
    split; [split; [repeat constructor; cbn; tauto|]; split; [constructor|]; split; [intros x HX; cbn in HX; destruct HX|]; intros x HX; cbn in HX; destruct HX as [<-|HX]; [now left|destruct HX]|].
    repeat (split; [reflexivity|]).
    intros P. assert (H := Permutation_in 10 P (or_introl eq_refl)). cbn in H. lia.
Qed.
Print Assumptions C212_view_refuted.

(* Finding: footers are not in the file, but their labels are: a Dataset with
   footers comes back with footer lines that are all blank, and every copy() of
   it raises ValueError if it has two rows or more. *)
Theorem C212_footers_refuted :
  forall (lexsort : list (list Z) -> bool -> list Z) (d : ds) (fill : Z) n c rest f foots,
  fine d -> d_cols d = (n, c) :: rest -> d_keys d = [] -> d_foots d = f :: foots -> (2 <= length c)%nat ->
  let l := load (save lexsort d) in
  copy_raises l = true /\
  (length foots <= length rest ->
   footer_values fill l = map (fun p => (fst p, map (fun _ => fill) (d_cols d))) (d_foots d))%nat.
Proof.
  intros lex d fill n c rest f foots (N & NL & IL & IK) EC EK EF L2. cbv zeta.
  assert (C := load_cols_save lex d N). unfold load. rewrite C.
  assert (FK : f_keys (save lex d) = None) by (unfold save; cbn [f_keys]; now rewrite EK). rewrite FK.
  unfold copy_raises, footer_values, footers_from. cbn [l_footers l_cols].
  assert (FF : f_foots (save lex d) = fst f :: map fst foots) by (unfold save; cbn [f_foots]; now rewrite EF). rewrite FF.
  assert (FA : f_arrays (save lex d) = Some c :: map (fun p => Some (snd p)) rest ++ map (fun _ => None) (d_foots d))
    by (unfold save; cbn [f_arrays]; now rewrite EK, EC). rewrite FA. cbn [skipn read_footers].
  assert (R : forall (fs : list (name * list (name * Z))) a, (length fs <= length a)%nat ->
    exists r, read_footers (map fst fs) a = Some r /\ map fst r = map fst fs).
  { induction fs as [|x fs IH]; intros a HL; [now exists []|]. destruct a as [|y a]; cbn in HL; [lia|].
    destruct (IH a) as (r & E & E'); [lia|]. exists ((fst x, y) :: r). cbn [map read_footers]. rewrite E. cbn. now rewrite E'. }
  destruct (R foots (map (fun p => Some (snd p)) rest ++ map (fun _ => None) (d_foots d))) as (r & E & E').
  { rewrite app_length, !map_length, EF. cbn. lia. }
  rewrite E. cbn [option_map existsb snd]. split.
  - apply Nat.leb_le in L2. now rewrite L2.
  - intros _. rewrite EF. cbn [map fst]. f_equal.
    transitivity (map (fun x => (x, map (fun _ : name * list Z => fill) (d_cols d))) (map fst r)); [now rewrite map_map|].
    now rewrite E', map_map.
Qed.
Print Assumptions C212_footers_refuted.

Example C212_case :
  let d := mkDs [([97%nat], [2; 0; 1]); ([98%nat], [5; 6; 7])] [[97%nat]] [] true [] in
  fine d /\ l_cols (load (save (fun _ _ => []) d)) = d_cols d.
Proof.
  split; [|vm_compute; reflexivity]. split; [repeat constructor; cbn; intuition congruence|]. split; [repeat constructor; cbn; tauto|].
  split; [intros x HX; cbn in HX; destruct HX as [<-|HX]; [now left|destruct HX]|intros x []].
Qed.

(* C213.  A Categorical comes back from its file with the same codes, settings
   and names for missing values, and every row shows what it showed: with one
   or several keys of any class of arrays ... *)
Theorem C213_keys :
  forall {M V} (has_meta : M -> bool) (plain : M) (c : cat M V) (cols : list (name * (M * list V))),
  c_cats c = Keys cols -> NoDup (map fst cols) ->
  (forall p, In p cols -> has_meta (fst (snd p)) = false -> fst (snd p) = plain) ->
  exists c', load_cat plain (save_cat has_meta c) = Some c' /\
    c_codes c' = c_codes c /\ c_base c' = c_base c /\ c_ordered c' = c_ordered c /\ c_sort c' = c_sort c /\
    c_invalid c' = c_invalid c /\ c_filtered c' = c_filtered c /\
    (forall code, shown c' code = shown c code) /\
    ((length cols <> 1)%nat -> c' = c).
Proof.
  intros M V has_meta plain c cols EC ND P. unfold save_cat. rewrite EC.
  set (cols' := match cols with [(_, p)] => [(key_0, p)] | _ => cols end).
  assert (ND' : NoDup (map fst cols')).
  { unfold cols'. destruct cols as [|[n p] [|q r]]; [exact ND| |exact ND]. repeat constructor. cbn. tauto. }
  assert (P' : forall p, In p cols' -> has_meta (fst (snd p)) = false -> fst (snd p) = plain).
  { unfold cols'. destruct cols as [|[n p] [|q r]]; [exact P| |exact P]. intros x [<-|[]]. cbn [snd]. apply (P (n, p)). now left. }
  cbv zeta. unfold load_cat. cbn [g_mapping g_cols g_colnames g_metas]. rewrite map_map.
  rewrite (all_some_map (fun p => snd (snd p)) cols'). rewrite (keys_back has_meta plain cols' ND' P').
  eexists. split; [reflexivity|]. cbn [c_codes c_base c_ordered c_sort c_invalid c_filtered g_codes g_base g_ordered g_sort g_invalid g_filtered].
  repeat (split; [reflexivity|]). split.
  - intros code. unfold shown. rewrite EC. cbn [c_cats c_base]. unfold cols'. now destruct cols as [|[n p] [|q r]].
  - intros L. destruct c as [cc ct cb co cs ci cf]. cbn in *. subst ct. f_equal. unfold cols'. destruct cols as [|[n p] [|q r]]; cbn in L; congruence.
Qed.
Print Assumptions C213_keys.

(* ... and with a mapping that gives each name one code and each code one name. *)
Theorem C213_mapping_partial :
  forall {M V} (has_meta : M -> bool) (plain : M) (c : cat M V) (l : list (name * Z)),
  c_cats c = make_mapping l -> NoDup (map fst l) -> NoDup (map snd l) ->
  load_cat plain (save_cat has_meta c) = Some c.
Proof.
  intros M V has_meta plain c l EC N1 N2. unfold save_cat. rewrite EC. unfold make_mapping.
  rewrite (zset_all_fresh l []) by (cbn; auto). cbn [app].
  unfold load_cat. cbn [g_mapping g_cols]. rewrite !map_map. cbn [fst snd].
  assert (X : combine (map (fun x : name * Z => fst x) l) (map (fun x : name * Z => snd x) l) = l).
  { rewrite combine_map. rewrite <- (map_id l) at 2. apply map_ext. now intros []. }
  rewrite X. unfold reverse. assert (D : dset_all l [] = l) by (apply (dset_all_fresh l []); [exact N1|cbn; auto]). rewrite D.
  rewrite (zset_all_fresh l []) by (cbn; auto). cbn [app g_codes g_base g_ordered g_sort g_invalid g_filtered].
  destruct c as [cc ct cb co cs ci cf]. cbn in *. subst ct. unfold make_mapping. now rewrite D, (zset_all_fresh l []) by (cbn; auto).
Qed.
Print Assumptions C213_mapping_partial.

(* Finding: a mapping with one name for two codes (allowed, with a warning) loses
   a code in the file: the rows of code 1 show no name after loading. *)
Theorem C213_two_codes_refuted :
  let c : cat unit unit := mkCat [1; 2] (make_mapping [([97%nat], 1); ([97%nat], 2)]) 1 true false None None in
  map (shown c) (c_codes c) = [Name (Some [97%nat]); Name (Some [97%nat])] /\
  exists c', load_cat tt (save_cat (fun _ => false) c) = Some c' /\
    map (shown c') (c_codes c') = [Name None; Name (Some [97%nat])].
Proof. split; [reflexivity|]. eexists. split; reflexivity. Qed.
Print Assumptions C213_two_codes_refuted.

(* Finding: a mapping with two names for one code loses the first name: it is
   not known after loading. *)
Theorem C213_two_names_refuted :
  let c : cat unit unit := mkCat [1] (make_mapping [([97%nat], 1); ([98%nat], 1)]) 1 true false None None in
  code_of c [97%nat] = Some 1 /\
  exists c', load_cat tt (save_cat (fun _ => false) c) = Some c' /\ code_of c' [97%nat] = None.
Proof. split; [reflexivity|]. eexists. split; reflexivity. Qed.
Print Assumptions C213_two_names_refuted.

Example C213_case :
  let c : cat nat nat := mkCat [0; 2; 1] (Keys [([97%nat], (1%nat, [10; 20]%nat)); ([98%nat], (0%nat, [5; 6]%nat))]) 1 true false None (Some [70%nat]) in
  load_cat 0%nat (save_cat (fun m => Nat.eqb m 1) c) = Some c /\
  map (shown c) (c_codes c) = [Cats None; Cats (Some [Some (1, 20); Some (0, 6)])%nat; Cats (Some [Some (1, 10); Some (0, 5)])%nat].
Proof. split; vm_compute; reflexivity. Qed.
