(** merge2: the columns of the result. *)
From Coq Require Import List Arith Bool Lia String Permutation.
From Verif Require Import Sched SchedFacts GroupModel GroupFacts MergeSpec MergeModel MergeFacts MergeProofs MergeProofs2 MergeProofs3 MergeProofs4 MergeColsModel MergeColsProofs.
Import ListNotations.
Local Open Scope list_scope.

Lemma map_nth_all {X} (d : X) l : map (fun i => nth i l d) (seq 0 (List.length l)) = l.
Proof.
  apply nth_ext with d d; [now rewrite map_length, seq_length|]. intros n Hn. rewrite map_length, seq_length in Hn.
  now rewrite nth_map_seq by exact Hn.
Qed.
Section Cells.
Context {V : Type}.
Variable inv : V.
Lemma side_resolve idx (c : list V) : side_column inv idx c = mbget inv c (resolve (List.length c) idx).
Proof using. destruct idx as [l|]; [reflexivity|]. cbn [side_column resolve mbget]. unfold mbget. rewrite map_map. symmetry. apply map_nth_all. Qed.
Lemma mbget_map {X} (c : list V) (f : X -> option nat) rows : mbget inv c (map f rows) = map (fun r => cell inv c (f r)) rows.
Proof using. unfold mbget. rewrite map_map. reflexivity. Qed.
Lemma side_cells {X} idx (c : list V) n (f : X -> option nat) rows :
  List.length c = n -> resolve n idx = map f rows -> side_column inv idx c = map (fun r => cell inv c (f r)) rows.
Proof using. intros <- H. rewrite side_resolve, H. apply mbget_map. Qed.

Lemma key_left h lc rc r i : h <> HRight -> fst r = Some i -> key_cell inv h lc rc r = cell inv lc (fst r).
Proof using. intros H E. unfold key_cell. rewrite E. destruct h; [reflexivity|congruence|reflexivity|reflexivity]. Qed.
Lemma key_right h lc rc r : (h = HRight \/ fst r = None) -> key_cell inv h lc rc r = cell inv rc (snd r).
Proof using. unfold key_cell. intros [-> | ->]; [reflexivity|]. destruct h; reflexivity. Qed.
End Cells.

Section Joins.
Context {B : Type}.
Variable eqb : B -> B -> bool.
Lemma left_join_fst lkeys rkeys ls rs r : In r (left_join eqb lkeys rkeys ls rs) -> exists i, fst r = Some i.
Proof using.
  unfold left_join. intros H. apply in_flat_map in H. destruct H as (i & _ & H). destruct (matching eqb (nth i lkeys None) rkeys rs) as [|j0 js]; [destruct H as [<-|[]]; eexists; reflexivity|].
  apply in_map_iff in H. destruct H as (j & <- & _). eexists; reflexivity.
Qed.
Lemma inner_join_fst lkeys rkeys ls rs r : In r (inner_join eqb lkeys rkeys ls rs) -> exists i, fst r = Some i.
Proof using.
  unfold inner_join. intros H. apply in_flat_map in H. destruct H as (i & _ & H). apply in_map_iff in H. destruct H as (j & <- & _). eexists; reflexivity.
Qed.
Lemma right_only_fst lkeys rkeys ls rs r : In r (right_only_of eqb lkeys rkeys ls rs) -> fst r = None.
Proof using. unfold right_only_of. intros H. apply in_map_iff in H. destruct H as (j & <- & _). reflexivity. Qed.

Variable eqb_eq : forall a b, eqb a b = true <-> a = b.
Variable sched : list (list (store (option nat))) -> list (store (option nat)).
Hypothesis HS : forall its, interleave its (sched its).
Variable junk : mem (option nat).
Variables lkeys rkeys : list (option B).
Variables (lg rg : @keygroup B) (rgb : option (@keygroup B)).
Hypothesis GL : groups_keys lkeys lg.
Hypothesis GR : groups_keys rkeys rg.

(** what is excluded, see the refutations in MergeProps.v *)
Definition supported (h : how) (kl kr : keep) : Prop :=
  match h with
  | HLeft => nulls_ok lkeys rkeys false kl kr
  | HRight => nulls_ok rkeys lkeys false kr kl
  | HInner => True
  | HOuter => kl = None /\ (rgb = None \/ kr = None \/ ~ In None rkeys \/ lkeys = [])
  end.

Section Columns.
Context {V : Type}.
Variable inv : V.
Notation CI := (create_indices eqb sched junk lg rg rgb).
Theorem join_columns h kl kr : supported h kl kr ->
  exists ls rs, Permutation ls (kept eqb kl lkeys) /\ (kl = None -> ls = all_rows lkeys) /\
    Permutation rs (kept eqb kr rkeys) /\ (kr = None -> rs = all_rows rkeys) /\
    let rows := join_rows eqb h lkeys rkeys ls rs in
    indices_are lkeys rkeys (CI h kl kr) rows /\
    (forall lc rc : list V, List.length lc = List.length lkeys -> List.length rc = List.length rkeys ->
       key_column inv h (CI h kl kr) lc rc = map (key_cell inv h lc rc) rows).
Proof using eqb_eq HS GL GR.
  destruct h; intros S; cbn [supported] in S.
  - destruct (left_rows eqb eqb_eq sched HS junk lkeys rkeys lg rg rgb kl kr GL GR S) as (ls & P & E & I).
    exists ls, (kept eqb kr rkeys). split; [exact P|]. split; [exact E|]. split; [reflexivity|]. split; [intros ->; reflexivity|].
    cbn [join_rows]. split; [exact I|]. intros lc rc L1 L2. destruct I as [I1 I2].
    transitivity (side_column inv (left_index (CI HLeft kl kr)) lc).
    + unfold key_column. cbn [create_indices left_or_inner left_index right_index]. destruct (build_left _ _ _ _ _ _ _ _); reflexivity.
    + rewrite (side_cells inv _ lc _ fst _ L1 I1). apply map_ext_in. intros r Hr. apply left_join_fst in Hr. destruct Hr as [i Hi].
      symmetry. apply key_left with i; [discriminate|exact Hi].
  - destruct (right_rows eqb eqb_eq sched HS junk lkeys rkeys lg rg rgb kl kr GL GR S) as (rs & P & E & I).
    exists (kept eqb kl lkeys), rs. split; [reflexivity|]. split; [intros ->; reflexivity|]. split; [exact P|]. split; [exact E|].
    cbn [join_rows]. split; [exact I|]. intros lc rc L1 L2. destruct I as [I1 I2].
    transitivity (side_column inv (right_index (CI HRight kl kr)) rc).
    + unfold key_column. cbn [create_indices left_or_inner left_index right_index]. destruct (build_left _ _ _ _ _ _ _ _); reflexivity.
    + rewrite (side_cells inv _ rc _ snd _ L2 I2). apply map_ext_in. intros r Hr. symmetry. apply key_right. now left.
  - destruct (inner_rows eqb eqb_eq sched HS junk lkeys rkeys lg rg rgb kl kr GL GR) as (ls & P & E & I).
    exists ls, (kept eqb kr rkeys). split; [exact P|]. split; [exact E|]. split; [reflexivity|]. split; [intros ->; reflexivity|].
    cbn [join_rows]. split; [exact I|]. intros lc rc L1 L2. destruct I as [I1 I2].
    transitivity (side_column inv (left_index (CI HInner kl kr)) lc).
    + unfold key_column. cbn [create_indices left_or_inner left_index right_index]. destruct (build_left _ _ _ _ _ _ _ _); reflexivity.
    + rewrite (side_cells inv _ lc _ fst _ L1 I1). apply map_ext_in. intros r Hr. apply inner_join_fst in Hr. destruct Hr as [i Hi].
      symmetry. apply key_left with i; [discriminate|exact Hi].
  - destruct S as [-> S].
    destruct (outer_rows eqb eqb_eq sched HS junk lkeys rkeys lg rg rgb kr GL GR S) as (rs & P & E & I & RO).
    exists (all_rows lkeys), rs. split; [reflexivity|]. split; [reflexivity|]. split; [exact P|]. split; [exact E|].
    cbn [join_rows]. split; [exact I|]. intros lc rc L1 L2. destruct I as [I1 I2].
    assert (Kl : List.length (kg_ikey lg) = List.length lkeys) by (apply (g_length _ _ _ (proj1 GL))).
    assert (Kr : List.length (kg_ikey rg) = List.length rkeys) by (apply (g_length _ _ _ (proj1 GR))).
    assert (Lft : right_only_of eqb lkeys rkeys (all_rows lkeys) rs = [] ->
       side_column inv (left_index (CI HOuter None kr)) lc = map (key_cell inv HOuter lc rc) (outer_of eqb lkeys rkeys (all_rows lkeys) rs)).
    { intros N. rewrite (side_cells inv _ lc _ fst _ L1 I1). apply map_ext_in. intros r Hr. unfold outer_of in Hr. rewrite N, app_nil_r in Hr.
      apply left_join_fst in Hr. destruct Hr as [i Hi]. symmetry. apply key_left with i; [discriminate|exact Hi]. }
    set (j := CI HOuter None kr) in *.
    destruct (Nat.eqb_spec (List.length (kg_ikey rg)) 0) as [Hr0|Hr0].
    + (* no right rows *)
      assert (Er : rkeys = []) by (apply length_zero_iff_nil; lia). assert (rs = []).
      { apply Permutation_nil. rewrite Er in P. rewrite kept_nil in P. now apply Permutation_sym. }
      rewrite <- Lft by (subst rs; reflexivity). unfold key_column, j. cbn [create_indices]. rewrite Hr0. cbn [Nat.eqb left_or_inner left_index right_index right_only].
      change (0 <? 0) with false. cbv iota. destruct (build_left _ _ _ _ _ _ _ _); reflexivity.
    + destruct (Nat.eqb_spec (List.length (kg_ikey lg)) 0) as [Hl0|Hl0].
      * (* no left rows *)
        assert (El : lkeys = []) by (apply length_zero_iff_nil; lia).
        assert (Rt : side_column inv (right_index j) rc = map (key_cell inv HOuter lc rc) (outer_of eqb lkeys rkeys (all_rows lkeys) rs)).
        { rewrite (side_cells inv _ rc _ snd _ L2 I2). apply map_ext_in. intros r Hr. symmetry. apply key_right. right.
          unfold outer_of in Hr. rewrite El in Hr. cbn [left_join flat_map all_rows seq List.length app] in Hr. eapply right_only_fst; eassumption. }
        assert (Hli : exists li, left_index j = Some li).
        { unfold j. cbn [create_indices]. destruct (Nat.eqb_spec (List.length (kg_ikey rg)) 0); [lia|]. destruct (Nat.eqb_spec (List.length (kg_ikey lg)) 0); [|lia].
          cbn [left_or_inner left_index right_index]. eauto. }
        assert (Hro : right_only j = Some (match right_index j with None => 0 | Some l => List.length l end)).
        { unfold j. cbn [create_indices]. destruct (Nat.eqb_spec (List.length (kg_ikey rg)) 0); [lia|]. destruct (Nat.eqb_spec (List.length (kg_ikey lg)) 0); [|lia].
          reflexivity. }
        rewrite <- Rt. destruct Hli as [li Hli]. unfold key_column. rewrite Hro, Hli.
        rewrite Hli in I1. cbn [resolve] in I1.
        destruct (right_index j) as [ri|] eqn:Eri; [|reflexivity]. cbn [side_column resolve] in I2 |- *.
        assert (Ln : List.length li = List.length ri) by (rewrite I1, I2, !map_length; reflexivity).
        destruct (Nat.ltb_spec 0 (List.length ri)).
        -- rewrite Ln, Nat.sub_diag. reflexivity.
        -- destruct li; [|cbn in Ln; lia]. destruct ri; [reflexivity|cbn in Ln; lia].
      * (* both *)
        assert (Nl : lkeys <> []) by (intros Q; apply Hl0; rewrite Kl, Q; reflexivity).
        specialize (RO Nl). set (n := List.length (right_only_of eqb lkeys rkeys (all_rows lkeys) rs)) in *.
        assert (SH : right_index j <> None /\ (0 < n -> left_index j <> None)).
        { unfold j in RO |- *. cbn [create_indices] in RO |- *. destruct (Nat.eqb_spec (List.length (kg_ikey rg)) 0); [lia|]. destruct (Nat.eqb_spec (List.length (kg_ikey lg)) 0); [lia|].
          cbn [outer_join right_only left_index right_index left_or_inner] in RO |- *. injection RO as RO. destruct (right_only_rows _ _ _ _ _) as [|x l]; cbn [extend map List.length] in *.
          - split; [discriminate|]. lia.
          - split; discriminate. }
        destruct SH as [SH1 SH2]. unfold key_column. rewrite RO. destruct (right_index j) as [ri|] eqn:Eri; [|congruence].
        destruct (Nat.ltb_spec 0 n) as [Hn|Hn].
        -- specialize (SH2 Hn). destruct (left_index j) as [li|] eqn:Eli; [|congruence]. cbn [resolve] in I1, I2. subst li ri.
           unfold outer_of. rewrite !map_length, app_length. fold n.
           replace (List.length (left_join eqb lkeys rkeys (all_rows lkeys) rs) + n - n) with (List.length (left_join eqb lkeys rkeys (all_rows lkeys) rs)) by lia.
           rewrite !map_app. rewrite firstn_app, skipn_app, !map_length, !Nat.sub_diag, firstn_all2, skipn_all2 by (rewrite map_length; lia).
           cbn [firstn skipn app]. rewrite app_nil_r. rewrite !mbget_map. f_equal; apply map_ext_in; intros r Hr.
           ++ apply left_join_fst in Hr. destruct Hr as [i Hi]. symmetry. apply key_left with i; [discriminate|exact Hi].
           ++ symmetry. apply key_right. right. eapply right_only_fst; eassumption.
        -- rewrite <- Lft by (apply length_zero_iff_nil; unfold n in Hn; lia). destruct (left_index j); reflexivity.
Qed.
End Columns.

(** indicator column *)
Lemma indicator_rows j rows : indices_are lkeys rkeys j rows -> indicator_codes j (List.length rows) = map indicator_of rows.
Proof using.
  intros [I1 I2]. unfold indicator_codes. apply nth_ext with 0 0; [now rewrite !map_length, seq_length|]. intros n Hn. rewrite map_length, seq_length in Hn.
  rewrite nth_map_seq by exact Hn. destruct (nth_error rows n) as [r|] eqn:E; [|apply nth_error_None in E; lia].
  rewrite (nth_error_nth (map indicator_of rows) n 0 (x := indicator_of r)) by (now rewrite nth_error_map, E).
  assert (G : forall k idx (f : row -> option nat), resolve k idx = map f rows -> (match idx with None => true | Some l => is_some (nth n l None) end) = is_some (f r)).
  { intros k idx f H. destruct idx as [l|]; cbn [resolve] in H.
    - subst l. now rewrite (nth_error_nth (map f rows) n None (x := f r)) by (now rewrite nth_error_map, E).
    - assert (nth_error (map f rows) n = Some (f r)) by (now rewrite nth_error_map, E). rewrite <- H in H0.
      rewrite nth_error_map in H0. destruct (nth_error (seq 0 k) n); [|discriminate]. cbn in H0. injection H0 as <-. reflexivity. }
  rewrite (G _ _ _ I1), (G _ _ _ I2). destruct r as [[a|] [b|]]; reflexivity.
Qed.
End Joins.

(** ** merge2 *)
Lemma col_in {V} (ds : @dataset V) n c : NoDup (names ds) -> In (n, c) ds -> col n ds = Some c.
Proof.
  induction ds as [|[m d] ds IH]; cbn; intros N H; [contradiction|]. inversion N as [|? ? N1 N2]; subst. destruct H as [H|H].
  - injection H as -> ->. now rewrite String.eqb_refl.
  - destruct (String.eqb_spec m n) as [->|]; [|now apply IH]. elim N1. now apply in_map with (f := fst) in H.
Qed.
Lemma col_some {V} (ds : @dataset V) n c : col n ds = Some c -> In (n, c) ds.
Proof. induction ds as [|[m d] ds IH]; cbn; intros H; [discriminate|]. destruct (String.eqb_spec m n) as [->|]; [injection H as ->; now left|right; now apply IH]. Qed.
Lemma col_present {V} (ds : @dataset V) n : In n (names ds) -> exists c, col n ds = Some c.
Proof.
  induction ds as [|[m d] ds IH]; cbn; intros H; [contradiction|]. destruct (String.eqb_spec m n) as [->|]; [eauto|]. destruct H as [H|H]; [congruence|now apply IH].
Qed.
Lemma getcol_length {V} (ds : @dataset V) n : well_formed ds -> In n (names ds) -> List.length (getcol ds n) = nrows ds.
Proof. intros [_ W] H. destruct (col_present ds n H) as [c E]. unfold getcol. rewrite E. apply W with n. now apply col_some. Qed.
Lemma combine_maps {X Y} (l : list X) (l' : list Y) : List.length l = List.length l' -> map fst (combine l l') = l /\ map snd (combine l l') = l'.
Proof. intros H. split; [apply combine_fst|apply combine_snd]; lia. Qed.
Lemma tuple_eqb_eq {V} (veqb : V -> V -> bool) (veqb_eq : forall a b, veqb a b = true <-> a = b) x y : tuple_eqb veqb x y = true <-> x = y.
Proof.
  revert y. induction x as [|a x IH]; intros [|b y]; cbn; try (split; congruence). rewrite andb_true_iff, veqb_eq, IH. split; [intros [-> ->]; reflexivity|intros H; injection H; auto].
Qed.


Section Merge2.
Context {V : Type}.
Variable veqb : V -> V -> bool.
Hypothesis veqb_eq : forall a b, veqb a b = true <-> a = b.
Variable null : V -> bool.
Variable inv : V.
Variable sched : list (list (store (option nat))) -> list (store (option nat)).
Hypothesis HS : forall its, interleave its (sched its).
Variable junk : mem (option nat).
Variable group : list (option (list V)) -> @keygroup (list V).
Hypothesis HG : forall keys, groups_keys keys (group keys).
Variable strcol : string -> bool.
Notation teqb := (tuple_eqb veqb).
Notation hn := (has_null null).
Lemma teqb_eq a b : teqb a b = true <-> a = b. Proof using veqb_eq. apply tuple_eqb_eq, veqb_eq. Qed.
Lemma join_rows_keys h (L R : list (list V)) ls rs :
  join_rows teqb h (key_options hn (negb (is_left h)) false L) (key_options hn (negb (is_right h)) false R) ls rs =
  join_rows teqb h (nullable hn L) (nullable hn R) ls rs.
Proof using veqb_eq.
  destruct h; cbn [join_rows is_left is_right negb]; rewrite ?(key_options_force hn); try reflexivity.
  - apply left_join_keys. exact teqb_eq.
  - f_equal. apply left_join_keys. exact teqb_eq.
Qed.
Lemma keep_keys_eq d (raw : list (list V)) : key_options hn (negb d) false raw = keep_keys hn d raw.
Proof using. destruct d; reflexivity. Qed.
Lemma tuples_length ds on n : List.length (tuples inv ds on n) = n.
Proof using. unfold tuples. now rewrite map_length, seq_length. Qed.

Variables left right : @dataset V.
Hypothesis WL : well_formed left.
Hypothesis WR : well_formed right.
Variables left_on right_on : list string.
Hypothesis Lon : List.length left_on = List.length right_on.
Variable suffixes : suffix_pair.
Variables cl cr : list string.
Hypothesis Ncl : NoDup cl.
Hypothesis Ncr : NoDup cr.
Notation L := (tuples inv left left_on (nrows left)).
Notation R := (tuples inv right right_on (nrows right)).
Notation shared c := (In c left_on /\ In c right_on).
Notation M2 := (merge2 veqb null inv sched junk group strcol left right left_on right_on).

Theorem merge2_columns h v kl kr indicator rm out ind :
  M2 h suffixes cl cr v kl kr indicator rm = Some (out, ind) ->
  (h = HOuter -> List.length left_on <= 1 \/ kr = None \/ ~ In None (nullable hn R)) ->
  exists ls rs,
    Permutation ls (kept teqb kl (keep_keys hn (is_left h) L)) /\ (kl = None -> ls = seq 0 (nrows left)) /\
    Permutation rs (kept teqb kr (keep_keys hn (is_right h) R)) /\ (kr = None -> rs = seq 0 (nrows right)) /\
    let rows := join_rows teqb h (nullable hn L) (nullable hn R) ls rs in
    (forall c, shared c -> col c out = Some (map (key_cell inv h (getcol left c) (getcol right c)) rows)) /\
    (forall c, In c cl -> ~ shared c -> exists n, (n = c \/ (In c cr /\ exists s, suffix_of true suffixes = Some s /\ n = (c ++ s)%string)) /\
       col n out = Some (map (fun r => cell inv (getcol left c) (fst r)) rows)) /\
    (forall c, In c cr -> ~ shared c -> exists n, (n = c \/ (In c cl /\ exists s, suffix_of false suffixes = Some s /\ n = (c ++ s)%string)) /\
       col n out = Some (map (fun r => cell inv (getcol right c) (snd r)) rows)) /\
    NoDup (names out) /\ (forall n c, In (n, c) out -> List.length c = List.length rows) /\
    (forall name codes, ind = Some (name, codes) -> indicator = Some name /\ ~ In name (names out) /\ codes = map indicator_of rows) /\
    (rm = true -> forall r, In r rows -> h = HLeft -> snd r <> None).
Proof using veqb_eq HS HG WL WR Lon Ncl Ncr.
  unfold merge2. destruct (match left_on with [] => true | _ => match right_on with [] => true | _ => false end end); [discriminate|].
  destruct (negb _) eqn:Pr; [discriminate|]. apply negb_false_iff, andb_true_iff in Pr. destruct Pr as [PL PR].
  rewrite forallb_forall in PL, PR.
  assert (PL' : forall c, In c (left_on ++ cl) -> In c (names left)) by (intros c Hc; apply smem_in; now apply PL).
  assert (PR' : forall c, In c (right_on ++ cr) -> In c (names right)) by (intros c Hc; apply smem_in; now apply PR). clear PL PR.
  destruct (construct_colname_mapping left_on right_on suffixes cl cr) as [cm|] eqn:CM; [|discriminate].
  destruct (combine_maps left_on right_on Lon) as [E1 E2]. rewrite E1, E2.
  destruct (negb (merge_indices_keep_ok h kl)) eqn:KO; [discriminate|]. apply negb_false_iff in KO.
  cbv zeta. set (lk := join_keys null inv left left_on (negb (is_left h))). set (rk := join_keys null inv right right_on (negb (is_right h))).
  set (rgb := if is_outer h && (1 <? List.length (combine left_on right_on)) then Some (group (groupby_keys null inv strcol right right_on)) else None).
  destruct (match v with None => true | Some w => validate_groupings (group lk) (group rk) w kl kr end); [|discriminate].
  set (j := create_indices teqb sched junk (group lk) (group rk) rgb h kl kr).
  destruct (rm && _) eqn:RM; [discriminate|]. intros Hout Hs.
  assert (Eout : out = assemble inv h j left right cm /\ forall name codes, ind = Some (name, codes) -> indicator = Some name /\ ~ In name (names out) /\ codes = indicator_codes j (out_rows j)).
  { destruct indicator as [nm|]; [|injection Hout as <- <-; split; [reflexivity|discriminate]].
    destruct (smem nm _) eqn:Sm; [discriminate|]. injection Hout as <- <-. split; [reflexivity|]. intros name codes H. injection H as <- <-.
    apply smem_not in Sm. auto. }
  clear Hout. destruct Eout as [Eout Eind].
  assert (Ll : List.length lk = nrows left) by (unfold lk, join_keys; rewrite key_options_length; apply tuples_length).
  assert (Lr : List.length rk = nrows right) by (unfold rk, join_keys; rewrite key_options_length; apply tuples_length).
  assert (NN : forall (raw : list (list V)), ~ In None (key_options hn false false raw)).
  { intros raw H. unfold key_options in H. cbn [orb] in H. apply in_map_iff in H. destruct H as (x & Q & _). discriminate. }
  assert (S : supported lk rk rgb h kl kr).
  { destruct h; cbn [supported is_left is_right negb] in *.
    - right. right. right. left. apply NN.
    - right. right. right. left. apply NN.
    - exact I.
    - split; [destruct kl; [discriminate|reflexivity]|]. destruct (Hs eq_refl) as [Q|[Q|Q]].
      + left. unfold rgb. cbn [is_outer andb]. rewrite combine_length, Lon, Nat.min_id. destruct (Nat.ltb_spec 1 (List.length right_on)); [lia|reflexivity].
      + right. now left.
      + right. right. left. exact Q. }
  destruct (join_columns teqb teqb_eq sched HS junk lk rk (group lk) (group rk) rgb (HG lk) (HG rk) inv h kl kr S) as (ls & rs & P1 & A1 & P2 & A2 & I & K).
  fold j in I, K. exists ls, rs. unfold lk, join_keys in P1. rewrite keep_keys_eq in P1. unfold rk, join_keys in P2. rewrite keep_keys_eq in P2.
  split; [exact P1|]. split; [intros H; rewrite (A1 H); unfold all_rows; now rewrite Ll|]. split; [exact P2|]. split; [intros H; rewrite (A2 H); unfold all_rows; now rewrite Lr|].
  cbv zeta. assert (Er : join_rows teqb h lk rk ls rs = join_rows teqb h (nullable hn L) (nullable hn R) ls rs) by apply join_rows_keys.
  cbv zeta in I, K. rewrite Er in I, K. set (rows := join_rows teqb h (nullable hn L) (nullable hn R) ls rs) in *. clearbody rows. clear Er.
  destruct (names_complete left_on right_on suffixes cl cr cm CM) as (C1 & C2 & C3 & C4 & C5).
  assert (ND := names_distinct left_on right_on suffixes cl cr Ncl Ncr cm CM).
  assert (Nout : names out = cm_keys cm ++ map snd (cm_left cm) ++ map snd (cm_right cm)).
  { rewrite Eout. unfold names, assemble. rewrite !map_app, !map_map. cbn [fst]. now rewrite map_id. }
  rewrite <- Nout in ND. destruct I as [I1 I2].
  assert (GLc : forall c, In c (left_on ++ cl) -> List.length (getcol left c) = List.length lk) by (intros c Hc; rewrite Ll; apply getcol_length; [exact WL|now apply PL']).
  assert (GRc : forall c, In c (right_on ++ cr) -> List.length (getcol right c) = List.length rk) by (intros c Hc; rewrite Lr; apply getcol_length; [exact WR|now apply PR']).
  assert (Ckeys : forall c, shared c -> In (c, map (key_cell inv h (getcol left c) (getcol right c)) rows) out).
  { intros c Sc. rewrite Eout. unfold assemble. apply in_or_app. left. apply in_map_iff. exists c. split; [|now apply C1].
    f_equal. apply K; [apply GLc, in_or_app; left; apply Sc|apply GRc, in_or_app; left; apply Sc]. }
  assert (Cl : forall o n, In (o, n) (cm_left cm) -> In (n, map (fun r => cell inv (getcol left o) (fst r)) rows) out).
  { intros o n Hon. rewrite Eout. unfold assemble. apply in_or_app. right. apply in_or_app. left. apply in_map_iff. exists (o, n). split; [|exact Hon].
    cbn [fst snd]. f_equal. apply side_cells with (List.length lk); [|exact I1]. apply GLc, in_or_app. right. apply C2. now apply in_map with (f := fst) in Hon. }
  assert (Cr : forall o n, In (o, n) (cm_right cm) -> In (n, map (fun r => cell inv (getcol right o) (snd r)) rows) out).
  { intros o n Hon. rewrite Eout. unfold assemble. apply in_or_app. right. apply in_or_app. right. apply in_map_iff. exists (o, n). split; [|exact Hon].
    cbn [fst snd]. f_equal. apply side_cells with (List.length rk); [|exact I2]. apply GRc, in_or_app. right. apply C3. now apply in_map with (f := fst) in Hon. }
  split; [intros c Sc; apply col_in; [exact ND|now apply Ckeys]|].
  split. { intros c Hc Nc. assert (H : In c (map fst (cm_left cm))) by (apply C2; rewrite C1; auto). apply in_map_iff in H. destruct H as ([o n] & Q & H). cbn in Q. subst o.
           exists n. split; [now apply C4|]. apply col_in; [exact ND|now apply Cl]. }
  split. { intros c Hc Nc. assert (H : In c (map fst (cm_right cm))) by (apply C3; rewrite C1; auto). apply in_map_iff in H. destruct H as ([o n] & Q & H). cbn in Q. subst o.
           exists n. split; [now apply C5|]. apply col_in; [exact ND|now apply Cr]. }
  split; [exact ND|]. split.
  { intros n c Hin. assert (Hin' := Hin). rewrite Eout in Hin'. unfold assemble in Hin'. apply in_app_or in Hin'. destruct Hin' as [H|H]; [|apply in_app_or in H; destruct H as [H|H]]; apply in_map_iff in H.
    - destruct H as (f & Q & Hf). injection Q as <- <-. apply C1 in Hf. rewrite K; [apply map_length|apply GLc, in_or_app; left; apply Hf|apply GRc, in_or_app; left; apply Hf].
    - destruct H as ([o m] & Q & Hf). injection Q as <- <-. cbn [fst snd] in *. rewrite (side_cells inv _ _ (List.length lk) fst rows); [apply map_length| |exact I1].
      apply GLc, in_or_app. right. apply C2. now apply in_map with (f := fst) in Hf.
    - destruct H as ([o m] & Q & Hf). injection Q as <- <-. cbn [fst snd] in *. rewrite (side_cells inv _ _ (List.length rk) snd rows); [apply map_length| |exact I2].
      apply GRc, in_or_app. right. apply C3. now apply in_map with (f := fst) in Hf. }
  split.
  - intros name codes H. destruct (Eind name codes H) as (Q1 & Q2 & ->). split; [exact Q1|]. split; [exact Q2|].
    replace (out_rows j) with (List.length rows); [now apply indicator_rows with (lkeys := lk) (rkeys := rk)|].
    unfold out_rows. destruct (left_index j) as [li|] eqn:E3; [cbn [resolve] in I1; now rewrite I1, map_length|].
    destruct (right_index j) as [ri|] eqn:E4; [cbn [resolve] in I2; now rewrite I2, map_length|].
    exfalso. clear -E3 E4. unfold j in *. destruct h; cbn [create_indices left_or_inner left_index right_index] in E3, E4; try discriminate.
    destruct (_ =? 0); [discriminate|]. destruct (_ =? 0); [discriminate|]. cbn [outer_join right_index left_or_inner] in E4. destruct (right_only_rows _ _ _ _ _); discriminate.
  - intros -> r Hr ->. cbn [andb] in RM. destruct (right_index j) as [ri|] eqn:E4; [|unfold j in E4; discriminate]. apply negb_false_iff in RM.
    rewrite forallb_forall in RM. cbn [resolve] in I2. assert (Hin : In (snd r) ri) by (rewrite I2; now apply in_map).
    specialize (RM _ Hin). intros Q. rewrite Q in RM. discriminate.
Qed.
End Merge2.
