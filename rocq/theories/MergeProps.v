(** C39-C47, C71 and the merge part of C09.  Theorems only; models in MergeModel.v and
    MergeColsModel.v, specification in MergeSpec.v. *)
From Coq Require Import List Arith Bool Lia String Permutation.
From Verif Require Import Sched SchedFacts GroupModel GroupFacts MergeSpec MergeModel MergeProofs4 MergeProofs5
  MergeColsModel MergeColsProofs MergeColsProofs2 MergeColsProofs3.
Import ListNotations.
Local Open Scope list_scope.

(** ** C39: left join of two key columns.  [cat], [cat']: the key column is a Categorical.
    Unmatched and null-key left rows appear once, in order. *)
Theorem C39_left_join : forall {B} (eqb : B -> B -> bool), (forall a b, eqb a b = true <-> a = b) ->
  forall sched, (forall its, interleave its (sched its)) -> forall junk null cat cat' (lraw rraw : list B) lg rg,
  groups_keys (key_options null false cat lraw) lg -> groups_keys (key_options null true cat' rraw) rg ->
  let l := nullable null lraw in let r := nullable null rraw in
  indices_are l r (create_indices eqb sched junk lg rg None HLeft None None) (left_join eqb l r (all_rows l) (all_rows r)).
Proof.
  intros B eqb eqb_eq sched HS junk null cat cat' lraw rraw lg rg GL GR l r.
  destruct (left_rows eqb eqb_eq sched HS junk _ _ lg rg None None None GL GR (or_intror (or_introl eq_refl))) as (ls & _ & E & I).
  rewrite (E eq_refl) in I. rewrite (key_options_force null cat' rraw), (left_join_keys eqb eqb_eq null false cat lraw rraw) in I.
  unfold indices_are in *. cbn [kept] in I. unfold l, r, all_rows in *. rewrite ?key_options_length, ?nullable_length in *. exact I.
Qed.
Print Assumptions C39_left_join.

(** ** C40 inner join: exactly the matching pairs *)
Theorem C40_inner_join : forall {B} (eqb : B -> B -> bool), (forall a b, eqb a b = true <-> a = b) ->
  forall sched, (forall its, interleave its (sched its)) -> forall junk null cat cat' (lraw rraw : list B) lg rg,
  groups_keys (key_options null true cat lraw) lg -> groups_keys (key_options null true cat' rraw) rg ->
  let l := nullable null lraw in let r := nullable null rraw in
  indices_are l r (create_indices eqb sched junk lg rg None HInner None None) (inner_join eqb l r (all_rows l) (all_rows r)).
Proof.
  intros B eqb eqb_eq sched HS junk null cat cat' lraw rraw lg rg GL GR l r.
  destruct (inner_rows eqb eqb_eq sched HS junk _ _ lg rg None None None GL GR) as (ls & _ & E & I).
  rewrite (E eq_refl) in I. exact I.
Qed.
Print Assumptions C40_inner_join.

(** ** C41 right join: the left join with the two sides exchanged *)
Theorem C41_right_join : forall {B} (eqb : B -> B -> bool), (forall a b, eqb a b = true <-> a = b) ->
  forall sched, (forall its, interleave its (sched its)) -> forall junk null cat cat' (lraw rraw : list B) lg rg,
  groups_keys (key_options null true cat lraw) lg -> groups_keys (key_options null false cat' rraw) rg ->
  let l := nullable null lraw in let r := nullable null rraw in
  indices_are l r (create_indices eqb sched junk lg rg None HRight None None) (map swap (left_join eqb r l (all_rows r) (all_rows l))).
Proof.
  intros B eqb eqb_eq sched HS junk null cat cat' lraw rraw lg rg GL GR l r.
  destruct (right_rows eqb eqb_eq sched HS junk _ _ lg rg None None None GL GR (or_intror (or_introl eq_refl))) as (rs & _ & E & I).
  rewrite (E eq_refl) in I. rewrite (key_options_force null cat lraw), (left_join_keys eqb eqb_eq null false cat' rraw lraw) in I.
  unfold indices_are in *. cbn [kept] in I. unfold l, r, all_rows in *. rewrite ?key_options_length, ?nullable_length in *. exact I.
Qed.
Print Assumptions C41_right_join.

(** ** C42 outer join: the left join, then the unmatched right rows in order.  [rgb]: the second
    grouping made for multi-column keys, whatever it is. *)
Theorem C42_outer_join : forall {B} (eqb : B -> B -> bool), (forall a b, eqb a b = true <-> a = b) ->
  forall sched, (forall its, interleave its (sched its)) -> forall junk null cat cat' (lraw rraw : list B) lg rg rgb,
  groups_keys (key_options null true cat lraw) lg -> groups_keys (key_options null true cat' rraw) rg ->
  let l := nullable null lraw in let r := nullable null rraw in
  let j := create_indices eqb sched junk lg rg rgb HOuter None None in
  indices_are l r j (left_join eqb l r (all_rows l) (all_rows r) ++ right_only_of eqb l r (all_rows l) (all_rows r)) /\
  (lraw <> [] -> right_only j = Some (List.length (right_only_of eqb l r (all_rows l) (all_rows r)))).
Proof.
  intros B eqb eqb_eq sched HS junk null cat cat' lraw rraw lg rg rgb GL GR l r.
  destruct (outer_rows eqb eqb_eq sched HS junk _ _ lg rg rgb None GL GR (or_intror (or_introl eq_refl))) as (rs & _ & E & I & C).
  rewrite (E eq_refl) in I, C. split; [exact I|]. intros N. apply C. intros Q. apply N. apply length_zero_iff_nil.
  rewrite <- (key_options_length null true cat lraw), Q. reflexivity.
Qed.
Print Assumptions C42_outer_join.
(** The reported number of right-only rows is 0 when the left table is empty (line 1618). *)
Definition junk0 : mem (option nat) := fun _ => None.
Theorem C42_right_only_count_refuted :
  exists (rkeys : list (option nat)) lg rg, groups_keys (@nil (option nat)) lg /\ groups_keys rkeys rg /\
    right_only (create_indices Nat.eqb (@serial _) junk0 lg rg None HOuter None None)
    <> Some (List.length (right_only_of Nat.eqb [] rkeys [] (all_rows rkeys))).
Proof.
  exists [Some 1; Some 1], (group_by Nat.eqb []), (group_by Nat.eqb [Some 1; Some 1]).
  split; [apply group_by_ok, Nat.eqb_eq|]. split; [apply group_by_ok, Nat.eqb_eq|]. vm_compute. discriminate.
Qed.
Print Assumptions C42_right_only_count_refuted.

(** ** C43 keep: only the first / last row of every key takes part; the kept rows of the driving
    table may come in another order.  Missing: the combinations excluded by [supported], for which
    the statement is false, see the refutations. *)
Theorem C43_keep_partial : forall {B} (eqb : B -> B -> bool), (forall a b, eqb a b = true <-> a = b) ->
  forall sched, (forall its, interleave its (sched its)) -> forall junk (lkeys rkeys : list (option B)) lg rg rgb h kl kr,
  groups_keys lkeys lg -> groups_keys rkeys rg -> supported lkeys rkeys rgb h kl kr ->
  exists ls rs, Permutation ls (kept eqb kl lkeys) /\ Permutation rs (kept eqb kr rkeys) /\
    indices_are lkeys rkeys (create_indices eqb sched junk lg rg rgb h kl kr) (join_rows eqb h lkeys rkeys ls rs).
Proof.
  intros B eqb eqb_eq sched HS junk lkeys rkeys lg rg rgb h kl kr GL GR S.
  destruct (join_columns eqb eqb_eq sched HS junk lkeys rkeys lg rg rgb GL GR (tt) h kl kr S) as (ls & rs & P1 & _ & P2 & _ & I & _).
  exists ls, rs. auto.
Qed.
Print Assumptions C43_keep_partial.
(** Left join with keep=('first', None) on a Categorical with filtered rows: the two index arrays
    have different lengths. *)
Theorem C43_lengths_refuted :
  exists (lkeys rkeys : list (option nat)) lg rg, groups_keys lkeys lg /\ groups_keys rkeys rg /\
    let j := create_indices Nat.eqb (@serial _) junk0 lg rg None HLeft (Some KFirst) None in
    List.length (resolve (List.length lkeys) (left_index j)) <> List.length (resolve (List.length rkeys) (right_index j)).
Proof.
  exists [None; Some 1], [Some 1; Some 1], (group_by Nat.eqb [None; Some 1]), (group_by Nat.eqb [Some 1; Some 1]).
  split; [apply group_by_ok, Nat.eqb_eq|]. split; [apply group_by_ok, Nat.eqb_eq|]. vm_compute. discriminate.
Qed.
Print Assumptions C43_lengths_refuted.

(** ** concrete tables: cells are numbers, 0 is the invalid value *)
Definition isnull (v : nat) : bool := v =? 0.
Definition tgroup := group_by (tuple_eqb Nat.eqb).
Definition m2 := merge2 Nat.eqb isnull 0 (@serial _) junk0 tgroup (fun _ => false).
Definition mlookup := merge_lookup Nat.eqb isnull 0 (@serial _) junk0 tgroup (fun _ => false).
Lemma tgroup_ok keys : groups_keys keys (tgroup keys).
Proof. apply group_by_ok. apply tuple_eqb_eq. apply Nat.eqb_eq. Qed.
Definition tl_ : dataset := [("A", [2; 7]); ("B", [2; 8]); ("x", [10; 20])]%string.
Definition tr_ : dataset := [("A", [0; 7]); ("B", [5; 8]); ("y", [30; 40])]%string.
(** Outer join on two columns with keep=(None, 'first'): the right row with the null key is lost and
    the matched one comes twice. *)
Theorem C43_outer_multikey_refuted :
  exists out, m2 tl_ tr_ ["A"; "B"]%string ["A"; "B"]%string HOuter None ["A"; "B"; "x"]%string ["A"; "B"; "y"]%string None None (Some KFirst) None false = Some (out, None) /\
    unique_keys (nullable (has_null isnull) (tuples 0 tr_ ["A"; "B"]%string 2)) /\
    In 30 (getcol tr_ "y") /\ ~ In 30 (getcol out "y") /\ count_occ Nat.eq_dec (getcol tr_ "y") 40 = 1 /\ count_occ Nat.eq_dec (getcol out "y") 40 = 2.
Proof.
  eexists. split; [vm_compute; reflexivity|]. split.
  - intros [|[|i]] [|[|j]] b H1 H2; vm_compute in H1, H2; try reflexivity; try discriminate; try (destruct i; discriminate H1); destruct j; discriminate H2.
  - split; [now left|]. split; [|split; reflexivity]. cbn. intuition discriminate.
Qed.
Print Assumptions C43_outer_multikey_refuted.

(** ** C44 validate: it raises exactly when the keys of a side that must be unique are not.  A side
    with an explicit keep is not checked. *)
Theorem C44_validate : forall {V} (veqb : V -> V -> bool), (forall a b, veqb a b = true <-> a = b) -> forall null inv sched junk group,
  (forall keys, groups_keys keys (group keys)) -> forall strcol left right left_on right_on suffixes cl cr h v kl kr,
  List.length left_on = List.length right_on -> arguments_ok left right left_on right_on suffixes cl cr -> (h = HOuter -> kl = None) ->
  (merge2 veqb null inv sched junk group strcol left right left_on right_on h suffixes cl cr (Some v) kl kr None false = None
   <-> ~ valid_join null inv left right left_on right_on v h kl kr).
Proof. intros. now apply validate_raises. Qed.
Print Assumptions C44_validate.

(** ** C45 column names of the result *)
Theorem C45_distinct : forall left_on right_on suffixes cl cr cm,
  NoDup cl -> NoDup cr -> construct_colname_mapping left_on right_on suffixes cl cr = Some cm ->
  NoDup (cm_keys cm ++ map snd (cm_left cm) ++ map snd (cm_right cm)).
Proof. intros. now apply (names_distinct left_on right_on suffixes cl cr). Qed.
Print Assumptions C45_distinct.
Theorem C45_complete : forall left_on right_on suffixes cl cr cm,
  construct_colname_mapping left_on right_on suffixes cl cr = Some cm ->
  (forall c, In c (cm_keys cm) <-> In c left_on /\ In c right_on) /\
  (forall c, In c (map fst (cm_left cm)) <-> In c cl /\ ~ In c (cm_keys cm)) /\
  (forall c, In c (map fst (cm_right cm)) <-> In c cr /\ ~ In c (cm_keys cm)) /\
  (forall o n, In (o, n) (cm_left cm) -> n = o \/ (In o cr /\ exists s, suffix_of true suffixes = Some s /\ n = (o ++ s)%string)) /\
  (forall o n, In (o, n) (cm_right cm) -> n = o \/ (In o cl /\ exists s, suffix_of false suffixes = Some s /\ n = (o ++ s)%string)).
Proof. exact names_complete. Qed.
Print Assumptions C45_complete.
(** Only a shared non-key column name can make it raise; fresh suffixed names always help; no or
    equal suffixes never do. *)
Theorem C45_raises_only_on_clash : forall left_on right_on suffixes cl cr,
  construct_colname_mapping left_on right_on suffixes cl cr = None -> exists c, In c cl /\ In c cr /\ ~ (In c left_on /\ In c right_on).
Proof. exact raises_shared. Qed.
Print Assumptions C45_raises_only_on_clash.
Theorem C45_fresh_suffixes : forall left_on right_on s1 s2 cl cr,
  s1 <> ""%string -> s2 <> ""%string -> s1 <> s2 ->
  (forall c, In c cl -> In c cr -> ~ In (c ++ s1)%string (left_on ++ cl ++ cr) /\ ~ In (c ++ s2)%string (right_on ++ cl ++ cr)) ->
  (forall c c', In c cl -> In c' cr -> (c ++ s1)%string <> (c' ++ s2)%string) ->
  exists cm, construct_colname_mapping left_on right_on (Some (Some s1, Some s2)) cl cr = Some cm.
Proof. intros. now apply fresh_suffixes with s1 s2. Qed.
Print Assumptions C45_fresh_suffixes.
Theorem C45_clash_raises : forall left_on right_on suffixes cl cr c,
  In c cl -> In c cr -> ~ (In c left_on /\ In c right_on) -> (suffixes = None \/ exists s, suffixes = Some (s, s)) ->
  construct_colname_mapping left_on right_on suffixes cl cr = None.
Proof. intros. now apply no_suffix_raises with c. Qed.
Print Assumptions C45_clash_raises.

(** ** C46: key lists of different lengths are not rejected *)
Theorem C46_mismatched_keys_refuted :
  exists left_on right_on out, List.length left_on <> List.length right_on /\
    m2 tl_ tr_ left_on right_on HLeft None ["A"; "B"; "x"]%string ["A"; "y"]%string None None None None false = Some out.
Proof. exists ["A"; "B"]%string, ["A"]%string. eexists. split; [discriminate|]. vm_compute. reflexivity. Qed.
Print Assumptions C46_mismatched_keys_refuted.

(** ** C47 merge_lookup: one row per left row, in order, with the only / first / last right row of
    its key *)
Theorem C47_lookup_columns : forall {V} (veqb : V -> V -> bool), (forall a b, veqb a b = true <-> a = b) -> forall null inv sched,
  (forall its, interleave its (sched its)) -> forall junk group, (forall keys, groups_keys keys (group keys)) ->
  forall strcol left right, well_formed left -> well_formed right -> forall left_on right_on, List.length left_on = List.length right_on ->
  forall suffixes cl cr, NoDup cl -> NoDup cr -> forall rm k out ind,
  merge_lookup veqb null inv sched junk group strcol left right left_on right_on rm suffixes cl cr k = Some (out, ind) ->
  let l := nullable (has_null null) (tuples inv left left_on (nrows left)) in
  let r := nullable (has_null null) (tuples inv right right_on (nrows right)) in
  (forall c, In c left_on /\ In c right_on -> col c out = Some (getcol left c)) /\
  (forall c, In c cl -> ~ (In c left_on /\ In c right_on) ->
     exists n, (n = c \/ (In c cr /\ exists s, suffix_of true suffixes = Some s /\ n = (c ++ s)%string)) /\ col n out = Some (getcol left c)) /\
  (forall c, In c cr -> ~ (In c left_on /\ In c right_on) ->
     exists n, (n = c \/ (In c cl /\ exists s, suffix_of false suffixes = Some s /\ n = (c ++ s)%string)) /\
       col n out = Some (map (fun i => cell inv (getcol right c) (partner (tuple_eqb veqb) k (nth i l None) r)) (seq 0 (nrows left)))) /\
  NoDup (names out) /\ ind = None.
Proof. intros. eapply lookup_columns; eassumption. Qed.
Print Assumptions C47_lookup_columns.
(** It raises exactly when keep is not given and a non-null right key occurs twice, or a match is
    required and a left row has none. *)
Theorem C47_lookup_raises : forall {V} (veqb : V -> V -> bool), (forall a b, veqb a b = true <-> a = b) -> forall null inv sched,
  (forall its, interleave its (sched its)) -> forall junk group, (forall keys, groups_keys keys (group keys)) ->
  forall strcol left right left_on right_on, List.length left_on = List.length right_on ->
  forall suffixes cl cr rm k, arguments_ok left right left_on right_on suffixes cl cr ->
  let l := nullable (has_null null) (tuples inv left left_on (nrows left)) in
  let r := nullable (has_null null) (tuples inv right right_on (nrows right)) in
  (merge_lookup veqb null inv sched junk group strcol left right left_on right_on rm suffixes cl cr k = None <->
   (k = None /\ ~ unique_keys r) \/
   (rm = true /\ exists i, i < nrows left /\ matching (tuple_eqb veqb) (nth i l None) r (all_rows r) = [])).
Proof. intros. now apply lookup_raises. Qed.
Print Assumptions C47_lookup_raises.

(** ** C71: every column of a merge2 result is the column of its table, taken along the rows of the
    relational join.  Missing: outer joins on several columns with keep on the right and null right
    keys (refuted above). *)
Theorem C71_merged_columns_partial : forall {V} (veqb : V -> V -> bool), (forall a b, veqb a b = true <-> a = b) -> forall null inv sched,
  (forall its, interleave its (sched its)) -> forall junk group, (forall keys, groups_keys keys (group keys)) ->
  forall strcol left right, well_formed left -> well_formed right -> forall left_on right_on, List.length left_on = List.length right_on ->
  forall suffixes cl cr, NoDup cl -> NoDup cr -> forall h v kl kr indicator rm out ind,
  merge2 veqb null inv sched junk group strcol left right left_on right_on h suffixes cl cr v kl kr indicator rm = Some (out, ind) ->
  let teqb := tuple_eqb veqb in
  let L := tuples inv left left_on (nrows left) in let l := nullable (has_null null) L in
  let R := tuples inv right right_on (nrows right) in let r := nullable (has_null null) R in
  (h = HOuter -> List.length left_on <= 1 \/ kr = None \/ ~ In None r) ->
  exists ls rs,
    Permutation ls (kept teqb kl (keep_keys (has_null null) (is_left h) L)) /\ (kl = None -> ls = seq 0 (nrows left)) /\
    Permutation rs (kept teqb kr (keep_keys (has_null null) (is_right h) R)) /\ (kr = None -> rs = seq 0 (nrows right)) /\
    let rows := join_rows teqb h l r ls rs in
    (forall c, In c left_on /\ In c right_on -> col c out = Some (map (key_cell inv h (getcol left c) (getcol right c)) rows)) /\
    (forall c, In c cl -> ~ (In c left_on /\ In c right_on) ->
       exists n, (n = c \/ (In c cr /\ exists s, suffix_of true suffixes = Some s /\ n = (c ++ s)%string)) /\
         col n out = Some (map (fun r => cell inv (getcol left c) (fst r)) rows)) /\
    (forall c, In c cr -> ~ (In c left_on /\ In c right_on) ->
       exists n, (n = c \/ (In c cl /\ exists s, suffix_of false suffixes = Some s /\ n = (c ++ s)%string)) /\
         col n out = Some (map (fun r => cell inv (getcol right c) (snd r)) rows)) /\
    NoDup (names out) /\ (forall n c, In (n, c) out -> List.length c = List.length rows) /\
    (forall name codes, ind = Some (name, codes) -> indicator = Some name /\ ~ In name (names out) /\ codes = map indicator_of rows) /\
    (rm = true -> forall r, In r rows -> h = HLeft -> snd r <> None).
Proof. intros. eapply merge2_columns; eassumption. Qed.
Print Assumptions C71_merged_columns_partial.

(** ** C09: the join indices do not depend on the schedule of the parallel loops, nor on the
    initial contents of the arrays they fill *)
Theorem C09_merge_indices : forall {B} (eqb : B -> B -> bool), (forall a b, eqb a b = true <-> a = b) ->
  forall s1 s2, (forall its, interleave its (s1 its)) -> (forall its, interleave its (s2 its)) ->
  forall j1 j2 (lkeys rkeys : list (option B)) lg rg rgb h kl kr, groups_keys lkeys lg -> groups_keys rkeys rg ->
  create_indices eqb s1 j1 lg rg rgb h kl kr = create_indices eqb s2 j2 lg rg rgb h kl kr.
Proof. intros. eapply create_det; eassumption. Qed.
Print Assumptions C09_merge_indices.

(** ** concrete cases *)
Definition lraw := [3; 0; 5; 3; 8].
Definition rraw := [5; 3; 0; 3].
Definition lgrp := group_by Nat.eqb (key_options isnull false false lraw).
Definition lgrpF := group_by Nat.eqb (key_options isnull true false lraw).
Definition rgrpF := group_by Nat.eqb (key_options isnull true false rraw).
Example C39_case : groups_keys (key_options isnull false false lraw) lgrp /\ groups_keys (key_options isnull true false rraw) rgrpF /\
  left_join Nat.eqb (nullable isnull lraw) (nullable isnull rraw) (seq 0 5) (seq 0 4) =
  [(Some 0, Some 1); (Some 0, Some 3); (Some 1, None); (Some 2, Some 0); (Some 3, Some 1); (Some 3, Some 3); (Some 4, None)] /\
  create_indices Nat.eqb (@serial _) junk0 lgrp rgrpF None HLeft None None =
  mkJI (Some [Some 0; Some 0; Some 1; Some 2; Some 3; Some 3; Some 4]) (Some [Some 1; Some 3; None; Some 0; Some 1; Some 3; None]) None.
Proof. split; [apply group_by_ok, Nat.eqb_eq|]. split; [apply group_by_ok, Nat.eqb_eq|]. split; vm_compute; reflexivity. Qed.
Example C40_case : groups_keys (key_options isnull true false lraw) lgrpF /\
  inner_join Nat.eqb (nullable isnull lraw) (nullable isnull rraw) (seq 0 5) (seq 0 4) =
  [(Some 0, Some 1); (Some 0, Some 3); (Some 2, Some 0); (Some 3, Some 1); (Some 3, Some 3)].
Proof. split; [apply group_by_ok, Nat.eqb_eq|]. vm_compute; reflexivity. Qed.
Example C41_case : groups_keys (key_options isnull true false lraw) lgrpF /\
  map swap (left_join Nat.eqb (nullable isnull rraw) (nullable isnull lraw) (seq 0 4) (seq 0 5)) =
  [(Some 2, Some 0); (Some 0, Some 1); (Some 3, Some 1); (None, Some 2); (Some 0, Some 3); (Some 3, Some 3)].
Proof. split; [apply group_by_ok, Nat.eqb_eq|]. vm_compute; reflexivity. Qed.
Example C42_case : right_only_of Nat.eqb (nullable isnull rraw) (nullable isnull lraw) (seq 0 4) (seq 0 5) = [(None, Some 1); (None, Some 4)] /\
  right_only (create_indices Nat.eqb (@serial _) junk0 rgrpF lgrpF None HOuter None None) = Some 2.
Proof. split; vm_compute; reflexivity. Qed.
Example C43_case : supported (nullable isnull lraw) (nullable isnull rraw) None HOuter None (Some KLast) /\
  supported (map Some lraw) (nullable isnull rraw) None HLeft (Some KLast) None /\
  kept Nat.eqb (Some KLast) (nullable isnull rraw) = [0; 2; 3] /\ kept Nat.eqb (Some KFirst) (map Some lraw) = [0; 1; 2; 4].
Proof.
  split; [split; [reflexivity|now left]|]. split; [right; right; right; left; intros H; apply in_map_iff in H; destruct H as (x & Q & _); discriminate|].
  split; vm_compute; reflexivity.
Qed.
Definition tl2 : dataset := [("k", [3; 0; 5; 3]); ("v", [1; 2; 3; 4]); ("w", [9; 9; 9; 9])]%string.
Definition tr2 : dataset := [("k", [5; 3; 0]); ("v", [11; 12; 13])]%string.
Fixpoint distinctb (l : list string) : bool := match l with [] => true | x :: r => negb (smem x r) && distinctb r end.
Lemma distinctb_ok l : distinctb l = true -> NoDup l.
Proof.
  induction l as [|x l IH]; cbn; intros H; constructor; apply andb_true_iff in H; destruct H as [H1 H2].
  - apply smem_not. now apply negb_true_iff.
  - now apply IH.
Qed.
Lemma wf_check (ds : @dataset nat) : distinctb (names ds) = true ->
  forallb (fun p => List.length (snd p) =? nrows ds) ds = true -> well_formed ds.
Proof.
  intros H1 H2. split; [now apply distinctb_ok|]. intros n c H. rewrite forallb_forall in H2.
  apply Nat.eqb_eq. exact (H2 _ H).
Qed.
Definition sfx : suffix_pair := Some (Some "_l", Some "_r")%string.
Example C45_case :
  construct_colname_mapping ["k"]%string ["k"]%string sfx ["k"; "v"; "w"]%string ["k"; "v"]%string =
  Some (mkCM [("v", "v_l"); ("w", "w")]%string [("v", "v_r")]%string ["k"]%string) /\
  construct_colname_mapping ["k"]%string ["k"]%string None ["k"; "v"]%string ["k"; "v"]%string = None.
Proof. split; vm_compute; reflexivity. Qed.
Example C44_case : arguments_ok tl2 tr2 ["k"]%string ["k"]%string sfx ["k"; "v"; "w"]%string ["k"; "v"]%string /\
  m2 tl2 tr2 ["k"]%string ["k"]%string HLeft sfx ["k"; "v"; "w"]%string ["k"; "v"]%string (Some V11) None None None false = None /\
  m2 tl2 tr2 ["k"]%string ["k"]%string HLeft sfx ["k"; "v"; "w"]%string ["k"; "v"]%string (Some Vm1) None None None false <> None.
Proof.
  split.
  - split; [discriminate|]. split; [cbn; intros c; tauto|]. split; [cbn; intros c; tauto|]. vm_compute. discriminate.
  - split; vm_compute; [reflexivity|discriminate].
Qed.
Example C47_case : well_formed tl2 /\ well_formed tr2 /\
  mlookup tl2 tr2 ["k"]%string ["k"]%string false sfx ["k"; "v"; "w"]%string ["k"; "v"]%string None =
  Some ([("k", [3; 0; 5; 3]); ("v_l", [1; 2; 3; 4]); ("w", [9; 9; 9; 9]); ("v_r", [12; 0; 11; 12])]%string, None) /\
  mlookup tr2 tl2 ["k"]%string ["k"]%string false sfx ["k"; "v"]%string ["k"; "v"; "w"]%string None = None /\
  mlookup tr2 tl2 ["k"]%string ["k"]%string false sfx ["k"; "v"]%string ["k"; "v"; "w"]%string (Some KLast) =
  Some ([("k", [5; 3; 0]); ("v_l", [11; 12; 13]); ("v_r", [3; 4; 0]); ("w", [9; 9; 0])]%string, None) /\
  mlookup tl2 tr2 ["k"]%string ["k"]%string true sfx ["k"; "v"; "w"]%string ["k"; "v"]%string None = None.
Proof. split; [apply wf_check; vm_compute; reflexivity|]. split; [apply wf_check; vm_compute; reflexivity|]. repeat split; vm_compute; reflexivity. Qed.
Example C71_case :
  m2 tl2 tr2 ["k"]%string ["k"]%string HOuter sfx ["k"; "v"; "w"]%string ["k"; "v"]%string None None None (Some "ind"%string) false =
  Some ([("k", [3; 0; 5; 3; 0]); ("v_l", [1; 2; 3; 4; 0]); ("w", [9; 9; 9; 9; 0]); ("v_r", [12; 0; 11; 12; 13])]%string, Some ("ind"%string, [3; 1; 3; 3; 2])).
Proof. vm_compute; reflexivity. Qed.
