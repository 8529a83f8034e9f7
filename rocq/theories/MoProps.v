(** C174-C179: rt.merge and rt.merge_asof.  Model in MoModel.v, vocabulary in MergeSpec.v, AsofSpec.v and MoSpec.v. *)
From Coq Require Import List Arith ZArith Bool Lia String.
From Verif Require Import AsofSpec MergeSpec MergeModel MergeColsModel MergeColsProofs MergeColsProofs2 MoSpec MoModel MoProofs MoProofs2 MoProofs3 MoProofs4 MoRef.
Import ListNotations.
Local Open Scope list_scope.
Local Open Scope nat_scope.

(** ** C174 left and right merges: the rows of the driving table, each with its first match.
    Missing: key columns of different types, which riptable compares after conversion, NaN keys. *)
Theorem C174_left_right_partial : forall {V} (veqb : V -> V -> bool), (forall a b, veqb a b = true <-> a = b) -> forall inv left right,
  well_formed left -> well_formed right -> forall left_on right_on suffixes cl cr, NoDup cl -> NoDup cr -> forall indicator out ind,
  let l := map Some (tuples inv left left_on (nrows left)) in
  let r := map Some (tuples inv right right_on (nrows right)) in
  let teqb := tuple_eqb veqb in
  let result h rows := merged inv left right left_on right_on cl cr suffixes h rows out /\ indicated indicator rows out ind in
  (merge veqb inv left right left_on right_on HLeft suffixes cl cr indicator = Some (out, ind) ->
     result HLeft (join_rows teqb HLeft l r (all_rows l) (kept teqb (Some KFirst) r))) /\
  (merge veqb inv left right left_on right_on HRight suffixes cl cr indicator = Some (out, ind) ->
     result HRight (join_rows teqb HRight l r (kept teqb (Some KFirst) l) (all_rows r))).
Proof.
  intros V veqb E inv left right WL WR left_on right_on suffixes cl cr N1 N2 indicator out ind l r teqb result. split; intros H.
  - apply (merge_rows veqb inv left right WL WR left_on right_on cl cr N1 N2 suffixes HLeft indicator out ind); [|exact H].
    destruct (rows_left veqb E (tuples inv left left_on (nrows left)) (tuples inv right right_on (nrows right))) as [A B]. split; [exact A|]. split; [exact B|discriminate].
  - apply (merge_rows veqb inv left right WL WR left_on right_on cl cr N1 N2 suffixes HRight indicator out ind); [|exact H].
    destruct (rows_right veqb E (tuples inv left left_on (nrows left)) (tuples inv right right_on (nrows right))) as [A B]. split; [exact A|]. split; [exact B|discriminate].
Qed.
Print Assumptions C174_left_right_partial.
(** exactly one result row per row of the driving table, in its order *)
Theorem C174_one_row_each : forall {B} (eqb : B -> B -> bool), (forall a b, eqb a b = true <-> a = b) -> forall (l r : list (option B)),
  map fst (join_rows eqb HLeft l r (all_rows l) (kept eqb (Some KFirst) r)) = map Some (all_rows l) /\
  map snd (join_rows eqb HRight l r (kept eqb (Some KFirst) l) (all_rows r)) = map Some (all_rows r) /\
  forall i o, In (Some i, o) (join_rows eqb HLeft l r (all_rows l) (kept eqb (Some KFirst) r)) -> o = partner eqb (Some KFirst) (nth i l None) r.
Proof.
  intros B eqb E l r. cbn [join_rows]. rewrite !MergeColsProofs3.left_join_partner by (discriminate || exact E). rewrite !map_map. cbn [fst snd swap]. split; [reflexivity|]. split; [reflexivity|].
  intros i o H. apply in_map_iff in H. destruct H as (k & Q & _). congruence.
Qed.
Print Assumptions C174_one_row_each.

(** ** C175 inner merges: the left rows with a match, each with its first match *)
Theorem C175_inner_partial : forall {V} (veqb : V -> V -> bool), (forall a b, veqb a b = true <-> a = b) -> forall inv left right,
  well_formed left -> well_formed right -> forall left_on right_on suffixes cl cr, NoDup cl -> NoDup cr -> forall indicator out ind,
  merge veqb inv left right left_on right_on HInner suffixes cl cr indicator = Some (out, ind) ->
  let l := map Some (tuples inv left left_on (nrows left)) in
  let r := map Some (tuples inv right right_on (nrows right)) in
  let teqb := tuple_eqb veqb in
  let rows := join_rows teqb HInner l r (all_rows l) (kept teqb (Some KFirst) r) in
  let result rows := merged inv left right left_on right_on cl cr suffixes HInner rows out /\ indicated indicator rows out ind in
  (unique_keys l -> result rows) /\ result (map (to_first teqb l) rows).
Proof.
  intros V veqb E inv left right WL WR left_on right_on suffixes cl cr N1 N2 indicator out ind H l r teqb rows result.
  assert (G : result (map (to_first teqb l) rows)).
  { apply (merge_rows veqb inv left right WL WR left_on right_on cl cr N1 N2 suffixes HInner indicator out ind); [|exact H].
    destruct (rows_inner_gen veqb E (tuples inv left left_on (nrows left)) (tuples inv right right_on (nrows right))) as [A B]. split; [exact A|]. split; [exact B|].
    intros _ p Hp. apply in_map_iff in Hp. destruct Hp as ([a b] & <- & Hp). cbn [join_rows] in Hp. unfold rows in Hp. cbn [join_rows] in Hp.
    unfold inner_join in Hp. apply in_flat_map in Hp. destruct Hp as (i & Hi & Hp). apply in_map_iff in Hp. destruct Hp as (j & Q & _). injection Q as <- <-. unfold to_first. cbn [fst].
    unfold all_rows, l in Hi. rewrite map_length, tuples_length in Hi. apply in_seq in Hi. unfold l. rewrite (nth_some []) by (rewrite tuples_length; lia). unfold teqb. rewrite <- fr_partner.
    intros Q. apply (fr_none veqb E) in Q. apply Q, nth_In. rewrite tuples_length. lia. }
  split; [|exact G]. intros U. assert (Q : map (to_first teqb l) rows = rows) by exact (inner_unique veqb E _ _ U). rewrite Q in G. exact G.
Qed.
Print Assumptions C175_inner_partial.
(** Finding: rt.merge(how='inner') with a key that occurs twice on the left: both result rows show the values of the first left row, the
    second left row is lost. *)
Theorem C175_inner_duplicates_refuted : exists (left right out : @dataset nat), well_formed left /\ well_formed right /\
  merge Nat.eqb 0 left right ["k"%string] ["k"%string] HInner (None, None) ["k"%string; "a"%string] ["k"%string; "b"%string] None = Some (out, None) /\
  getcol left "a" = [10; 20] /\ getcol out "a" = [10; 10] /\
  forall rs, ~ merged 0 left right ["k"%string] ["k"%string] ["k"%string; "a"%string] ["k"%string; "b"%string] (None, None) HInner
    (join_rows (tuple_eqb Nat.eqb) HInner (map Some (tuples 0 left ["k"%string] 2)) (map Some (tuples 0 right ["k"%string] 1)) [0; 1] rs) out.
Proof.
  exists [("k"%string, [1; 1]); ("a"%string, [10; 20])], [("k"%string, [1]); ("b"%string, [5])], [("k"%string, [1; 1]); ("a"%string, [10; 10]); ("b"%string, [5; 5])].
  split; [split; [repeat constructor; cbn; intuition discriminate|intros n c [[= <- <-]|[[= <- <-]|[]]]; reflexivity]|].
  split; [split; [repeat constructor; cbn; intuition discriminate|intros n c [[= <- <-]|[[= <- <-]|[]]]; reflexivity]|].
  split; [vm_compute; reflexivity|]. split; [reflexivity|]. split; [reflexivity|].
  intros rs (_ & H & _). specialize (H "a"%string ltac:(right; now left)). destruct H as (n & Hn & H).
  { intros [[Q|[]] _]. discriminate. }
  assert (n = "a"%string). { destruct Hn as [->|(_ & s & Q & _)]; [reflexivity|discriminate]. } subst n.
  change (Some [10; 10] = Some (map (fun r : row => cell 0 [10; 20] (fst r))
     (inner_join (tuple_eqb Nat.eqb) (map Some [[1]; [1]]) (map Some [[1]]) [0; 1] rs))) in H. injection H as H.
  unfold inner_join in H. cbn [flat_map nth map] in H. rewrite app_nil_r, map_app, !map_map in H. cbn [cell nth fst] in H.
  generalize dependent (matching (tuple_eqb Nat.eqb) (Some [1]) [Some [1]] rs). intros [|a [|b m]] H; cbn in H; try discriminate.
  destruct m; discriminate.
Qed.
Print Assumptions C175_inner_duplicates_refuted.

(** ** C176 outer merges: each key of either side once *)
Theorem C176_outer_partial : forall {V} (veqb : V -> V -> bool), (forall a b, veqb a b = true <-> a = b) -> forall inv left right,
  well_formed left -> well_formed right -> forall left_on right_on suffixes cl cr, NoDup cl -> NoDup cr -> forall indicator out ind,
  merge veqb inv left right left_on right_on HOuter suffixes cl cr indicator = Some (out, ind) ->
  let l := map Some (tuples inv left left_on (nrows left)) in
  let r := map Some (tuples inv right right_on (nrows right)) in
  let teqb := tuple_eqb veqb in
  let rows := join_rows teqb HOuter l r (kept teqb (Some KFirst) l) (kept teqb (Some KFirst) r) in
  merged inv left right left_on right_on cl cr suffixes HOuter rows out /\ indicated indicator rows out ind.
Proof.
  intros V veqb E inv left right WL WR left_on right_on suffixes cl cr N1 N2 indicator out ind H l r teqb rows.
  apply (merge_rows veqb inv left right WL WR left_on right_on cl cr N1 N2 suffixes HOuter indicator out ind); [|exact H].
  destruct (rows_outer veqb E (tuples inv left left_on (nrows left)) (tuples inv right right_on (nrows right))) as [A B]. split; [exact A|]. split; [exact B|discriminate].
Qed.
Print Assumptions C176_outer_partial.
(** when rt.merge raises *)
Theorem C176_raises : forall {V} (veqb : V -> V -> bool) inv left right left_on right_on suffixes cl cr h,
  let M := merge veqb inv left right left_on right_on h suffixes cl cr in
  (M None = None -> List.length left_on <> List.length right_on \/ left_on = [] \/ ~ columns_known left right left_on right_on cl cr \/
     exists c, In c cl /\ In c cr /\ ~ shared_key left_on right_on c) /\
  (List.length left_on <> List.length right_on \/ left_on = [] \/ ~ columns_known left right left_on right_on cl cr -> M None = None) /\
  (forall c, In c cl -> In c cr -> ~ shared_key left_on right_on c -> (suffixes = (None, None) \/ exists s, suffixes = (s, s)) -> M None = None) /\
  (forall n, M (Some n) = None <-> M None = None \/ exists out, M None = Some (out, None) /\ In n (names out)).
Proof.
  intros V veqb inv left right left_on right_on suffixes cl cr h M. unfold M. split; [|split; [|split]].
  - intros H. apply merge_none in H. destruct H as [H|[H|[H|H]]]; auto. right. right. right. exact (raises_shared _ _ _ _ _ H).
  - intros H. apply merge_none. tauto.
  - intros c H1 H2 H3 H4. apply merge_none. right. right. right. apply no_suffix_raises with c; try assumption. unfold plain_suffixes.
    destruct H4 as [->|[s ->]]; [now left|]. destruct (falsy _ && _); [now left|]. right. now exists s.
  - intros n. apply merge_indicator_none.
Qed.
Print Assumptions C176_raises.

(** ** C177 merge_asof keeps the left rows and matches each as asked, whether or not the on columns are sorted.
    The contracts of argsort and alignmk are in MoSpec.v.  Missing: invalid on values, overflow, the [tolerance] argument, which the code
    ignores with a warning. *)
Theorem C177_merge_asof_partial : forall {V} (inv : V) num argsort, (forall l, stable_order l (argsort l)) -> forall align, align_ok align ->
  forall left right, well_formed left -> well_formed right -> forall left_on right_on left_by right_by suffixes cl cr, NoDup cl -> NoDup cr ->
  forall exact d sort matched_on out,
  merge_asof inv num argsort align left right left_on right_on left_by right_by suffixes cl cr exact d sort matched_on = Some out ->
  exists matches base, List.length matches = nrows left /\
    (forall i x r, nth_error (map num (getcol left left_on)) i = Some x -> nth_error matches i = Some r ->
       asof_match d (same_by inv left right left_by right_by i) (map num (getcol right right_on)) exact x r) /\
    merged inv left right (left_on :: left_by) (right_on :: right_by) cl cr (sides suffixes) HLeft (asof_rows (nrows left) matches) base /\
    with_matched inv (getcol right right_on) matched_on (asof_rows (nrows left) matches) base out.
Proof. intros. eapply merge_asof_columns; eassumption. Qed.
Print Assumptions C177_merge_asof_partial.

(** ** C178 the match of a row is determined: the theorem above leaves no choice *)
Theorem C178_match_unique : forall d cand right exact x r r', asof_match d cand right exact x r -> asof_match d cand right exact x r' -> r = r'.
Proof.
  assert (U1 : forall cand right exact x r r', asof_backward cand right exact x r -> asof_backward cand right exact x r' -> r = r').
  { intros cand right exact x [j|] [k|] A B; cbn in A, B; [| | |reflexivity].
    - destruct A as (y & A1 & A2 & A3 & A4), B as (z & B1 & B2 & B3 & B4). f_equal. specialize (A4 k z B1 B2 B3). specialize (B4 j y A1 A2 A3). lia.
    - destruct A as (y & A1 & A2 & A3 & A4). elim (B j y A1 A2 A3).
    - destruct B as (z & B1 & B2 & B3 & B4). elim (A k z B1 B2 B3). }
  assert (U2 : forall cand right exact x r r', asof_forward cand right exact x r -> asof_forward cand right exact x r' -> r = r').
  { intros cand right exact x [j|] [k|] A B; cbn in A, B; [| | |reflexivity].
    - destruct A as (y & A1 & A2 & A3 & A4), B as (z & B1 & B2 & B3 & B4). f_equal. specialize (A4 k z B1 B2 B3). specialize (B4 j y A1 A2 A3). lia.
    - destruct A as (y & A1 & A2 & A3 & A4). elim (B j y A1 A2 A3).
    - destruct B as (z & B1 & B2 & B3 & B4). elim (A k z B1 B2 B3). }
  intros [| |] cand right exact x r r' A B; cbn [asof_match] in A, B; [eapply U1; eassumption|eapply U2; eassumption|].
  assert (S : forall r r', asof_closest cand right exact x r -> asof_closest cand right exact x r' -> asof_backward cand right exact x r -> asof_forward cand right exact x r' -> r = r').
  { clear - U1. intros [j|] [k|] [_ CA] [_ CB] A B; [| | |reflexivity].
    - apply (U1 cand right exact x); [exact A|]. destruct A as (y & A1 & A2 & A3 & A4), B as (z & B1 & B2 & B3 & B4).
      destruct (CA y k z A2 B1 B2 (or_intror B3)) as [L1 _]. destruct (CB z j y B2 A1 A2 (or_introl A3)) as [L2 T2]. apply T2; [lia|exact A3].
    - destruct A as (y & A1 & A2 & A3 & A4). exfalso. exact (proj1 (CB j y A1 A2) A3).
    - destruct B as (z & B1 & B2 & B3 & B4). exfalso. exact (proj2 (CA k z B1 B2) B3). }
  destruct (proj1 A) as [A'|A'], (proj1 B) as [B'|B'].
  - eapply U1; eassumption. - now apply S. - symmetry. now apply S. - eapply U2; eassumption.
Qed.
Print Assumptions C178_match_unique.
(** so the result does not depend on how the rows were ordered for the search, nor on the matching code *)
Theorem C178_same_result : forall {V} (inv : V) num as1 as2 al1 al2, (forall l, stable_order l (as1 l)) -> (forall l, stable_order l (as2 l)) -> align_ok al1 -> align_ok al2 ->
  forall left right, well_formed left -> well_formed right -> forall left_on right_on left_by right_by suffixes cl cr, NoDup cl -> NoDup cr -> forall exact d sort o1 o2,
  merge_asof inv num as1 al1 left right left_on right_on left_by right_by suffixes cl cr exact d sort None = Some o1 ->
  merge_asof inv num as2 al2 left right left_on right_on left_by right_by suffixes cl cr exact d sort None = Some o2 ->
  exists matches, merged inv left right (left_on :: left_by) (right_on :: right_by) cl cr (sides suffixes) HLeft (asof_rows (nrows left) matches) o1 /\
    merged inv left right (left_on :: left_by) (right_on :: right_by) cl cr (sides suffixes) HLeft (asof_rows (nrows left) matches) o2.
Proof.
  intros V inv num as1 as2 al1 al2 A1 A2 B1 B2 left right WL WR left_on right_on left_by right_by suffixes cl cr N1 N2 exact d sort o1 o2 H1 H2.
  assert (KN : List.length (getcol left left_on) = nrows left).
  { apply getcol_length; [exact WL|]. assert (Q : ~ (merge_asof inv num as1 al1 left right left_on right_on left_by right_by suffixes cl cr exact d sort None = None)) by congruence.
    rewrite merge_asof_none in Q. assert (D : columns_known left right (left_on :: left_by) (right_on :: right_by) cl cr).
    { apply known_dec. apply not_false_iff_true. intros F. apply Q. right. left. intros K. apply known_dec in K. congruence. }
    apply D. now left. }
  destruct (merge_asof_columns inv num as1 A1 al1 B1 left right WL WR _ _ _ _ _ _ _ N1 N2 _ _ _ _ _ H1) as (m1 & b1 & L1 & M1 & C1 & E1).
  destruct (merge_asof_columns inv num as2 A2 al2 B2 left right WL WR _ _ _ _ _ _ _ N1 N2 _ _ _ _ _ H2) as (m2 & b2 & L2 & M2 & C2 & E2).
  cbn [with_matched] in E1, E2. subst b1 b2. exists m1. split; [exact C1|]. assert (m1 = m2); [|subst; exact C2].
  apply nth_ext with (d := None) (d' := None); [congruence|]. intros i Hi. rewrite L1 in Hi.
  destruct (nth_error (map num (getcol left left_on)) i) as [x|] eqn:Ex; [|apply nth_error_None in Ex; rewrite map_length in Ex; lia].
  eapply C178_match_unique.
  - apply (M1 i x); [exact Ex|]. apply nth_error_nth'. lia.
  - apply (M2 i x); [exact Ex|]. apply nth_error_nth'. lia.
Qed.
Print Assumptions C178_same_result.

(** ** C179 when merge_asof raises *)
Theorem C179_merge_asof_raises : forall {V} (inv : V) num argsort align left right left_on right_on left_by right_by suffixes cl cr exact d sort,
  let M := merge_asof inv num argsort align left right left_on right_on left_by right_by suffixes cl cr exact d sort in
  let known := columns_known left right (left_on :: left_by) (right_on :: right_by) cl cr in
  let clash c := In c cl /\ In c cr /\ ~ shared_key (left_on :: left_by) (right_on :: right_by) c in
  let disorder := unsorted (map num (getcol left left_on)) \/ unsorted (map num (getcol right right_on)) in
  (M None = None -> List.length left_by <> List.length right_by \/ ~ known \/ (exists c, clash c) \/ (sort = false /\ disorder)) /\
  (List.length left_by <> List.length right_by \/ ~ known \/ (sort = false /\ disorder) -> M None = None) /\
  (forall c, clash c -> (suffixes = None \/ exists s, suffixes = Some (s, s)) -> M None = None) /\
  (forall m, M (Some m) = None <-> M None = None \/ exists out, M None = Some out /\ In m (names out)).
Proof.
  intros V inv num argsort align left right left_on right_on left_by right_by suffixes cl cr exact d sort M known clash disorder. unfold M. split; [|split; [|split]].
  - intros H. apply merge_asof_none in H. destruct H as [H|[H|[H|H]]]; auto. right. right. left. exact (raises_shared _ _ _ _ _ H).
  - intros H. apply merge_asof_none. tauto.
  - intros c (H1 & H2 & H3) H4. apply merge_asof_none. right. right. left. now apply no_suffix_raises with c.
  - intros m. apply merge_asof_matched_none.
Qed.
Print Assumptions C179_merge_asof_raises.

(** ** concrete cases *)
Definition lds : @dataset nat := [("k"%string, [3; 1; 3; 7]); ("a"%string, [10; 11; 12; 13]); ("x"%string, [1; 2; 3; 4])].
Definition rds : @dataset nat := [("k"%string, [3; 9; 1; 3]); ("b"%string, [20; 21; 22; 23]); ("x"%string, [5; 6; 7; 8])].
Definition K := ["k"%string].
Definition LC := ["k"; "a"; "x"]%string.
Definition RC := ["k"; "b"; "x"]%string.
Definition XY := (Some "_x"%string, Some "_y"%string).
Ltac wf := split; [repeat constructor; cbn; intuition discriminate|intros ? ? H; cbn in H; repeat (destruct H as [[= <- <-]|H]; [reflexivity|]); contradiction].
Example C174_case : (forall a b, Nat.eqb a b = true <-> a = b) /\ well_formed lds /\ well_formed rds /\ NoDup LC /\ NoDup RC /\
  merge Nat.eqb 0 lds rds K K HLeft XY LC RC (Some "m"%string) =
    Some ([("k"%string, [3; 1; 3; 7]); ("a"%string, [10; 11; 12; 13]); ("x_x"%string, [1; 2; 3; 4]); ("b"%string, [20; 22; 20; 0]); ("x_y"%string, [5; 7; 5; 0])], Some ("m"%string, [3; 3; 3; 1])) /\
  merge Nat.eqb 0 lds rds K K HRight XY LC RC None =
    Some ([("k"%string, [3; 9; 1; 3]); ("a"%string, [10; 0; 11; 10]); ("x_x"%string, [1; 0; 2; 1]); ("b"%string, [20; 21; 22; 23]); ("x_y"%string, [5; 6; 7; 8])], None).
Proof. split; [exact Nat.eqb_eq|]. split; [wf|]. split; [wf|]. split; [repeat constructor; cbn; intuition discriminate|]. split; [repeat constructor; cbn; intuition discriminate|]. split; vm_compute; reflexivity. Qed.
Definition uds : @dataset nat := [("k"%string, [3; 1; 7]); ("a"%string, [10; 11; 13])].
Example C175_case : well_formed uds /\ unique_keys (map Some (tuples 0 uds K 3)) /\
  merge Nat.eqb 0 uds rds K K HInner (None, None) ["k"; "a"]%string RC None =
    Some ([("k"%string, [3; 1]); ("a"%string, [10; 11]); ("b"%string, [20; 22]); ("x"%string, [5; 7])], None).
Proof.
  split; [wf|]. split; [|vm_compute; reflexivity].
  intros [|[|[|i]]] [|[|[|j]]] b H1 H2; try reflexivity; exfalso; cbn in H1, H2; try congruence; try (destruct i; discriminate); destruct j; discriminate.
Qed.
Example C176_case : merge Nat.eqb 0 lds rds K K HOuter XY LC RC (Some "m"%string) =
    Some ([("k"%string, [3; 1; 7; 9]); ("a"%string, [10; 11; 13; 0]); ("x_x"%string, [1; 2; 4; 0]); ("b"%string, [20; 22; 0; 21]); ("x_y"%string, [5; 7; 0; 6])], Some ("m"%string, [3; 3; 1; 2])) /\
  merge Nat.eqb 0 lds rds K K HOuter (None, None) LC RC None = None.
Proof. split; vm_compute; reflexivity. Qed.
(** unsorted times on both sides *)
Definition lt_ : @dataset nat := [("t"%string, [5; 1; 9]); ("g"%string, [0; 0; 1]); ("a"%string, [10; 11; 12])].
Definition rt_ : @dataset nat := [("t"%string, [4; 7; 2; 4; 8]); ("g"%string, [0; 0; 0; 0; 1]); ("b"%string, [20; 21; 22; 23; 24])].
Definition asof d sort := merge_asof 0 Z.of_nat argsort_ref (align_ref Nat.eqb) lt_ rt_ "t"%string "t"%string ["g"%string] ["g"%string] None ["t"; "g"; "a"]%string ["t"; "g"; "b"]%string true d sort (Some "on"%string).
Definition answer b on := Some [("t"%string, [5; 1; 9]); ("g"%string, [0; 0; 1]); ("a"%string, [10; 11; 12]); ("b"%string, b); ("on"%string, on)].
Example C177_case : (forall l, stable_order l (argsort_ref l)) /\ align_ok (align_ref Nat.eqb) /\ well_formed lt_ /\ well_formed rt_ /\
  asof Backward true = answer [23; 0; 24] [4; 0; 8] /\ asof Forward true = answer [21; 22; 0] [7; 2; 0] /\ asof Nearest true = answer [23; 22; 24] [4; 2; 8].
Proof. split; [exact argsort_ref_ok|]. split; [apply align_ref_ok; exact Nat.eqb_eq|]. split; [wf|]. split; [wf|]. split; [|split]; vm_compute; reflexivity. Qed.
Example C178_case : asof_match Nearest (fun j => j < 3) [4; 6; 6]%Z true 5%Z (Some 0) /\ asof_match Backward (fun j => j < 3) [4; 6; 4]%Z true 5%Z (Some 2).
Proof.
  split; [split|].
  - left. exists 4%Z. split; [lia|]. split; [reflexivity|]. split; [cbn; lia|]. intros [|[|[|k]]] z C H P; cbn in H, P; try injection H as <-; [now left|lia|lia|lia].
  - intros y k z [= <-] C H _. destruct k as [|[|[|k]]]; cbn in H; try injection H as <-; [split; [lia|]|split; [lia|]|split; [lia|]|lia]; intros _ _.
    all: exists 4%Z; split; [lia|]; split; [reflexivity|]; split; [cbn; lia|]; intros [|[|[|k']]] z' C' H' P'; cbn in H', P'; try injection H' as <-; [now left|lia|lia|lia].
  - exists 4%Z. split; [lia|]. split; [reflexivity|]. split; [cbn; lia|]. intros [|[|[|k]]] z C H P; cbn in H, P; try injection H as <-; [right; right; split; [reflexivity|lia]|lia|now left|lia].
Qed.
Example C179_case : unsorted (map Z.of_nat (getcol lt_ "t")) /\ asof Backward false = None /\ asof Backward true <> None.
Proof.
  split; [|split; [vm_compute; reflexivity|vm_compute; discriminate]]. intros S. specialize (S 0 1 5%Z 1%Z I I ltac:(lia) eq_refl eq_refl). lia.
Qed.
