(** C108-C111: operators on whole datasets. *)
From Coq Require Import List Arith Bool Lia.
From Verif Require Import FlattenModel MergeModel GroupModel GroupFacts DsModel DsSpec DsProofs3 TabCmpModel TabSpec TabProofs5 TabProofs6.
Import ListNotations.

Definition ca : name := [97].
Definition cb : name := [98].
Definition cc : name := [99].

(** ** C108: comparison operators *)
(** [a op b] for datasets of the same number of rows: one boolean column for every column name of
    either side, those of a first; the comparison row by row where both have the column, False
    everywhere when only one has it.  Different row counts are refused. *)
Theorem C108_compare {V} (op : V -> V -> bool) (a b : frame V) : square a -> square b ->
  (f_rows a <> f_rows b -> compare op a b = inr ErrValue) /\
  (f_rows a = f_rows b -> exists r, compare op a b = inl r /\
     map fst r = map fst (f_cols a) ++ filter (fun k => negb (DsModel.mem k (map fst (f_cols a)))) (map fst (f_cols b)) /\
     forall n, In n (map fst r) -> exists l, dget n r = Some l /\ f_rows a = Some (length l) /\
       forall i, i < length l -> nth_error l i = Some (match tcell (f_cols a) n i, tcell (f_cols b) n i with Some x, Some y => op x y | _, _ => false end)).
Proof.
  intros SA SB. split; intros E.
  - rewrite (compare_eq op a b SA SB). destruct (onat_eqb (f_rows b) (f_rows a)) eqn:Q; [apply onat_eqb_eq in Q; congruence|reflexivity].
  - exists (compared op a b). rewrite (compare_eq op a b SA SB), (proj2 (onat_eqb_eq _ _) (eq_sym E)). split; [reflexivity|]. split; [apply compared_names|]. intros n Hn.
    assert (NR : forall k, f_rows a = Some k -> no_rows (f_rows a) = repeat false k) by (intros k Q; unfold no_rows; now rewrite Q).
    assert (Rep : forall k i, i < k -> nth_error (repeat false k) i = Some false) by (induction k as [|k IH]; intros [|i] Hi; cbn; try lia; auto; apply IH; lia).
    destruct (dget n (compared op a b)) as [l|] eqn:Hl; [|apply dget_none in Hl; contradiction]. exists l. split; [reflexivity|]. rewrite compared_dget in Hl. unfold tcell.
    destruct (dget n (f_cols a)) as [x|] eqn:Hx; destruct (dget n (f_cols b)) as [y|] eqn:Hy; try discriminate.
    + pose proof (dget_some_in _ _ _ Hx) as Ix. pose proof (dget_some_in _ _ _ Hy) as Iy. apply SA in Ix. apply SB in Iy. assert (length x = length y) by congruence.
      assert (l = map2 op x y) by congruence. subst l. rewrite map2_length. split; [rewrite Ix; f_equal; lia|]. intros i Hi. rewrite map2_nth.
      destruct (nth_error x i) as [u|] eqn:Eu; [|apply nth_error_None in Eu; lia]. destruct (nth_error y i) as [v|] eqn:Ev; [|apply nth_error_None in Ev; lia]. reflexivity.
    + pose proof (dget_some_in _ _ _ Hx) as Ix. apply SA in Ix. assert (l = no_rows (f_rows a)) by congruence. subst l. rewrite (NR _ Ix), repeat_length. split; [assumption|]. intros i Hi. rewrite Rep by assumption. now destruct (nth_error x i).
    + pose proof (dget_some_in _ _ _ Hy) as Iy. apply SB in Iy. assert (l = no_rows (f_rows a)) by congruence. subst l. rewrite (NR (length y)) by congruence. rewrite repeat_length. split; [congruence|]. intros i Hi. now apply Rep.
Qed.
Print Assumptions C108_compare.
(** Finding: [a != b] is False everywhere in a column that only one side has, just as [a == b]:
    != is not the negation of ==. *)
Theorem C108_not_equal_missing_refuted : exists (a b : frame nat) r1 r2 n, square a /\ square b /\
  compare Nat.eqb a b = inl r1 /\ compare (fun x y => negb (x =? y)) a b = inl r2 /\
  dget n r1 = Some [false; false] /\ dget n r2 = Some [false; false].
Proof.
  exists (Frame (Some 2) [(ca, [1; 2]); (cb, [3; 4])] []), (Frame (Some 2) [(ca, [1; 3])] []). eexists _, _, cb.
  split; [|split].
  - split; [repeat constructor; cbn; intuition discriminate|]. intros n l [[= <- <-]|[[= <- <-]|[]]]; reflexivity.
  - split; [repeat constructor; cbn; intuition discriminate|]. intros n l [[= <- <-]|[]]; reflexivity.
  - split; [vm_compute; reflexivity|]. split; [vm_compute; reflexivity|]. split; vm_compute; reflexivity.
Qed.
Print Assumptions C108_not_equal_missing_refuted.
Example C108_case : compare Nat.ltb (Frame (Some 2) [(ca, [1; 2]); (cb, [3; 4])] []) (Frame (Some 2) [(cc, [0; 0]); (ca, [2; 2])] []) =
  inl [(ca, [true; false]); (cb, [false; false]); (cc, [false; false])].
Proof. reflexivity. Qed.

(** ** C109: equals *)
(** For datasets without labels and with the same column names, equals is True exactly when the
    row counts are the same and the columns agree cell by cell, two NaNs counting as equal.
    Partial: unlabelled, default arguments, same names. *)
Theorem C109_equals_partial {V} (eqv : V -> V -> bool) isnan computable (a b : frame V) : square a -> square b -> f_labels a = [] -> f_labels b = [] ->
  (forall n, In n (map fst (f_cols a)) <-> In n (map fst (f_cols b))) ->
  (equals eqv isnan computable a b = true <-> f_rows a = f_rows b /\
     forall n i x y, tcell (f_cols a) n i = Some x -> tcell (f_cols b) n i = Some y ->
       eqv x y = true \/ (computable n = true /\ isnan x = true /\ isnan y = true)).
Proof.
  intros SA SB LA LB SN. rewrite (equals_same_names eqv isnan computable a b SA SB LA LB SN). unfold tcell. split; intros [E H]; (split; [congruence|]).
  - intros n i x y Hx Hy. destruct (dget n (f_cols a)) as [p|] eqn:Ep; [|discriminate]. destruct (dget n (f_cols b)) as [q|] eqn:Eq; [|discriminate]. exact (H n p q Ep Eq i x y Hx Hy).
  - intros n p q Ep Eq i x y Hx Hy. apply (H n i); [now rewrite Ep|now rewrite Eq].
Qed.
Print Assumptions C109_equals_partial.
(** Different column names: True only when one side's names include the other's and every extra
    column holds nothing but NaN (datasets with at least one row). *)
Theorem C109_equals_names_partial {V} (eqv : V -> V -> bool) isnan computable (a b : frame V) k : square a -> square b -> f_labels a = [] -> f_labels b = [] -> f_rows a = Some (S k) ->
  equals eqv isnan computable a b = true ->
  f_rows b = f_rows a /\
  ((forall n, In n (map fst (f_cols a)) -> In n (map fst (f_cols b))) \/ (forall n, In n (map fst (f_cols b)) -> In n (map fst (f_cols a)))) /\
  (forall n x, (dget n (f_cols a) = Some x /\ dget n (f_cols b) = None) \/ (dget n (f_cols b) = Some x /\ dget n (f_cols a) = None) ->
     computable n = true /\ forall u, In u x -> isnan u = true).
Proof.
  intros SA SB LA LB RA E. apply (equals_char eqv isnan computable a b k SA SB LA LB RA) in E. destruct E as (ER & Sub & _ & Ex). split; [assumption|]. unfold wide, narrow in *.
  assert (NE : forall n x, (dget n (f_cols a) = Some x \/ dget n (f_cols b) = Some x) -> x <> []).
  { intros n x [H|H] ->; apply dget_some_in in H; [apply SA in H|apply SB in H]; rewrite ?ER, RA in H; discriminate. }
  assert (Q : forall n x, (dget n (f_cols a) = Some x \/ dget n (f_cols b) = Some x) -> all_nan isnan computable n x -> computable n = true /\ forall u, In u x -> isnan u = true).
  { intros n x H [Z|Z]; [now elim (NE n x H)|assumption]. }
  destruct (length (f_cols b) <? length (f_cols a)).
  - split; [now right|]. intros n x [[H1 H2]|[H1 H2]]; [apply Q; [now left|now apply Ex]|]. exfalso. apply dget_none in H2. apply H2, Sub. apply dget_some_in in H1. now apply (in_map fst) in H1.
  - split; [now left|]. intros n x [[H1 H2]|[H1 H2]]; [|apply Q; [now right|now apply Ex]]. exfalso. apply dget_none in H2. apply H2, Sub. apply dget_some_in in H1. now apply (in_map fst) in H1.
Qed.
Print Assumptions C109_equals_names_partial.
(** Finding: a dataset equals one that has a further column, when that column is all NaN. *)
Theorem C109_extra_nan_column_refuted : exists (eqv : nat -> nat -> bool) isnan computable (a b : frame nat), square a /\ square b /\
  equals eqv isnan computable a b = true /\ map fst (f_cols a) <> map fst (f_cols b).
Proof.
  exists (fun x y => (x =? y) && negb (x =? 99)), (Nat.eqb 99), (fun _ => true), (Frame (Some 2) [(ca, [1; 2])] []), (Frame (Some 2) [(ca, [1; 2]); (cb, [99; 99])] []). split; [|split].
  - split; [repeat constructor; cbn; intuition discriminate|]. intros n l [[= <- <-]|[]]; reflexivity.
  - split; [repeat constructor; cbn; intuition discriminate|]. intros n l [[= <- <-]|[[= <- <-]|[]]]; reflexivity.
  - split; [vm_compute; reflexivity|discriminate].
Qed.
Print Assumptions C109_extra_nan_column_refuted.
(** Finding: equals(exact=True) ignores column names, and a one-row or one-column right-hand side
    is broadcast: datasets of different shapes are reported as exactly equal. *)
Theorem C109_exact_refuted : exists (eqv : nat -> nat -> bool) isnan computable (a b b2 : frame nat), square a /\ square b /\ square b2 /\
  equals_exact eqv isnan computable 0 a b = true /\ f_rows a <> f_rows b /\
  equals_exact eqv isnan computable 0 a b2 = true /\ map fst (f_cols a) <> map fst (f_cols b2) /\
  equals_exact eqv isnan computable 0 (Frame None [] []) (Frame None [] []) = false.
Proof.
  exists Nat.eqb, (fun _ => false), (fun _ => true), (Frame (Some 2) [(ca, [1; 1]); (cb, [3; 3])] []), (Frame (Some 1) [(ca, [1]); (cb, [3])] []), (Frame (Some 2) [(cb, [1; 1]); (ca, [3; 3])] []).
  split; [|split; [|split]].
  1-3: (split; [repeat constructor; cbn; intuition discriminate|]; intros n l [[= <- <-]|[[= <- <-]|[]]]; reflexivity).
  split; [vm_compute; reflexivity|]. split; [discriminate|]. split; [vm_compute; reflexivity|]. split; [discriminate|vm_compute; reflexivity].
Qed.
Print Assumptions C109_exact_refuted.
Example C109_case : let e := fun x y => (x =? y) && negb (x =? 99) in
  equals e (Nat.eqb 99) (fun _ => true) (Frame (Some 2) [(ca, [1; 99]); (cb, [3; 4])] []) (Frame (Some 2) [(cb, [3; 4]); (ca, [1; 99])] []) = true /\
  equals e (Nat.eqb 99) (fun _ => true) (Frame (Some 2) [(ca, [1; 99]); (cb, [3; 4])] []) (Frame (Some 2) [(cb, [3; 5]); (ca, [1; 99])] []) = false.
Proof. split; reflexivity. Qed.

(** ** C110: drop_duplicates *)
(** The rows kept are those whose key was not seen before (keep='first'), not seen after
    ('last', keys in order of first occurrence), or seen nowhere else (False), complete rows of
    the original.  Not in place the original is unchanged and the result lists the key columns
    first; in place the columns keep their order. *)
Theorem C110_drop_duplicates {B V} (keys us : list B) ikey (dflt : V) (a : frame V) subset keep inplace :
  grouping_of (map Some keys) us ikey -> (forall u, In u us -> In u keys) -> by_first_occurrence us keys ->
  square a -> f_rows a = Some (length keys) -> keys <> [] ->
  let s := match subset with Some s => s | None => map fst (f_cols a) end in
  s <> [] -> NoDup s -> (forall k, In k s -> In k (map fst (f_cols a))) -> (forall k, In k s -> key_column keys (f_cols a) k) ->
  exists rs, kept keep keys rs /\
   let r := drop_duplicates dflt a subset keep inplace ikey (length us) in
   (inplace = false -> fst r = a /\ f_rows (snd r) = Some (length rs) /\
      taken (f_cols (snd r)) (f_cols a) rs (s ++ filter (fun k => negb (DsModel.mem k s)) (map fst (f_cols a)))) /\
   (inplace = true -> taken (f_cols (fst r)) (f_cols a) rs (map fst (f_cols a)) /\ f_rows (fst r) = Some (length rs) /\ f_labels (fst r) = f_labels a).
Proof.
  intros G U FO Sq RA NE s Sne NDs Sub KC. destruct (drop_spec keys us ikey G U FO dflt a subset keep inplace Sq RA NE Sne NDs Sub KC) as (rs & K & A & B0 & C & D). exists rs. split; [assumption|]. cbv zeta in *. split.
  - intros H. split; [now apply A|]. split; [exact D|]. now apply C.
  - exact B0.
Qed.
Print Assumptions C110_drop_duplicates.
Definition dup_keys : list nat := [5; 7; 5; 8; 7; 5].
Definition dup_frame : frame nat := Frame (Some 6) [(ca, [1; 2; 3; 4; 5; 6]); (cb, [5; 7; 5; 8; 7; 5])] [].
Definition dup_ikey : list nat := ikeys Nat.eqb (map Some dup_keys).
Example C110_case : grouping_of (map Some dup_keys) [5; 7; 8] dup_ikey /\ by_first_occurrence [5; 7; 8] dup_keys /\ square dup_frame /\ key_column dup_keys (f_cols dup_frame) cb /\
  snd (drop_duplicates 0 dup_frame (Some [cb]) KeepFirst false dup_ikey 3) = Frame (Some 3) [(cb, [5; 7; 8]); (ca, [1; 2; 4])] [] /\
  fst (drop_duplicates 0 dup_frame (Some [cb]) KeepLast true dup_ikey 3) = Frame (Some 3) [(ca, [6; 5; 4]); (cb, [5; 7; 8])] [] /\
  snd (drop_duplicates 0 dup_frame (Some [cb]) KeepNone false dup_ikey 3) = Frame (Some 1) [(cb, [8]); (ca, [4])] [].
Proof.
  split; [|split; [|split; [|split]]].
  - apply (ikeys_grouping Nat.eqb); intros; apply Nat.eqb_eq.
  - intros x y i Hxy Hy H. cbn in Hy. destruct y as [|[|[|y]]]; [lia| | |lia]; destruct x as [|[|x]]; try lia; destruct i as [|[|[|[|[|[|i]]]]]]; cbn in H; try discriminate; try (destruct i; discriminate); first [exists 0; split; [lia|reflexivity] | exists 1; split; [lia|reflexivity]].
  - split; [repeat constructor; cbn; intuition discriminate|]. intros n l [[= <- <-]|[[= <- <-]|[]]]; reflexivity.
  - intros i j _ _ H. exact H.
  - split; [vm_compute; reflexivity|]. split; vm_compute; reflexivity.
Qed.

(** ** C111: arithmetic *)
(** [a op x]: every column of a that is computable and not a label is combined, row by row, with
    the scalar, the array, or the column of the same name of the other dataset; all other columns
    of a are kept; columns only the other dataset has do not appear.  An operand of a wrong length
    is refused. *)
Theorem C111_arithmetic {V} computable (op : V -> V -> V) (a : frame V) : square a ->
  (forall x, exists r, arith computable op a (OpScalar x) = inl r /\ map fst r = map fst (f_cols a) /\
     forall n i, tcell r n i = match tcell (f_cols a) n i with
       | Some u => Some (if computable n && negb (DsModel.mem n (f_labels a)) then op u x else u) | None => None end) /\
  (forall y, f_rows a = Some (length y) -> exists r, arith computable op a (OpArray y) = inl r /\ map fst r = map fst (f_cols a) /\
     forall n i, tcell r n i = match tcell (f_cols a) n i, nth_error y i with
       | Some u, Some v => Some (if computable n && negb (DsModel.mem n (f_labels a)) then op u v else u) | _, _ => None end) /\
  (forall y k, f_rows a = Some k -> length y <> k -> arith computable op a (OpArray y) = inr ErrValue) /\
  (forall b, square b -> f_rows b = f_rows a -> exists r, arith computable op a (OpFrame b) = inl r /\ map fst r = map fst (f_cols a) /\
     forall n i, tcell r n i = match tcell (f_cols a) n i, tcell (f_cols b) n i with
       | Some u, Some v => Some (if computable n && negb (DsModel.mem n (f_labels a)) then op u v else u) | x, _ => x end) /\
  (forall b n y k, square b -> f_rows a = Some k -> In n (map fst (f_cols a)) -> dget n (f_cols b) = Some y -> length y <> k -> arith computable op a (OpFrame b) = inr ErrValue).
Proof.
  intros SA.
  assert (Get : forall (f : name -> list V -> list V) n i, tcell (map (fun p => let '(k, l) := p in (k, f k l)) (f_cols a)) n i = match dget n (f_cols a) with Some l => nth_error (f n l) i | None => None end).
  { intros f n i. unfold tcell. induction (f_cols a) as [|[k l] r IH]; [reflexivity|]. cbn [map dget]. destruct (name_dec k n) as [->|]; [reflexivity|apply IH]. }
  assert (Nm : forall (f : name -> list V -> list V), map fst (map (fun p => let '(k, l) := p in (k, f k l)) (f_cols a)) = map fst (f_cols a)).
  { intros f. rewrite map_map. apply map_ext. now intros [k l]. }
  assert (RepN : forall (x : V) k i, nth_error (repeat x k) i = if i <? k then Some x else None).
  { intros x. induction k as [|k IH]; intros [|i]; cbn; try reflexivity. rewrite IH. destruct k; reflexivity. }
  split; [|split; [|split; [|split]]].
  - intros x. eexists. split; [reflexivity|]. split; [apply (Nm (fun k l => if DsModel.mem k (f_labels a) then l else on_array computable op k l (repeat x (length l))))|]. intros n i.
    rewrite (Get (fun k l => if DsModel.mem k (f_labels a) then l else on_array computable op k l (repeat x (length l)))). unfold tcell. destruct (dget n (f_cols a)) as [l|]; [|reflexivity].
    unfold on_array. destruct (DsModel.mem n (f_labels a)); [rewrite andb_false_r; now destruct (nth_error l i)|]. rewrite andb_true_r. destruct (computable n); [|now destruct (nth_error l i)]. rewrite map2_nth, RepN.
    destruct (nth_error l i) as [u|] eqn:E; [|reflexivity]. assert (i < length l) by (apply nth_error_Some; congruence). now rewrite (proj2 (Nat.ltb_lt _ _)).
  - intros y Hy. unfold arith, nrow. rewrite Hy, Nat.eqb_refl. eexists. split; [reflexivity|]. split; [apply (Nm (fun k l => if DsModel.mem k (f_labels a) then l else on_array computable op k l y))|]. intros n i.
    rewrite (Get (fun k l => if DsModel.mem k (f_labels a) then l else on_array computable op k l y)). unfold tcell. destruct (dget n (f_cols a)) as [l|] eqn:El; [|reflexivity].
    apply dget_some_in, SA in El. assert (Ll : length l = length y) by congruence.
    assert (Some_y : forall u, nth_error l i = Some u -> exists v, nth_error y i = Some v).
    { intros u Hu. destruct (nth_error y i) as [v|] eqn:Ev; [eauto|]. apply nth_error_None in Ev. assert (i < length l) by (apply nth_error_Some; congruence). lia. }
    unfold on_array. destruct (nth_error l i) as [u|] eqn:Eu.
    + destruct (Some_y u eq_refl) as [v Ev]. rewrite Ev. destruct (DsModel.mem n (f_labels a)); [now rewrite andb_false_r|]. rewrite andb_true_r. destruct (computable n); [|assumption]. now rewrite map2_nth, Eu, Ev.
    + destruct (DsModel.mem n (f_labels a)); [assumption|]. destruct (computable n); [|assumption]. now rewrite map2_nth, Eu.
  - intros y k Hk Hy. unfold arith, nrow. rewrite Hk. now rewrite (proj2 (Nat.eqb_neq _ _) Hy).
  - intros b SB Hb. unfold arith. assert (F : forallb (fun p => negb (DsModel.mem (fst p) (names (f_cols a))) || (length (snd p) =? nrow a)) (f_cols b) = true).
    { apply forallb_forall. intros [n y] Hy. apply SB in Hy. unfold nrow. rewrite <- Hb, Hy. cbn. now rewrite Nat.eqb_refl, orb_true_r. }
    rewrite F. eexists. split; [reflexivity|]. split; [apply (Nm (fun k l => match dget k (f_cols b) with Some y => if DsModel.mem k (f_labels a) then l else on_array computable op k l y | None => l end))|]. intros n i.
    rewrite (Get (fun k l => match dget k (f_cols b) with Some y => if DsModel.mem k (f_labels a) then l else on_array computable op k l y | None => l end)). unfold tcell. destruct (dget n (f_cols a)) as [l|] eqn:El; [|reflexivity].
    destruct (dget n (f_cols b)) as [y|] eqn:Ey; [|now destruct (nth_error l i)]. apply dget_some_in, SA in El. apply dget_some_in, SB in Ey. assert (Ll : length l = length y) by congruence.
    unfold on_array. destruct (nth_error l i) as [u|] eqn:Eu.
    + destruct (nth_error y i) as [v|] eqn:Ev; [|apply nth_error_None in Ev; assert (i < length l) by (apply nth_error_Some; congruence); lia].
      destruct (DsModel.mem n (f_labels a)); [now rewrite andb_false_r|]. rewrite andb_true_r. destruct (computable n); [|assumption]. now rewrite map2_nth, Eu, Ev.
    + destruct (DsModel.mem n (f_labels a)); [assumption|]. destruct (computable n); [|assumption]. now rewrite map2_nth, Eu.
  - intros b n y k SB Hk Hn Hy Ne. unfold arith. destruct (forallb _ (f_cols b)) eqn:F; [|reflexivity]. rewrite forallb_forall in F. apply dget_some_in in Hy. specialize (F _ Hy). cbn [fst snd] in F.
    apply (proj2 (mem_in n (names (f_cols a)))) in Hn. rewrite Hn in F. cbn in F. unfold nrow in F. rewrite Hk in F. apply Nat.eqb_eq in F. contradiction.
Qed.
Print Assumptions C111_arithmetic.
Example C111_case : arith (fun n => if name_dec n cc then false else true) Nat.add (Frame (Some 2) [(ca, [1; 2]); (cb, [3; 4]); (cc, [5; 6])] [cb]) (OpFrame (Frame (Some 2) [(cc, [1; 1]); (ca, [10; 20]); (cb, [1; 1])] [])) =
  inl [(ca, [11; 22]); (cb, [3; 4]); (cc, [5; 6])].
Proof. reflexivity. Qed.
