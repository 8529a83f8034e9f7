(* C229, C230: the sizes of Structs; searches in nested Structs. *)
From Coq Require Import List ZArith Bool Lia Permutation.
From Verif Require Import FlattenModel SzSpec SzModel SzProofs.
Import ListNotations.
Local Open Scope Z_scope.

(* C229.  total_sizes ends on all Structs, also on those that contain each other.
   It counts the Struct and every Struct inside it once: the logical size is the
   sum over their columns, the physical size the sum over the distinct memories of
   these columns.  (The Struct itself is among those inside it, and counted again,
   if it is inside itself.) *)
Theorem C229_sizes_partial :
  forall (m : memory) (root : nat), closed m ->
  exists structs p l, NoDup structs /\ (forall s, In s structs <-> inside m root s) /\ total_sizes m root = Some (p, l) /\
  l = total (map snd (columns m (root :: structs))) + 4 * ints m (root :: structs) /\
  (consistent (columns m (root :: structs)) ->
   exists distinct, NoDup (map fst distinct) /\ (forall c, In c distinct <-> In c (columns m (root :: structs))) /\
   p = total (map snd distinct) + 4 * ints m (root :: structs)).
Proof.
  intros m root C.
  assert (CL : forall l, cols (cells m l) = columns m l).
  { induction l as [|s l IH]; [reflexivity|]. unfold cells, columns in *. cbn [flat_map]. rewrite cols_app, IH. reflexivity. }
  assert (NI : forall l, nints (cells m l) = ints m l).
  { induction l as [|s l IH]; [reflexivity|]. unfold cells, ints, nints in *. cbn [flat_map]. rewrite filter_app, !app_length. lia. }
  assert (I0 : forall (G : Prop) sz, inv G sz m root [] (mkS [root] [] [] 0 0)).
  { intros G sz. split; cbn; [apply Permutation_refl|constructor|intros x []|intros s t []|].
    repeat split; try constructor; try lia; intros []. }
  assert (FIN : forall (G : Prop) sz z done, inv G sz m root done z -> z_pending z = [] ->
    Permutation done (root :: z_structs z) /\ (forall s, In s (z_structs z) <-> inside m root s)).
  { intros G sz z done [IP IN II IC IK] P. rewrite P, app_nil_r in IP. split; [exact IP|]. intro s. split; [apply II|].
    assert (D : forall x, In x (root :: z_structs z) -> In x done) by (intros x X; eapply Permutation_in; [symmetry; exact IP|exact X]).
    intro H. induction H as [t T|t u H IH U].
    - apply (IC root); [apply D; now left|exact T].
    - apply (IC t); [apply D; now right|exact U]. }
  assert (PC : forall done s, Permutation done s -> total (map snd (columns m done)) = total (map snd (columns m s)) /\ ints m done = ints m s /\
    forall c, In c (columns m done) <-> In c (columns m s)).
  { intros done s P. assert (PP : Permutation (columns m done) (columns m s)) by now apply Permutation_flat_map.
    split; [apply total_perm; now apply Permutation_map|]. split.
    - unfold ints. f_equal. apply Permutation_length. now apply Permutation_flat_map.
    - intro c. split; apply Permutation_in; [exact PP|now symmetry]. }
  assert (RUN : forall (G : Prop) sz, (G -> forall s o b, s = root \/ inside m root s -> In (o, b) (cols (items m s)) -> sz o = b) ->
    exists z done, loop m (S (length m)) (mkS [root] [] [] 0 0) = Some z /\ inv G sz m root done z /\ z_pending z = []).
  { intros G sz E. apply (loop_inv G sz m root C E _ [] _ (I0 G sz)). cbn. lia. }
  assert (STR : exists z, loop m (S (length m)) (mkS [root] [] [] 0 0) = Some z /\ NoDup (z_structs z) /\
     (forall s, In s (z_structs z) <-> inside m root s) /\
     z_logical z = total (map snd (columns m (root :: z_structs z))) + 4 * ints m (root :: z_structs z)).
  { destruct (RUN False (fun _ => 0)) as (z & done & R & I & P); [intros []|].
    exists z. destruct (FIN _ _ _ _ I P) as (PP & IS). destruct (PC _ _ PP) as (T & N & _). destruct I as [_ IN _ _ (_ & _ & LG & _)].
    split; [exact R|]. split; [exact IN|]. split; [exact IS|]. rewrite LG, CL, NI, T, N. reflexivity. }
  destruct STR as (z & R & ND & IS & LG). exists (z_structs z), (z_physical z), (z_logical z).
  split; [exact ND|]. split; [exact IS|]. split; [unfold total_sizes; now rewrite R|]. split; [exact LG|].
  intro CO. set (sz := fun o => match find (fun p => Nat.eqb (fst p) o) (columns m (root :: z_structs z)) with Some p => snd p | None => 0 end).
  assert (SZ : forall o b, In (o, b) (columns m (root :: z_structs z)) -> sz o = b).
  { intros o b I. unfold sz. destruct (find _ _) as [[o' b']|] eqn:F.
    - apply find_some in F. destruct F as (F & E). cbn in E. apply Nat.eqb_eq in E. subst o'. cbn. now apply (CO o).
    - pose proof (find_none _ _ F _ I) as X. cbn in X. now rewrite Nat.eqb_refl in X. }
  destruct (RUN True sz) as (z' & done & R' & I & P).
  { intros _ s o b S' X. apply SZ. unfold columns. apply in_flat_map. exists s. split; [|exact X]. destruct S' as [->|S']; [now left|right; now apply IS]. }
  assert (z' = z) by congruence. subst z'. destruct (FIN _ _ _ _ I P) as (PP & _). destruct (PC _ _ PP) as (_ & N & INC).
  destruct I as [_ _ _ _ (NA & A & _ & PH)]. rewrite CL in A. exists (map (fun o => (o, sz o)) (z_arrays z)).
  split; [rewrite map_map; cbn; now rewrite map_id|]. split.
  - intros (o, b). rewrite in_map_iff. split.
    + intros (o' & [= -> <-] & X). apply A in X. apply in_map_iff in X. destruct X as ((o2, b2) & <- & X). cbn. apply INC in X.
      rewrite (SZ _ _ X). exact X.
    + intro X. exists o. split; [f_equal; now apply SZ|]. apply A. change o with (fst (o, b)). apply in_map. now apply INC.
  - rewrite (PH Logic.I), NI, N, map_map. reflexivity.
Qed.
Print Assumptions C229_sizes_partial.

(* The logical size is at least the physical one. *)
Theorem C229_order :
  forall (m : memory) (root : nat) (p l : Z),
  (forall s o b, In (o, b) (columns m [s]) -> 0 <= b) -> total_sizes m root = Some (p, l) -> 0 <= p <= l.
Proof.
  intros m root p l H. unfold total_sizes. destruct (loop m (S (length m)) _) as [z|] eqn:R; [|discriminate]. intros [= <- <-].
  assert (V : forall s cs z, incl cs (items m s) -> 0 <= z_physical z <= z_logical z -> 0 <= z_physical (fold_left visit cs z) <= z_logical (fold_left visit cs z)).
  { intros s. induction cs as [|c cs IH]; intros z0 IN Z; [exact Z|]. cbn [fold_left]. apply IH; [intros x X; apply IN; now right|].
    assert (C : forall o b, In (o, b) (column c) -> 0 <= b).
    { intros o b I. apply (H s o b). unfold columns. cbn. rewrite app_nil_r. apply in_flat_map. exists c. split; [apply IN; now left|exact I]. }
    destruct c as [| |o b ob|o b cats|t]; cbn [visit]; unfold count; cbn in C.
    - exact Z.
    - cbn. lia.
    - specialize (C o b (or_introl eq_refl)). destruct (memb o (z_arrays z0)); cbn; lia.
    - rewrite total_size_is. specialize (C o _ (or_introl eq_refl)). destruct (memb o (z_arrays z0)); cbn; lia.
    - destruct (memb t (z_structs z0)); cbn; lia. }
  assert (L : forall fuel z0, 0 <= z_physical z0 <= z_logical z0 -> loop m fuel z0 = Some z -> 0 <= z_physical z <= z_logical z).
  { induction fuel as [|fuel IH]; intros z0 Z E; cbn [loop] in E; destruct (z_pending z0) as [|s rest]; try discriminate; try (injection E as <-; exact Z).
    apply IH in E; [exact E|]. apply (V s); [apply incl_refl|exact Z]. }
  refine (L _ _ _ R). cbn. lia.
Qed.
Print Assumptions C229_order.

(* Finding: a category array shared by two Categoricals is counted twice in the
   physical size. *)
Theorem C229_categories_refuted :
  forall (o o' c : nat) (b b' s : Z), o <> o' ->
  total_sizes [[Cat o b [(c, s)]; Cat o' b' [(c, s)]]] 0 = Some (b + b' + 2 * s, b + b' + 2 * s).
Proof.
  intros o o' c b b' s D. assert (E : Nat.eqb o' o = false) by (apply Nat.eqb_neq; congruence). lazy -[Nat.eqb Z.add Z.mul]. rewrite E. lazy -[Nat.eqb Z.add Z.mul].
  do 2 f_equal; lia.
Qed.
Print Assumptions C229_categories_refuted.
(* Finding: and of two Categoricals with the same codes and different categories
   only the first one's categories are counted. *)
Theorem C229_codes_refuted :
  forall (o c c' : nat) (b s s' : Z), c <> c' ->
  total_sizes [[Cat o b [(c, s)]; Cat o b [(c', s')]]] 0 = Some (b + s, (b + s) + (b + s')).
Proof. intros o c c' b s s' D. lazy -[Nat.eqb Z.add Z.mul]. rewrite Nat.eqb_refl. lazy -[Nat.eqb Z.add Z.mul]. reflexivity. Qed.
Print Assumptions C229_codes_refuted.
(* Finding: a view counts as the whole array it is a view of, in the logical size
   too, which is said to be the size after a deep copy. *)
Theorem C229_view_refuted :
  forall (o : nat) (whole own : Z), total_sizes [[Arr o whole own]] 0 = Some (whole, whole).
Proof. reflexivity. Qed.
Print Assumptions C229_view_refuted.
(* Finding: and a Struct that is there twice counts once. *)
Theorem C229_shared_refuted :
  forall (o : nat) (b : Z), total_sizes [[Sub 1; Sub 1]; [Arr o b b]] 0 = Some (b, b).
Proof. reflexivity. Qed.
Print Assumptions C229_shared_refuted.
(* Finding: a Struct that contains itself counts twice; its integers also in the
   physical size. *)
Theorem C229_cycle_refuted :
  forall (o : nat) (b : Z), total_sizes [[Sub 0; Int; Arr o b b]] 0 = Some (b + 8, 2 * b + 8).
Proof. intros o b. lazy -[Nat.eqb Z.add Z.mul]. rewrite !Nat.eqb_refl. lazy -[Nat.eqb Z.add Z.mul]. rewrite ?Nat.eqb_refl. do 2 f_equal; lia. Qed.
Print Assumptions C229_cycle_refuted.
Example C229_case :
  let m := [[Arr 7 80 80; Sub 1; Int; Sub 2]; [Arr 7 80 8; Cat 9 10 [(3%nat, 100)]; Sub 2]; [Sub 1; Arr 8 40 40; Nothing]] in
  closed m /\ consistent (columns m [0; 1; 2]%nat) /\ total_sizes m 0 = Some (234, 314) /\ inside m 0 2.
Proof.
  cbv zeta. split; [|split; [|split; [vm_compute; reflexivity|constructor; cbn; tauto]]].
  - intros [|[|[|s]]] t; cbn; try (destruct s; cbn); intuition congruence || (intros; repeat match goal with X : _ \/ _ |- _ => destruct X end; try discriminate; try contradiction; match goal with X : Sub _ = Sub _ |- _ => injection X as <-; lia end).
  - intros o b b'. vm_compute. intuition congruence.
Qed.

(* C230.  key_search finds exactly the paths to the keys that match, each once,
   through all Structs (but not inside what a Dataset holds). *)
Theorem C230_search :
  forall (hit : name -> bool) (t : tree),
  (forall p, In p (key_search hit true [] t) <-> at_key t p /\ hit (last p []) = true) /\
  (distinct t -> NoDup (key_search hit true [] t)).
Proof.
  intros hit t. split; [|apply search_nodup]. intro p. rewrite search_in. split.
  - intros (q & k & -> & A & H). cbn. split; [exact A|]. now rewrite last_last.
  - intros (A & H). destruct p as [|k p _] using rev_ind; [inversion A|]. exists p, k. rewrite last_last in H. auto.
Qed.
Print Assumptions C230_search.
(* Without recursion only the keys of the Struct itself, in order. *)
Theorem C230_flat :
  forall (hit : name -> bool) (d : bool) (l : list (name * tree)),
  key_search hit false [] (Node d l) = map (fun k => [k]) (filter hit (map fst l)).
Proof. intros. rewrite search_node. cbn [andb app]. apply app_nil_r. Qed.
Print Assumptions C230_flat.
(* any is True if some element is true, however deep, and all if every element is. *)
Theorem C230_any_all :
  forall t : tree, (any t = true <-> element t true) /\ (all t = true <-> forall b, element t b -> b = true).
Proof.
  induction t as [l|d l IH] using tree_rec'.
  - cbn [any all]. split.
    + rewrite existsb_exists. split; [intros (b & I & ->); now constructor|]. intro E. inversion E; subst. eauto.
    + rewrite forallb_forall. split; [intros H b E; inversion E; subst; auto|]. intros H b I. apply H. now constructor.
  - cbn [any all]. split.
    + split.
      * intro H. induction l as [|(k, v) l IHl]; [discriminate|]. destruct (any v) eqn:E.
        { apply el_node with k v; [now left|]. apply (proj1 (IH k v (or_introl eq_refl))). exact E. }
        assert (X : element (Node d l) true) by (apply IHl; [intros k' t' I; apply (IH k' t'); now right|exact H]).
        inversion X; subst. eapply el_node; [right; eassumption|assumption].
      * intro E. inversion E as [|? ? k v b I X]; subst. clear E. induction l as [|(k', v') l IHl]; [destruct I|].
        destruct (any v') eqn:A; [reflexivity|]. destruct I as [[= -> ->]|I].
        { apply (proj1 (IH k v (or_introl eq_refl))) in X. congruence. }
        apply IHl; [intros k2 t2 J; apply (IH k2 t2); now right|exact I].
    + split.
      * intros H b E. inversion E as [|? ? k v b' I X]; subst. clear E. induction l as [|(k', v') l IHl]; [destruct I|].
        destruct (all v') eqn:A; [|discriminate]. destruct I as [[= -> ->]|I].
        { apply (proj2 (IH k v (or_introl eq_refl))); assumption. }
        apply IHl; [intros k2 t2 J; apply (IH k2 t2); now right|exact H|exact I].
      * intro H. induction l as [|(k, v) l IHl]; [reflexivity|].
        assert (E : all v = true).
        { apply (proj2 (IH k v (or_introl eq_refl))). intros b X. apply H. apply el_node with k v; [now left|exact X]. }
        rewrite E. apply IHl; [intros k2 t2 J; apply (IH k2 t2); now right|]. intros b X. apply H. inversion X; subst.
        eapply el_node; [right; eassumption|assumption].
Qed.
Print Assumptions C230_any_all.
Example C230_case :
  let t := Node false [([97], Leaf [true]); ([98], Node true [([97; 97], Leaf [false; true]); ([99], Node false [([97], Leaf [])])]); ([97; 98], Node false [([97], Leaf [true])])]%nat in
  let hit := fun k : name => match k with 97%nat :: _ => true | _ => false end in
  distinct t /\ key_search hit true [] t = [[[97]]; [[97; 98]]; [[98]; [97; 97]]; [[97; 98]; [97]]]%nat /\ any t = true /\ all t = false.
Proof.
  cbv zeta. split; [|split; [|split]; vm_compute; reflexivity].
  repeat (constructor; [repeat (constructor; [cbn; intuition discriminate|]); constructor|cbn; intros k t H; repeat destruct H as [H|H]; try contradiction; injection H as <- <-]); try constructor.
Qed.
