(** Theorems about categoricals (C29-C38, C75-C80). *)
From Coq Require Import List Arith ZArith Bool Lia.
From Verif Require Import Sched SchedFacts GroupModel GroupFacts FillModel FillProofs FlattenModel GroupingModel GroupingSpec
  GroupingProofs GroupingProofs2 GroupingProps CatModel CatSpec CatProofs CatProofs2 CatProofs3 CatProofs4.
Import ListNotations.
Local Open Scope Z_scope.

Lemma total_nat : total nat_ord.
Proof.
  constructor; cbn [nat_ord cut_ord o_eqb o_ltb o_len o_trunc]; intros.
  - apply Nat.eqb_eq.
  - apply Nat.ltb_irrefl.
  - apply Nat.ltb_lt in H, H0. apply Nat.ltb_lt. lia.
  - rewrite !Nat.ltb_lt. lia.
  - reflexivity.
Qed.
Lemma total_cut : total cut_ord.
Proof.
  constructor; cbn [nat_ord cut_ord o_eqb o_ltb o_len o_trunc]; intros.
  - apply Nat.eqb_eq.
  - apply Nat.ltb_irrefl.
  - apply Nat.ltb_lt in H, H0. apply Nat.ltb_lt. lia.
  - rewrite !Nat.ltb_lt. lia.
  - lia.
Qed.
Fixpoint incb (l : list nat) : bool :=
  match l with [] => true | x :: r => forallb (Nat.ltb x) r && incb r end.
Lemma incb_ok l : incb l = true -> increasing nat_ord l.
Proof.
  induction l as [|x l IH]; intros H; [intros i j a b _ E; destruct i; discriminate|]. cbn in H. apply andb_true_iff in H. destruct H as [H1 H2].
  apply inc_cons. split; [|auto]. intros y I. rewrite forallb_forall in H1. exact (H1 y I).
Qed.

(** *** C29: comparing with a scalar *)
(** Sorted categories: all six operators agree with comparing the row's value, for rows that are not
    filtered, whether or not the scalar is a category.  Missing: filtered rows under <, <=, >, >=. *)
Theorem C29_scalar_compare_partial :
  forall (A : Type) (o : ord A), total o -> forall (h : heap A) (c : cat) (op : cop) (s : A),
  c_sorted c = true -> c_notord c = false -> increasing o (items h (c_list c)) ->
  exists m, compare o h c op s = Some m /\ length m = length (c_codes c) /\
  forall r k a, nth_error (c_codes c) r = Some k -> cval (c_base c) (items h (c_list c)) k = Some a ->
    nth_error m r = Some (cmp_vals o op a s).
Proof.
  intros A o T h c op s Hs Hn I. unfold compare. rewrite Hn, andb_false_r. eexists. split; [reflexivity|]. split; [apply map_length|].
  intros r k a E V. rewrite (map_nth_error _ _ _ E). f_equal. unfold cat_index. rewrite Hs. apply cmp_spec; assumption.
Qed.
Print Assumptions C29_scalar_compare_partial.
(** == and != need neither sorted categories nor unfiltered rows: filtered rows are not equal to
    anything. *)
Theorem C29_equality :
  forall (A : Type) (o : ord A), total o -> forall (h : heap A) (c : cat) (s : A),
  (if c_sorted c then increasing o (items h (c_list c)) else NoDup (items h (c_list c))) ->
  Forall (in_range (c_base c) (items h (c_list c))) (c_codes c) ->
  let values := map (cval (c_base c) (items h (c_list c))) (c_codes c) in
  compare o h c Ceq s = Some (map (fun v => match v with Some a => o_eqb o a s | None => false end) values) /\
  compare o h c Cne s = Some (map (fun v => match v with Some a => negb (o_eqb o a s) | None => true end) values).
Proof.
  intros A o T h c s L R values. unfold compare, values. cbn [andb]. rewrite !map_map.
  assert (E : forall k, In k (c_codes c) -> (2 * k =? cat_index o h c s) = match cval (c_base c) (items h (c_list c)) k with Some x => o_eqb o x s | None => false end).
  { intros k I. apply eq_spec; [exact T|exact L|]. exact (proj1 (Forall_forall _ _) R k I). }
  split; f_equal; apply map_ext_in; intros k I; cbn [zop]; rewrite (E k I); destruct (cval _ _ k); reflexivity.
Qed.
Print Assumptions C29_equality.
(** Comparing with an array of numbers (a prange loop): every schedule gives the comparison of the
    row's value with the array's element. *)
Theorem C29_array_compare_partial :
  forall (A : Type) (f : A -> A -> bool) (inv junk : A) (base : Z) (cats : list A) (codes : list nat) (y : list A)
         (ws : list (store bool)) (out : mem bool) r k a b,
  base = 0 \/ base = 1 ->
  interleave (map (array_it f inv junk base cats codes y) (seq 0 (length codes))) ws ->
  nth_error codes r = Some k -> cval base cats (Z.of_nat k) = Some a -> nth_error y r = Some b ->
  run_stores ws out r = f a b.
Proof. intros A f inv junk base cats codes y ws out r k a b B I Ek V Ey. eapply array_compare; eassumption. Qed.
Print Assumptions C29_array_compare_partial.
(** A filtered row satisfies c < s and c <= s. *)
Theorem C29_filtered_less_refuted :
  exists (h : heap nat) (c : cat) (s : nat) m,
    c_sorted c = true /\ increasing nat_ord (items h (c_list c)) /\
    nth_error (map (cval (c_base c) (items h (c_list c))) (c_codes c)) 1 = Some None /\
    compare nat_ord h c Clt s = Some m /\ nth_error m 1 = Some true.
Proof.
  exists [mkArr 1 [10; 20]%nat], (mkCat [1; 0; 2] 0 0 true true false 1), 20%nat. eexists.
  split; [reflexivity|]. split; [apply incb_ok; reflexivity|]. split; [reflexivity|]. split; [vm_compute; reflexivity|reflexivity].
Qed.
Print Assumptions C29_filtered_less_refuted.
(** Unsorted categories (ordered=False): the order comparison is not rejected, and is wrong. *)
Theorem C29_unordered_refuted :
  exists (h : heap nat) (c : cat) (s a : nat) m,
    NoDup (items h (c_list c)) /\ c_sorted c = false /\
    nth_error (map (cval (c_base c) (items h (c_list c))) (c_codes c)) 0 = Some (Some a) /\ (a < s)%nat /\
    compare nat_ord h c Clt s = Some m /\ nth_error m 0 = Some false.
Proof.
  exists [mkArr 1 [20; 10]%nat], (mkCat [2; 1] 0 0 false false false 1), 20%nat, 10%nat. eexists.
  split; [repeat constructor; cbn; intuition lia|]. split; [reflexivity|]. split; [reflexivity|]. split; [lia|].
  split; [vm_compute; reflexivity|reflexivity].
Qed.
Print Assumptions C29_unordered_refuted.
Definition ex_heap : heap nat := [mkArr 2 [10; 20; 30]%nat].
Definition ex_cat : cat := mkCat [3; 1; 0; 2] 0 0 true true false 1.
Example C29_case : increasing nat_ord (items ex_heap (c_list ex_cat)) /\
  map (fun op => compare nat_ord ex_heap ex_cat op 15%nat) [Ceq; Cne; Cgt; Cge] =
  [Some [false; false; false; false]; Some [true; true; true; true];
   Some [true; false; false; true]; Some [true; false; false; true]] /\
  map (cval 1 (items ex_heap 0)) (c_codes ex_cat) = [Some 30; Some 10; None; Some 20]%nat.
Proof. split; [apply incb_ok; reflexivity|]. split; vm_compute; reflexivity. Qed.
Example C29_case_array : run_stores (concat (map (array_it Nat.ltb 0 0 1 [10; 20; 30] [3; 1; 2] [25; 25; 25]) (seq 0 3)))%nat (fun _ => false) 1%nat = true.
Proof. vm_compute. reflexivity. Qed.

(** *** C30: membership *)
(** c == [values]: true exactly for the rows whose value is in the list; filtered rows are False. *)
Theorem C30_equals_list :
  forall (A : Type) (o : ord A), total o -> forall (h : heap A) (c : cat) (ss : list A), ss <> [] ->
  (if c_sorted c then increasing o (items h (c_list c)) else NoDup (items h (c_list c))) ->
  Forall (in_range (c_base c) (items h (c_list c))) (c_codes c) ->
  exists m, compare_list o h c Ceq ss = Some m /\ length m = length (c_codes c) /\
  forall r k b, nth_error (c_codes c) r = Some k -> nth_error m r = Some b ->
    (b = true <-> exists a, cval (c_base c) (items h (c_list c)) k = Some a /\ In a ss).
Proof.
  intros A o T h c ss Ne L R. unfold compare_list. destruct ss as [|s0 ss0]; [congruence|]. eexists. split; [reflexivity|]. split; [apply map_length|].
  intros r k b Ek Eb. rewrite (map_nth_error _ _ _ Ek) in Eb.
  assert (Q : b = existsb (fun s => zop Ceq (2 * k) (cat_index o h c s)) (s0 :: ss0)) by congruence. rewrite Q, existsb_exists. clear Eb Q.
  assert (Rk : in_range (c_base c) (items h (c_list c)) k) by (apply (proj1 (Forall_forall _ _) R); eapply nth_error_In; exact Ek).
  split.
  - intros [s [Is Z]]. unfold cat_index in Z. cbn [zop] in Z. rewrite (eq_spec o T _ _ _ _ _ L Rk) in Z.
    destruct (cval _ _ k) as [a|]; [|discriminate]. apply (t_eq o T) in Z. subst. exists s. auto.
  - intros [a [E I]]. exists a. split; [exact I|]. unfold cat_index. cbn [zop]. rewrite (eq_spec o T _ _ _ _ _ L Rk), E. apply (t_eq o T). reflexivity.
Qed.
Print Assumptions C30_equals_list.
(** Grouping.isin is right for the rows that are not filtered. *)
Theorem C30_isin_partial :
  forall (A : Type) (o : ord A), total o -> forall (us : list A) (codes : list Z) (base : Z) (vs : list A) r k a,
  nth_error codes r = Some k -> cval base us k = Some a ->
  exists b, nth_error (group_isin o us codes base vs) r = Some b /\ (b = true <-> In a vs).
Proof.
  intros A o T us codes base vs r k a E V. eexists. split; [apply (group_isin_ok o us codes base vs r k a E V)|].
  rewrite existsb_exists. split.
  - intros [x [I Q]]. apply (t_eq o T) in Q. congruence.
  - intros I. exists a. split; [exact I|apply (t_eq o T); reflexivity].
Qed.
Print Assumptions C30_isin_partial.
(** Grouping.isin: a filtered row gets the answer for the last category. *)
Theorem C30_filtered_isin_refuted :
  exists (us : list nat) codes vs, nth_error (map (cval 1 us) codes) 1 = Some None /\
    nth_error (group_isin nat_ord us codes 1 vs) 1 = Some true.
Proof. exists [10; 20]%nat, [1; 0], [20]%nat. split; reflexivity. Qed.
Print Assumptions C30_filtered_isin_refuted.
(** c != [values] is not the negation of c == [values]: with two values it is true for every row. *)
Theorem C30_not_equal_list_refuted :
  exists (h : heap nat) (c : cat) (ss : list nat) a,
    increasing nat_ord (items h (c_list c)) /\ c_sorted c = true /\
    nth_error (map (cval (c_base c) (items h (c_list c))) (c_codes c)) 0 = Some (Some a) /\ In a ss /\
    compare_list nat_ord h c Cne ss = Some [true; true].
Proof.
  exists [mkArr 1 [10; 20]%nat], (mkCat [1; 2] 0 0 true true false 1), [10; 20]%nat, 10%nat.
  split; [apply incb_ok; reflexivity|]. repeat split. now left.
Qed.
Print Assumptions C30_not_equal_list_refuted.
Example C30_case : compare_list nat_ord ex_heap ex_cat Ceq [20; 99; 30]%nat = Some [true; false; false; true] /\
  group_isin nat_ord [10; 20; 30]%nat [3; 1; 2] 1 [20; 99]%nat = [false; false; true].
Proof. vm_compute. auto. Qed.

(** *** C31: editing the categories *)
(** Seen through comparisons: after any history of edits of a categorical, the next edit changes
    exactly the rows it should.  The name put in by a replacement has to fit the category array.
    Missing: what c[i], expand_array and groupings show (refuted below). *)
Theorem C31_edits_partial :
  forall (A : Type) (o : ord A), total o ->
  forall (h : heap A) (W : nat) (cats : list A) (ordered : bool) (base : Z) (codes : list Z),
  (if ordered then increasing o cats else NoDup cats) -> base = 0 \/ base = 1 -> Forall (in_range base cats) codes ->
  forall (es : list edit) (e : edit) h' c',
  Forall (fun x => match x with Ereplace _ w => (o_len o w <= W)%nat | _ => True end) (es ++ [e]) ->
  let s := fold_left (edit_step o) es (new_cat h W cats ordered base codes) in
  do_edit o (fst s) (snd s) e = Some (h', c') ->
  exists m : A -> list bool,
    (forall w, compare o (fst s) (snd s) Ceq w = Some (m w)) /\
    (forall w, compare o h' c' Ceq w = Some (mask_after o e m w)).
Proof.
  intros A o T h W cats ordered base codes L B R es e h' c' F s D.
  apply Forall_app in F. destruct F as [F1 F2]. inversion F2 as [|? ? Fe _]; subst.
  pose proof (new_ok o h W cats ordered base codes L B R) as K0. cbv zeta in K0.
  pose proof (edits_ok o T W es (fst (new_cat h W cats ordered base codes)) (snd (new_cat h W cats ordered base codes)) K0 F1) as K. cbv zeta in K.
  change (fst (new_cat h W cats ordered base codes), snd (new_cat h W cats ordered base codes)) with (new_cat h W cats ordered base codes) in K. fold s in K.
  destruct (edit_ok o T W (fst s) (snd s) e h' c' K Fe D) as [K' V'].
  set (vs := vals (fst s) (snd s)) in *.
  exists (fun w => map (fun v => match v with Some x => o_eqb o x w | None => false end) vs). split.
  - intros w. apply (compare_eq o T W). exact K.
  - intros w. rewrite (compare_eq o T W h' c' w K'), V', map_map. f_equal. clear - T.
    destruct e as [x|x|x y]; cbn [mask_after].
    + apply map_ext. intros [a|]; reflexivity.
    + destruct (o_eqb o w x) eqn:Q.
      * rewrite map_map. apply map_ext. intros [a|]; [|reflexivity]. cbn [after_edit]. apply (t_eq o T) in Q. subst. destruct (o_eqb o a x) eqn:Q; [reflexivity|exact Q].
      * apply map_ext. intros [a|]; [|reflexivity]. cbn [after_edit]. destruct (o_eqb o a x) eqn:P; [|reflexivity].
        apply (t_eq o T) in P. subst. rewrite (eqb_sym o T), Q. reflexivity.
    + destruct (o_eqb o w y) eqn:Q.
      * apply (t_eq o T) in Q. subst w. induction vs as [|v vs IH]; [reflexivity|]. cbn [map combine fst snd]. f_equal; [|exact IH].
        destruct v as [a|]; [|reflexivity]. cbn [after_edit]. destruct (o_eqb o a x) eqn:P; [rewrite (eqb_refl o T); reflexivity|reflexivity].
      * destruct (o_eqb o w x) eqn:P.
        -- rewrite map_map. apply map_ext. intros [a|]; [|reflexivity]. cbn [after_edit]. apply (t_eq o T) in P. subst w.
           destruct (o_eqb o a x) eqn:P; [rewrite (eqb_sym o T); exact Q|exact P].
        -- apply map_ext. intros [a|]; [|reflexivity]. cbn [after_edit]. destruct (o_eqb o a x) eqn:P'; [|reflexivity].
           apply (t_eq o T) in P'. subst a. rewrite (eqb_sym o T), Q, (eqb_sym o T), P. reflexivity.
Qed.
Print Assumptions C31_edits_partial.
(** An edit raises exactly when the added category is there already, or the edited one is not. *)
Theorem C31_edit_raises_iff :
  forall (A : Type) (o : ord A), total o ->
  forall (h : heap A) (W : nat) (cats : list A) (ordered : bool) (base : Z) (codes : list Z),
  (if ordered then increasing o cats else NoDup cats) -> base = 0 \/ base = 1 -> Forall (in_range base cats) codes ->
  forall (es : list edit) (e : edit),
  Forall (fun x => match x with Ereplace _ w => (o_len o w <= W)%nat | _ => True end) es ->
  let s := fold_left (edit_step o) es (new_cat h W cats ordered base codes) in
  do_edit o (fst s) (snd s) e = None <->
  match e with
  | Eadd v => In v (items (fst s) (c_list (snd s)))
  | Eremove v | Ereplace v _ => ~ In v (items (fst s) (c_list (snd s)))
  end.
Proof.
  intros A o T h W cats ordered base codes L B R es e F s.
  pose proof (new_ok o h W cats ordered base codes L B R) as K0. cbv zeta in K0.
  pose proof (edits_ok o T W es (fst (new_cat h W cats ordered base codes)) (snd (new_cat h W cats ordered base codes)) K0 F) as K. cbv zeta in K.
  apply (edit_raises o T W). exact K.
Qed.
Print Assumptions C31_edit_raises_iff.
(** What c[i] shows after category_remove is wrong: rows of a later category show another one. *)
Theorem C31_remove_shows_stale_refuted :
  exists (codes : list Z) (cats : list nat) v h' c',
    let s := new_cat [] 1 cats true 1 codes in
    do_edit nat_ord (fst s) (snd s) (Eremove v) = Some (h', c') /\
    nth_error (show (fst s) (snd s)) 1 = Some (Val 20%nat) /\ v <> 20%nat /\
    nth_error (show h' c') 1 = Some (Val 10%nat).
Proof.
  exists [1; 2], [10; 20]%nat, 10%nat. eexists. eexists. split; [vm_compute; reflexivity|]. repeat split. lia.
Qed.
Print Assumptions C31_remove_shows_stale_refuted.
(** After category_add, a row set to the new category shows "!<code>". *)
Theorem C31_add_then_set_refuted :
  exists (cats : list nat) (codes : list Z) v h1 c1 h2 c2,
    let s := new_cat [] 1 cats true 1 codes in
    do_edit nat_ord (fst s) (snd s) (Eadd v) = Some (h1, c1) /\
    setitem nat_ord h1 c1 false [true; false] v = Some (h2, c2) /\
    nth_error (show h2 c2) 0 = Some (Bang 3).
Proof.
  exists [10; 20]%nat, [1; 2], 15%nat. do 4 eexists. split; [vm_compute; reflexivity|]. split; [vm_compute; reflexivity|reflexivity].
Qed.
Print Assumptions C31_add_then_set_refuted.
(** Replacing a category by a longer name cuts the name to the width of the array. *)
Theorem C31_replace_longer_refuted :
  exists (cats : list nat) (codes : list Z) v w h' c',
    let s := new_cat [] 5 cats true 1 codes in
    do_edit cut_ord (fst s) (snd s) (Ereplace v w) = Some (h', c') /\
    compare cut_ord (fst s) (snd s) Ceq v = Some [true; false] /\ compare cut_ord h' c' Ceq w = Some [false; false].
Proof. exists [3; 4]%nat, [1; 2], 3%nat, 9%nat. do 2 eexists. split; [vm_compute; reflexivity|]. split; vm_compute; reflexivity. Qed.
Print Assumptions C31_replace_longer_refuted.
Example C31_case : let s := fold_left (edit_step nat_ord) [Eadd 5; Eremove 20; Ereplace 30 7]%nat (new_cat [] 1 [10; 20; 30]%nat true 1 [3; 1; 0; 2; 3]) in
  items (fst s) (c_list (snd s)) = [10; 7; 5]%nat /\ c_codes (snd s) = [2; 1; 0; 0; 2] /\
  map (compare nat_ord (fst s) (snd s) Ceq) [7; 10; 20]%nat =
    [Some [true; false; false; false; true]; Some [false; true; false; false; false]; Some [false; false; false; false; false]].
Proof. vm_compute. auto. Qed.

(** *** C32: mapping edits *)
(** Over any history in which added names are new and no code is renamed, the two dictionaries stay
    mutually inverse.  Missing: mapping_replace, and adding a name twice (refuted below). *)
Theorem C32_mapping_edits_partial :
  forall (es : list medit) (m : maps),
  (forall c s, get_i (m_i2s m) c = Some s <-> get_s (m_s2i m) s = Some c) ->
  (forall n c s, nth_error es n = Some (Madd c s) ->
     get_s (m_s2i (fold_left (fun m e => fst (mapping_edit m e)) (firstn n es) m)) s = None) ->
  (forall n c s, nth_error es n <> Some (Mreplace c s)) ->
  let m' := fold_left (fun m e => fst (mapping_edit m e)) es m in
  forall c s, get_i (m_i2s m') c = Some s <-> get_s (m_s2i m') s = Some c.
Proof.
  induction es as [|e es IH]; intros m I F R; [exact I|]. cbn [fold_left]. apply IH.
  - apply (edit_inverse m e I). destruct e as [c s|c|c s]; [apply (F 0%nat c s); reflexivity|exact Logic.I|].
    exfalso. apply (R 0%nat c s). reflexivity.
  - intros n c s E. apply (F (S n) c s E).
  - intros n c s E. apply (R (S n) c s E).
Qed.
Print Assumptions C32_mapping_edits_partial.
(** Every edit, also one that raises, leaves the name of every other code alone. *)
Theorem C32_other_codes :
  forall (m : maps) (e : medit) c', (match e with Madd c _ | Mremove c | Mreplace c _ => c <> c' end) ->
  get_i (m_i2s (fst (mapping_edit m e))) c' = get_i (m_i2s m) c'.
Proof. exact edit_others. Qed.
Print Assumptions C32_other_codes.
(** mapping_replace leaves the old name pointing at the code. *)
Theorem C32_replace_refuted :
  exists m c old new, let m' := fst (mapping_edit m (Mreplace c new)) in
  (forall c s, get_i (m_i2s m) c = Some s <-> get_s (m_s2i m) s = Some c) /\
  get_s (m_s2i m') old = Some c /\ get_i (m_i2s m') c = Some new /\ old <> new.
Proof.
  exists (mkMaps [(1, [1%nat])] [([1%nat], 1)]), 1, [1%nat], [2%nat]. split.
  - intros c s. cbn [m_i2s m_s2i get_i get_s]. destruct (Z.eqb_spec 1 c), (name_dec [1%nat] s); split; intros H; congruence.
  - split; [vm_compute; reflexivity|]. split; [vm_compute; reflexivity|discriminate].
Qed.
Print Assumptions C32_replace_refuted.
(** mapping_add of a name that is in use takes the name away from its first code in one direction only. *)
Theorem C32_add_used_name_refuted :
  exists m c c' s, let m' := fst (mapping_edit m (Madd c' s)) in
  (forall c s, get_i (m_i2s m) c = Some s <-> get_s (m_s2i m) s = Some c) /\
  snd (mapping_edit m (Madd c' s)) = false /\ get_i (m_i2s m') c = Some s /\ get_s (m_s2i m') s = Some c' /\ c <> c'.
Proof.
  exists (mkMaps [(1, [1%nat])] [([1%nat], 1)]), 1, 2, [1%nat]. split.
  - intros c s. cbn [m_i2s m_s2i get_i get_s]. destruct (Z.eqb_spec 1 c), (name_dec [1%nat] s); split; intros H; congruence.
  - repeat (split; [vm_compute; reflexivity|]). lia.
Qed.
Print Assumptions C32_add_used_name_refuted.
Example C32_case : fold_left (fun m e => fst (mapping_edit m e)) [Madd 5 [50%nat]; Mremove 1; Madd 1 [7%nat]] (mkMaps [(1, [1%nat])] [([1%nat], 1)]) =
  mkMaps [(5, [50%nat]); (1, [7%nat])] [([50%nat], 5); ([7%nat], 1)].
Proof. vm_compute. reflexivity. Qed.

(** *** C33: assignment of a string *)
(** Seen through comparisons: with an existing category, or a new one when no row is filtered, exactly
    the chosen rows take the new value.  Missing: filtered rows and c[i] (refuted below). *)
Theorem C33_setitem_partial :
  forall (A : Type) (o : ord A), total o ->
  forall (h : heap A) (W : nat) (cats : list A) (ordered : bool) (base : Z) (codes : list Z),
  (if ordered then increasing o cats else NoDup cats) -> base = 0 \/ base = 1 -> Forall (in_range base cats) codes ->
  forall (auto : bool) (mask : list bool) (v : A), length mask = length codes ->
  In v cats \/ auto = true /\ Forall (fun k => base <= k) codes ->
  let s := new_cat h W cats ordered base codes in
  exists h' c' (m : A -> list bool), setitem o (fst s) (snd s) auto mask v = Some (h', c') /\
    (forall w, compare o (fst s) (snd s) Ceq w = Some (m w)) /\
    (forall w, compare o h' c' Ceq w = Some (overwrite mask (o_eqb o v w) (m w))).
Proof.
  intros A o T h W cats ordered base codes L B R auto mask v Lm H s.
  pose proof (new_ok o h W cats ordered base codes L B R) as K. fold s in K. cbv zeta in K.
  assert (Ei : items (fst s) (c_list (snd s)) = cats) by (unfold s, items; cbn [new_cat fst snd c_list]; rewrite get_app_new; reflexivity).
  destruct (setitem_ok o T W (fst s) (snd s) auto mask v K) as [h' [c' [E [K' V']]]].
  - rewrite Ei. destruct H as [H|[H _]]; auto.
  - rewrite Ei. destruct H as [H|[_ H]]; auto.
  - exists h', c', (fun w => map (fun x => match x with Some x => o_eqb o x w | None => false end) (vals (fst s) (snd s))).
    split; [exact E|]. split; [intros w; apply (compare_eq o T W); exact K|]. intros w. rewrite (compare_eq o T W h' c' w K'), V'. f_equal.
    unfold overwrite. clear. generalize (vals (fst s) (snd s)). induction mask as [|b mask IH]; intros [|x l]; try reflexivity.
    cbn [combine map fst snd]. rewrite <- IH. f_equal. destruct b; reflexivity.
Qed.
Print Assumptions C33_setitem_partial.
(** A filtered row takes the new category although it was not assigned to. *)
Theorem C33_filtered_row_refuted :
  exists (cats : list nat) (codes : list Z) v h' c',
    let s := new_cat [] 1 cats true 1 codes in
    setitem nat_ord (fst s) (snd s) true [true; false; false] v = Some (h', c') /\
    compare nat_ord (fst s) (snd s) Ceq v = Some [false; false; false] /\
    nth_error (vals (fst s) (snd s)) 2 = Some None /\ compare nat_ord h' c' Ceq v = Some [true; false; true].
Proof. exists [10; 30]%nat, [1; 2; 0], 20%nat. do 2 eexists. split; [vm_compute; reflexivity|]. repeat split; vm_compute; reflexivity. Qed.
Print Assumptions C33_filtered_row_refuted.
(** c[i] of a row that was not assigned to changes. *)
Theorem C33_other_row_shows_refuted :
  exists (cats : list nat) (codes : list Z) v h' c',
    let s := new_cat [] 1 cats true 1 codes in
    setitem nat_ord (fst s) (snd s) true [true; false; false] v = Some (h', c') /\
    nth_error (show (fst s) (snd s)) 1 = Some (Val 10%nat) /\ nth_error (show h' c') 1 = Some (Val 30%nat).
Proof. exists [10; 30]%nat, [2; 1; 2], 5%nat. do 2 eexists. split; [vm_compute; reflexivity|]. repeat split; vm_compute; reflexivity. Qed.
Print Assumptions C33_other_row_shows_refuted.
Example C33_case : let s := new_cat [] 1 [10; 30]%nat true 1 [1; 2; 2] in
  match setitem nat_ord (fst s) (snd s) true [true; false; false] 20%nat with
  | Some (h, c) => (items h (c_list c), c_codes c) | None => ([], []) end = ([10; 20; 30]%nat, [2; 3; 3]).
Proof. vm_compute. reflexivity. Qed.

(** *** C34: assigning another categorical *)
(** Same categories and base: the chosen rows take the other's values. *)
Theorem C34_same_categories_partial :
  forall (A : Type) (crc : list A -> Z) (code_of : option A -> option Z) (h : heap A) (c v : cat) (mask : list bool),
  items h (c_list c) = items h (c_list v) -> length (items h (c_uniq c)) = length (items h (c_uniq v)) -> c_base c = c_base v ->
  exists codes', setitem_cat crc code_of h c mask v = Some codes' /\
  let value := cval (c_base c) (items h (c_list c)) in
  forall r b k kv, nth_error mask r = Some b -> nth_error (c_codes c) r = Some k -> nth_error (c_codes v) r = Some kv ->
    exists k', nth_error codes' r = Some k' /\
      value k' = if b then cval (c_base v) (items h (c_list v)) kv else value k.
Proof.
  intros A crc code_of h c v mask El Eu Eb. unfold setitem_cat. rewrite Eu, Nat.eqb_refl, El, Z.eqb_refl. cbn [andb].
  eexists. split; [reflexivity|]. cbv zeta. intros r b k kv Em Ek Ev.
  eexists. split; [rewrite (map_nth_error _ _ _ (nth_error_combine _ _ _ _ _ (nth_error_combine _ _ _ _ _ Em Ek) Ev)); reflexivity|].
  cbn [fst snd]. rewrite Eb. destruct b; reflexivity.
Qed.
Print Assumptions C34_same_categories_partial.
(** Different categories: the categorical's own values are stored as codes; here c[:] = v gives rows
    that hold neither. *)
Theorem C34_different_categories_refuted :
  exists (h : heap nat) (c v : cat) codes',
    setitem_cat (fun l => Z.of_nat (list_sum l)) (fun a => option_map Z.of_nat a) h c [true; true] v = Some codes' /\
    vals h v = [Some 2; Some 9]%nat /\ vals h c = [Some 2; Some 1]%nat /\
    map (cval 1 (items h (c_list c))) codes' = [Some 1; Some 2]%nat.
Proof.
  exists [mkArr 0 [2; 1]%nat; mkArr 0 [2; 9]%nat], (mkCat [1; 2] 0 0 false false false 1), (mkCat [1; 2] 1 1 true true false 1).
  eexists. split; [vm_compute; reflexivity|]. repeat split; vm_compute; reflexivity.
Qed.
Print Assumptions C34_different_categories_refuted.
(** Same categories but different base: off by one. *)
Theorem C34_different_base_refuted :
  exists (h : heap nat) (c v : cat) codes',
    items h (c_list c) = items h (c_list v) /\
    setitem_cat (fun l => Z.of_nat (list_sum l)) (fun _ => None) h c [true; true] v = Some codes' /\
    vals h v = [Some 10; Some 20]%nat /\ map (cval (c_base c) (items h (c_list c))) codes' = [None; Some 10]%nat.
Proof.
  exists [mkArr 0 [10; 20]%nat], (mkCat [1; 2] 0 0 true true false 1), (mkCat [0; 1] 0 0 true true false 0).
  eexists. repeat split; vm_compute; reflexivity.
Qed.
Print Assumptions C34_different_base_refuted.
Example C34_case : setitem_cat (fun l => Z.of_nat (list_sum l)) (fun _ => None) [mkArr 0 [10; 20]%nat] (mkCat [1; 2; 0] 0 0 true true false 1)
  [true; false; true] (mkCat [2; 1; 1] 0 0 true true false 1) = Some [2; 2; 1].
Proof. vm_compute. reflexivity. Qed.

(** *** C35: set_valid *)
(** Not mapped: rows that pass keep their value, the others are filtered, the categories are the used
    ones.  (A base 0 categorical is turned into base 1 first: its codes plus one.) *)
Theorem C35_set_valid :
  forall (A : Type) (inv : A) (base : nat) (codes : list nat) (cats : list A) (flt : option (list bool)),
  base = 0%nat \/ base = 1%nat -> Forall (fun k => (k < base + length cats)%nat) codes ->
  (forall f, flt = Some f -> length f = length codes) ->
  let ikey := map (fun k => k + (1 - base))%nat codes in
  let out := regroup inv (length cats) ikey cats flt in
  map (fun k => cval 1 (snd out) (Z.of_nat k)) (fst out) =
    keep_where flt (map (fun k => cval (Z.of_nat base) cats (Z.of_nat k)) codes) /\
  forall a, In a (snd out) <-> exists j, nth_error cats j = Some a /\ used flt ikey j.
Proof.
  intros A inv base codes cats flt B R Hf ikey out.
  destruct (C23_regroup A inv ikey cats flt) as [H1 [H2 _]].
  - intros f E. unfold ikey. rewrite map_length. apply Hf. exact E.
  - unfold ikey. apply Forall_map. eapply Forall_impl; [|exact R]. intros k Hk. cbv beta in *. lia.
  - fold out in H1, H2. split; [|exact H2].
    assert (S1 : forall (us : list A) k, cval 1 us (Z.of_nat k) = match k with O => None | S j => nth_error us j end).
    { intros us k. unfold cval. destruct (Z.ltb_spec (Z.of_nat k) 1); destruct k; try lia; [reflexivity|]. f_equal. lia. }
    transitivity (shows (fst out) (snd out)); [apply map_ext; intros; apply S1|]. rewrite H1. f_equal. unfold shows, ikey. rewrite map_map.
    apply map_ext. intros k. destruct B as [-> | ->].
    + replace (k + (1 - 0))%nat with (S k) by lia. unfold cval. destruct (Z.ltb_spec (Z.of_nat k) (Z.of_nat 0)); [lia|]. f_equal. lia.
    + replace (k + (1 - 1))%nat with k by lia. rewrite <- S1. reflexivity.
Qed.
Print Assumptions C35_set_valid.
(** Mapped: rows that pass keep their name, the others show "Filtered", and only codes in use keep a
    name.  Missing: the source is changed too (refuted below). *)
Theorem C35_set_valid_mapped_partial :
  forall (inv : Z) (codes : list Z) (d : i2s) (f : list bool), length f = length codes -> ~ In inv codes ->
  let out := set_valid_map inv codes d (Some f) in
  length (fst out) = length codes /\
  (forall r k b, nth_error codes r = Some k -> nth_error f r = Some b ->
   exists k', nth_error (fst out) r = Some k' /\ show_map (snd out) k' = if b then show_map d k else inl filtered_name) /\
  (forall p, In p (snd out) -> p = (inv, filtered_name) \/ In (fst p) (fst out) /\ In p d).
Proof.
  intros inv codes d f L N out. split; [|split].
  - unfold out, set_valid_map. cbn [fst]. rewrite map_length, combine_length, L. apply Nat.min_id.
  - intros r k b Ek Eb. apply (set_valid_map_rows inv codes d f r k b Ek Eb). intros ->. apply N. eapply nth_error_In. exact Ek.
  - intros p. apply set_valid_map_used.
Qed.
Print Assumptions C35_set_valid_mapped_partial.
(** The result shares the code array with the source, which thereby loses the rows that fail. *)
Theorem C35_source_changed_refuted :
  exists (inv : Z) (codes : list Z) (d : i2s) (f : list bool), length f = length codes /\ ~ In inv codes /\
    let source_after := fst (set_valid_map inv codes d (Some f)) in
    nth_error (map (show_map d) codes) 1 = Some (inl [7%nat]) /\ nth_error (map (show_map d) source_after) 1 = Some (inr inv).
Proof.
  exists (-128), [4; 5], [(4, [6%nat]); (5, [7%nat])], [true; false]. split; [reflexivity|]. split; [cbn; lia|]. split; reflexivity.
Qed.
Print Assumptions C35_source_changed_refuted.
Example C35_case : set_valid_map (-128) [4; 5; 4; 6] [(4, [6%nat]); (5, [7%nat]); (6, [8%nat])] (Some [true; false; true; true]) =
  ([4; -128; 4; 6], [(4, [6%nat]); (6, [8%nat]); (-128, filtered_name)]).
Proof. vm_compute. reflexivity. Qed.

(** *** C36: expansion *)
Theorem C36_expand_array :
  forall (A : Type) (h : heap A) (c : cat), c_base c = 0 \/ c_base c = 1 ->
  Forall (in_range (c_base c) (items h (c_uniq c))) (c_codes c) ->
  expand_array h c = map (cval (c_base c) (items h (c_uniq c))) (c_codes c) /\
  show h c = map (fun k => match cval (c_base c) (items h (c_uniq c)) k with
                           | Some a => Val a | None => if c_base c =? 1 then Filtered else Bang k end) (c_codes c).
Proof.
  intros A h c B F. split; [apply expand_ok; assumption|]. unfold show. apply map_ext_in. intros k I.
  apply show_cval; [exact B|]. exact (proj1 (Forall_forall _ _) F k I).
Qed.
Print Assumptions C36_expand_array.
Theorem C36_expand_dict_partial :
  forall (A : Type) (h : heap A) (c : cat), c_base c = 1 ->
  Forall (in_range 1 (items h (c_list c))) (c_codes c) ->
  expand_dict h c = map (cval 1 (items h (c_list c))) (c_codes c).
Proof. intros A h c B F. apply expand_dict_ok; assumption. Qed.
Print Assumptions C36_expand_dict_partial.
(** expand_dict of a base 0 categorical is off by one. *)
Theorem C36_expand_dict_base0_refuted :
  exists (h : heap nat) (c : cat), c_base c = 0 /\ Forall (in_range 0 (items h (c_list c))) (c_codes c) /\
    map (cval 0 (items h (c_list c))) (c_codes c) = [Some 10; Some 20]%nat /\ expand_dict h c = [None; Some 10]%nat.
Proof.
  exists [mkArr 0 [10; 20]%nat], (mkCat [0; 1] 0 0 true true false 0). split; [reflexivity|]. split; [repeat constructor; cbn; lia|].
  split; vm_compute; reflexivity.
Qed.
Print Assumptions C36_expand_dict_base0_refuted.
Example C36_case : expand_array [mkArr 0 [10; 20]%nat] (mkCat [1; 0; -1] 0 0 true true false 0) = [Some 20; Some 10; None]%nat /\
  expand_dict [mkArr 0 [10; 20]%nat] (mkCat [1; 0; 2] 0 0 true true false 1) = [Some 10; None; Some 20]%nat.
Proof. vm_compute. auto. Qed.

(** *** C37: removing duplicate categories *)
(** [grp]: groups the category list (the contract of Categorical(categories)). *)
Theorem C37_make_unique :
  forall (A : Type) (grp : list A -> list A * list nat),
  (forall l, grouping_of (map Some l) (fst (grp l)) (snd (grp l))) -> (forall l a, In a (fst (grp l)) -> In a l) ->
  forall (base : Z) (values : list Z) (cats : list A), base = 0 \/ base = 1 ->
  Forall (fun k => 0 <= k < base + Z.of_nat (length cats)) values ->
  let out := make_unique grp base values cats in
  map (cval base (snd out)) (fst out) = map (cval base cats) values /\ NoDup (snd out) /\
  (forall a, In a (snd out) <-> In a cats).
Proof.
  intros A grp G Gi base values cats B F. apply make_unique_ok; auto. eapply Forall_impl; [|exact F]. intros k Hk. cbv beta in *. lia.
Qed.
Print Assumptions C37_make_unique.
Example C37_case : make_unique grp_nat 1 [3; 0; 2; 1; 4]%Z [10; 20; 10; 20]%nat = ([1; 0; 2; 1; 2], [10; 20]%nat) /\
  make_unique grp_nat 0 [3; 0; 2; 1]%Z [10; 20; 10; 20]%nat = ([1; 0; 0; 1], [10; 20]%nat) /\
  (forall l a, In a (fst (grp_nat l)) -> In a l).
Proof.
  split; [vm_compute; reflexivity|]. split; [vm_compute; reflexivity|]. intros l a I. unfold grp_nat in I. cbn [fst] in I.
  apply (uniques_spec Nat.eqb Nat.eqb_eq) in I. apply in_map_iff in I. destruct I as [x [E I]]. injection E as ->. exact I.
Qed.

(** *** C38: align *)
Theorem C38_align :
  forall (A : Type) (crc : list A -> Z) (grp : list A -> list A * list nat),
  (forall l, grouping_of (map Some l) (fst (grp l)) (snd (grp l))) ->
  forall (cs : list (list nat * list A)), cs <> [] ->
  (forall p q, In p cs -> In q cs -> length (snd p) = length (snd q) -> crc (snd p) = crc (snd q) -> snd p = snd q) ->
  Forall (fun c => valid_codes (fst c) (snd c) /\ NoDup (snd c)) cs ->
  let out := align 1 crc grp cs in
  map (fun c => shows (fst c) (snd c)) out = map (fun c => shows (fst c) (snd c)) cs /\
  (forall p q, In p out -> In q out -> snd p = snd q) /\ length out = length cs.
Proof.
  intros A crc grp G cs Ne S F. apply (align_gen crc grp 1 (fun us k => match k with O => None | Datatypes.S j => nth_error us j end) cs Ne S).
  cbv zeta. assert (D : forall us, In us (map snd cs) -> NoDup us).
  { intros us I. apply in_map_iff in I. destruct I as [c [<- I]]. apply (proj1 (Forall_forall _ _) F c I). }
  apply (merge_cats_1 0 crc grp G (map fst cs) (map snd cs)); auto.
  - destruct cs; [congruence|discriminate].
  - intros v w Iv Iw. apply in_map_iff in Iv, Iw. destruct Iv as [p [<- Ip]], Iw as [q [<- Iq]]. apply S; assumption.
  - clear - F. induction F as [|c cs [H _] F IH]; cbn [map]; constructor; assumption.
Qed.
Print Assumptions C38_align.
Theorem C38_align_base0 :
  forall (A : Type) (crc : list A -> Z) (grp : list A -> list A * list nat),
  (forall l, grouping_of (map Some l) (fst (grp l)) (snd (grp l))) ->
  forall (cs : list (list nat * list A)), cs <> [] ->
  (forall p q, In p cs -> In q cs -> length (snd p) = length (snd q) -> crc (snd p) = crc (snd q) -> snd p = snd q) ->
  Forall (fun c => valid_codes0 (fst c) (snd c) /\ NoDup (snd c)) cs ->
  let out := align 0 crc grp cs in
  map (fun c => shows0 (fst c) (snd c)) out = map (fun c => shows0 (fst c) (snd c)) cs /\
  (forall p q, In p out -> In q out -> snd p = snd q) /\ length out = length cs.
Proof.
  intros A crc grp G cs Ne S F. apply (align_gen crc grp 0 (@nth_error A) cs Ne S).
  cbv zeta. assert (D : forall us, In us (map snd cs) -> NoDup us).
  { intros us I. apply in_map_iff in I. destruct I as [c [<- I]]. apply (proj1 (Forall_forall _ _) F c I). }
  apply (merge_cats_0 0 crc grp G (map fst cs) (map snd cs)); auto.
  - destruct cs; [congruence|discriminate].
  - intros v w Iv Iw. apply in_map_iff in Iv, Iw. destruct Iv as [p [<- Ip]], Iw as [q [<- Iq]]. apply S; assumption.
  - clear - F. induction F as [|c cs [H _] F IH]; cbn [map]; constructor; assumption.
Qed.
Print Assumptions C38_align_base0.
Example C38_case : align 1 (fun l => Z.of_nat (list_sum l)) grp_nat [([1; 0; 2], [7; 8]); ([1; 2], [8; 9])]%nat =
  [([1; 0; 2], [7; 8; 9]); ([2; 3], [7; 8; 9])]%nat.
Proof. vm_compute. reflexivity. Qed.

(** *** C75: comparing two categoricals *)
(** == and != compare the values (two filtered rows are equal), base 1.  Missing: base 0 and order
    comparisons (refuted below). *)
Theorem C75_two_categoricals_partial :
  forall (A : Type) (crc : list A -> Z) (grp : list A -> list A * list nat),
  (forall l, grouping_of (map Some l) (fst (grp l)) (snd (grp l))) ->
  forall (k1 : list nat) (l1 : list A) (k2 : list nat) (l2 : list A),
  (length l1 = length l2 -> crc l1 = crc l2 -> l1 = l2) -> NoDup l1 -> NoDup l2 -> valid_codes k1 l1 -> valid_codes k2 l2 ->
  forall r a b, nth_error (shows k1 l1) r = Some a -> nth_error (shows k2 l2) r = Some b ->
  exists x, nth_error (compare_cats crc grp Ceq k1 l1 k2 l2) r = Some x /\ (x = true <-> a = b) /\
            nth_error (compare_cats crc grp Cne k1 l1 k2 l2) r = Some (negb x).
Proof. intros A crc grp G k1 l1 k2 l2 S N1 N2 V1 V2 r a b E1 E2. apply compare_cats_eq; assumption. Qed.
Print Assumptions C75_two_categoricals_partial.
(** c < d compares positions in the merged category list, which is not sorted. *)
Theorem C75_less_refuted :
  exists (k1 : list nat) (l1 : list nat) k2 l2, NoDup l1 /\ NoDup l2 /\ valid_codes k1 l1 /\ valid_codes k2 l2 /\
    shows k1 l1 = [Some 20%nat] /\ shows k2 l2 = [Some 10%nat] /\
    compare_cats (fun l => Z.of_nat (list_sum l)) grp_nat Clt k1 l1 k2 l2 = [true].
Proof.
  exists [1%nat], [20%nat], [1%nat], [10%nat]. repeat split; try (repeat constructor; cbn; intuition lia). 
Qed.
Print Assumptions C75_less_refuted.
(** Base 0 codes are merged as if they were base 1: the first category is taken for a filtered row. *)
Theorem C75_base0_refuted :
  exists (k1 : list nat) (l1 : list nat) k2 l2, NoDup l1 /\ NoDup l2 /\ valid_codes0 k1 l1 /\ valid_codes0 k2 l2 /\
    shows0 k1 l1 = [Some 10%nat] /\ shows0 k2 l2 = [Some 20%nat] /\
    compare_cats (fun l => Z.of_nat (list_sum l)) grp_nat Ceq k1 l1 k2 l2 = [true].
Proof. exists [0%nat], [10%nat], [0%nat], [20%nat]. repeat split; try (repeat constructor; cbn; intuition lia). Qed.
Print Assumptions C75_base0_refuted.
Example C75_case : compare_cats (fun l => Z.of_nat (list_sum l)) grp_nat Ceq [1; 2; 0; 1]%nat [10; 20]%nat [2; 1; 0; 1]%nat [30; 10]%nat = [true; false; true; false].
Proof. vm_compute. reflexivity. Qed.

(** *** C76: copies *)
(** A copy compares like the original as long as no category array is changed in place. *)
Theorem C76_copy_values_partial :
  forall (A : Type) (o : ord A) (h : heap A) (c : cat), c_base c = 1 ->
  forall op s, compare o h (copy_cat c) op s = compare o h c op s.
Proof. intros A o h c B op s. unfold compare, cat_index, copy_cat. cbn [c_codes c_list c_sorted c_notord c_base]. rewrite B. reflexivity. Qed.
Print Assumptions C76_copy_values_partial.
(** category_replace on a copy changes the original. *)
Theorem C76_copy_shares_categories_refuted :
  exists (h : heap nat) (c : cat) v w h' c', c_base c = 1 /\
    do_edit nat_ord h (copy_cat c) (Ereplace v w) = Some (h', c') /\
    nth_error (show h c) 0 = Some (Val v) /\ nth_error (show h' c) 0 = Some (Val w) /\ v <> w.
Proof.
  exists [mkArr 1 [10; 20]%nat], (mkCat [1; 2] 0 0 true true false 1), 10%nat, 15%nat. do 2 eexists.
  split; [reflexivity|]. split; [vm_compute; reflexivity|]. repeat split. lia.
Qed.
Print Assumptions C76_copy_shares_categories_refuted.
(** A copy of a base 0 categorical has base 1 and shows other values. *)
Theorem C76_copy_base0_refuted :
  exists (h : heap nat) (c : cat), c_base c = 0 /\ show h c = [Val 10; Val 20]%nat /\ show h (copy_cat c) = [Filtered; Val 10%nat].
Proof. exists [mkArr 1 [10; 20]%nat], (mkCat [0; 1] 0 0 true true false 0). repeat split. Qed.
Print Assumptions C76_copy_base0_refuted.
(** After category_replace the rows taken from a categorical are marked sorted although the list is
    not, and == misses rows. *)
Theorem C76_rows_after_replace_refuted :
  exists (cats : list nat) (codes : list Z) v w h' c', let s := new_cat [] 1 cats true 1 codes in
    do_edit nat_ord (fst s) (snd s) (Ereplace v w) = Some (h', c') /\
    show h' (take_rows c' [0; 1; 2]%nat) = [Val 99; Val 20; Val 30]%nat /\
    compare nat_ord h' c' Ceq w = Some [true; false; false] /\
    compare nat_ord h' (take_rows c' [0; 1; 2]%nat) Ceq w = Some [false; false; false] /\ w = 99%nat.
Proof. exists [10; 20; 30]%nat, [1; 2; 3], 10%nat, 99%nat. do 2 eexists. split; [vm_compute; reflexivity|]. repeat split; vm_compute; reflexivity. Qed.
Print Assumptions C76_rows_after_replace_refuted.
(** Taking rows keeps what the rows show. *)
Theorem C76_take_rows :
  forall (A : Type) (h : heap A) (c : cat) (rows : list nat), Forall (fun r => (r < length (c_codes c))%nat) rows ->
  show h (take_rows c rows) = map (fun r => nth r (show h c) Filtered) rows.
Proof.
  intros A h c rows F. unfold show, take_rows. cbn [c_codes c_uniq c_base]. rewrite map_map. apply map_ext_in. intros r I.
  pose proof (proj1 (Forall_forall _ _) F r I) as Hr. cbv beta in Hr. symmetry. apply nth_error_nth. apply map_nth_error.
  destruct (nth_error (c_codes c) r) as [k|] eqn:E; [|apply nth_error_None in E; lia]. rewrite (nth_error_nth _ _ 0 E). reflexivity.
Qed.
Print Assumptions C76_take_rows.
Example C76_case : show ex_heap (take_rows ex_cat [3; 2; 0]%nat) = [Val 20%nat; Filtered; Val 30%nat] /\
  compare nat_ord ex_heap (copy_cat ex_cat) Cge 20%nat = Some [true; false; false; true].
Proof. vm_compute. auto. Qed.

(** *** C77: unique *)
(** With a filter, or after the codes were changed, unique(c) is exactly the set of values shown. *)
Theorem C77_unique_partial :
  forall (A : Type) (inv : A) (dirty : bool) (codes : list nat) (cats : list A) (flt : option (list bool)),
  valid_codes codes cats -> (forall f, flt = Some f -> length f = length codes) -> NoDup cats ->
  (dirty = true \/ flt <> None) ->
  let out := unique_cat inv dirty codes cats flt in
  NoDup out /\ forall a, In a out <-> In (Some a) (keep_where flt (shows codes cats)).
Proof.
  intros A inv dirty codes cats flt V Hf N D out.
  destruct (C23_regroup A inv codes cats flt Hf V) as [H1 [H2 [H3 H4]]].
  assert (E : out = snd (regroup inv (length cats) codes cats flt)).
  { unfold out, unique_cat. destruct flt; [reflexivity|]. destruct D as [-> | D]; [reflexivity|congruence]. }
  rewrite E. split; [apply H3; exact N|]. intros a. rewrite <- H1. unfold shows at 1. rewrite H2, in_map_iff. split.
  - intros [j [Ej [r [Er Ef]]]].
    assert (Es : nth_error (keep_where flt (shows codes cats)) r = Some (Some a)).
    { assert (Q : nth_error (shows codes cats) r = Some (Some a)) by (unfold shows; rewrite (map_nth_error _ _ _ Er); f_equal; exact Ej).
      destruct flt as [f|]; [|exact Q]. cbn [keep_where]. rewrite (map_nth_error _ _ _ (nth_error_combine _ _ _ _ _ Q Ef)). reflexivity. }
    rewrite <- H1 in Es. unfold shows in Es. apply nth_error_In in Es. apply in_map_iff in Es. exact Es.
  - intros H. apply in_map_iff in H.
    apply In_nth_error in H. destruct H as [r Er]. fold (shows (fst (regroup inv (length cats) codes cats flt)) (snd (regroup inv (length cats) codes cats flt))) in Er. rewrite H1 in Er.
    assert (Q : nth_error (shows codes cats) r = Some (Some a) /\ match flt with None => True | Some f => nth_error f r = Some true end).
    { destruct flt as [f|]; [|split; [exact Er|exact I]]. cbn [keep_where] in Er.
      destruct (nth_error (shows codes cats) r) as [x|] eqn:Ex; destruct (nth_error f r) as [b|] eqn:Eb.
      - rewrite (map_nth_error _ _ _ (nth_error_combine _ _ _ _ _ Ex Eb)) in Er. cbn [fst snd] in Er. destruct b; [split; [exact Er|reflexivity]|discriminate].
      - exfalso. apply nth_error_None in Eb. assert (r < length (shows codes cats))%nat by (apply nth_error_Some; congruence).
        unfold shows in H. rewrite map_length in H. rewrite (Hf f eq_refl) in Eb. lia.
      - exfalso. apply nth_error_None in Ex. assert (r < length (map (fun p : option A * bool => if snd p then fst p else None) (combine (shows codes cats) f)))%nat by (apply nth_error_Some; congruence).
        rewrite map_length, combine_length in H. lia.
      - exfalso. apply nth_error_None in Ex. assert (r < length (map (fun p : option A * bool => if snd p then fst p else None) (combine (shows codes cats) f)))%nat by (apply nth_error_Some; congruence).
        rewrite map_length, combine_length in H. lia. }
    destruct Q as [Q Qf]. unfold shows in Q. destruct (nth_error codes r) as [k|] eqn:Ek.
    + rewrite (map_nth_error _ _ _ Ek) in Q. destruct k as [|j]; [discriminate|]. injection Q as Q. exists j. split; [exact Q|]. exists r. split; assumption.
    + apply nth_error_None in Ek. assert (r < length (map (fun c : nat => match c with O => None | S k => nth_error cats k end) codes))%nat by (apply nth_error_Some; congruence).
      rewrite map_length in H. lia.
Qed.
Print Assumptions C77_unique_partial.
(** Otherwise unique(c) is the whole category list, also categories no row shows. *)
Theorem C77_unused_category_refuted :
  exists (codes : list nat) (cats : list nat) a, valid_codes codes cats /\ NoDup cats /\
    In a (unique_cat 0%nat false codes cats None) /\ ~ In (Some a) (shows codes cats).
Proof.
  exists [1; 1]%nat, [10; 20]%nat, 20%nat. split; [repeat constructor|]. split; [repeat constructor; cbn; intuition lia|].
  split; [cbn; auto|cbn; intuition congruence].
Qed.
Print Assumptions C77_unused_category_refuted.
Example C77_case : unique_cat 0%nat true [3; 0; 1]%nat [10; 20; 30]%nat None = [10; 30]%nat.
Proof. vm_compute. reflexivity. Qed.

(** *** C78: map with a dictionary *)
(** Rows whose category is a key get its value, rows whose category is not get the invalid. *)
Theorem C78_map_partial :
  forall (A C : Type) (o : ord A), total o -> forall (cats : list A) (codes : list nat) (d : list (A * C)) (filtered_text : A) (inv rf : C),
  NoDup (map fst d) -> forall r a, nth_error (shows codes cats) r = Some (Some a) ->
  exists b, nth_error (map_dict o cats codes d filtered_text inv rf) r = Some b /\
    ((exists x, In (a, x) d) -> In (a, b) d) /\ ((forall x, ~ In (a, x) d) -> b = inv).
Proof.
  intros A C o T cats codes d ft inv rf N r a E. unfold shows in E. destruct (nth_error codes r) as [k|] eqn:Ek.
  - rewrite (map_nth_error _ _ _ Ek) in E. destruct k as [|j]; [discriminate|]. injection E as E.
    eexists. split; [apply (map_dict_ok o cats codes d ft inv rf r j a Ek E)|].
    assert (As : forall d0 : list (A * C), match assoc o d0 a with Some b => In (a, b) d0 | None => forall x, ~ In (a, x) d0 end).
    { induction d0 as [|[k v] d0 IH]; cbn [assoc]; [intros x []|]. destruct (o_eqb o a k) eqn:Q.
      - apply (t_eq o T) in Q. subst. now left.
      - destruct (assoc o d0 a); [now right|]. intros x [X|X]; [|apply (IH x X)]. injection X as -> ->. apply (eqb_false o T) in Q. congruence. }
    specialize (As d). destruct (assoc o d a) as [b|].
    + split; [intros _; exact As|]. intros H. destruct (H b As).
    + split; [|reflexivity]. intros [x I]. destruct (As x I).
  - apply nth_error_None in Ek. assert (r < length (map (fun c : nat => match c with O => None | S k => nth_error cats k end) codes))%nat by (apply nth_error_Some; congruence).
    rewrite map_length in H. lia.
Qed.
Print Assumptions C78_map_partial.
(** Filtered rows get the invalid asked for only when some category is missing from the dictionary. *)
Theorem C78_filtered_partial :
  forall (A C : Type) (o : ord A), total o -> forall (cats : list A) (codes : list nat) (d : list (A * C)) (filtered_text : A) (inv rf : C) r,
  nth_error codes r = Some 0%nat -> assoc o d filtered_text = None -> (exists u, In u cats /\ assoc o d u = None) ->
  nth_error (map_dict o cats codes d filtered_text inv rf) r = Some inv.
Proof. intros. apply map_dict_filtered; assumption. Qed.
Print Assumptions C78_filtered_partial.
Theorem C78_invalid_ignored_refuted :
  exists (cats : list nat) (codes : list nat) (d : list (nat * nat)) filtered_text inv rf,
    nth_error codes 1 = Some 0%nat /\ inv <> rf /\ nth_error (map_dict nat_ord cats codes d filtered_text inv rf) 1 = Some rf.
Proof. exists [10; 20]%nat, [1; 0]%nat, [(10, 1); (20, 2)]%nat, 0%nat, 666%nat, 7%nat. repeat split. lia. Qed.
Print Assumptions C78_invalid_ignored_refuted.
Example C78_case : map_dict nat_ord [10; 20; 30]%nat [3; 0; 1; 2]%nat [(10, 1); (30, 3)]%nat 0%nat 666%nat 7%nat = [3; 666; 1; 666]%nat.
Proof. vm_compute. reflexivity. Qed.

(** *** C79: counting and encoding *)
(** nunique counts the distinct values shown, filtered rows not counted. *)
Theorem C79_nunique :
  forall (A : Type), (forall a b : A, {a = b} + {a <> b}) -> forall (cats : list A) (base : Z) (codes : list Z),
  base = 0 \/ base = 1 -> NoDup cats -> Forall (fun k => 0 <= k < base + Z.of_nat (length cats)) codes ->
  exists vs, NoDup vs /\ (forall a, In a vs <-> In (Some a) (map (cval base cats) codes)) /\ nunique base codes = length vs.
Proof.
  intros A dec cats base codes B N F. apply nunique_ok; auto. eapply Forall_impl; [|exact F]. intros k Hk. cbv beta in *. unfold in_range. lia.
Qed.
Print Assumptions C79_nunique.
(** one_hot_encode: column j is true exactly for the rows that show category j. *)
Theorem C79_one_hot :
  forall (A : Type) (cats : list A) (base : Z) (codes : list Z) j a r k col,
  NoDup cats -> nth_error cats j = Some a -> nth_error codes r = Some k ->
  nth_error (one_hot base (length cats) codes) j = Some col ->
  exists b, nth_error col r = Some b /\ (b = true <-> cval base cats k = Some a).
Proof.
  intros A cats base codes j a r k col N Ej Ek Ec. unfold one_hot in Ec. apply nth_error_map_seq in Ec. destruct Ec as [Hj ->].
  eexists. split; [rewrite (map_nth_error _ _ _ Ek); reflexivity|]. rewrite Z.eqb_eq, cval_some. split.
  - intros ->. split; [lia|]. rewrite <- Ej. f_equal. lia.
  - intros [Hb E]. assert (Z.to_nat (k - base) = j) by (apply (proj1 (NoDup_nth_error cats) N); [apply nth_error_Some; congruence|congruence]). lia.
Qed.
Print Assumptions C79_one_hot.
Example C79_case : nunique 1 [2; 0; 1; 2] = 2%nat /\ nunique 0 [2; 0; 1; 2] = 3%nat /\
  one_hot 1 2 [2; 0; 1] = [[false; false; true]; [true; false; false]].
Proof. vm_compute. auto. Qed.

(** *** C80: shift_cat *)
(** Base 1: rows move down by n places and the first n rows are filtered. *)
Theorem C80_shift_partial :
  forall (A : Type) (cats : list A) (n : nat) (codes : list Z) r, (r < length codes)%nat ->
  nth_error (map (cval 1 cats) (shift_codes n codes)) r =
  if (r <? n)%nat then Some None else nth_error (map (cval 1 cats) codes) (r - n).
Proof.
  intros A cats n codes r H. unfold shift_codes. rewrite <- firstn_map, map_app.
  assert (F : forall (X : Type) (l : list X) m i, (i < m)%nat -> nth_error (firstn m l) i = nth_error l i).
  { intros X l. induction l as [|x l IH]; intros [|m] [|i] L; try lia; try reflexivity. cbn. apply IH. lia. }
  rewrite F by exact H. destruct (Nat.ltb_spec r n) as [L|L].
  - rewrite nth_error_app1 by (rewrite map_length, repeat_length; exact L). rewrite (map_nth_error _ _ _ (nth_error_repeat 0 L)). reflexivity.
  - rewrite nth_error_app2; rewrite map_length, repeat_length; [reflexivity|exact L].
Qed.
Print Assumptions C80_shift_partial.
(** Base 0: the rows brought in show the first category. *)
Theorem C80_shift_base0_refuted :
  exists (cats : list nat) codes, nth_error (map (cval 0 cats) (shift_codes 1 codes)) 0 = Some (Some 10%nat) /\ map (cval 0 cats) codes = [Some 20; Some 20]%nat.
Proof. exists [10; 20]%nat, [1; 1]. split; reflexivity. Qed.
Print Assumptions C80_shift_base0_refuted.
Example C80_case : map (cval 1 [10; 20]%nat) (shift_codes 1 [2; 1; 0]) = [None; Some 20; Some 10]%nat.
Proof. vm_compute. reflexivity. Qed.
