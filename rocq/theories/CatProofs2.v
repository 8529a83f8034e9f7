(** Category edits and assignment: the invariant and the effect on the value of every row. *)
From Coq Require Import List Arith ZArith Bool Lia.
From Verif Require Import GroupModel GroupFacts FillModel FillProofs GroupingModel GroupingProofs CatModel CatSpec CatProofs.
Import ListNotations.
Local Open Scope Z_scope.

Section Edits.
Context {A : Type}.
Variable o : ord A.
Hypothesis T : total o.

(** the states categoricals are in: [W] a lower bound of the width of the category array *)
Record cat_ok (W : nat) (h : heap A) (c : cat) : Prop := mkOk {
  k_loc : (c_list c < length h)%nat;
  k_list : list_ok o (c_sorted c) (items h (c_list c));
  k_codes : Forall (in_range (c_base c) (items h (c_list c))) (c_codes c);
  k_base : c_base c = 0 \/ c_base c = 1;
  k_width : (W <= a_width (get_arr h (c_list c)))%nat }.

Lemma get_app_old (h : heap A) a l : (l < length h)%nat -> get_arr (h ++ [a]) l = get_arr h l.
Proof. intros H. unfold get_arr. apply app_nth1. exact H. Qed.
Lemma get_app_new (h : heap A) a : get_arr (h ++ [a]) (length h) = a.
Proof. unfold get_arr. rewrite app_nth2, Nat.sub_diag by lia. reflexivity. Qed.
Lemma get_set (h : heap A) l a : (l < length h)%nat -> get_arr (set_arr h l a) l = a.
Proof.
  intros H. unfold get_arr, set_arr. rewrite app_nth2; rewrite firstn_length_le by lia; [|lia].
  rewrite Nat.sub_diag. reflexivity.
Qed.
Lemma set_length (h : heap A) l a : (l < length h)%nat -> length (set_arr h l a) = length h.
Proof. intros H. unfold set_arr. rewrite app_length, firstn_length_le by lia. cbn [length]. rewrite skipn_length. lia. Qed.

(** the values of the rows, as comparisons see them *)
Definition vals (h : heap A) (c : cat) : list (option A) := map (cval (c_base c) (items h (c_list c))) (c_codes c).

Lemma nodup_snoc (l : list A) v : NoDup l -> ~ In v l -> NoDup (l ++ [v]).
Proof. intros N H. apply nodup_app_one; assumption. Qed.

Lemma drop_nth {B} (l : list B) j i : (j < length l)%nat ->
  nth_error (firstn j l ++ skipn (S j) l) i = nth_error l (if (i <? j)%nat then i else S i).
Proof.
  intros H. destruct (Nat.ltb_spec i j) as [L|L].
  - rewrite nth_error_app1 by (rewrite firstn_length_le; lia). clear H. revert i j L.
    induction l as [|x r IH]; intros i j L; destruct j as [|j]; try lia; [destruct i; reflexivity|].
    destruct i as [|i]; [reflexivity|]. cbn [firstn nth_error]. apply IH. lia.
  - rewrite nth_error_app2 by (rewrite firstn_length_le; lia). rewrite firstn_length_le by lia.
    rewrite nth_error_skipn. f_equal. lia.
Qed.
Lemma drop_length {B} (l : list B) j : (j < length l)%nat -> length (firstn j l ++ skipn (S j) l) = (length l - 1)%nat.
Proof. intros H. rewrite app_length, firstn_length_le, skipn_length by lia. lia. Qed.
Lemma put_nth {B} (l : list B) j v i : (j < length l)%nat ->
  nth_error (firstn j l ++ v :: skipn (S j) l) i = if (i =? j)%nat then Some v else nth_error l i.
Proof.
  intros H. destruct (Nat.eqb_spec i j) as [->|N].
  - rewrite nth_error_app2 by (rewrite firstn_length_le; lia). rewrite firstn_length_le by lia. rewrite Nat.sub_diag. reflexivity.
  - destruct (Nat.lt_trichotomy i j) as [L|[L|L]]; [|lia|].
    +
      rewrite nth_error_app1 by (rewrite firstn_length_le; lia).
      pose proof (drop_nth l j i H) as D. rewrite nth_error_app1 in D by (rewrite firstn_length_le; lia).
      rewrite D. destruct (Nat.ltb_spec i j); [reflexivity|lia].
    + rewrite nth_error_app2 by (rewrite firstn_length_le; lia). rewrite firstn_length_le by lia.
      destruct (i - j)%nat as [|d] eqn:E; [lia|]. cbn [nth_error]. rewrite nth_error_skipn. f_equal. lia.
Qed.
Lemma put_length {B} (l : list B) j v : (j < length l)%nat -> length (firstn j l ++ v :: skipn (S j) l) = length l.
Proof. intros H. rewrite app_length, firstn_length_le by lia. cbn [length]. rewrite skipn_length. lia. Qed.

Lemma list_ok_drop b l j : (j < length l)%nat -> list_ok o b l -> list_ok o b (firstn j l ++ skipn (S j) l).
Proof.
  intros H. destruct b; unfold list_ok.
  - intros I x y a d L Ex Ey. rewrite drop_nth in Ex by lia. rewrite drop_nth in Ey by lia.
    eapply I; [|exact Ex|exact Ey]. destruct (Nat.ltb_spec x j), (Nat.ltb_spec y j); lia.
  - intros N. apply NoDup_nth_error. intros x y Hx E. rewrite drop_length in Hx by lia. rewrite !drop_nth in E by lia.
    apply (proj1 (NoDup_nth_error l) N) in E; destruct (Nat.ltb_spec x j), (Nat.ltb_spec y j); lia.
Qed.
Lemma nodup_put (l : list A) j v : (j < length l)%nat -> NoDup l -> ~ In v l -> NoDup (firstn j l ++ v :: skipn (S j) l).
Proof.
  intros H N I. apply NoDup_nth_error. intros x y Hx E. rewrite put_length in Hx by lia. rewrite !put_nth in E by lia.
  destruct (Nat.eqb_spec x j), (Nat.eqb_spec y j); try lia.
  - exfalso. apply I. eapply nth_error_In. symmetry. exact E.
  - exfalso. apply I. eapply nth_error_In. exact E.
  - apply (proj1 (NoDup_nth_error l) N); assumption.
Qed.

(** an edit that succeeds: the invariant stays, and every row's value changes as specified *)
Definition edit_fits (W : nat) (e : @edit A) : Prop :=
  match e with Ereplace _ w => (o_len o w <= W)%nat | _ => True end.

Lemma match_spec' W h c v (K : cat_ok W h c) :
  match cat_match o h c v with
  | Some r => cval (c_base c) (items h (c_list c)) r = Some v /\ in_range (c_base c) (items h (c_list c)) r
  | None => ~ In v (items h (c_list c))
  end.
Proof. apply match_spec; [exact T|exact (k_list _ _ _ K)]. Qed.

Lemma map_ext_forall {B C} (P : B -> Prop) (f g : B -> C) l : Forall P l -> (forall x, P x -> f x = g x) -> map f l = map g l.
Proof. intros F H. apply map_ext_in. intros x I. apply H. eapply Forall_forall; eassumption. Qed.

Lemma nodup_at (l : list A) i j x : NoDup l -> nth_error l i = Some x -> nth_error l j = Some x -> i = j.
Proof. intros N E1 E2. apply (proj1 (NoDup_nth_error l) N); [apply nth_error_Some; congruence|congruence]. Qed.

Local Opaque skipn.
Lemma edit_ok W h c e h' c' (K : cat_ok W h c) (F : edit_fits W e) : do_edit o h c e = Some (h', c') ->
  cat_ok W h' c' /\ vals h' c' = map (after_edit o e) (vals h c).
Proof.
  pose proof (list_ok_nodup o T _ _ (k_list _ _ _ K)) as N.
  destruct e as [v|v|v w]; cbn [do_edit].
  - unfold category_add. pose proof (match_spec' W h c v K) as M. destruct (cat_match o h c v) as [r|] eqn:Em; [discriminate|].
    intros [= <- <-]. unfold vals, items. cbn [c_list c_codes c_base c_sorted]. rewrite !get_app_new. cbn [a_items a_width].
    fold (items h (c_list c)). split.
    + constructor; unfold items; cbn [c_list c_codes c_base c_sorted]; rewrite ?get_app_new; cbn [a_items a_width]; fold (items h (c_list c)).
      * rewrite app_length. cbn. lia.
      * unfold list_ok. apply nodup_snoc; assumption.
      * eapply Forall_impl; [|exact (k_codes _ _ _ K)]. intros k R. unfold in_range in *. rewrite app_length. lia.
      * exact (k_base _ _ _ K).
      * pose proof (k_width _ _ _ K). lia.
    + rewrite map_map. apply (map_ext_forall _ _ _ _ (k_codes _ _ _ K)). intros k R. unfold in_range in R. unfold cval.
      destruct (Z.ltb_spec k (c_base c)); [reflexivity|]. rewrite nth_error_app1 by lia.
      destruct (nth_error _ _) eqn:E; reflexivity.
  - unfold category_remove. pose proof (match_spec' W h c v K) as M. destruct (cat_match o h c v) as [r|] eqn:Em; [|discriminate].
    destruct M as [Mv Mr]. intros [= <- <-]. apply cval_some in Mv. destruct Mv as [Mb Mv]. set (j := Z.to_nat (r - c_base c)) in *.
    assert (Hj : (j < length (items h (c_list c)))%nat) by (apply nth_error_Some; congruence).
    assert (Hinv : (if c_base c =? 0 then -1 else 0) = c_base c - 1) by (destruct (k_base _ _ _ K) as [->| ->]; reflexivity).
    rewrite Hinv. unfold vals, items. cbn [c_list c_codes c_base c_sorted]. rewrite !get_app_new. cbn [a_items a_width].
    fold (items h (c_list c)). split.
    + constructor; unfold items; cbn [c_list c_codes c_base c_sorted]; rewrite ?get_app_new; cbn [a_items a_width]; fold (items h (c_list c)).
      * rewrite app_length. cbn. lia.
      * apply list_ok_drop; [exact Hj|exact (k_list _ _ _ K)].
      * apply Forall_map. eapply Forall_impl; [|exact (k_codes _ _ _ K)]. intros k R. unfold in_range in *. rewrite drop_length by lia.
        unfold remove_code. destruct (Z.eqb_spec k r); destruct (Z.ltb_spec r (c_base c - 1)); try lia; destruct (Z.ltb_spec r k); lia.
      * exact (k_base _ _ _ K).
      * exact (k_width _ _ _ K).
    + rewrite !map_map. apply (map_ext_forall _ _ _ _ (k_codes _ _ _ K)). intros k R. unfold in_range in R.
      unfold remove_code. destruct (Z.eqb_spec k r) as [->|Nk].
      * destruct (Z.ltb_spec r (c_base c - 1)); [lia|]. unfold cval at 1. destruct (Z.ltb_spec (c_base c - 1) (c_base c)); [|lia].
        unfold cval. destruct (Z.ltb_spec r (c_base c)); [reflexivity|]. fold j. rewrite Mv. cbn. rewrite (eqb_refl o T). reflexivity.
      * unfold cval at 2. destruct (Z.ltb_spec k (c_base c)).
        -- destruct (Z.ltb_spec r k); [lia|]. unfold cval. destruct (Z.ltb_spec k (c_base c)); [reflexivity|lia].
        -- destruct (nth_error (items h (c_list c)) (Z.to_nat (k - c_base c))) as [x|] eqn:Ex; [|apply nth_error_None in Ex; lia].
           assert (Q : o_eqb o x v = false). { apply (eqb_false o T). intros ->. pose proof (nodup_at _ _ _ _ N Ex Mv). unfold j in *. lia. }
           cbn [after_edit]. rewrite Q. unfold cval. destruct (Z.ltb_spec r k).
           ++ destruct (Z.ltb_spec (k - 1) (c_base c)); [lia|]. rewrite drop_nth by lia.
              destruct (Nat.ltb_spec (Z.to_nat (k - 1 - c_base c)) j); [unfold j in *; lia|].
              rewrite <- Ex. f_equal. lia.
           ++ destruct (Z.ltb_spec k (c_base c)); [lia|]. rewrite drop_nth by lia.
              destruct (Nat.ltb_spec (Z.to_nat (k - c_base c)) j); [exact Ex|unfold j in *; lia].
  - unfold category_replace. pose proof (match_spec' W h c v K) as M. destruct (cat_match o h c v) as [r|] eqn:Em; [|discriminate].
    destruct M as [Mv Mr]. apply cval_some in Mv. destruct Mv as [Mb Mv]. set (j := Z.to_nat (r - c_base c)) in *.
    assert (Hj : (j < length (items h (c_list c)))%nat) by (apply nth_error_Some; congruence).
    pose proof (match_spec' W h c w K) as Mw. destruct (cat_match o h c w) as [e|] eqn:Ew; intros [= <- <-].
    + destruct Mw as [Wv Wr]. split.
      * constructor; cbn [c_list c_codes c_base c_sorted]; try apply K. apply Forall_map.
        eapply Forall_impl; [|exact (k_codes _ _ _ K)]. intros k R. destruct (k =? r); assumption.
      * unfold vals. cbn [c_list c_codes c_base c_sorted]. rewrite !map_map. apply (map_ext_forall _ _ _ _ (k_codes _ _ _ K)). intros k R.
        unfold in_range in R. destruct (Z.eqb_spec k r) as [->|Nk].
        -- rewrite Wv. unfold cval. destruct (Z.ltb_spec r (c_base c)); [lia|]. fold j. rewrite Mv. cbn. rewrite (eqb_refl o T). reflexivity.
        -- destruct (cval (c_base c) (items h (c_list c)) k) as [x|] eqn:Ex; [|reflexivity]. cbn [after_edit].
           assert (Q : o_eqb o x v = false). { apply (eqb_false o T). intros ->. apply cval_some in Ex. destruct Ex as [Kb Ex]. pose proof (nodup_at _ _ _ _ N Ex Mv). unfold j in *. lia. }
           rewrite Q. reflexivity.
    + cbn [edit_fits] in F. pose proof (k_width _ _ _ K) as HW. pose proof (k_loc _ _ _ K) as HL.
      rewrite (t_fit o T) by lia.
      unfold vals, items. cbn [c_list c_codes c_base c_sorted]. rewrite !get_set by exact HL. cbn [a_items a_width].
      fold (items h (c_list c)). split.
      * constructor; unfold items; cbn [c_list c_codes c_base c_sorted]; rewrite ?get_set by exact HL; cbn [a_items a_width]; fold (items h (c_list c)).
        -- rewrite set_length; assumption.
        -- unfold list_ok. apply nodup_put; assumption.
        -- eapply Forall_impl; [|exact (k_codes _ _ _ K)]. intros k R. unfold in_range in *. rewrite put_length by lia. lia.
        -- exact (k_base _ _ _ K).
        -- exact HW.
      * rewrite !map_map. apply (map_ext_forall _ _ _ _ (k_codes _ _ _ K)). intros k R. unfold in_range in R. unfold cval.
        destruct (Z.ltb_spec k (c_base c)); [reflexivity|]. rewrite put_nth by lia.
        destruct (Nat.eqb_spec (Z.to_nat (k - c_base c)) j) as [->|Nk].
        -- rewrite Mv. cbn. rewrite (eqb_refl o T). reflexivity.
        -- destruct (nth_error (items h (c_list c)) (Z.to_nat (k - c_base c))) as [x|] eqn:Ex; [|reflexivity]. cbn [after_edit].
           assert (Q : o_eqb o x v = false). { apply (eqb_false o T). intros ->. apply Nk. exact (nodup_at _ _ _ _ N Ex Mv). }
           rewrite Q. reflexivity.
Qed.

Local Transparent skipn.
(** comparison reads off the values *)
Lemma compare_eq W h c s (K : cat_ok W h c) :
  compare o h c Ceq s = Some (map (fun v => match v with Some x => o_eqb o x s | None => false end) (vals h c)).
Proof.
  unfold compare. cbn [andb]. f_equal. unfold vals. rewrite map_map. apply (map_ext_forall _ _ _ _ (k_codes _ _ _ K)).
  intros k R. unfold zop, cat_index. apply eq_spec; [exact T|exact (k_list _ _ _ K)|exact R].
Qed.
Lemma compare_ne W h c s (K : cat_ok W h c) :
  compare o h c Cne s = Some (map (fun v => match v with Some x => negb (o_eqb o x s) | None => true end) (vals h c)).
Proof.
  unfold compare. cbn [andb]. f_equal. unfold vals. rewrite map_map. apply (map_ext_forall _ _ _ _ (k_codes _ _ _ K)).
  intros k R. unfold zop, cat_index. rewrite (eq_spec o T _ _ _ _ _ (k_list _ _ _ K) R). destruct (cval _ _ _); reflexivity.
Qed.

(** histories *)
Lemma edits_ok W : forall es h c, cat_ok W h c -> Forall (edit_fits W) es ->
  let s := fold_left (edit_step o) es (h, c) in cat_ok W (fst s) (snd s).
Proof.
  induction es as [|e es IH]; intros h c K F; [exact K|]. inversion F as [|? ? Fe Fs]; subst. cbn [fold_left].
  destruct (do_edit o h c e) as [[h' c']|] eqn:E;
    [replace (edit_step o (h, c) e) with (h', c') by (unfold edit_step; cbn [fst snd]; rewrite E; reflexivity)
    |replace (edit_step o (h, c) e) with (h, c) by (unfold edit_step; cbn [fst snd]; rewrite E; reflexivity)].
  - apply IH; [|exact Fs]. exact (proj1 (edit_ok W h c e h' c' K Fe E)).
  - apply IH; assumption.
Qed.
Lemma new_ok h w cats ordered base codes : list_ok o ordered cats -> (base = 0 \/ base = 1) ->
  Forall (in_range base cats) codes ->
  let s := new_cat h w cats ordered base codes in cat_ok w (fst s) (snd s).
Proof.
  intros L B R. cbn [new_cat fst snd]. constructor; unfold items; cbn [c_list c_codes c_base c_sorted]; rewrite ?get_app_new; cbn [a_items a_width]; auto.
  rewrite app_length. cbn. lia.
Qed.
(** an edit raises exactly when the category is already there / missing *)
Lemma edit_raises W h c e (K : cat_ok W h c) : do_edit o h c e = None <->
  match e with Eadd v => In v (items h (c_list c)) | Eremove v | Ereplace v _ => ~ In v (items h (c_list c)) end.
Proof.
  destruct e as [v|v|v w]; cbn [do_edit]; unfold category_add, category_remove, category_replace;
    pose proof (match_spec' W h c v K) as M; destruct (cat_match o h c v) as [r|].
  1,3,5: destruct M as [M _]; apply cval_some in M; destruct M as [_ M]; apply nth_error_In in M.
  - split; auto.
  - split; [discriminate|contradiction].
  - split; [destruct (cat_match o h c w)|]; try discriminate; contradiction.
  - split; [discriminate|contradiction].
  - split; auto.
  - split; auto.
Qed.
End Edits.
