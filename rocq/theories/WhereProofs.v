From Coq Require Import List Arith ZArith Bool Lia.
From Verif Require Import GroupModel GroupingModel LosslessModel LosslessProofs WhereModel WhereSpec.
Import ListNotations.
Open Scope Z_scope.

Lemma spread_at {X} n (l : list X) i : (i < n)%nat -> length l = 1%nat \/ length l = n -> nth_error (spread n l) i = row_at l i.
Proof.
  intros H L. destruct l as [|a [|b r]]; cbn [spread row_at]; try reflexivity. now apply nth_error_repeat.
Qed.
Lemma spread_len {X} n (l : list X) : length l = 1%nat \/ length l = n -> length (spread n l) = n.
Proof. intros [H|H]; destruct l as [|a [|b r]]; cbn [spread length] in *; try lia; rewrite ?repeat_length; lia. Qed.
Lemma fits_len_iff {X} n (l : list X) : fits_len n l = true <-> length l = 1%nat \/ length l = n.
Proof. unfold fits_len. rewrite orb_true_iff, !Nat.eqb_eq. reflexivity. Qed.
Lemma nth_combine {X Y} : forall (a : list X) (b : list Y) i, nth_error (combine a b) i = match nth_error a i, nth_error b i with Some x, Some y => Some (x, y) | _, _ => None end.
Proof.
  induction a as [|x a IH]; intros [|y b] [|i]; cbn [combine nth_error]; try reflexivity.
  - destruct (nth_error a i); reflexivity.
  - apply IH.
Qed.

Lemma pick_where_many {X} cond (x y : list X) : (2 <= length cond)%nat ->
  (length x = 1%nat \/ length x = length cond) -> (length y = 1%nat \/ length y = length cond) ->
  exists l, pick_where cond x y = Some l /\ length l = length cond /\ forall i, (i < length cond)%nat -> nth_error l i = chosen cond (row_at x) (row_at y) i.
Proof.
  intros L Hx Hy. unfold pick_where. destruct cond as [|c0 cond0]; [cbn in L; lia|]. set (cond := c0 :: cond0) in *.
  destruct (Nat.eqb_spec (length cond) 1) as [E1|E1]; [lia|].
  destruct (Nat.eqb_spec (length x) 0) as [E2|E2]; [lia|]. destruct (Nat.eqb_spec (length y) 0) as [E3|E3]; [lia|]. cbn [orb].
  rewrite (proj2 (fits_len_iff _ _) Hx), (proj2 (fits_len_iff _ _) Hy). cbn [andb]. set (n := length cond) in *.
  assert (Sc : spread n cond = cond) by (destruct cond as [|a [|b r]]; try reflexivity; cbn in *; lia).
  rewrite Sc. eexists. split; [reflexivity|]. split.
  - rewrite map_length, !combine_length, !spread_len by assumption. fold n. lia.
  - intros i Hi. rewrite nth_error_map, !nth_combine, !spread_at by assumption. unfold chosen.
    assert (Nx : row_at x i <> None) by (destruct x as [|a [|b r]]; cbn [row_at]; [cbn in *; lia|discriminate|apply nth_error_Some; cbn in *; lia]).
    assert (Ny : row_at y i <> None) by (destruct y as [|a [|b r]]; cbn [row_at]; [cbn in *; lia|discriminate|apply nth_error_Some; cbn in *; lia]).
    destruct (nth_error cond i) as [[|]|]; destruct (row_at x i); destruct (row_at y i); try congruence; reflexivity.
Qed.
Lemma pick_where_none {X} cond (x y : list X) : (2 <= length cond)%nat ->
  pick_where cond x y = None <-> ~ (length x = 1%nat \/ length x = length cond) \/ ~ (length y = 1%nat \/ length y = length cond).
Proof.
  intros L. split.
  - intros E. destruct (fits_len (length cond) x) eqn:Fx; destruct (fits_len (length cond) y) eqn:Fy.
    + apply fits_len_iff in Fx. apply fits_len_iff in Fy. destruct (pick_where_many cond x y L Fx Fy) as (l & E' & _). congruence.
    + right. intros H. apply fits_len_iff in H. congruence.
    + left. intros H. apply fits_len_iff in H. congruence.
    + left. intros H. apply fits_len_iff in H. congruence.
  - intros H. unfold pick_where. destruct cond as [|c0 cond0]; [cbn in L; lia|]. set (cond := c0 :: cond0) in *.
    destruct (Nat.eqb_spec (length cond) 1); [lia|]. destruct ((length x =? 0)%nat || (length y =? 0)%nat); [reflexivity|].
    destruct (fits_len (length cond) x && fits_len (length cond) y) eqn:F; [|reflexivity]. apply andb_true_iff in F. rewrite !fits_len_iff in F. tauto.
Qed.

Lemma scal_holds z : sentinel I64 < z <= max_of U64 -> z <> sentinel U64 -> raw_value (scal_type z) z = Some (z * one).
Proof.
  intros H N. unfold raw_value, scal_type. destruct (Z.leb_spec z (max_of I64)).
  - destruct (Z.eqb_spec z (sentinel I64)); [lia|reflexivity].
  - destruct (Z.eqb_spec z (sentinel U64)); [contradiction|reflexivity].
Qed.

Lemma conv_row junk c o n i v : operand_ok n o -> row_at (conv junk c o) i = Some v ->
  (match operand_at o i with Some (Some w) => holds c w | _ => True end) -> operand_at o i = Some v.
Proof.
  destruct o as [d l|z]; cbn [operand_ok conv operand_at].
  - intros _. destruct (dt_dec d c); [intros -> _; reflexivity|]. intros E H.
    assert (R : row_at (map (cast junk d c) l) i = option_map (cast junk d c) (row_at l i)) by (destruct l as [|a [|b r]]; cbn [row_at map]; [now destruct i|reflexivity|apply (nth_error_map (cast junk d c) i (a :: b :: r))]).
    rewrite R in E. destruct (row_at l i) as [[w|]|]; cbn [option_map] in E; [|exact E|discriminate]. rewrite (cast_exact junk d c w H) in E. congruence.
  - intros B E H. cbn [row_at] in E. injection E as <-. f_equal.
    assert (R : raw_value (scal_type z) z = Some (z * one)) by (apply scal_holds; cbn; lia).
    destruct (dt_dec (scal_type z) c) as [<-|Nc]; [exact (eq_sym R)|]. rewrite R. now rewrite (cast_exact junk (scal_type z) c (z * one) H).
Qed.
Lemma conv_len junk c o n : operand_ok n o -> length (conv junk c o) = 1%nat \/ length (conv junk c o) = n.
Proof. destruct o as [d l|z]; cbn [operand_ok conv]; [|now left]. intros [H _]. destruct (dt_dec d c); rewrite ?map_length; exact H. Qed.

Lemma chosen_ext {X} cond (x y x' y' : nat -> option X) i : (nth_error cond i = Some true -> x i = x' i) -> (nth_error cond i = Some false -> y i = y' i) -> chosen cond x y i = chosen cond x' y' i.
Proof. unfold chosen. destruct (nth_error cond i) as [[|]|]; auto. Qed.
Lemma row_at_some {X} (l : list X) n i : length l = 1%nat \/ length l = n -> (i < n)%nat -> exists v, row_at l i = Some v.
Proof. intros H L. destruct (row_at l i) eqn:E; [eauto|]. exfalso. destruct l as [|a [|b r]]; cbn [row_at] in E; [cbn in H; lia|discriminate|]. apply nth_error_None in E. cbn in *. lia. Qed.

Lemma where_num_ok junk cond x y c : (2 <= length cond)%nat -> operand_ok (length cond) x -> operand_ok (length cond) y ->
  common_dtype x y = Some c ->
  (forall i v, chosen cond (operand_at x) (operand_at y) i = Some (Some v) -> holds c v) ->
  exists l, where_num junk cond x y = Some (c, l) /\ length l = length cond /\ forall i, (i < length cond)%nat -> nth_error l i = chosen cond (operand_at x) (operand_at y) i.
Proof.
  intros L Hx Hy C H. unfold where_num. rewrite C.
  destruct (pick_where_many cond (conv junk c x) (conv junk c y) L (conv_len junk c x _ Hx) (conv_len junk c y _ Hy)) as (l & E & Ll & Hl). rewrite E. exists l. split; [reflexivity|]. split; [exact Ll|].
  intros i Hi. rewrite (Hl i Hi). apply chosen_ext; intros Ec.
  - destruct (row_at_some _ _ i (conv_len junk c x _ Hx) Hi) as [v Ev]. rewrite Ev. symmetry. eapply conv_row; [exact Hx|exact Ev|]. destruct (operand_at x i) as [[w|]|] eqn:Ew; try exact I. apply (H i). unfold chosen. now rewrite Ec, Ew.
  - destruct (row_at_some _ _ i (conv_len junk c y _ Hy) Hi) as [v Ev]. rewrite Ev. symmetry. eapply conv_row; [exact Hy|exact Ev|]. destruct (operand_at y i) as [[w|]|] eqn:Ew; try exact I. apply (H i). unfold chosen. now rewrite Ec, Ew.
Qed.
Lemma common_lossless d1 l1 d2 l2 c : find_lossless d1 d2 = Some c -> common_dtype (OArr d1 l1) (OArr d2 l2) = Some c.
Proof.
  intros H. unfold common_dtype. cbn [opd_type]. unfold find_lossless in H. destruct (can_represent d1 _ && can_represent d2 _); [|discriminate]. injection H as <-. f_equal. destruct (dt_dec d1 d2) as [->|]; [|reflexivity]. now destruct d2.
Qed.
Lemma row_at_in {X} (l : list X) i v : row_at l i = Some v -> In v l.
Proof. destruct l as [|a [|b r]]; cbn [row_at]; intros E; [now destruct i|injection E as <-; now left|]. exact (nth_error_In _ _ E). Qed.
Lemma arrays_hold cond d1 l1 d2 l2 n c i v : find_lossless d1 d2 = Some c -> operand_ok n (OArr d1 l1) -> operand_ok n (OArr d2 l2) ->
  chosen cond (operand_at (OArr d1 l1)) (operand_at (OArr d2 l2)) i = Some (Some v) -> holds c v.
Proof.
  intros F [_ F1] [_ F2] E. unfold chosen in E. cbn [operand_at] in E. rewrite Forall_forall in F1, F2.
  destruct (nth_error cond i) as [[|]|]; [|..|discriminate].
  - apply (proj1 (find_lossless_holds d1 d2 c F v)). exact (F1 _ (row_at_in _ _ _ E)).
  - apply (proj2 (find_lossless_holds d1 d2 c F v)). exact (F2 _ (row_at_in _ _ _ E)).
Qed.

(** one element *)
Lemma pick_where_one {X} b (x y : list X) : pick_where [b] x y = let n := Nat.max (length x) (length y) in
  if (length x =? 0)%nat || (length y =? 0)%nat then None else if fits_len n x && fits_len n y then Some (if b then spread n x else spread n y) else None.
Proof.
  unfold pick_where. cbn [length Nat.eqb]. cbv zeta. set (n := Nat.max (length x) (length y)). destruct (_ || _); [reflexivity|]. destruct (fits_len n x && fits_len n y) eqn:F; [|reflexivity]. f_equal.
  apply andb_true_iff in F. rewrite !fits_len_iff in F. destruct F as [Fx Fy]. apply spread_len in Fx. apply spread_len in Fy. cbn [spread]. revert Fx Fy. clearbody n. generalize (spread n x) (spread n y). intros l; revert n.
  induction l as [|a l IH]; intros [|m] [|a' l'] H1 H2; try discriminate; [now destruct b|]. cbn [repeat combine map fst snd]. rewrite (IH m l'); [|cbn in *; lia|cbn in *; lia]. now destruct b.
Qed.
Lemma np_cast_id junk from to l : (forall v, In (Some v) l -> holds to v) -> (is_int from = true \/ is_int to = true -> ~ In None l) -> map (np_cast junk from to) l = l.
Proof.
  intros H N. rewrite <- (map_id l) at 2. apply map_ext_in. intros [v|] I; cbn [np_cast]; [apply cast_exact; auto|].
  destruct (is_int from); [exfalso; apply N; auto|]. destruct (is_int to); [exfalso; apply N; auto|reflexivity].
Qed.

(** ---------- assignment ---------- *)
Lemma put_len {X} (l : list X) : forall i v, length (put l i v) = length l.
Proof. induction l as [|x r IH]; intros [|i] v; cbn [put length]; congruence. Qed.
Lemma put_at {X} (l : list X) : forall i v j, (i < length l)%nat -> nth_error (put l i v) j = if (i =? j)%nat then Some v else nth_error l j.
Proof.
  induction l as [|x r IH]; intros [|i] v [|j] H; cbn [put nth_error length Nat.eqb] in *; try lia; try reflexivity. apply IH. lia.
Qed.
Lemma assign_fold {X} : forall idx vals (l : list X), length vals = length idx -> forallb (fun i => (i <? length l)%nat) idx = true ->
  let r := fold_left (fun l p => put l (fst p) (snd p)) (combine idx vals) l in
  length r = length l /\ forall j, nth_error r j = match last_put idx vals j with Some v => Some v | None => nth_error l j end.
Proof.
  induction idx as [|i idx IH]; intros [|v vals] l L F; try discriminate; cbn [combine fold_left last_put fst snd].
  - split; [reflexivity|]. reflexivity.
  - cbn [forallb] in F. apply andb_true_iff in F. destruct F as [F1 F2]. apply Nat.ltb_lt in F1. destruct (IH vals (put l i v)) as [R1 R2]; [cbn in L; lia|now rewrite put_len|]. rewrite put_len in R1. split; [exact R1|].
    intros j. rewrite R2. destruct (last_put idx vals j); [reflexivity|]. rewrite put_at by assumption. now destruct (i =? j)%nat.
Qed.
Lemma last_put_map {X Y} (f : X -> Y) idx vals i : last_put idx (map f vals) i = option_map f (last_put idx vals i).
Proof. revert vals. induction idx as [|j idx IH]; intros [|v vals]; try reflexivity. cbn [map last_put]. rewrite IH. destruct (last_put idx vals i); [reflexivity|]. now destruct (j =? i)%nat. Qed.
Lemma last_put_rows {X} (a b : list X) idx i : (forall k x y, nth_error a k = Some x -> nth_error b k = Some y -> x = y) -> length a = length b -> last_put idx a i = last_put idx b i.
Proof.
  intros H L. assert (a = b); [|now subst]. revert b H L. induction a as [|x a IH]; intros [|y b] H L; try discriminate; [reflexivity|]. f_equal; [exact (H O x y eq_refl eq_refl)|]. apply IH; [intros k; exact (H (S k))|cbn in L; lia].
Qed.
Lemma last_put_in {X} idx (vals : list X) i v : last_put idx vals i = Some v -> exists k, nth_error idx k = Some i /\ nth_error vals k = Some v.
Proof.
  revert vals. induction idx as [|j idx IH]; intros [|w vals] E; try discriminate. cbn [last_put] in E. destruct (last_put idx vals i) eqn:Q.
  - injection E as ->. destruct (IH vals Q) as (k & A & B). now exists (S k).
  - destruct (Nat.eqb_spec j i) as [->|]; [|discriminate]. injection E as ->. now exists O.
Qed.

Lemma rows_of_arr d l n : rows_of (OArr d l) n = spread n l.
Proof. now destruct l as [|a [|b r]]. Qed.
Lemma rows_of_at o n i : operand_ok n o -> (i < n)%nat -> nth_error (rows_of o n) i = operand_at o i.
Proof. destruct o as [d l|z]; rewrite ?rows_of_arr; cbn [operand_ok rows_of operand_at]; intros H L; [apply spread_at; tauto|now apply nth_error_repeat]. Qed.
Lemma rows_of_len o n : operand_ok n o -> length (rows_of o n) = n.
Proof. destruct o as [d l|z]; rewrite ?rows_of_arr; cbn [operand_ok rows_of]; intros H; [apply spread_len; tauto|apply repeat_length]. Qed.
Lemma setitem_ok junk d l idx o : operand_ok (length idx) o -> Forall (fun i => (i < length l)%nat) idx ->
  (forall i v, last_put idx (rows_of o (length idx)) i = Some (Some v) -> holds d v) ->
  exists l', setitem_num junk d l idx o = Some l' /\ length l' = length l /\
    forall j, nth_error l' j = match last_put idx (rows_of o (length idx)) j with Some v => Some v | None => nth_error l j end.
Proof.
  intros K F H. unfold setitem_num, assign.
  assert (Fb : forallb (fun i => (i <? length l)%nat) idx = true) by (apply forallb_forall; rewrite Forall_forall in F; intros i I; apply Nat.ltb_lt; auto).
  pose proof (conv_len junk d o _ K) as Lc. rewrite Fb, (proj2 (fits_len_iff _ _) Lc). cbn [andb].
  destruct (assign_fold idx (spread (length idx) (conv junk d o)) l (spread_len _ _ Lc) Fb) as [R1 R2]. eexists. split; [reflexivity|]. split; [exact R1|].
  intros j. rewrite R2.
  assert (E : last_put idx (spread (length idx) (conv junk d o)) j = last_put idx (rows_of o (length idx)) j); [|now rewrite E].
  set (a := spread (length idx) (conv junk d o)) in *. set (b := rows_of o (length idx)) in *. assert (La : length a = length idx) by (apply spread_len, Lc). assert (Lb : length b = length idx) by (apply rows_of_len, K).
  assert (Pt : forall k x y, nth_error a k = Some x -> nth_error b k = Some y -> (match y with Some v => holds d v | None => True end) -> x = y).
  { intros k x y Ex Ey Hy. assert (Hk : (k < length idx)%nat) by (rewrite <- La; apply nth_error_Some; congruence). unfold a in Ex. rewrite spread_at in Ex by assumption. unfold b in Ey. rewrite rows_of_at in Ey by assumption.
    assert (Q : operand_at o k = Some x) by (eapply conv_row; [exact K|exact Ex|]; rewrite Ey; destruct y; [exact Hy|exact I]). congruence. }
  clearbody a b. clear - Pt H La Lb. revert a b La Lb Pt H. induction idx as [|i idx IH]; intros [|x a] [|y b] La Lb Pt H; try discriminate; [reflexivity|]. cbn [last_put].
  rewrite (IH a b); [| cbn in *; lia | cbn in *; lia | intros k; exact (Pt (S k)) |].
  - destruct (last_put idx b j) eqn:E; [reflexivity|]. destruct (Nat.eqb_spec i j) as [->|]; [|reflexivity]. f_equal. apply (Pt O x y eq_refl eq_refl). destruct y as [v|]; [|exact I]. apply (H j). cbn [last_put]. now rewrite E, Nat.eqb_refl.
  - intros i0 v E. apply (H i0). cbn [last_put]. now rewrite E.
Qed.
