From Coq Require Import List Arith ZArith Bool Lia.
From Verif Require Import LosslessModel ArrowModel ArrowSpec ArrowProofs.
Import ListNotations.
Open Scope Z_scope.

Lemma wrap_id d z : is_int d = true -> min_of d <= z <= max_of d -> wrap d z = z.
Proof.
  intros Hd H. unfold wrap. destruct d; try discriminate Hd; cbn in H |- *.
  all: rewrite Z.mod_small; lia.
Qed.
Lemma add_id d k z : is_int d = true -> z <> sentinel d -> min_of d <= z + k <= max_of d -> add_int d k z = z + k.
Proof. intros Hd N H. unfold add_int. destruct (Z.eqb_spec z (sentinel d)); [contradiction|]. now apply wrap_id. Qed.

Definition key_of (x : option Z) : Z := match x with Some i => i + 1 | None => 0 end.

Lemma map_combine_l {X Y Z} (f : X -> Y) (g : X -> Z) (l : list X) : combine (map f l) (map g l) = map (fun x => (f x, g x)) l.
Proof. induction l as [|x r IH]; [reflexivity|]. cbn [map combine]. now rewrite IH. Qed.

Lemma arrow_key_ok t idx count : is_int t = true -> idx_ok t idx count ->
  (is_signed t = false -> In (Some (max_of t)) idx -> ~ In None idx /\ bits t <> 64) ->
  (is_signed t = true -> In (Some (max_of t)) idx -> count - 1 = max_of t) ->
  count <= max_of I64 ->
  exists t2, arrow_key t idx count = Some (t2, map key_of idx, if has_null idx then Some (map (fun x => negb (is_null x)) idx) else None) /\ is_signed t2 = true /\ is_int t2 = true.
Proof.
  intros Ht O U S C. unfold arrow_key.
  assert (F : Forall (fits t) idx).
  { unfold idx_ok in O. rewrite Forall_forall in *. intros [i|] I; [|exact Logic.I]. cbn. pose proof (O _ I) as Q. cbn in Q. split; [|lia]. destruct t; try discriminate Ht; cbn; lia. }
  assert (Hs : In (Some (sentinel t)) idx -> is_signed t = false /\ sentinel t = max_of t).
  { intros I. destruct (sentinel_bound t Ht) as [[E M]|[E M]]; [|tauto]. exfalso. unfold idx_ok in O. rewrite Forall_forall in O. pose proof (O _ I) as Q. cbn in Q. rewrite M in Q. destruct t; try discriminate Ht; try discriminate E; cbn in Q; lia. }
  assert (One : exists t1, from_arrow_int t false true [idx] = Some (t1, fill_null (sentinel t) idx) /\ map (shown t1) (fill_null (sentinel t) idx) = idx /\ ((t1 = t /\ ~ In (Some (sentinel t)) idx) \/ (t1 = wider t /\ In (Some (sentinel t)) idx))).
  { unfold from_arrow_int. cbn [length concat Nat.ltb Nat.leb]. rewrite app_nil_r. apply from_one_ok; [assumption|assumption|]. intros I. destruct (Hs I) as [E M]. rewrite M in I. destruct (U E I). auto. }
  destruct One as (t1 & -> & Sh & D).
  set (raw := fill_null (sentinel t) idx) in *.
  assert (Ht1 : is_int t1 = true) by (destruct D as [[-> _]|[-> _]]; [assumption|now rewrite wider_int]).
  assert (Mask : (if has_null idx then Some (map (fun z => z =? sentinel t1) raw) else None) = if has_null idx then Some (map is_null idx) else None).
  { destruct (has_null idx); [|reflexivity]. f_equal. rewrite <- Sh at 1. rewrite map_map. apply map_ext. intros z. unfold shown. now destruct (z =? sentinel t1). }
  rewrite Mask. clear Mask.
  assert (Fin : forall f, (forall i, In (Some i) idx -> f i = i + 1) -> 
     match (if has_null idx then Some (map is_null idx) else None) with Some m => map (fun p => if fst p : bool then 0 else snd p) (combine m (map f raw)) | None => map f raw end = map key_of idx).
  { intros f Hf. unfold raw, fill_null. rewrite map_map. destruct (has_null idx) eqn:En.
    - rewrite map_combine_l, map_map. apply map_ext_in. intros [i|] I; cbn; [now apply Hf|reflexivity].
    - apply map_ext_in. intros [i|] I; cbn; [now apply Hf|]. apply has_null_not in En. contradiction. }
  assert (V : forall i, In (Some i) idx -> 0 <= i < count /\ i <= max_of t /\ i <> sentinel t1).
  { intros i I. unfold idx_ok in O. rewrite Forall_forall in O. pose proof (O _ I) as Q. cbn in Q. split; [lia|]. split; [lia|]. rewrite <- Sh in I. apply in_map_iff in I. destruct I as [z [E _]]. unfold shown in E. destruct (Z.eqb_spec z (sentinel t1)); [discriminate|]. congruence. }
  assert (Neg : option_map (map negb) (if has_null idx then Some (map is_null idx) else None) = if has_null idx then Some (map (fun x => negb (is_null x)) idx) else None).
  { destruct (has_null idx); [|reflexivity]. cbn [option_map]. now rewrite map_map. }
  rewrite Neg. clear Neg.
  destruct (is_signed t1) eqn:Es; cbn [negb].
  - assert (t1 = t) as ->. { destruct D as [[-> _]|[-> I]]; [reflexivity|]. destruct (Hs I) as [E _]. rewrite wider_sign in Es. congruence. }
    destruct (Z.eqb_spec (count - 1) (max_of t)) as [E|E].
    + destruct (Z.eqb_spec (bits t) 64) as [B|B].
      * exfalso. destruct t; try discriminate Ht; try discriminate B; try discriminate Es. cbn in E, C. lia.
      * rewrite map_map. eexists. split; [rewrite Fin; [reflexivity|]|destruct t; split; try reflexivity; discriminate].
        intros i I. destruct (V i I) as (V1 & V2 & V3). unfold widen. destruct (Z.eqb_spec i (sentinel t)); [contradiction|].
        apply add_id; destruct t; try discriminate Ht; try discriminate Es; try (cbn in B; congruence); cbn in *; try reflexivity; lia.
    + eexists. split; [rewrite Fin; [reflexivity|]|auto].
      intros i I. destruct (V i I) as (V1 & V2 & V3). apply add_id; [assumption|assumption|].
      assert (i <> max_of t) by (intros ->; apply E; now apply S). split; [|lia]. destruct t; try discriminate Ht; cbn; lia.
  - destruct (Z.leb_spec (max_of (signed (bits t1))) (count - 1)) as [E|E].
    + destruct (Z.eqb_spec (bits t1) 64) as [B|B].
      * exfalso. rewrite B in E. cbn in E, C. lia.
      * rewrite map_map. eexists. split; [rewrite Fin; [reflexivity|]|destruct t1; split; try reflexivity; discriminate].
        intros i I. destruct (V i I) as (V1 & V2 & V3). unfold widen. destruct (Z.eqb_spec i (sentinel t1)); [contradiction|].
        assert (W : i <= max_of t1) by (destruct D as [[-> _]|[-> _]]; [lia|destruct t; try discriminate Ht; cbn in V2 |- *; lia]).
        apply add_id; destruct t1; try discriminate Ht1; try discriminate Es; try (cbn in B; congruence); cbn in *; try reflexivity; lia.
    + rewrite map_map. eexists. split; [rewrite Fin; [reflexivity|]|destruct t1; split; try reflexivity; discriminate].
      intros i I. destruct (V i I) as (V1 & V2 & V3).
      assert (Q : is_int (signed (bits t1)) = true /\ min_of (signed (bits t1)) < 0 /\ sentinel (signed (bits t1)) < 0) by (destruct t1; try discriminate Ht1; cbn; repeat split; lia).
      destruct Q as (Q1 & Q2 & Q3). rewrite wrap_id by (try assumption; lia). apply add_id; [assumption|lia|lia].
Qed.

Lemma nth_error_some {X} (l : list X) i : (i < length l)%nat -> exists x, nth_error l i = Some x.
Proof. intros H. destruct (nth_error l i) eqn:E; [eauto|]. apply nth_error_None in E. lia. Qed.

Section Cat.
Context {C D : Type}.
Variables (dict_len : D -> nat) (from_dict : D -> option (list C)) (to_dict : list C -> D) (sorted : list C -> bool).

Lemma from_categories_ok t2 idx cats t count : count = Z.of_nat (length cats) -> idx_ok t idx count ->
  from_categories sorted t2 (map key_of idx) cats (if has_null idx then Some (map (fun x => negb (is_null x)) idx) else None) =
  Some {| c_type := t2; c_key := map key_of idx; c_base := 1; c_cats := cats; c_ord := match idx with [] => false | _ => sorted cats end |}.
Proof.
  intros -> O. unfold from_categories.
  assert (E : forallb (fun z => (0 <=? z) && (z <? Z.of_nat (length cats) + 1)) (map key_of idx) = true).
  { apply forallb_forall. intros z I. apply in_map_iff in I. destruct I as [x [<- I]]. unfold idx_ok in O. rewrite Forall_forall in O. pose proof (O _ I) as Q. destruct x as [i|]; cbn in Q; cbn [key_of]; apply andb_true_iff; rewrite Z.leb_le, Z.ltb_lt; lia. }
  rewrite E. cbn [negb]. f_equal. f_equal.
  - destruct (has_null idx); [|reflexivity]. rewrite map_combine_l, map_map. apply map_ext. intros [i|]; reflexivity.
  - destruct idx; reflexivity.
Qed.

Lemma from_arrow_cat_ok a cats : from_dict (d_dict a) = Some cats -> dict_len (d_dict a) = length cats ->
  is_int (d_type a) = true -> idx_ok (d_type a) (d_idx a) (Z.of_nat (length cats)) ->
  (is_signed (d_type a) = false -> In (Some (max_of (d_type a))) (d_idx a) -> ~ In None (d_idx a) /\ bits (d_type a) <> 64) ->
  (is_signed (d_type a) = true -> In (Some (max_of (d_type a))) (d_idx a) -> Z.of_nat (length cats) - 1 = max_of (d_type a)) ->
  Z.of_nat (length cats) <= max_of I64 ->
  exists c, from_arrow_cat dict_len from_dict sorted false a = Some c /\ c_base c = 1 /\ c_cats c = cats /\ c_key c = map key_of (d_idx a) /\
    is_signed (c_type c) = true /\ is_int (c_type c) = true /\ map (cat_value c) (c_key c) = map (dict_value cats) (d_idx a) /\ c_ord c = match d_idx a with [] => false | _ => sorted cats end.
Proof.
  intros Fd L Ht O U S B. unfold from_arrow_cat. rewrite L. destruct (arrow_key_ok _ _ _ Ht O U S B) as (t2 & -> & S2 & I2). rewrite Fd, (from_categories_ok t2 _ cats _ _ eq_refl O).
  eexists. split; [reflexivity|]. cbn [c_base c_cats c_key c_type c_ord]. repeat split; try assumption; try reflexivity.
  rewrite map_map. apply map_ext_in. intros [i|] I; unfold cat_value, dict_value, key_of; cbn [c_base c_cats]; [|reflexivity].
  unfold idx_ok in O. rewrite Forall_forall in O. pose proof (O _ I) as Q. cbn in Q. destruct (Z.ltb_spec (i + 1) 1); [lia|]. f_equal. f_equal. lia.
Qed.

(** the indices of a Categorical *)
Definition idx_of (c : cat C) (z : Z) : option Z :=
  if c_base c =? 1 then (if z =? 0 then None else Some (z - 1)) else (if z =? sentinel (c_type c) then None else Some z).
Lemma to_arrow_cat_idx c : cat_ok c -> d_idx (to_arrow_cat to_dict c) = map (idx_of c) (c_key c).
Proof.
  intros (Hi & Hs & B & [[Eb F]|[Eb F]]); unfold to_arrow_cat, idx_of; rewrite Eb; cbn [d_idx Z.eqb Pos.eqb andb Z.opp].
  - assert (Sm : sentinel (c_type c) < 0) by (destruct (c_type c); try discriminate Hi; try discriminate Hs; cbn; lia).
    assert (P : to_arrow_int (c_type c) (map (fun p => if fst p : bool then 0 else snd p) (combine (map (fun z => z =? 0) (c_key c)) (map (add_int (c_type c) (-1)) (c_key c)))) =
                map (fun z => Some (if z =? 0 then 0 else z - 1)) (c_key c)).
    { rewrite map_combine_l, map_map. unfold to_arrow_int. rewrite map_map. apply map_ext_in. intros z I. rewrite Forall_forall in F. pose proof (F _ I) as Q. cbn beta in Q. cbn [fst snd].
      destruct (Z.eqb_spec z 0) as [->|N].
      - destruct (Z.eqb_spec 0 (sentinel (c_type c))); [lia|reflexivity].
      - rewrite add_id; [|assumption|lia|].
        + replace (z + -1) with (z - 1) by lia. destruct (Z.eqb_spec (z - 1) (sentinel (c_type c))); [lia|reflexivity].
        + split; [|lia]. destruct (c_type c); try discriminate Hi; cbn; lia. }
    rewrite P. rewrite map_combine_l, map_map. destruct (existsb (fun b => b) (map (fun z => z =? 0) (c_key c))) eqn:E.
    + apply map_ext. intros z. cbn [fst snd]. now destruct (z =? 0).
    + apply map_ext_in. intros z I. destruct (z =? 0) eqn:Z0; [|reflexivity]. exfalso. assert (T : existsb (fun b => b) (map (fun z => z =? 0) (c_key c)) = true) by (apply existsb_exists; exists true; split; [|reflexivity]; apply in_map_iff; eauto). congruence.
  - assert (E : existsb (fun b => b) (map (fun _ : Z => false) (c_key c)) = false) by (clear; induction (c_key c) as [|x r IH]; [reflexivity|exact IH]).
    rewrite E. reflexivity.
Qed.
Lemma idx_of_ok c : cat_ok c -> idx_ok (c_type c) (map (idx_of c) (c_key c)) (Z.of_nat (length (c_cats c))).
Proof.
  intros (Hi & Hs & B & [[Eb F]|[Eb F]]); unfold idx_ok, idx_of; rewrite Eb; cbn [Z.eqb Pos.eqb]; rewrite Forall_forall in *; intros x I; apply in_map_iff in I; destruct I as [z [<- I]]; pose proof (F _ I) as Q; cbn beta in Q.
  - destruct (Z.eqb_spec z 0); [exact Logic.I|]. lia.
  - destruct (Z.eqb_spec z (sentinel (c_type c))); [exact Logic.I|]. lia.
Qed.

Lemma cat_round_trip c : cat_ok c -> from_dict (to_dict (c_cats c)) = Some (c_cats c) -> dict_len (to_dict (c_cats c)) = length (c_cats c) ->
  exists c', from_arrow_cat dict_len from_dict sorted false (to_arrow_cat to_dict c) = Some c' /\ c_base c' = 1 /\ c_cats c' = c_cats c /\
    is_signed (c_type c') = true /\ is_int (c_type c') = true /\
    map (cat_value c') (c_key c') = map (cat_value c) (c_key c) /\ (c_base c = 1 -> c_key c' = c_key c) /\ (c_base c = 0 -> c_key c' = map (fun z => if z <? 0 then 0 else z + 1) (c_key c)) /\
    c_ord c' = match c_key c with [] => false | _ => sorted (c_cats c) end.
Proof.
  intros K Fd L. pose proof (to_arrow_cat_idx c K) as Ei. pose proof (idx_of_ok c K) as O. pose proof K as (Hi & Hs & B & F).
  assert (B64 : Z.of_nat (length (c_cats c)) <= max_of I64) by (eapply Z.le_trans; [exact B|]; destruct (c_type c); try discriminate Hi; try discriminate Hs; cbn; lia).
  destruct (from_arrow_cat_ok (to_arrow_cat to_dict c) (c_cats c)) as (c' & E & H1 & H2 & H3 & H4 & H5 & H6 & H7); try assumption; try rewrite Ei; try assumption.
  - cbn [to_arrow_cat d_type]. congruence.
  - cbn [to_arrow_cat d_type]. intros _ I. unfold idx_ok in O. rewrite Forall_forall in O. pose proof (O _ I) as Q. cbn in Q. lia.
  - rewrite Ei in *. exists c'. repeat split; try assumption.
    + rewrite H6, map_map. apply map_ext_in. intros z I. unfold idx_of, dict_value, cat_value. destruct F as [[Eb F]|[Eb F]]; rewrite Eb; cbn [Z.eqb Pos.eqb]; rewrite Forall_forall in F; pose proof (F _ I) as Q; cbn beta in Q.
      * destruct (Z.eqb_spec z 0); destruct (Z.ltb_spec z 1); try lia; reflexivity.
      * assert (Sm : sentinel (c_type c) < 0) by (destruct (c_type c); try discriminate Hi; try discriminate Hs; cbn; lia).
        destruct (Z.eqb_spec z (sentinel (c_type c))); destruct (Z.ltb_spec z 0); try lia; try reflexivity. now rewrite Z.sub_0_r.
    + intros Eb. rewrite H3, map_map. rewrite <- (map_id (c_key c)) at 2. apply map_ext. intros z. unfold idx_of, key_of. rewrite Eb. cbn [Z.eqb Pos.eqb]. destruct (Z.eqb_spec z 0); lia.
    + intros Eb. rewrite H3, map_map. apply map_ext_in. intros z I. unfold idx_of, key_of. rewrite Eb. cbn [Z.eqb]. destruct F as [[Eb' F]|[_ F]]; [congruence|]. rewrite Forall_forall in F. pose proof (F _ I) as Q. cbn beta in Q.
      assert (Sm : sentinel (c_type c) < 0) by (destruct (c_type c); try discriminate Hi; try discriminate Hs; cbn; lia).
      destruct (Z.eqb_spec z (sentinel (c_type c))); destruct (Z.ltb_spec z 0); lia.
    + rewrite H7. now destruct (c_key c).
Qed.
End Cat.

(** ---------- strings ---------- *)
Lemma drop0_head c r : c <> O -> drop0 (c :: r) = c :: r.
Proof. destruct c; [congruence|reflexivity]. Qed.
Lemma strip0_id s : no_end_nul s -> strip0 s = s.
Proof.
  unfold no_end_nul, strip0. intros H. rewrite <- (rev_involutive s) in H |- *. rewrite rev_involutive. destruct (rev s) as [|c r] eqn:E; [reflexivity|]. cbn [rev] in H. rewrite last_last in H. now rewrite drop0_head.
Qed.
Lemma strip0_nuls s n : strip0 (s ++ repeat O n) = strip0 s.
Proof.
  unfold strip0. rewrite rev_app_distr. f_equal. assert (R : rev (repeat O n) = repeat O n).
  { induction n as [|n IH]; [reflexivity|]. cbn [repeat rev]. rewrite IH. clear IH. induction n as [|n IH]; [reflexivity|]. cbn [repeat app]. now rewrite IH. }
  rewrite R. clear R. induction n as [|n IH]; [reflexivity|]. exact IH.
Qed.
Lemma str_round b e z a x : to_arrow_str b e a = Some x -> z = false -> Forall no_end_nul a -> from_arrow_str z x = Some a.
Proof.
  unfold to_arrow_str. destruct (b && _); [discriminate|]. intros E -> F. injection E as <-. unfold from_arrow_str, fill_null. f_equal. rewrite !map_map. rewrite <- (map_id a) at 2. apply map_ext_in. intros s I. rewrite Forall_forall in F.
  destruct (e && is_empty s) eqn:Q; [|now apply strip0_id, F]. apply andb_true_iff in Q. destruct s; [reflexivity|]. destruct Q; discriminate.
Qed.
Lemma str_back x a : from_arrow_str false x = Some a -> Forall (fun o => match o with Some s => s <> [] /\ no_end_nul s | None => True end) x -> to_arrow_str false true a = Some x.
Proof.
  unfold from_arrow_str. intros E F. injection E as <-. unfold to_arrow_str, fill_null. cbn [andb]. f_equal. rewrite !map_map. rewrite <- (map_id x) at 2. apply map_ext_in. intros [s|] I; [|reflexivity].
  rewrite Forall_forall in F. destruct (F _ I) as [N S]. rewrite (strip0_id s S). destruct s; [congruence|reflexivity].
Qed.
Lemma combine_id_l {X Y} (f : X -> Y) (g : X -> bool) l : combine (map g l) (map f l) = map (fun x => (g x, f x)) l.
Proof. apply map_combine_l. Qed.
Lemma fixed_round w e a : Forall (fun s => no_end_nul s /\ (length s <= w)%nat) a -> from_arrow_fixed false (to_arrow_fixed w e a) = Some a.
Proof.
  intros F. unfold from_arrow_fixed, to_arrow_fixed. cbn [fb_null fb_width fb_buffer]. unfold fb_values. cbn [fb_length fb_offset fb_buffer skipn]. replace (length a) with (length (map (pad w) a)) by apply map_length. rewrite firstn_all.
  assert (P : map strip0 (map (pad w) a) = a).
  { rewrite map_map. rewrite <- (map_id a) at 2. apply map_ext_in. intros s I. rewrite Forall_forall in F. unfold pad. rewrite strip0_nuls. apply strip0_id, F, I. }
  destruct (existsb _ _); [|now rewrite P]. f_equal. rewrite combine_id_l, !map_map. rewrite <- P at 2. rewrite map_map. apply map_ext. intros s. cbn [fst snd]. destruct (e && is_empty s) eqn:Q; [|reflexivity].
  apply andb_true_iff in Q. destruct Q as [_ Q]. destruct s; [|discriminate]. unfold pad. cbn [app length]. now rewrite Nat.sub_0_r.
Qed.
Lemma fixed_whole b : fb_offset b = O -> fb_length b = length (fb_buffer b) -> length (fb_null b) = fb_length b -> Forall (fun s => length s = fb_width b) (fb_buffer b) ->
  from_arrow_fixed false b = Some (map (fun p => if fst p : bool then [] else strip0 (snd p)) (combine (fb_null b) (fb_buffer b))).
Proof.
  intros Of L N W. unfold from_arrow_fixed, fb_values. rewrite Of, L, firstn_all. destruct (existsb _ (fb_null b)) eqn:E.
  - f_equal. rewrite map_map. apply map_ext. intros [m s]. cbn [fst snd]. destruct m; [|reflexivity]. rewrite <- (app_nil_l (repeat O (fb_width b))). now rewrite strip0_nuls.
  - f_equal. rewrite L in N. clear L Of W. revert N E. generalize (fb_buffer b) as l. induction (fb_null b) as [|m r IH]; intros [|s l] N E; try discriminate; [reflexivity|]. cbn [existsb] in E. apply orb_false_iff in E. destruct E as [-> E]. cbn [map combine fst snd]. f_equal. apply IH; [cbn in N; lia|exact E].
Qed.

(** ---------- mapping ---------- *)
Lemma pos_of_some {X} (eqb : X -> X -> bool) (Heq : forall a b, eqb a b = true <-> a = b) x l : In x l -> exists i, pos_of eqb x l = Some i /\ nth_error l i = Some x /\ (i < length l)%nat.
Proof.
  induction l as [|y r IH]; [intros []|]. intros I. cbn [pos_of]. destruct (eqb x y) eqn:E.
  - apply Heq in E. subst. exists O. cbn. repeat split. lia.
  - destruct I as [->|I]; [exfalso; assert (eqb x x = true) by (now apply Heq); congruence|]. destruct (IH I) as (i & P & N & L). exists (S i). rewrite P. cbn. repeat split; [assumption|lia].
Qed.
Lemma pos_of_none {X} (eqb : X -> X -> bool) (Heq : forall a b, eqb a b = true <-> a = b) x l : pos_of eqb x l = None <-> ~ In x l.
Proof.
  split.
  - intros E I. destruct (pos_of_some eqb Heq x l I) as (i & P & _). congruence.
  - intros N. destruct (pos_of eqb x l) eqn:E; [|reflexivity]. exfalso. apply N. clear N. revert n E. induction l as [|y r IH]; intros n E; [discriminate|]. cbn in E. destruct (eqb x y) eqn:Q; [left; symmetry; now apply Heq|]. right. destruct (pos_of eqb x r) as [m|]; [now apply IH with m|discriminate].
Qed.
Lemma pos_app_l {X} (eqb : X -> X -> bool) (Heq : forall a b, eqb a b = true <-> a = b) x l r : ~ In x l -> pos_of eqb x (l ++ r) = option_map (fun i => (length l + i)%nat) (pos_of eqb x r).
Proof.
  induction l as [|y l IH]; intros N; cbn [app pos_of length].
  - destruct (pos_of eqb x r); reflexivity.
  - destruct (eqb x y) eqn:E; [apply Heq in E; subst; destruct N; now left|]. rewrite IH by (intros I; apply N; now right). destruct (pos_of eqb x r); reflexivity.
Qed.
Lemma pos_app_r {X} (eqb : X -> X -> bool) x l r i : pos_of eqb x l = Some i -> pos_of eqb x (l ++ r) = Some i.
Proof.
  revert i. induction l as [|y l IH]; intros i E; [discriminate|]. cbn [app pos_of] in *. destruct (eqb x y); [assumption|]. destruct (pos_of eqb x l) eqn:P; [|discriminate]. now rewrite (IH n eq_refl).
Qed.
Lemma pos_nodup {X} (eqb : X -> X -> bool) (Heq : forall a b, eqb a b = true <-> a = b) l : NoDup l -> map (fun x => pos_of eqb x l) l = map Some (seq 0 (length l)).
Proof.
  intros N. assert (G : forall p r, l = p ++ r -> map (fun x => pos_of eqb x l) r = map Some (seq (length p) (length r))).
  { intros p r. revert p. induction r as [|x r IH]; intros p E; [reflexivity|]. cbn [map seq length]. f_equal.
    - rewrite E. rewrite (pos_app_l eqb Heq).
      + cbn [pos_of]. assert (eqb x x = true) as -> by now apply Heq. cbn. f_equal. lia.
      + intros I. rewrite E in N. apply NoDup_remove_2 in N. apply N. apply in_or_app. now left.
    - rewrite (IH (p ++ [x])); [rewrite app_length; cbn [length]; now rewrite Nat.add_1_r|]. now rewrite <- app_assoc. }
  apply (G [] l eq_refl).
Qed.
Lemma increasing_cons a l : increasing (map Some (a :: l)) = match l with [] => true | b :: _ => (a <=? b)%nat && increasing (map Some l) end.
Proof. destruct l; reflexivity. Qed.
Lemma increasing_seq n : forall s k m, (s + n <= k)%nat -> increasing (map Some (seq s n ++ repeat k m)) = true.
Proof.
  induction n as [|n IH]; intros s k m H.
  - cbn [seq app]. clear H. induction m as [|m IHm]; [reflexivity|]. cbn [repeat]. rewrite increasing_cons. destruct m; [reflexivity|]. cbn [repeat] in *. rewrite IHm, Nat.leb_refl. reflexivity.
  - cbn [seq app]. rewrite increasing_cons. specialize (IH (S s) k m ltac:(lia)). destruct (seq (S s) n ++ repeat k m) as [|b q] eqn:E; [reflexivity|]. rewrite IH, andb_true_r. apply Nat.leb_le.
    destruct n; cbn [seq app] in E; [destruct m; cbn in E; [discriminate|]|]; injection E as <- _; lia.
Qed.
Lemma text_eqb_eq a b : text_eqb a b = true <-> a = b.
Proof. unfold text_eqb. destruct (list_eq_dec Nat.eq_dec a b); split; congruence. Qed.
Lemma first_pairs_id l : forall seen, NoDup (map snd l) -> (forall p, In p seen -> ~ In (snd p) (map snd l)) -> first_pairs seen l = l.
Proof.
  induction l as [|p r IH]; intros seen N D; [reflexivity|]. cbn [map] in N. inversion N as [|? ? N1 N2]; subst. cbn [first_pairs].
  destruct (in_dec pair_dec p seen) as [I|_]; [exfalso; apply (D p I); now left|]. f_equal. apply IH; [assumption|].
  intros q [<-|I] J; [contradiction|]. apply (D q I). now right.
Qed.

Definition unnamed_of (c : ecat) : list Z := nodup Z.eq_dec (filter (fun z => is_null (pos_of Z.eqb z (map snd (e_map c)))) (e_codes c)).

Lemma nodup_length_le (l : list Z) : (length (nodup Z.eq_dec l) <= length l)%nat.
Proof. induction l as [|x r IH]; [reflexivity|]. cbn [nodup]. destruct (in_dec _ x r); cbn [length]; lia. Qed.
Lemma filter_len {X} (f : X -> bool) l : (length (filter f l) <= length l)%nat.
Proof. induction l as [|x r IH]; [reflexivity|]. cbn [filter]. destruct (f x); cbn [length]; lia. Qed.
Lemma np_min_ok n : 0 <= n < 2 ^ 64 -> exists t, np_min_scalar_type n = Some t /\ is_int t = true /\ is_signed t = false /\ n <= max_of t.
Proof.
  intros H. unfold np_min_scalar_type. destruct (Z.leb_spec 0 n) as [_|]; [|lia].
  destruct (find _ _) as [t|] eqn:E.
  - exists t. apply find_some in E. destruct E as [I E]. apply andb_true_iff in E. destruct E as [_ E]. apply Z.leb_le in E. split; [reflexivity|].
    repeat (destruct I as [<-|I]; [now repeat split|]). destruct I.
  - exfalso. assert (I : In U64 [U8; U16; U32; U64]) by (cbn; tauto). pose proof (find_none _ _ E _ I) as Q. apply andb_false_iff in Q. rewrite !Z.leb_gt in Q. cbn in Q, H. lia.
Qed.

Lemma map_round_trip c : map_ok c ->
  exists a, to_arrow_map c = Some a /\ from_arrow_map (e_type c) a = Some {| e_type := e_type c; e_codes := e_codes c; e_map := e_map c ++ map (fun z => ([], z)) (unnamed_of c) |}.
Proof.
  intros (N1 & N2 & F & B). unfold to_arrow_map. fold (unnamed_of c). set (named := map snd (e_map c)). set (un := unnamed_of c). set (all := named ++ un).
  assert (Lu : (length un <= length (e_codes c))%nat) by (unfold un, unnamed_of; etransitivity; [apply nodup_length_le|apply filter_len]).
  assert (La : length all = (length (e_map c) + length un)%nat) by (unfold all, named; now rewrite app_length, map_length).
  destruct (np_min_ok (Z.of_nat (length all))) as (t & Et & Hi & Hs & Ht); [lia|]. rewrite Et. eexists. split; [reflexivity|].
  unfold from_arrow_map. cbn [ed_type ed_idx ed_names ed_codes].
  assert (Hz : forall a b, (a =? b) = true <-> a = b) by (intros; apply Z.eqb_eq).
  assert (Hun : forall z, In z un <-> In z (e_codes c) /\ ~ In z named).
  { intros z. unfold un, unnamed_of. rewrite nodup_In, filter_In. fold named. rewrite <- (pos_of_none Z.eqb Hz). destruct (pos_of Z.eqb z named); cbn; intuition congruence. }
  assert (Nall : NoDup all).
  { unfold all. assert (Nu : NoDup un) by apply NoDup_nodup. assert (G : forall l, NoDup l -> (forall z, In z l -> ~ In z un) -> NoDup (l ++ un)).
    { induction l as [|x r IH]; intros Nl D; [exact Nu|]. inversion Nl; subst. cbn [app]. constructor; [|apply IH; [assumption|]; intros z I; apply D; now right]. intros I. apply in_app_or in I. destruct I as [I|I]; [contradiction|]. apply (D x (or_introl eq_refl) I). }
    apply G; [exact N2|]. intros z I J. apply Hun in J. tauto. }
  assert (Hall : forall z, In z (e_codes c) -> In z all).
  { intros z I. apply in_or_app. destruct (in_dec Z.eq_dec z named) as [D|D]; [now left|right; apply Hun; tauto]. }
  set (idx := map (fun z => option_map Z.of_nat (pos_of Z.eqb z all)) (e_codes c)).
  set (at_ := fun z => match pos_of Z.eqb z all with Some i => i | None => O end).
  assert (Hp : forall z, In z (e_codes c) -> pos_of Z.eqb z all = Some (at_ z) /\ nth_error all (at_ z) = Some z /\ (at_ z < length all)%nat).
  { intros z I. destruct (pos_of_some Z.eqb Hz z all (Hall z I)) as (i & P & Q & R). unfold at_. rewrite P. auto. }
  assert (Eidx : idx = map (fun z => Some (Z.of_nat (at_ z))) (e_codes c)) by (apply map_ext_in; intros z I; destruct (Hp z I) as (-> & _); reflexivity).
  assert (Hn : has_null idx = false).
  { apply has_null_not. rewrite Eidx. intros I. apply in_map_iff in I. destruct I as [z [E _]]. discriminate. }
  assert (Hf : from_arrow_int t false true [idx] = Some (t, map (fun z => Z.of_nat (at_ z)) (e_codes c))).
  { unfold from_arrow_int. cbn [length concat Nat.ltb Nat.leb]. rewrite app_nil_r. unfold from_one. rewrite andb_false_r.
    assert (Fi : Forall (fits t) idx).
    { rewrite Eidx. apply Forall_forall. intros x I. apply in_map_iff in I. destruct I as [z [<- I]]. destruct (Hp z I) as (_ & _ & R). cbn. split; [|lia]. destruct t; try discriminate Hi; try discriminate Hs; cbn; lia. }
    assert (E : holds_invalid t idx = false).
    { apply (invalid_not t idx Hi Fi). rewrite Eidx. intros I. apply in_map_iff in I. destruct I as [z [Q I]]. destruct (Hp z I) as (_ & _ & R). destruct (sentinel_bound t Hi) as [[Z _]|[_ M]]; [congruence|]. rewrite M in Q. injection Q as Q. lia. }
    rewrite E. f_equal. f_equal. rewrite Eidx. unfold fill_null. rewrite map_map. reflexivity. }
  rewrite Hf.
  assert (En : combine (map strip0 (fill_null [] (map (fun s => if is_empty s then None else Some s) (map fst (e_map c) ++ repeat [] (length un))))) all = e_map c ++ map (fun z => ([], z)) un).
  { unfold all, named. clear - F. induction (e_map c) as [|[s z] r IH].
    - cbn [map app]. induction un as [|u q IH]; [reflexivity|]. cbn [length repeat map fill_null combine]. f_equal. exact IH.
    - cbn [map app fst snd] in *. inversion F as [|? ? [F1 F2] F3]; subst. cbn [fill_null map combine]. fold (@fill_null text []). f_equal; [|exact (IH F3)]. f_equal. destruct s; [congruence|]. cbn [is_empty]. exact (strip0_id _ F2). }
  rewrite En.
  assert (Es : map snd (e_map c ++ map (fun z => ([], z)) un) = all) by (rewrite map_app, map_map; cbn; now rewrite map_id).
  rewrite first_pairs_id; [|rewrite Es; exact Nall|intros p []]. rewrite Es.
  rewrite (pos_nodup Z.eqb Hz all Nall). pose proof (increasing_seq (length all) 0 (length all) 0 ltac:(lia)) as I1. cbn [repeat] in I1. rewrite app_nil_r in I1. rewrite I1. cbn [negb].
  match goal with |- context [pos_of text_eqb _ ?l] => replace l with (map fst (e_map c) ++ map (fun _ : Z => @nil nat) un) by (symmetry; rewrite map_app, map_map; reflexivity) end.
  assert (I2 : increasing (map (fun s => pos_of text_eqb s (map fst (e_map c) ++ map (fun _ : Z => []) un)) (map fst (e_map c) ++ map (fun _ : Z => []) un)) = true).
  { rewrite map_app. set (ns := map fst (e_map c)) in *. 
    assert (A : map (fun s => pos_of text_eqb s (ns ++ map (fun _ : Z => []) un)) ns = map Some (seq 0 (length ns))).
    { rewrite <- (pos_nodup text_eqb text_eqb_eq ns N1). apply map_ext_in. intros s I. destruct (pos_of_some text_eqb text_eqb_eq s ns I) as (i & P & _). rewrite P. now apply pos_app_r. }
    assert (A2 : map (fun s => pos_of text_eqb s (ns ++ map (fun _ : Z => []) un)) (map (fun _ : Z => []) un) = map Some (repeat (length ns) (length un))).
    { assert (Ne : ~ In [] ns) by (intros I; rewrite Forall_forall in F; destruct (F _ I); congruence).
      assert (G : forall u, (exists x q, un = x :: q) -> map (fun s => pos_of text_eqb s (ns ++ map (fun _ : Z => []) un)) (map (fun _ : Z => []) u) = map Some (repeat (length ns) (length u))).
      { intros u (x & q & E). induction u as [|y u IH]; [reflexivity|]. cbn [map length repeat]. rewrite IH. f_equal. rewrite (pos_app_l text_eqb text_eqb_eq) by exact Ne. rewrite E. cbn. f_equal. lia. }
      destruct un as [|x q]; [reflexivity|]. apply G. eauto. }
    rewrite A, A2, <- map_app. apply increasing_seq. lia. }
  rewrite I2. cbn [negb]. rewrite Hn. rewrite map_map.
  rewrite (opt_all_map _ (fun z => z)); [now rewrite map_id|]. intros z I. rewrite Nat2Z.id. apply (Hp z I).
Qed.
Lemma name_of_in m s z : NoDup (map snd m) -> In (s, z) m -> name_of m z = Some s.
Proof.
  unfold name_of. induction m as [|[s' z'] r IH]; intros N I; [destruct I|]. cbn [map snd] in N. inversion N as [|? ? M1 M2]; subst. cbn [find snd]. destruct (Z.eqb_spec z' z) as [->|D].
  - destruct I as [E|I]; [injection E as ->; reflexivity|]. destruct M1. apply in_map_iff. exists (s, z). auto.
  - destruct I as [E|I]; [injection E as -> ->; congruence|]. now apply IH.
Qed.
Lemma name_of_app m r z s : name_of m z = Some s -> name_of (m ++ r) z = Some s.
Proof. unfold name_of. induction m as [|p q IH]; [discriminate|]. cbn [app find]. destruct (snd p =? z); [exact (fun H => H)|exact IH]. Qed.
