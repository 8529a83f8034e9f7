From Coq Require Import List Arith ZArith Bool Lia.
From Verif Require Import LosslessModel ArrowModel ArrowSpec.
Import ListNotations.
Open Scope Z_scope.

Lemma sentinel_bound t : is_int t = true -> (is_signed t = true /\ sentinel t = min_of t) \/ (is_signed t = false /\ sentinel t = max_of t).
Proof. unfold sentinel. destruct t; intros H; try discriminate H; cbn [is_signed]; auto. Qed.

Lemma min_max_spec (a : list (option Z)) : forall m,
  match fold_left (fun m x => match x, m with
                        | None, _ => m
                        | Some z, None => Some (z, z)
                        | Some z, Some (lo, hi) => Some (Z.min lo z, Z.max hi z)
                        end) a m with
  | None => m = None /\ forall z, ~ In (Some z) a
  | Some (lo, hi) =>
      (forall z, In (Some z) a \/ (exists l h, m = Some (l, h) /\ l <= z <= h) -> lo <= z <= hi) /\
      (In (Some lo) a \/ exists h, m = Some (lo, h)) /\ (In (Some hi) a \/ exists l, m = Some (l, hi))
  end.
Proof.
  induction a as [|x a IH]; intros m; cbn [fold_left].
  - destruct m as [[lo hi]|]; [|split; [reflexivity|intros z []]]. split; [|split; right; eauto].
    intros z [[]|(l & h & E & H)]. now injection E as <- <-.
  - destruct x as [z|].
    + destruct m as [[l0 h0]|].
      * specialize (IH (Some (Z.min l0 z, Z.max h0 z))). destruct (fold_left _ a _) as [[lo hi]|]; [|destruct IH; discriminate]. destruct IH as (H1 & H2 & H3). split; [|split].
        -- intros y [[E|I]|(l & h & E & H)].
           ++ injection E as <-. apply H1. right. eexists _, _. split; [reflexivity|lia].
           ++ apply H1. now left.
           ++ injection E as <- <-. apply H1. right. eexists _, _. split; [reflexivity|lia].
        -- destruct H2 as [I|[h E]]; [left; now right|]. injection E as E _. destruct (Z.min_spec l0 z) as [[_ M]|[_ M]]; rewrite M in E; subst; [right; eauto|left; now left].
        -- destruct H3 as [I|[h E]]; [left; now right|]. injection E as _ E. destruct (Z.max_spec h0 z) as [[_ M]|[_ M]]; rewrite M in E; subst; [left; now left|right; eauto].
      * specialize (IH (Some (z, z))). destruct (fold_left _ a _) as [[lo hi]|]; [|destruct IH; discriminate]. destruct IH as (H1 & H2 & H3). split; [|split].
        -- intros y [[E|I]|(l & h & E & H)]; [injection E as <-; apply H1; right; eexists _, _; split; [reflexivity|lia]|apply H1; now left|discriminate].
        -- destruct H2 as [I|[h E]]; left; [now right|]. injection E as <- _. now left.
        -- destruct H3 as [I|[h E]]; left; [now right|]. injection E as _ <-. now left.
    + specialize (IH m). destruct (fold_left _ a m) as [[lo hi]|].
      * destruct IH as (H1 & H2 & H3). split; [|split].
        -- intros y [[E|I]|H]; [discriminate|apply H1; now left|apply H1; now right].
        -- destruct H2; [left; now right|now right].
        -- destruct H3; [left; now right|now right].
      * destruct IH as [-> H]. split; [reflexivity|]. intros z [E|I]; [discriminate|exact (H z I)].
Qed.
Lemma holds_invalid_spec t a : is_int t = true -> Forall (fits t) a -> holds_invalid t a = true <-> In (Some (sentinel t)) a.
Proof.
  intros Ht F. unfold holds_invalid, min_max. pose proof (min_max_spec a None) as H. destruct (fold_left _ a None) as [[lo hi]|].
  - destruct H as (H1 & [H2|[h E]] & [H3|[h' E']]); try discriminate. split.
    + intros E. apply orb_true_iff in E. destruct E as [E|E]; apply Z.eqb_eq in E; now subst.
    + intros I. apply orb_true_iff. rewrite !Z.eqb_eq. pose proof (H1 _ (or_introl I)). rewrite Forall_forall in F. pose proof (F _ H2). pose proof (F _ H3). cbn [fits] in *.
      destruct (sentinel_bound t Ht) as [[_ E]|[_ E]]; rewrite E in *; [left|right]; lia.
  - destruct H as [_ H]. split; [discriminate|]. intros I. destruct (H _ I).
Qed.
Lemma has_null_spec {X} (a : list (option X)) : has_null a = true <-> In None a.
Proof. unfold has_null. rewrite existsb_exists. split; [intros [[x|] [I E]]; [discriminate|exact I]|intros I; now exists None]. Qed.
Lemma has_null_not {X} (a : list (option X)) : has_null a = false <-> ~ In None a.
Proof. rewrite <- has_null_spec. destruct (has_null a); split; congruence. Qed.
Lemma invalid_not t a : is_int t = true -> Forall (fits t) a -> holds_invalid t a = false <-> ~ In (Some (sentinel t)) a.
Proof. intros Ht F. rewrite <- (holds_invalid_spec t a Ht F). destruct (holds_invalid t a); split; congruence. Qed.

(** filled values are shown again *)
Lemma shown_fill t u v a : (forall z, In (Some z) a -> z <> sentinel u) -> (In None a -> v = sentinel u) -> t = u -> map (shown u) (fill_null v a) = a.
Proof.
  intros H N _. unfold fill_null. rewrite map_map. rewrite <- (map_id a) at 2. apply map_ext_in. intros [z|] I; unfold shown.
  - destruct (Z.eqb_spec z (sentinel u)); [|reflexivity]. destruct (H z I). assumption.
  - rewrite (N I), Z.eqb_refl. reflexivity.
Qed.

(** the wider type *)
Definition wider (t : dt) : dt := match t with I8 => I16 | I16 => I32 | I32 => I64 | U8 => U16 | U16 => U32 | U32 => U64 | t => t end.
Lemma min_scalar_wider t : is_int t = true -> bits t <> 64 -> min_scalar_type (sentinel t) true false = Some (wider t).
Proof. destruct t; intros H B; try discriminate H; try (cbn in B; congruence); reflexivity. Qed.
Lemma wider_fits t z : is_int t = true -> bits t <> 64 -> min_of t <= z <= max_of t -> z <> sentinel (wider t).
Proof. destruct t; intros H B; try discriminate H; try (cbn in B; congruence); cbn; lia. Qed.
Lemma wider_sign t : is_signed (wider t) = is_signed t. Proof. now destruct t. Qed.
Lemma wider_int t : is_int (wider t) = is_int t. Proof. now destruct t. Qed.
Lemma wider_bits t : is_int t = true -> bits t <> 64 -> bits t < bits (wider t).
Proof. destruct t; intros H B; try discriminate H; try (cbn in B; congruence); cbn; lia. Qed.

Lemma from_one_ok t aw a : is_int t = true -> Forall (fits t) a ->
  (In (Some (sentinel t)) a -> aw = true /\ bits t <> 64 /\ ~ In None a) ->
  exists t', from_one t false aw a = Some (t', fill_null (sentinel t) a) /\ map (shown t') (fill_null (sentinel t) a) = a /\
    ((t' = t /\ ~ In (Some (sentinel t)) a) \/ (t' = wider t /\ In (Some (sentinel t)) a)).
Proof.
  intros Ht F H. unfold from_one. rewrite andb_false_r. destruct (holds_invalid t a) eqn:E.
  - apply (holds_invalid_spec t a Ht F) in E. destruct (H E) as (-> & B & N). destruct (Z.eqb_spec (bits t) 64); [contradiction|]. cbn [negb]. rewrite (min_scalar_wider t Ht B).
    exists (wider t). split; [reflexivity|]. split; [|now right]. apply shown_fill with (t := wider t); [|intros I; contradiction|reflexivity].
    intros z I. rewrite Forall_forall in F. exact (wider_fits t z Ht B (F _ I)).
  - apply (invalid_not t a Ht F) in E. exists t. split; [reflexivity|]. split; [|now left]. apply shown_fill with (t := t); [|reflexivity|reflexivity]. intros z I ->. contradiction.
Qed.
Lemma from_one_none t zc aw a : is_int t = true -> Forall (fits t) a ->
  from_one t zc aw a = None <-> (zc = true /\ (In None a \/ In (Some (sentinel t)) a)) \/ (In (Some (sentinel t)) a /\ (bits t = 64 \/ aw = false)).
Proof.
  intros Ht F. unfold from_one. pose proof (holds_invalid_spec t a Ht F) as Hi. pose proof (has_null_spec a) as Hn.
  destruct (has_null a) eqn:En; destruct zc; cbn [andb].
  - split; [|reflexivity]. intros _. left. split; [reflexivity|]. left. now apply Hn.
  - destruct (holds_invalid t a) eqn:E.
    + assert (I : In (Some (sentinel t)) a) by now apply Hi. destruct (Z.eqb_spec (bits t) 64) as [B|B]; [split; [|reflexivity]; intros _; right; tauto|]. destruct aw; cbn [negb].
      * rewrite (min_scalar_wider t Ht B). split; [discriminate|]. intros [[Z _]|[_ [Z|Z]]]; congruence.
      * split; [|reflexivity]. intros _. right. tauto.
    + split; [discriminate|]. intros [[Z _]|[I _]]; [discriminate|]. apply Hi in I. discriminate.
  - destruct (holds_invalid t a) eqn:E.
    + split; [|reflexivity]. intros _. left. split; [reflexivity|]. right. now apply Hi.
    + split; [discriminate|]. intros [[_ [I|I]]|[I _]]; [apply Hn in I; discriminate|apply Hi in I; discriminate|apply Hi in I; discriminate].
  - destruct (holds_invalid t a) eqn:E.
    + assert (I : In (Some (sentinel t)) a) by now apply Hi. destruct (Z.eqb_spec (bits t) 64) as [B|B]; [split; [|reflexivity]; intros _; right; tauto|]. destruct aw; cbn [negb].
      * rewrite (min_scalar_wider t Ht B). split; [discriminate|]. intros [[Z _]|[_ [Z|Z]]]; congruence.
      * split; [|reflexivity]. intros _. right. tauto.
    + split; [discriminate|]. intros [[Z _]|[I _]]; [discriminate|]. apply Hi in I. discriminate.
Qed.
Lemma opt_all_none {X} (l : list (option X)) : opt_all l = None <-> In None l.
Proof.
  induction l as [|[x|] r IH]; cbn [opt_all].
  - split; [discriminate|intros []].
  - destruct (opt_all r); cbn [option_map]; split; try discriminate.
    + intros [Z|I]; [discriminate|]. apply IH in I. discriminate.
    + intros _. right. now apply IH.
    + reflexivity.
  - split; [now left|reflexivity].
Qed.
Lemma opt_all_map {X Y} (f : X -> option Y) (g : X -> Y) l : (forall x, In x l -> f x = Some (g x)) -> opt_all (map f l) = Some (map g l).
Proof. induction l as [|x r IH]; intros H; [reflexivity|]. cbn [map opt_all]. rewrite (H x (or_introl eq_refl)), IH; [reflexivity|]. intros y I. apply H. now right. Qed.

(** stacking chunks without nulls *)
Section Stack.
Variables (t : dt) (Ht : is_int t = true).
Definition part_of (a : list (option Z)) : dt * list Z :=
  (if holds_invalid t a then wider t else t, fill_null (sentinel t) a).
Lemma widest_bits_ge : forall (chunks : list (list (option Z))) c, c = t \/ c = wider t ->
  fold_left (fun c p => widest c (fst p)) (map part_of chunks) c = (if existsb (holds_invalid t) chunks then wider t else c) .
Proof.
  assert (W : forall a b, (a = t \/ a = wider t) -> (b = t \/ b = wider t) -> widest a b = if dt_dec b (wider t) then wider t else a).
  { unfold widest. destruct t; intros a b [->| ->] [->| ->]; try discriminate Ht; cbn; try reflexivity. }
  induction chunks as [|a r IH]; intros c H; [reflexivity|]. cbn [map fold_left existsb]. unfold part_of at 2. cbn [fst].
  rewrite W; [|assumption|destruct (holds_invalid t a); auto]. destruct (holds_invalid t a) eqn:E; cbn [orb].
  - destruct (dt_dec (wider t) (wider t)); [|congruence]. rewrite IH by auto. now destruct (existsb _ r).
  - destruct (dt_dec t (wider t)) as [E'|_].
    + rewrite <- E'. rewrite IH by auto. destruct (existsb _ r); [congruence|]. destruct H as [->| ->]; congruence.
    + apply IH, H.
Qed.
End Stack.

Lemma from_arrow_int_ok t aw chunks : let l := concat chunks in is_int t = true -> Forall (fits t) l ->
  (In (Some (sentinel t)) l -> aw = true /\ bits t <> 64 /\ ~ In None l) ->
  exists t' raw, from_arrow_int t false aw chunks = Some (t', raw) /\ map (shown t') raw = l /\
    ((t' = t /\ ~ In (Some (sentinel t)) l) \/ (t' = wider t /\ In (Some (sentinel t)) l)).
Proof.
  intros l Ht F H. unfold from_arrow_int. fold l.
  assert (One : exists t' raw, from_one t false aw l = Some (t', raw) /\ map (shown t') raw = l /\ ((t' = t /\ ~ In (Some (sentinel t)) l) \/ (t' = wider t /\ In (Some (sentinel t)) l))).
  { destruct (from_one_ok t aw l Ht F H) as (t' & E & S & D). exists t', (fill_null (sentinel t) l). auto. }
  destruct (1 <? length chunks)%nat; [|exact One]. destruct (has_null l) eqn:En; [exact One|]. clear One. cbn [negb]. apply has_null_not in En.
  assert (Fc : forall a, In a chunks -> Forall (fits t) a) by (intros a I; rewrite Forall_forall in *; intros x J; apply F; apply in_concat; eauto).
  rewrite (opt_all_map (from_one t false aw) (part_of t) chunks).
  - cbn [option_map]. unfold stack_int. rewrite (widest_bits_ge t Ht) by now left.
    set (c := if existsb (holds_invalid t) chunks then wider t else t).
    eexists c, _. split; [reflexivity|].
    assert (Hit : existsb (holds_invalid t) chunks = true <-> In (Some (sentinel t)) l).
    { rewrite existsb_exists. split.
      - intros [a [I E]]. apply (holds_invalid_spec t a Ht (Fc a I)) in E. apply in_concat. eauto.
      - intros I. apply in_concat in I. destruct I as [a [I J]]. exists a. split; [exact I|]. now apply (holds_invalid_spec t a Ht (Fc a I)). }
    assert (Dc : (c = t /\ ~ In (Some (sentinel t)) l) \/ (c = wider t /\ In (Some (sentinel t)) l)).
    { unfold c. destruct (existsb _ chunks); [right; split; [reflexivity|now apply Hit]|left; split; [reflexivity|]]. intros I. apply Hit in I. discriminate. }
    split; [|exact Dc].
    assert (V : forall z, In (Some z) l -> z <> sentinel c).
    { intros z I. destruct Dc as [[-> N]|[-> Y]]; [intros ->; contradiction|]. destruct (H Y) as (_ & B & _). rewrite Forall_forall in F. exact (wider_fits t z Ht B (F _ I)). }
    assert (Q : forall cs, (forall a, In a cs -> In a chunks) -> map (shown c) (flat_map (fun p => map (fun z => if z =? sentinel (fst p) then sentinel c else z) (snd p)) (map (part_of t) cs)) = concat cs).
    { induction cs as [|a r IH]; intros S; [reflexivity|]. cbn [map flat_map concat]. rewrite map_app, IH by (intros a0 I; apply S; now right). f_equal.
      unfold part_of. cbn [fst snd]. unfold fill_null. rewrite !map_map. rewrite <- (map_id a) at 2. apply map_ext_in. intros [z|] I.
      - assert (Il : In (Some z) l) by (apply in_concat; exists a; split; [apply S; now left|exact I]).
        destruct (Z.eqb_spec z (sentinel (if holds_invalid t a then wider t else t))) as [E|E].
        + exfalso. destruct (holds_invalid t a) eqn:Ea.
          * assert (Y : In (Some (sentinel t)) l) by (apply Hit; apply existsb_exists; exists a; split; [apply S; now left|exact Ea]). destruct (H Y) as (_ & B & _). rewrite Forall_forall in F. exact (wider_fits t z Ht B (F _ Il) E).
          * assert (Ia : In (Some (sentinel t)) a) by now subst. apply (holds_invalid_spec t a Ht (Fc a (S a (or_introl eq_refl)))) in Ia. congruence.
        + unfold shown. destruct (Z.eqb_spec z (sentinel c)); [|reflexivity]. exfalso. exact (V z Il e).
      - exfalso. apply En. apply in_concat. exists a. split; [apply S; now left|exact I]. }
    apply Q. auto.
  - intros a I. assert (Ha : In (Some (sentinel t)) a -> aw = true /\ bits t <> 64 /\ ~ In None a).
    { intros J. assert (Jl : In (Some (sentinel t)) l) by (apply in_concat; eauto). destruct (H Jl) as (A1 & A2 & A3). split; [exact A1|]. split; [exact A2|]. intros K. apply A3. apply in_concat. eauto. }
    destruct (from_one_ok t aw a Ht (Fc a I) Ha) as (t' & E & _ & D). rewrite E. unfold part_of. f_equal. f_equal.
    destruct (holds_invalid t a) eqn:Ea.
    + apply (holds_invalid_spec t a Ht (Fc a I)) in Ea. destruct D as [[_ N]|[-> _]]; [contradiction|reflexivity].
    + apply (invalid_not t a Ht (Fc a I)) in Ea. destruct D as [[-> _]|[_ Y]]; [reflexivity|contradiction].
Qed.

Lemma from_arrow_int_none t zc aw chunks : let l := concat chunks in is_int t = true -> Forall (fits t) l ->
  from_arrow_int t zc aw chunks = None <->
    (zc = true /\ (In None l \/ In (Some (sentinel t)) l \/ (1 < length chunks)%nat)) \/ (In (Some (sentinel t)) l /\ (bits t = 64 \/ aw = false)).
Proof.
  intros l Ht F. unfold from_arrow_int. fold l. pose proof (from_one_none t zc aw l Ht F) as One. destruct (Nat.ltb_spec 1 (length chunks)) as [Hl|Hl].
  - destruct zc.
    + split; [|reflexivity]. intros _. left. tauto.
    + destruct (has_null l) eqn:En; cbn [negb].
      * rewrite One. split; [intros [[Z _]|R]; [discriminate|now right]|intros [[Z _]|R]; [discriminate|now right]].
      * apply has_null_not in En. assert (Fc : forall a, In a chunks -> Forall (fits t) a) by (intros a I; rewrite Forall_forall in *; intros x J; apply F; apply in_concat; eauto).
        assert (E : option_map (stack_int t) (opt_all (map (from_one t false aw) chunks)) = None <-> opt_all (map (from_one t false aw) chunks) = None) by (destruct (opt_all _); split; [discriminate|discriminate|reflexivity|reflexivity]).
        rewrite E, opt_all_none, in_map_iff. split.
        -- intros [a [Ea I]]. apply (from_one_none t false aw a Ht (Fc a I)) in Ea. destruct Ea as [[Z _]|[J R]]; [discriminate|]. right. split; [|exact R]. apply in_concat. eauto.
        -- intros [[Z _]|[J R]]; [discriminate|]. apply in_concat in J. destruct J as [a [I J]]. exists a. split; [|exact I]. apply (from_one_none t false aw a Ht (Fc a I)). now right.
  - rewrite One. split.
    + intros [[Z [I|I]]|R]; [left; tauto|left; tauto|now right].
    + intros [[Z [I|[I|I]]]|R]; [left; tauto|left; tauto|lia|now right].
Qed.
Lemma zero_copy_same t aw chunks r : from_arrow_int t true aw chunks = Some r -> from_arrow_int t false aw chunks = Some r.
Proof.
  unfold from_arrow_int. destruct (1 <? length chunks)%nat; [discriminate|]. unfold from_one. rewrite andb_false_r, andb_true_r.
  destruct (has_null (concat chunks)); [discriminate|]. destruct (holds_invalid t (concat chunks)); [discriminate|exact (fun H => H)].
Qed.
