(** Theorems on matching across types, smallest types and fancy indexing: C67, C68, C92. *)
From Coq Require Import List ZArith Bool Lia.
From Verif Require Import GroupModel GroupFacts GroupingModel LosslessModel LosslessProofs.
Import ListNotations.
Open Scope Z_scope.

(** ** C67: lossless common type *)
(** When the two types have a lossless common type, every valid number of either is
    converted to itself, so equal ones stay equal, different ones different, and
    none becomes invalid. *)
Theorem C67_type d1 d2 c junk : find_lossless d1 d2 = Some c ->
  forall v, (holds d1 v -> cast junk d1 c (Some v) = Some v) /\ (holds d2 v -> cast junk d2 c (Some v) = Some v) /\
  cast junk d1 c None = None /\ cast junk d2 c None = None.
Proof.
  intros H v. destruct (find_lossless_holds d1 d2 c H v) as [A B].
  split; [|split; [|split; reflexivity]]; intros K; apply cast_exact; auto.
Qed.
Print Assumptions C67_type.

(** ismember finds, for each valid element, the first equal element of the other
    array, provided both arrays' values exist in the chosen type. *)
Theorem C67_ismember_partial junk nulls d1 a d2 b res : ismember_num junk nulls d1 a d2 b = Some res ->
  (forall c, d1 <> d2 -> find_lossless_array d1 a d2 b = Some c -> forall v, In (Some v) a \/ In (Some v) b -> holds c v) ->
  length res = length a /\
  forall i v, nth_error a i = Some (Some v) -> exists r, nth_error res i = Some r /\
    match r with
    | Some j => nth_error b j = Some (Some v) /\ forall k, (k < j)%nat -> nth_error b k <> Some (Some v)
    | None => ~ In (Some v) b
    end.
Proof.
  intros H Hc.
  assert (E : res = is_member32 nulls a b).
  { unfold ismember_num in H. destruct (dt_dec d1 d2) as [|N]; [congruence|].
    destruct (find_lossless_array d1 a d2 b) as [c|] eqn:F; [|discriminate].
    specialize (Hc c N eq_refl).
    rewrite !map_cast_id in H by (intros v Hv; apply Hc; auto).
    destruct (dt_dec d1 c), (dt_dec d2 c); congruence. }
  subst res. unfold is_member32. split; [apply map_length|]. intros i v Hi.
  rewrite nth_error_map, Hi. cbn [option_map]. eexists. split; [reflexivity|].
  destruct (index_of (veqb nulls) (Some v) b) as [j|] eqn:Ej.
  - apply index_first in Ej. destruct Ej as ((u & Hu & Eu) & Hb).
    assert (U : forall w, veqb nulls (Some v) w = true <-> w = Some v).
    { intros [w|]; cbn [veqb]; [rewrite Z.eqb_eq; split; congruence|split; discriminate]. }
    apply U in Eu. subst u. split; [exact Hu|]. intros k Hk K. specialize (Hb k _ Hk K). cbn in Hb. rewrite Z.eqb_refl in Hb. discriminate.
  - intros Hin. apply In_nth_error in Hin. destruct Hin as [j Hj].
    assert (G : forall us : list value, index_of (veqb nulls) (Some v) us = None -> forall j, nth_error us j <> Some (Some v)).
    { clear. induction us as [|u us IH]; intros H j; [destruct j; discriminate|]. cbn [index_of] in H.
      destruct (veqb nulls (Some v) u) eqn:E; [discriminate|]. destruct (index_of (veqb nulls) (Some v) us) eqn:F; [discriminate|].
      destruct j as [|j]; [|apply IH; reflexivity]. intros K. injection K as ->. cbn in E. rewrite Z.eqb_refl in E. discriminate. }
    exact (G b Ej j Hj).
Qed.
Print Assumptions C67_ismember_partial.

(** The condition is met whatever the values when the types alone are compatible. *)
Theorem C67_compatible junk nulls d1 a d2 b c : find_lossless d1 d2 = Some c ->
  (forall x, In x a -> holds_value d1 x) -> (forall x, In x b -> holds_value d2 x) ->
  exists res, ismember_num junk nulls d1 a d2 b = Some res /\
  forall i v, nth_error a i = Some (Some v) -> exists r, nth_error res i = Some r /\
    match r with
    | Some j => nth_error b j = Some (Some v) /\ forall k, (k < j)%nat -> nth_error b k <> Some (Some v)
    | None => ~ In (Some v) b
    end.
Proof.
  intros F Ha Hb.
  assert (X : exists res, ismember_num junk nulls d1 a d2 b = Some res).
  { unfold ismember_num. destruct (dt_dec d1 d2); [eexists; reflexivity|]. unfold find_lossless_array. rewrite F. eexists; reflexivity. }
  destruct X as [res X]. exists res. split; [exact X|].
  apply (C67_ismember_partial junk nulls d1 a d2 b res X).
  intros c' N F'. unfold find_lossless_array in F'. rewrite F in F'. assert (c' = c) by congruence. subst c'.
  intros v [Hv|Hv]; [apply (proj1 (find_lossless_holds d1 d2 c F v)); exact (Ha _ Hv)|apply (proj2 (find_lossless_holds d1 d2 c F v)); exact (Hb _ Hv)].
Qed.
Print Assumptions C67_compatible.

(** Which pairs are compatible: all but 64-bit integers with floats or with the other sign. *)
Theorem C67_pairs d1 d2 : find_lossless d1 d2 = None <->
  (is_int d1 = true /\ bits d1 = 64 /\ (is_int d2 = false \/ is_signed d1 = true /\ d2 = U64)) \/
  (is_int d2 = true /\ bits d2 = 64 /\ (is_int d1 = false \/ is_signed d2 = true /\ d1 = U64)) \/
  (d1 = U64 /\ is_signed d2 = true) \/ (d2 = U64 /\ is_signed d1 = true).
Proof.
  assert (E : find_lossless d1 d2 = None \/ exists c, find_lossless d1 d2 = Some c) by (destruct (find_lossless d1 d2); eauto).
  split.
  - intros H. destruct d1, d2; vm_compute in H; try discriminate; cbn; intuition congruence.
  - intros H. destruct d1, d2; try (vm_compute; reflexivity); exfalso; cbn in H; intuition congruence.
Qed.
Print Assumptions C67_pairs.

(** Findings: int64 2 is found in float64 [2.5]; int64 -2 in uint64 [2^64-2, 1] (all() where any() is
    meant); in a multi-key match an invalid int32 equals the valid int64 -2^31 (astype with copy=False). *)
Theorem C67_refuted junk nulls :
  (let half := 2 ^ 1073 in holds F64 (5 * half) /\ ismember_num junk nulls I64 [Some (2 * one)] F64 [Some (5 * half)] = Some [Some 0%nat]) /\
  (holds I64 (-2 * one) /\ holds U64 ((2 ^ 64 - 2) * one) /\
   ismember_num junk nulls I64 [Some (-2 * one)] U64 [Some ((2 ^ 64 - 2) * one); Some one] = Some [Some 0%nat]) /\
  (holds I64 (- 2 ^ 31 * one) /\
   align_key junk I32 [None] I64 [Some (- 2 ^ 31 * one)] = Some ([Some (- 2 ^ 31 * one)], [Some (- 2 ^ 31 * one)])).
Proof.
  Transparent one.
  split; [|split; [split; [|split]|split]].
  - cbv zeta. split; [|destruct nulls; vm_compute; reflexivity].
    exists 5, 1073. split; [reflexivity|]. split; [reflexivity|]. split; [discriminate|]. vm_compute. discriminate.
  - exists (-2). split; [reflexivity|]. split; [vm_compute; split; discriminate|vm_compute; discriminate].
  - exists (2 ^ 64 - 2). split; [reflexivity|]. split; [vm_compute; split; discriminate|vm_compute; discriminate].
  - destruct nulls; vm_compute; reflexivity.
  - exists (- 2 ^ 31). split; [reflexivity|]. split; [vm_compute; split; discriminate|vm_compute; discriminate].
  - vm_compute. reflexivity.
  Opaque one.
Qed.
Print Assumptions C67_refuted.

Example C67_case : find_lossless I32 F64 = Some F64 /\ find_lossless I64 F64 = None /\ find_lossless U8 I8 = Some I16 /\
  holds I32 (7 * one) /\ holds F64 (7 * one) /\
  ismember_num (fun _ => 0) true I32 [Some (7 * one); Some (8 * one); None] F64 [Some (5 * 2 ^ 1073); Some (7 * one); None; Some (7 * one)]
    = Some [Some 1%nat; None; Some 2%nat].
Proof.
  Transparent one.
  split; [reflexivity|]. split; [reflexivity|]. split; [reflexivity|]. split; [|split; [|vm_compute; reflexivity]].
  - exists 7. split; [reflexivity|]. split; [vm_compute; split; discriminate|vm_compute; discriminate].
  - exists 7, 1074. split; [reflexivity|]. split; [reflexivity|]. split; [discriminate|]. vm_compute. discriminate.
  Opaque one.
Qed.

(** ** C92: smallest type for a number *)
(** The type holds the number; with promote_invalid the number is not the type's
    invalid value; with prefer_signed the type is signed. *)
Theorem C92_fits_partial v promote prefer d : min_scalar_type v promote prefer = Some d -> (prefer = true -> promote = true \/ v < 0) ->
  is_int d = true /\ min_of d <= v <= max_of d /\ (promote = true -> v <> sentinel d) /\ (prefer = true -> is_signed d = true).
Proof.
  unfold min_scalar_type, np_min_scalar_type. intros H Hp.
  set (v1 := if promote then if 0 <=? v then v + 1 else v - 1 else v) in H. cbv zeta in H.
  set (v2 := if prefer && (0 <=? v1) then if v1 =? 0 then -1 else - v1 else v1) in H.
  apply find_some in H. destruct H as [Hin Hr]. apply andb_true_iff in Hr. destruct Hr as [R1 R2].
  apply Z.leb_le in R1. apply Z.leb_le in R2.
  assert (V : (0 <= v -> promote = true -> v1 = v + 1) /\ (v < 0 -> promote = true -> v1 = v - 1) /\ (promote = false -> v1 = v)).
  { unfold v1. destruct promote; destruct (Z.leb_spec 0 v); intuition lia. }
  assert (W : (prefer = true -> 0 <= v1 -> v1 <> 0 -> v2 = - v1) /\ (prefer = true -> v1 = 0 -> v2 = -1) /\ (prefer = false \/ v1 < 0 -> v2 = v1)).
  { unfold v2. clearbody v1. destruct prefer; cbn [andb]; [|intuition (discriminate || lia)].
    destruct (Z.leb_spec 0 v1); [destruct (Z.eqb_spec v1 0)|]; intuition (discriminate || lia). }
  clearbody v1 v2. destruct V as (V1 & V2 & V3). destruct W as (W1 & W2 & W3).
  destruct (0 <=? v2) eqn:E2; [apply Z.leb_le in E2|apply Z.leb_gt in E2];
    cbn [In] in Hin; destruct Hin as [<-|[<-|[<-|[<-|[]]]]]; (split; [reflexivity|]);
    unfold sentinel, min_of, max_of, is_signed, bits in *;
    repeat match goal with H : context [2 ^ ?k] |- _ => let u := eval vm_compute in (2 ^ k) in change (2 ^ k) with u in H end;
    repeat match goal with |- context [2 ^ ?k] => let u := eval vm_compute in (2 ^ k) in change (2 ^ k) with u end;
    destruct promote, prefer; (split; [|split]); intros; try reflexivity; try discriminate;
    try lia.
Qed.
Print Assumptions C92_fits_partial.

(** No narrower type of the same signedness would do. *)
Theorem C92_least v promote prefer d d' : min_scalar_type v promote prefer = Some d -> is_int d' = true -> is_signed d' = is_signed d ->
  min_of d' <= v <= max_of d' -> (promote = true -> v <> sentinel d') -> bits d <= bits d'.
Proof.
  unfold min_scalar_type, np_min_scalar_type. intros H Hi Hs Hr Hp.
  set (v1 := if promote then if 0 <=? v then v + 1 else v - 1 else v) in H. cbv zeta in H.
  set (v2 := if prefer && (0 <=? v1) then if v1 =? 0 then -1 else - v1 else v1) in H.
  assert (V : (0 <= v -> promote = true -> v1 = v + 1) /\ (v < 0 -> promote = true -> v1 = v - 1) /\ (promote = false -> v1 = v)).
  { unfold v1. destruct promote; destruct (Z.leb_spec 0 v); intuition lia. }
  assert (W : (prefer = true -> 0 <= v1 -> v1 <> 0 -> v2 = - v1) /\ (prefer = true -> v1 = 0 -> v2 = -1) /\ (prefer = false \/ v1 < 0 -> v2 = v1)).
  { unfold v2. clearbody v1. destruct prefer; cbn [andb]; [|intuition (discriminate || lia)].
    destruct (Z.leb_spec 0 v1); [destruct (Z.eqb_spec v1 0)|]; intuition (discriminate || lia). }
  clearbody v1 v2. destruct V as (V1 & V2 & V3). destruct W as (W1 & W2 & W3).
  assert (In' : v2 < 0 -> is_signed d = true) by (intros N; apply find_some in H; destruct H as [Hin _]; replace (0 <=? v2) with false in Hin by (symmetry; apply Z.leb_gt; lia); cbn [In] in Hin; destruct Hin as [<-|[<-|[<-|[<-|[]]]]]; reflexivity).
  assert (In'' : 0 <= v2 -> is_signed d = false) by (intros N; apply find_some in H; destruct H as [Hin _]; replace (0 <=? v2) with true in Hin by (symmetry; apply Z.leb_le; lia); cbn [In] in Hin; destruct Hin as [<-|[<-|[<-|[<-|[]]]]]; reflexivity).
  assert (K : forall x, In x (if 0 <=? v2 then [U8; U16; U32; U64] else [I8; I16; I32; I64]) -> min_of x <= v2 <= max_of x -> bits d <= bits x).
  { intros x Hx Bx. destruct (0 <=? v2);
      cbn [find] in H; cbn [In] in Hx;
      repeat match type of H with (if ?c then _ else _) = _ => destruct c eqn:?; [injection H as <-; cbn [bits]; destruct Hx as [<-|[<-|[<-|[<-|[]]]]]; cbn [bits]; try lia;
        exfalso; repeat match goal with E : (_ && _) = false |- _ => apply andb_false_iff in E; rewrite !Z.leb_gt in E end; lia|] end; discriminate. }
  destruct (0 <=? v2) eqn:E2; [apply Z.leb_le in E2|apply Z.leb_gt in E2].
  - rewrite (In'' E2) in Hs. apply K; [destruct d'; cbn in Hi, Hs; try discriminate; cbn; tauto|].
    destruct d'; cbn in Hi, Hs; try discriminate;
    unfold sentinel, min_of, max_of, is_signed, bits in *;
    repeat match goal with H : context [2 ^ ?k] |- _ => let u := eval vm_compute in (2 ^ k) in change (2 ^ k) with u in H end;
    repeat match goal with |- context [2 ^ ?k] => let u := eval vm_compute in (2 ^ k) in change (2 ^ k) with u end;
    destruct promote, prefer; specialize (fun E => Hp E) as Hp'; try specialize (Hp eq_refl); lia.
  - rewrite (In' E2) in Hs. apply K; [destruct d'; cbn in Hi, Hs; try discriminate; cbn; tauto|].
    destruct d'; cbn in Hi, Hs; try discriminate;
    unfold sentinel, min_of, max_of, is_signed, bits in *;
    repeat match goal with H : context [2 ^ ?k] |- _ => let u := eval vm_compute in (2 ^ k) in change (2 ^ k) with u in H end;
    repeat match goal with |- context [2 ^ ?k] => let u := eval vm_compute in (2 ^ k) in change (2 ^ k) with u end;
    destruct promote, prefer; try specialize (Hp eq_refl); lia.
Qed.
Print Assumptions C92_least.

(** Finding: with prefer_signed alone, 128 is given int8, whose greatest number is 127. *)
Theorem C92_refuted : min_scalar_type 128 false true = Some I8 /\ max_of I8 = 127.
Proof. split; vm_compute; reflexivity. Qed.
Print Assumptions C92_refuted.
Example C92_case : min_scalar_type 255 false false = Some U8 /\ min_scalar_type 255 true false = Some U16 /\
  min_scalar_type 255 true true = Some I16 /\ min_scalar_type (-128) true false = Some I16 /\ min_scalar_type (2 ^ 64) false false = None.
Proof. repeat split; vm_compute; reflexivity. Qed.

(** ** C68: fancy indexing *)
Lemma flat_chunk : forall {A B} (f : A -> list B) n l k x, (forall a, length (f a) = n) -> nth_error l k = Some x ->
  firstn n (skipn (k * n) (flat_map f l)) = f x.
Proof.
  intros A B f n. induction l as [|a l IH]; intros k x Hf Hk; [destruct k; discriminate|].
  destruct k as [|k].
  - injection Hk as ->. cbn [flat_map Nat.mul skipn]. rewrite firstn_app, (Hf x), Nat.sub_diag. cbn [firstn].
    rewrite app_nil_r. rewrite <- (Hf x). apply firstn_all.
  - cbn [flat_map]. replace (S k * n)%nat with (n + k * n)%nat by lia.
    rewrite skipn_app, (Hf a). replace (n + k * n - n)%nat with (k * n)%nat by lia.
    rewrite (skipn_all2 (f a)) by (rewrite (Hf a); lia). cbn [app]. apply IH; assumption.
Qed.

Lemma nth_concat : forall {A} (a : list (list A)) n r c row, (forall x, In x a -> length x = n) -> nth_error a r = Some row -> (c < n)%nat ->
  nth_error (concat a) (r * n + c) = nth_error row c.
Proof.
  intros A. induction a as [|x a IH]; intros n r c row Hl Hr Hc; [destruct r; discriminate|].
  assert (Lx : length x = n) by (apply Hl; left; reflexivity). destruct r as [|r].
  - injection Hr as ->. cbn [concat Nat.mul Nat.add]. apply nth_error_app1. lia.
  - cbn [concat]. rewrite nth_error_app2 by lia. replace (S r * n + c - length x)%nat with (r * n + c)%nat by lia.
    apply IH; auto. intros y Hy. apply Hl. right. exact Hy.
Qed.

Lemma concat_length : forall {A} (a : list (list A)) n, (forall x, In x a -> length x = n) -> length (concat a) = (length a * n)%nat.
Proof.
  intros A. induction a as [|x a IH]; intros n Hl; [reflexivity|]. cbn [concat length]. rewrite app_length, (Hl x) by (left; reflexivity).
  rewrite (IH n) by (intros y Hy; apply Hl; right; exact Hy). lia.
Qed.

Lemma wrap64_id : forall z, - 2 ^ 63 <= z < 2 ^ 63 -> wrap64 z = z.
Proof. intros z H. unfold wrap64. rewrite Z.mod_small; lia. Qed.

Lemma mbget_row : forall {X} (inv : X) ncols (a : list (list X)) i,
  (forall row, In row a -> length row = ncols) ->
  let n := Z.of_nat (length a) in let row := map (fun c => mbget inv (concat a) (i * Z.of_nat ncols + Z.of_nat c)) (seq 0 ncols) in
    (0 <= i < n -> nth_error a (Z.to_nat i) = Some row) /\
    (- n <= i < 0 -> nth_error a (Z.to_nat (n + i)) = Some row) /\
    (i < - n \/ n <= i -> row = repeat inv ncols).
Proof.
  intros X inv ncols a i Hr n row.
  assert (L : Z.of_nat (length (concat a)) = n * Z.of_nat ncols) by (rewrite (concat_length a ncols Hr), Nat2Z.inj_mul; reflexivity).
  assert (G : forall r rw, nth_error a r = Some rw -> (forall c, (c < ncols)%nat -> mbget inv (concat a) (i * Z.of_nat ncols + Z.of_nat c) = nth (r * ncols + c) (concat a) inv) -> rw = row).
  { intros r rw Hrw Hc. assert (Lr : length rw = ncols) by (apply Hr; apply nth_error_In with r; exact Hrw).
    apply nth_ext with inv inv; [unfold row; rewrite map_length, seq_length; exact Lr|]. intros c Hlt. rewrite Lr in Hlt.
    unfold row. set (g := fun c => mbget inv (concat a) (i * Z.of_nat ncols + Z.of_nat c)).
    rewrite (nth_indep (map g (seq 0 ncols)) inv (g 0%nat)) by (rewrite map_length, seq_length; exact Hlt).
    rewrite (map_nth g (seq 0 ncols) 0%nat c), seq_nth by exact Hlt. unfold g.
    cbn [Nat.add]. rewrite Hc by exact Hlt. symmetry. apply nth_error_nth. rewrite (nth_concat a ncols r c rw Hr Hrw Hlt).
    apply nth_error_nth'. lia. }
  split; [|split].
  - intros Hi. destruct (nth_error a (Z.to_nat i)) as [rw|] eqn:E; [|apply nth_error_None in E; unfold n in Hi; lia].
    f_equal. apply (G _ _ E). intros c Hc. unfold mbget. cbv zeta. rewrite L.
    assert (i * Z.of_nat ncols + Z.of_nat ncols <= n * Z.of_nat ncols) by nia. assert (0 <= i * Z.of_nat ncols) by nia.
    replace ((0 <=? i * Z.of_nat ncols + Z.of_nat c) && (i * Z.of_nat ncols + Z.of_nat c <? n * Z.of_nat ncols)) with true by (symmetry; apply andb_true_iff; split; [apply Z.leb_le|apply Z.ltb_lt]; lia).
    f_equal. rewrite Z2Nat.inj_add, Z2Nat.inj_mul, !Nat2Z.id by lia. reflexivity.
  - intros Hi. destruct (nth_error a (Z.to_nat (n + i))) as [rw|] eqn:E; [|apply nth_error_None in E; unfold n in Hi, E; lia].
    f_equal. apply (G _ _ E). intros c Hc. unfold mbget. cbv zeta. rewrite L.
    assert (i * Z.of_nat ncols + Z.of_nat ncols <= 0) by nia. assert (0 <= n * Z.of_nat ncols + i * Z.of_nat ncols) by nia.
    replace ((0 <=? i * Z.of_nat ncols + Z.of_nat c) && (i * Z.of_nat ncols + Z.of_nat c <? n * Z.of_nat ncols)) with false by (symmetry; apply andb_false_iff; left; apply Z.leb_gt; lia).
    replace ((- (n * Z.of_nat ncols) <=? i * Z.of_nat ncols + Z.of_nat c) && (i * Z.of_nat ncols + Z.of_nat c <? 0)) with true by (symmetry; apply andb_true_iff; split; [apply Z.leb_le|apply Z.ltb_lt]; lia).
    f_equal. apply Nat2Z.inj. rewrite Nat2Z.inj_add, Nat2Z.inj_mul, !Z2Nat.id by lia. lia.
  - intros Hi. unfold row.
    transitivity (map (fun _ : nat => inv) (seq 0 ncols)).
    + apply map_ext_in. intros c Hc. apply in_seq in Hc. unfold mbget. cbv zeta. rewrite L.
      assert (i * Z.of_nat ncols + Z.of_nat ncols <= - (n * Z.of_nat ncols) \/ n * Z.of_nat ncols <= i * Z.of_nat ncols) by nia.
      assert (0 <= n * Z.of_nat ncols) by (unfold n; nia).
      replace ((0 <=? i * Z.of_nat ncols + Z.of_nat c) && (i * Z.of_nat ncols + Z.of_nat c <? n * Z.of_nat ncols)) with false by (symmetry; apply andb_false_iff; rewrite Z.leb_gt, Z.ltb_ge; lia).
      replace ((- (n * Z.of_nat ncols) <=? i * Z.of_nat ncols + Z.of_nat c) && (i * Z.of_nat ncols + Z.of_nat c <? 0)) with false by (symmetry; apply andb_false_iff; rewrite Z.leb_gt, Z.ltb_ge; lia).
      reflexivity.
    + clear. replace (repeat inv ncols) with (repeat inv (length (seq 0 ncols))) by (rewrite seq_length; reflexivity).
      generalize (seq 0 ncols). induction l as [|x l IH]; cbn; [reflexivity|f_equal; exact IH].
Qed.

(** Two dimensions, index in a FastArray: row [i] for 0 <= i < n, counted from the end for
    -n <= i < 0, and a row of invalids for the invalid index and every other integer
    (products within int64). *)
Theorem C68_two_dims_partial {X} (inv : X) ncols (a : list (list X)) idx k i :
  (forall row, In row a -> length row = ncols) -> Z.of_nat (length a) * Z.of_nat ncols < 2 ^ 62 -> Z.of_nat ncols < 2 ^ 62 ->
  nth_error idx k = Some i -> i = INV64 \/ Z.abs i * Z.of_nat ncols + Z.of_nat ncols < 2 ^ 63 ->
  let n := Z.of_nat (length a) in n < 2 ^ 63 ->
  exists row, nth_error (mbget_2d inv true ncols a idx) k = Some row /\
    (0 <= i < n -> nth_error a (Z.to_nat i) = Some row) /\
    (- n <= i < 0 -> nth_error a (Z.to_nat (n + i)) = Some row) /\
    (i < - n \/ n <= i -> row = repeat inv ncols).
Proof.
  intros Hr Hna Hnc Hk Hi n Hn63.
  set (s := if i =? INV64 then i else i * Z.of_nat ncols).
  set (row := map (fun c => mbget inv (concat a) (s + Z.of_nat c)) (seq 0 ncols)).
  assert (Hab : Z.abs (i * Z.of_nat ncols) = Z.abs i * Z.of_nat ncols) by (rewrite Z.abs_mul, (Z.abs_eq (Z.of_nat ncols)) by lia; reflexivity).
  assert (Es : (if true && (i =? INV64) then i else wrap64 (i * Z.of_nat ncols)) = s).
  { unfold s. cbn [andb]. destruct (i =? INV64) eqn:E; [reflexivity|]. apply wrap64_id.
    apply Z.eqb_neq in E. destruct Hi as [Hi|Hi]; [contradiction|]. lia. }
  exists row. split.
  { unfold mbget_2d; cbv zeta. unfold chunk. rewrite nth_error_map.
    assert (Lk : (k < length idx)%nat) by (apply nth_error_Some; congruence).
    replace (nth_error (seq 0 (length idx)) k) with (Some k).
    2:{ symmetry. rewrite nth_error_nth' with (d := 0%nat) by (rewrite seq_length; exact Lk). rewrite seq_nth by exact Lk. reflexivity. }
    cbn [option_map]. f_equal.
    rewrite skipn_map, firstn_map.
    rewrite (flat_chunk _ ncols _ k s); [|intros z; rewrite map_length, seq_length; reflexivity|rewrite nth_error_map, Hk; cbn [option_map]; rewrite Es; reflexivity].
    rewrite map_map. unfold row. apply map_ext_in. intros c Hc. apply in_seq in Hc. f_equal. apply wrap64_id.
    unfold s. destruct (i =? INV64) eqn:E.
    - apply Z.eqb_eq in E. rewrite E. unfold INV64. lia.
    - destruct Hi as [Hi|Hi]; [apply Z.eqb_neq in E; contradiction|]. lia. }
  unfold row, s. destruct (i =? INV64) eqn:E; [|apply mbget_row; exact Hr].
  apply Z.eqb_eq in E.
  assert (N : 0 <= n) by (unfold n; lia).
  split; [rewrite E; unfold INV64; lia|]. split; [rewrite E; unfold INV64; lia|]. intros _.
  transitivity (map (fun _ : nat => inv) (seq 0 ncols)).
  - apply map_ext_in. intros c Hc. apply in_seq in Hc. unfold mbget. cbv zeta.
    rewrite (concat_length a ncols Hr), Nat2Z.inj_mul. fold n. rewrite E. unfold INV64.
    replace ((0 <=? - 2 ^ 63 + Z.of_nat c) && (- 2 ^ 63 + Z.of_nat c <? n * Z.of_nat ncols)) with false by (symmetry; apply andb_false_iff; left; apply Z.leb_gt; lia).
    replace ((- (n * Z.of_nat ncols) <=? - 2 ^ 63 + Z.of_nat c) && (- 2 ^ 63 + Z.of_nat c <? 0)) with false by (symmetry; apply andb_false_iff; left; apply Z.leb_gt; fold n in Hna; lia).
    reflexivity.
  - clear. replace (repeat inv ncols) with (repeat inv (length (seq 0 ncols))) by (rewrite seq_length; reflexivity).
    generalize (seq 0 ncols). induction l as [|x l IH]; cbn; [reflexivity|f_equal; exact IH].
Qed.
Print Assumptions C68_two_dims_partial.

Lemma all_some_spec : forall {A} (l : list (option A)) r, all_some l = Some r <-> l = map Some r.
Proof.
  intros A. induction l as [|x l IH]; intros r.
  - cbn. destruct r; split; intros H; try discriminate; reflexivity.
  - cbn [all_some]. destruct x as [x|]; [|destruct r; split; discriminate].
    destruct (all_some l) as [r'|] eqn:E.
    + assert (E' : l = map Some r') by (apply IH; reflexivity). split.
      * intros H. assert (r = x :: r') by congruence. subst r. cbn. congruence.
      * intros H. destruct r as [|y r]; [discriminate|]. cbn in H. assert (x = y) by congruence. assert (G : l = map Some r) by congruence.
        apply IH in G. congruence.
    + split; [discriminate|]. intros H. destruct r as [|y r]; [discriminate|]. cbn in H. assert (G : l = map Some r) by congruence. apply IH in G. discriminate.
Qed.

Lemma all_some_none : forall {A} (l : list (option A)), all_some l = None <-> In None l.
Proof.
  intros A. induction l as [|x l IH]; [cbn; split; [discriminate|tauto]|]. cbn [all_some In]. destruct x as [x|]; [|tauto].
  destruct (all_some l); split; intros H.
  - discriminate.
  - destruct H as [H|H]; [discriminate|]. apply IH in H. discriminate.
  - right. apply IH. reflexivity.
  - reflexivity.
Qed.

(** Indexing a two-dimensional array with a FastArray: valid indices give rows (negative from
    the end), invalid ones a row of invalids; a valid index out of range is an IndexError. *)
Theorem C68_getitem {X} (inv : X) isna ncols (a : list (list X)) idx :
  let n := Z.of_nat (length a) in 
  match getitem_2d inv isna ncols a idx with
  | Some rows => length rows = length idx /\ forall k i, nth_error idx k = Some i ->
      if isna i then nth_error rows k = Some (repeat inv ncols)
      else - n <= i < n /\ nth_error rows k = nth_error a (Z.to_nat (if 0 <=? i then i else n + i)) 
  | None => a = [] \/ exists i, In i idx /\ isna i = false /\ ~ (- n <= i < n)
  end.
Proof.
  intros n.
  assert (T : forall i r, np_take a i = Some r -> - n <= i < n /\ nth_error a (Z.to_nat (if 0 <=? i then i else n + i)) = Some r).
  { intros i r. unfold np_take. cbv zeta. fold n. destruct (Z.leb_spec 0 i), (Z.ltb_spec i n); cbn [andb].
    - intros H'. split; [lia|exact H'].
    - replace (i <? 0) with false by (symmetry; apply Z.ltb_ge; lia). rewrite andb_false_r. discriminate.
    - destruct (Z.leb_spec (- n) i), (Z.ltb_spec i 0); cbn [andb]; try discriminate. intros H'. split; [lia|]. rewrite Z.add_comm. exact H'.
    - destruct (Z.leb_spec (- n) i), (Z.ltb_spec i 0); cbn [andb]; try discriminate. intros H'. split; [lia|]. rewrite Z.add_comm. exact H'. }
  assert (U : forall i, np_take a i = None -> ~ (- n <= i < n)).
  { intros i. unfold np_take. cbv zeta. fold n. destruct (Z.leb_spec 0 i), (Z.ltb_spec i n); cbn [andb]; try lia.
    - intros H'. apply nth_error_None in H'. unfold n in *. lia.
    - destruct (Z.leb_spec (- n) i), (Z.ltb_spec i 0); cbn [andb]; try lia. intros H'. apply nth_error_None in H'. unfold n in *. lia. }
  unfold getitem_2d. destruct (existsb isna idx) eqn:Ex.
  - destruct (all_some _) as [rows|] eqn:E.
    + apply all_some_spec in E. rewrite map_map in E.
      assert (L : length rows = length idx) by (rewrite <- (map_length Some rows), <- E, map_length; reflexivity).
      split; [rewrite map_length, combine_length, L; lia|]. intros k i Hk.
      assert (Hr : nth_error (map Some rows) k = Some (np_take a (if isna i then 0 else i))) by (rewrite <- E, nth_error_map, Hk; reflexivity).
      rewrite nth_error_map in Hr. destruct (nth_error rows k) as [r|] eqn:Er; [|discriminate]. cbn [option_map] in Hr.
      assert (Hc : nth_error (combine idx rows) k = Some (i, r)).
      { clear - Hk Er. revert rows k Hk Er. induction idx as [|x idx IH]; intros rows k Hk Er; [destruct k; discriminate|].
        destruct rows as [|y rows]; [destruct k; discriminate|]. destruct k as [|k]; [cbn in *; congruence|]. cbn in *. apply IH; assumption. }
      rewrite nth_error_map, Hc. cbn [option_map fst snd]. destruct (isna i) eqn:Ei; [reflexivity|].
      destruct (T i r) as [T1 T2]; [congruence|]. split; [exact T1|]. congruence.
    + apply all_some_none in E. rewrite map_map in E. apply in_map_iff in E. destruct E as (i & Ei & Hi).
      destruct (isna i) eqn:Na; [left|right; exists i; split; [exact Hi|split; [exact Na|apply U; exact Ei]]].
      apply U in Ei. destruct a as [|x a']; [reflexivity|]. unfold n in Ei. cbn [length] in Ei. lia.
  - assert (Nn : forall i, In i idx -> isna i = false).
    { intros i Hi. destruct (isna i) eqn:Ei; [|reflexivity]. assert (existsb isna idx = true) by (apply existsb_exists; eauto). congruence. }
    destruct (all_some _) as [rows|] eqn:E.
    + apply all_some_spec in E.
      split; [rewrite <- (map_length Some rows), <- E, map_length; reflexivity|]. intros k i Hk.
      rewrite (Nn i) by (apply nth_error_In with k; exact Hk).
      assert (Hr : nth_error (map Some rows) k = Some (np_take a i)) by (rewrite <- E, nth_error_map, Hk; reflexivity).
      rewrite nth_error_map in Hr. destruct (nth_error rows k) as [r|]; [|discriminate]. cbn [option_map] in Hr.
      destruct (T i r) as [T1 T2]; [congruence|]. split; [exact T1|congruence].
    + apply all_some_none in E. apply in_map_iff in E. destruct E as (i & Ei & Hi). right. exists i. split; [exact Hi|]. split; [apply Nn; exact Hi|apply U; exact Ei].
Qed.
Print Assumptions C68_getitem.

(** Findings: a plain int64 index holding the invalid value picks row 0 when the number of
    columns is even; an invalid index into a two-dimensional array without rows is an IndexError. *)
Theorem C68_refuted :
  mbget_2d None false 2 [[Some 1; Some 2]; [Some 3; Some 4]] [1; INV64] = [[Some 3; Some 4]; [Some 1; Some 2]] /\
  getitem_2d None (fun i => i =? INV64) 2 ([] : list (list (option Z))) [INV64] = None.
Proof. split; vm_compute; reflexivity. Qed.
Print Assumptions C68_refuted.

Example C68_case :
  mbget_2d None true 2 [[Some 1; Some 2]; [Some 3; Some 4]] [1; INV64; -2; 2; -3] =
    [[Some 3; Some 4]; [None; None]; [Some 1; Some 2]; [None; None]; [None; None]] /\
  getitem_2d None (fun i => i =? INV64) 2 [[Some 1; Some 2]; [Some 3; Some 4]] [-1; INV64; 0] = Some [[Some 3; Some 4]; [None; None]; [Some 1; Some 2]] /\
  getitem_2d None (fun i => i =? INV64) 2 [[Some 1; Some 2]] [1] = None.
Proof. repeat split; vm_compute; reflexivity. Qed.
