(* Proofs about the operations on whole arrays. *)
From Coq Require Import List ZArith Bool Lia.
From Verif Require Import UfSpec UfModel.
Import ListNotations.
Local Open Scope Z_scope.

Lemma dt_eqb_eq a b : dt_eqb a b = true <-> a = b.
Proof.
  split.
  - destruct a as [|x|x|p], b as [|y|y|q]; cbn [dt_eqb]; try discriminate; try reflexivity.
    + now destruct x, y. + now destruct x, y. + intros H. apply Z.eqb_eq in H. now subst.
  - intros <-. destruct a as [|x|x|p]; cbn [dt_eqb]; try reflexivity; try (now destruct x). apply Z.eqb_refl.
Qed.
Lemma dt_eqb_refl a : dt_eqb a a = true.
Proof. now apply dt_eqb_eq. Qed.
Lemma dt_eqb_sym a b : dt_eqb a b = dt_eqb b a.
Proof.
  destruct (dt_eqb a b) eqn:E, (dt_eqb b a) eqn:F; try reflexivity.
  - apply dt_eqb_eq in E. subst. now rewrite dt_eqb_refl in F.
  - apply dt_eqb_eq in F. subst. now rewrite dt_eqb_refl in E.
Qed.

Lemma conv_id d z : integral d = true -> holds d z -> conv d z = z.
Proof.
  unfold holds. destruct d as [|w|w|p]; try discriminate; intros _ H; cbn [conv lowest highest] in *.
  - destruct (z =? 0) eqn:E; [apply Z.eqb_eq in E|apply Z.eqb_neq in E]; lia.
  - rewrite Z.mod_small; [lia|]. destruct w; cbn [bits] in *; cbn in *; lia.
  - rewrite Z.mod_small; [lia|]. destruct w; cbn [bits] in *; cbn in *; lia.
Qed.

Lemma convert_ok from to z : integral to = true -> proper from z -> holds to z -> convert_safe from to z = Some z.
Proof. intros I [_ V] H. unfold convert_safe. now rewrite V, conv_id. Qed.

Lemma promote_sym a b : promote a b = promote b a.
Proof.
  destruct a as [|x|x|p], b as [|y|y|q]; cbn [promote with_float]; try reflexivity.
  - f_equal. now destruct x, y.
  - f_equal. now destruct x, y.
  - f_equal. apply Z.max_comm.
Qed.

Lemma promote_holds a b : integral a = true -> integral b = true -> clash a b = false ->
  integral (promote a b) = true /\ (forall z, holds a z -> holds (promote a b) z) /\ (forall z, holds b z -> holds (promote a b) z).
Proof.
  intros IA IB C. destruct a as [|x|x|p], b as [|y|y|q]; try discriminate; try destruct x; try destruct y;
    try discriminate; cbn; (split; [reflexivity|]); unfold holds; cbn; split; intros z H; lia.
Qed.

(* ---- the operation when the final type holds everything ---- *)

Lemma cast_inside d a : integral d = true -> good a -> inside d a -> cast d a = map Some (content a).
Proof.
  intros I (_ & G & _) H. destruct a as [t l|t z]; cbn [cast content]; [|reflexivity].
  cbn in G. specialize (G eq_refl). apply map_ext_in. intros z HZ. unfold inside in H. rewrite Forall_forall in *. apply convert_ok; auto.
Qed.
Lemma prepare_inside d a b : integral d = true -> good a -> good b -> inside d a -> inside d b ->
  prepare d a b = (map Some (content a), map Some (content b)).
Proof.
  intros I GA GB IA IB. unfold prepare. rewrite !cast_inside by assumption. unfold uncast.
  destruct a, b; repeat match goal with |- context [if ?c then _ else _] => destruct c end; reflexivity.
Qed.
Lemma beside_pairs a b : beside a b (map Some (content a)) (map Some (content b))
  = option_map (map (fun p => (Some (fst p), Some (snd p)))) (pairs a b).
Proof.
  destruct a as [t x|t z], b as [s y|s u]; cbn [beside content pairs]; try reflexivity.
  - rewrite !map_length. destruct (Nat.eqb (length x) (length y)); [|reflexivity]. cbn [option_map]. f_equal.
    revert y. induction x as [|v x IH]; intros [|w y]; cbn; try reflexivity. f_equal. apply IH.
  - cbn [map option_map]. rewrite !map_map. reflexivity.
  - cbn [map option_map]. rewrite !map_map. reflexivity.
Qed.
Lemma pairs_inside d a b ps : inside d a -> inside d b -> pairs a b = Some ps ->
  Forall (fun p => holds d (fst p) /\ holds d (snd p)) ps.
Proof.
  unfold inside. rewrite !Forall_forall. intros IA IB E p HP.
  destruct a as [t x|t z], b as [s y|s u]; cbn [pairs content] in *; try discriminate.
  - destruct (Nat.eqb (length x) (length y)); [|discriminate]. injection E as <-.
    destruct p as [v w]. split; cbn [fst snd].
    + apply IA. eapply in_combine_l; eauto.
    + apply IB. eapply in_combine_r; eauto.
  - injection E as <-. apply in_map_iff in HP. destruct HP as (v & <- & HV). cbn. split; [now apply IA|]. apply IB. now left.
  - injection E as <-. apply in_map_iff in HP. destruct HP as (v & <- & HV). cbn. split; [|now apply IB]. apply IA. now left.
Qed.

Lemma ufunc2_arith f out a b d : final_type (Arith f) out a b = Some d -> integral d = true ->
  good a -> good b -> inside d a -> inside d b ->
  ufunc2 (Arith f) out a b = option_map (fun ps => Numbers d (map (fun p => Some (conv d (f (fst p) (snd p)))) ps)) (pairs a b).
Proof.
  intros F I GA GB IA IB. unfold ufunc2. rewrite F, prepare_inside by assumption. rewrite beside_pairs.
  destruct (pairs a b) as [ps|] eqn:E; [|reflexivity]. cbn [option_map]. f_equal. f_equal. rewrite map_map.
  apply map_ext_in. intros p HP. cbn [fst snd lift].
  assert (H := pairs_inside d a b ps IA IB E). rewrite Forall_forall in H. destruct (H p HP) as [H1 H2].
  now rewrite (conv_id d (fst p)), (conv_id d (snd p)).
Qed.
Lemma ufunc2_compare f nan out a b d : final_type (Compare f nan) out a b = Some d -> integral d = true ->
  good a -> good b -> inside d a -> inside d b ->
  ufunc2 (Compare f nan) out a b = option_map (fun ps => Answers (map (fun p => f (fst p) (snd p)) ps)) (pairs a b).
Proof.
  intros F I GA GB IA IB. unfold ufunc2. rewrite F, prepare_inside by assumption. rewrite beside_pairs.
  destruct (pairs a b) as [ps|] eqn:E; [|reflexivity]. cbn [option_map]. f_equal. f_equal. rewrite map_map.
  apply map_ext_in. intros p HP. cbn [fst snd compare].
  assert (H := pairs_inside d a b ps IA IB E). rewrite Forall_forall in H. destruct (H p HP) as [H1 H2].
  now rewrite (conv_id d (fst p)), (conv_id d (snd p)).
Qed.

(* ---- a number beside an array ---- *)

Lemma logical_find_ok d s z : integral d = true -> integral s = true -> in_reach d s z ->
  (s = TBool -> holds s z) ->
  integral (logical_find d s z) = true /\ (forall v, holds d v -> holds (logical_find d s z) v) /\ holds (logical_find d s z) z.
Proof.
  intros ID IS R HB. destruct (signed s || unsigned s) eqn:ES; unfold logical_find; rewrite ES; cbn [negb].
  2:{ assert (s = TBool) by (destruct s; cbn in ES, IS; congruence). subst s. specialize (HB eq_refl).
      assert (HF : find_common d TBool = d) by (destruct d as [|w|w|p]; reflexivity). rewrite HF.
      split; [exact ID|]. split; [auto|]. unfold holds in *. cbn in HB. destruct d as [|w|w|p]; try discriminate; try destruct w; cbn; lia. }
  destruct (signed d || unsigned d) eqn:ED; cbn [negb].
  2:{ assert (d = TBool) by (destruct d; cbn in ED, ID; congruence). subst d. cbn in R.
      assert (HF : find_common TBool s = s) by (destruct s as [|w|w|p]; cbn in ES; try discriminate; reflexivity). rewrite HF.
      split; [exact IS|]. split; [|exact R]. intros v. unfold holds. destruct s as [|w|w|p]; cbn in ES; try discriminate; destruct w; cbn; lia. }
  destruct d as [|w|w|p]; try discriminate; cbn [unsigned in_reach] in *.
  - destruct ((-128 <=? z) && (z <=? 127)) eqn:E1; [|destruct ((-32768 <=? z) && (z <=? 32767)) eqn:E2;
      [|destruct ((- 2 ^ 31 <=? z) && (z <=? 2 ^ 31 - 1)) eqn:E3; [|destruct ((- 2 ^ 63 <=? z) && (z <=? 2 ^ 63 - 1)) eqn:E4]]];
    rewrite ?andb_true_iff, ?Z.leb_le, ?andb_false_iff, ?Z.leb_gt in *;
    try (exfalso; lia);
    destruct w; cbn; (split; [reflexivity|]); unfold holds; cbn; (split; [intros v HV|]); lia.
  - destruct (z <=? 255) eqn:E1; [|destruct (z <=? 65535) eqn:E2; [|destruct (z <=? 2 ^ 32 - 1) eqn:E3; [|destruct (z <=? 2 ^ 64 - 1) eqn:E4]]];
    rewrite ?Z.leb_le, ?Z.leb_gt in *; try (exfalso; lia);
    destruct w; cbn; (split; [reflexivity|]); unfold holds; cbn; (split; [intros v HV|]); lia.
Qed.

(* ---- symmetry ---- *)
Lemma final_type_sym f out a b : final_type (Arith f) out a b = final_type (Arith f) out b a.
Proof.
  unfold final_type. destruct out as [d|]; cbn [logical].
  - now rewrite orb_comm.
  - destruct a as [da x|s z], b as [db y|t u]; try reflexivity.
    rewrite (dt_eqb_sym db da), (promote_sym db da). destruct (dt_eqb da db) eqn:E; [|reflexivity].
    apply dt_eqb_eq in E. now subst.
Qed.
Lemma prepare_sym d a b : prepare d b a = (snd (prepare d a b), fst (prepare d a b)).
Proof.
  unfold prepare. destruct a as [da x|s z], b as [db y|t u]; try reflexivity.
  rewrite (dt_eqb_sym db da). destruct (dt_eqb da db); [reflexivity|].
  destruct (dt_eqb da d), (dt_eqb db d); reflexivity.
Qed.
Lemma beside_sym {A} a b (x y : list A) :
  beside b a y x = option_map (map (fun p => (snd p, fst p))) (beside a b x y).
Proof.
  destruct a as [da u|s z], b as [db v|t w]; cbn [beside].
  - rewrite Nat.eqb_sym. destruct (Nat.eqb (length x) (length y)); [|reflexivity]. cbn. f_equal.
    revert y. induction x as [|p x IH]; intros [|q y]; cbn; try reflexivity. f_equal. apply IH.
  - destruct y; [reflexivity|]. cbn [option_map]. now rewrite map_map.
  - destruct x; [reflexivity|]. cbn [option_map]. now rewrite map_map.
  - reflexivity.
Qed.

(* ---- reductions ---- *)
Lemma fold_add l : forall a, fold_left Z.add l a = a + fold_right Z.add 0 l.
Proof. induction l as [|x l IH]; intros a; cbn; [lia|]. rewrite IH. lia. Qed.
Lemma fold_min l : forall a, (fold_left Z.min l a = a \/ In (fold_left Z.min l a) l) /\
  fold_left Z.min l a <= a /\ forall v, In v l -> fold_left Z.min l a <= v.
Proof.
  induction l as [|x l IH]; intros a; cbn [fold_left].
  - repeat split; [now left|lia|easy].
  - destruct (IH (Z.min a x)) as (H1 & H2 & H3). repeat split; [|lia|].
    + destruct H1 as [H1|H1]; [|right; now right]. rewrite H1. destruct (Z.min_spec a x) as [[_ ->]|[_ ->]]; [now left|right; now left].
    + intros v [<-|HV]; [lia|now apply H3].
Qed.
Lemma fold_max l : forall a, (fold_left Z.max l a = a \/ In (fold_left Z.max l a) l) /\
  a <= fold_left Z.max l a /\ forall v, In v l -> v <= fold_left Z.max l a.
Proof.
  induction l as [|x l IH]; intros a; cbn [fold_left].
  - repeat split; [now left|lia|easy].
  - destruct (IH (Z.max a x)) as (H1 & H2 & H3). repeat split; [|lia|].
    + destruct H1 as [H1|H1]; [|right; now right]. rewrite H1. destruct (Z.max_spec a x) as [[_ ->]|[_ ->]]; [right; now left|now left].
    + intros v [<-|HV]; [lia|now apply H3].
Qed.
