(** Proofs about the conversion of columns to Categoricals. *)
From Coq Require Import List ZArith Bool Lia.
From Verif Require Import FlattenModel FlattenProofs CatModel CatSpec CatProofs3 CvSpec CvModel.
Import ListNotations.

Lemma dget_none {X} k (d : list (name * X)) : dget k d = None <-> ~ In k (map fst d).
Proof.
  induction d as [|[k' v] d IH]; cbn; [tauto|]. destruct (name_dec k' k) as [->|N]; [split; [discriminate|intros H; elim H; now left]|].
  rewrite IH. split; [intros H [E|I]; [congruence|tauto]|tauto].
Qed.
Lemma dget_some {X} k v (d : list (name * X)) : dget k d = Some v -> In (k, v) d.
Proof. induction d as [|[k' v'] d IH]; cbn; [discriminate|]. destruct (name_dec k' k) as [->|N]; [intros [= ->]; now left|auto]. Qed.
Lemma dget_there {X} k (d : list (name * X)) : In k (map fst d) -> exists v, dget k d = Some v.
Proof. intros I. destruct (dget k d) eqn:E; [eauto|]. apply dget_none in E. contradiction. Qed.
Lemma dset_map {X} k (v v' : X) d : NoDup (map fst d) -> dget k d = Some v ->
  dset k v' d = map (fun p => if name_dec (fst p) k then (fst p, v') else p) d.
Proof.
  induction d as [|[k' w] d IH]; cbn [dset dget map fst snd]; intros N H; [discriminate|]. inversion N as [|? ? N1 N2]; subst.
  destruct (name_dec k' k) as [->|Ne].
  - f_equal. rewrite <- (map_id d) at 1. apply map_ext_in. intros [a b] I. cbn [fst]. destruct (name_dec a k) as [->|]; [|reflexivity].
    elim N1. now apply in_map with (f := fst) in I.
  - f_equal. now apply IH.
Qed.
Lemma map_keys {X} (f : name * X -> name * X) d : (forall p, fst (f p) = fst p) -> map fst (map f d) = map fst d.
Proof. intros H. rewrite map_map. apply map_ext. exact H. Qed.

Section Cv.
Context {T : Type} (o : ord T) (To : total o).

Lemma convert_sub l : convert o (Sub l) = Sub (map (fun p => (fst p, convert o (snd p))) l).
Proof. cbn [convert]. f_equal. induction l as [|[k v] l IH]; [reflexivity|]. cbn [map fst snd]. now f_equal. Qed.

Lemma item_rec' (P : item T -> Prop) :
  (forall l, P (Strs l)) -> (forall a b, P (Cats a b)) -> (forall a b, P (Multi a b)) -> (forall l, P (Nums l)) -> (forall n, P (Other n)) ->
  (forall l, (forall k t, In (k, t) l -> P t) -> P (Sub l)) -> forall t, P t.
Proof.
  intros H1 H2 H3 H4 H5 H6. fix F 1. intros [l|a b|a b|l|n|l]; [apply H1|apply H2|apply H3|apply H4|apply H5|]. apply H6.
  induction l as [|[k' t'] l IH]; [intros k t []|]. intros k t [E|I]; [|now apply (IH k t)]. injection E as _ <-. apply F.
Qed.

Lemma convert_ok t : converted o t (convert o t).
Proof.
  induction t as [l|a b|a b|l|n|l IH] using item_rec'; [constructor|constructor|constructor|constructor|constructor|].
  - apply usort_inc; assumption.
  - intros x. apply usort_in; assumption.
  - rewrite map_map. apply map_ext_in. intros x I. destruct (position_nth o To (usort o l) x) as [R E]; [now apply (usort_in o To)|].
    unfold cval. destruct (Z.ltb_spec (1 + position o (usort o l) x) 1); [lia|].
    replace (1 + position o (usort o l) x - 1)%Z with (position o (usort o l) x) by lia. exact E.
  - rewrite convert_sub. constructor; [apply map_length|]. intros i k t E. exists (convert o t).
    split; [now rewrite (map_nth_error _ _ _ E)|]. eapply IH. eapply nth_error_In. exact E.
Qed.
Lemma convert_idem t : convert o (convert o t) = convert o t.
Proof.
  induction t as [l|a b|a b|l|n|l IH] using item_rec'; try reflexivity. rewrite !convert_sub. f_equal. rewrite map_map.
  apply map_ext_in. intros [k t] I. cbn. f_equal. eapply IH. exact I.
Qed.
Lemma converted_none t t' : converted o t t' -> ~ has_strings t'.
Proof.
  revert t'. induction t as [l|a b|a b|l|n|l IH] using item_rec'; intros t' C; inversion C; subst; intros Hs; inversion Hs; subst.
  match goal with H : In (?k, ?u) l' |- _ => apply In_nth_error in H; destruct H as [i E] end.
  destruct (nth_error l i) as [[k0 t0]|] eqn:E0.
  - match goal with H : forall i k t, nth_error l i = _ -> _ |- _ => destruct (H i k0 t0 E0) as (t1 & E1 & C1) end. rewrite E in E1. injection E1 as <- <-.
    eapply (IH k t0); [eapply nth_error_In; exact E0|exact C1|assumption].
  - apply nth_error_None in E0. assert (i < length l') by (apply nth_error_Some; congruence). lia.
Qed.

Definition upd (cols : list name) (p : name * item T) : name * item T := if listed cols (fst p) then (fst p, convert o (snd p)) else p.
Lemma listed_in cols k : listed cols k = true <-> In k cols.
Proof.
  unfold listed. rewrite existsb_exists. split.
  - intros (c & I & E). destruct (name_dec c k) as [->|]; [exact I|discriminate].
  - intros I. exists k. split; [exact I|]. now destruct (name_dec k k).
Qed.
Lemma convert_cols_is cols st : NoDup (map fst st) -> (forall c, In c cols -> In c (map fst st)) ->
  convert_cols o cols st = (None, map (upd cols) st).
Proof.
  revert st. induction cols as [|c cols IH]; intros st N H; cbn [convert_cols].
  - f_equal. symmetry. apply map_id.
  - destruct (dget_there c st (H c (or_introl eq_refl))) as [v E]. rewrite E, (dset_map c v _ st N E).
    set (st' := map _ st). assert (K : map fst st' = map fst st) by (apply map_keys; intros p; now destruct (name_dec (fst p) c)).
    rewrite IH; [|now rewrite K|intros x I; rewrite K; apply H; now right].
    f_equal. unfold st'. rewrite map_map. apply map_ext_in. intros [k t] I. unfold upd, listed. cbn [existsb fst snd].
    destruct (name_dec k c) as [->|Ne].
    + destruct (name_dec c c) as [_|]; [|congruence]. cbn [fst snd orb]. apply (dget_in c t st N) in I. rewrite E in I. injection I as ->.
      destruct (existsb _ cols); [now rewrite convert_idem|reflexivity].
    + destruct (name_dec c k) as [->|_]; [congruence|]. reflexivity.
Qed.
End Cv.
