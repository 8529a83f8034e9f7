(** Column assignment keeps the labels. *)
From Coq Require Import List Arith Bool ZArith Lia.
From Verif Require Import FlattenModel FlattenProofs MergeModel DsModel DsProofs3 TabModel TabSpec TabProofs2 TabProofs7.
Import ListNotations.

Section Labels.
Context {V : Type}.
Variable junk : V.
Variable c : pyclass.
Lemma check_addtype_attrs (w : world V) nr v : attrs (fst (fst (check_addtype junk w nr v))) = attrs w.
Proof.
  assert (F : forall w nr a, attrs (fst (fst (let '(w, a) := match nr with Some n => if (alen a =? 1) && (1 <? n) then alloc w (repeat1 (read junk w a) n) else (w, a) | None => (w, a) end in
     match check_add_dimensions nr (alen a) with (nr, None) => (w, nr, @inl array exn a) | (nr, Some e) => (w, nr, inr e) end))) = attrs w).
  { intros w0 nr0 a. destruct nr0 as [n|]; [destruct ((alen a =? 1) && (1 <? n))|]; cbn [alloc]; destruct (check_add_dimensions _ _) as [? [?|]]; reflexivity. }
  unfold check_addtype. destruct v as [a|l|x|k|].
  - apply F.
  - destruct (_ =? _); [|reflexivity]. unfold alloc at 1. destruct (_ && (1 <? _)); unfold alloc; destruct (check_add_dimensions _ _) as [? [?|]]; reflexivity.
  - unfold alloc at 1. destruct (_ && (1 <? _)); unfold alloc; destruct (check_add_dimensions _ _) as [? [?|]]; reflexivity.
  - now destruct (_ || _).
  - reflexivity.
Qed.
Definition shows (w : world V) (d : dataset) := map (fun p => (label_of w (snd p), fst p)) (items d).
Lemma shows_labels w d w' d' : shows w' d' = shows w d -> label_get_names w' d' = label_get_names w d.
Proof. intros E. unfold label_get_names. unfold shows in E. now rewrite E. Qed.
Lemma shows_new w d w' d' n : shows w' d' = shows w d ++ [(None, n)] -> label_get_names w' d' = label_get_names w d.
Proof.
  intros E. unfold label_get_names. unfold shows in E. rewrite E. rewrite fold_left_app, rev_app_distr. reflexivity.
Qed.
Lemma item_set_shows (w : world V) n a its : NoDup (map fst its) ->
  map (fun p => (label_of w (snd p), fst p)) (item_set n a its) =
  map (fun p => (label_of w (snd p), fst p)) its ++ (if DsModel.mem n (map fst its) then [] else [(None, n)]).
Proof.
  intros _. unfold item_set. induction its as [|[m it] r IH]; [reflexivity|]. cbn [dset dget map fst snd].
  destruct (name_dec m n) as [->|Ne].
  - cbn [map fst snd label_of attr]. rewrite (proj2 (mem_in n (n :: map fst r))) by now left. now rewrite app_nil_r.
  - cbn [map fst snd app]. f_equal. rewrite IH. f_equal. destruct (DsModel.mem n (map fst r)) eqn:M.
    + apply mem_in in M. rewrite (proj2 (mem_in n (m :: map fst r))) by now right. reflexivity.
    + destruct (DsModel.mem n (m :: map fst r)) eqn:M2; [|reflexivity]. apply mem_in in M2. destruct M2 as [E|H]; [congruence|]. apply mem_in in H. congruence.
Qed.
Lemma setattr_labels w d n v w' d' e : NoDup (keys d) -> stored_name c n = n -> (has d n = true \/ kind c n = ANone) -> setattr junk c w d n v = (w', d', e) -> label_get_names w' d' = label_get_names w d.
Proof.
  intros ND Sn Hn. unfold setattr. destruct (locked d); [intros [= <- <- _]; reflexivity|].
  pose proof (check_addtype_attrs w (nrows d) v) as A. destruct (check_addtype junk w (nrows d) v) as [[w1 nr] r]. cbn [fst] in A.
  assert (L : forall it, label_of w1 it = label_of w it) by (intros it; unfold label_of; now rewrite A).
  assert (K : forall x, label_get_names w1 (with_nrows d x) = label_get_names w d).
  { intros x. apply shows_labels. unfold shows. cbn. apply map_ext. intros p. now rewrite L. }
  assert (S1 : forall a nc, label_get_names w1 (Ds nr nc (item_set (stored_name c n) a (items d)) (locked d)) = label_get_names w d).
  { intros a nc. rewrite Sn. pose proof (item_set_shows w1 n a (items d) ND) as E. destruct (DsModel.mem n (map fst (items d))).
    - apply shows_labels. unfold shows. cbn [items]. rewrite E, app_nil_r. apply map_ext. intros p. now rewrite L.
    - apply (shows_new w d _ _ n). unfold shows. cbn [items]. rewrite E. f_equal. apply map_ext. intros p. now rewrite L. }
  destruct (has d n).
  - destruct r as [a|x]; intros H; injection H as <- <- _; [apply S1|apply K].
  - destruct Hn as [H|H]; [discriminate|]. rewrite H. destruct r as [a|x]; intros Q; injection Q as <- <- _; [apply S1|apply K].
Qed.
End Labels.
