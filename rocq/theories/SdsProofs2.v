(** Proofs that a file gives back the items written to it, with None for nested containers. *)
From Coq Require Import List Arith Bool Lia Permutation.
From Verif Require Import FlattenModel DsModel SdsModel SdsSpec FlattenProofs DsProofs3 AggProofs2 SdsProofs.
Import ListNotations.

Lemma dset_mid {X} k (v w : X) pre r : ~ In k (map fst pre) -> dset k v (pre ++ (k, w) :: r) = pre ++ (k, v) :: r.
Proof.
  induction pre as [|[k' x] t IH]; intros H; cbn [app dset].
  - destruct (name_dec k k); [reflexivity|congruence].
  - destruct (name_dec k' k) as [->|D]; [destruct H; now left|]. rewrite IH; [reflexivity|]. intros I. apply H. now right.
Qed.
Lemma dget_mid {X} k (w : X) pre r : ~ In k (map fst pre) -> dget k (pre ++ (k, w) :: r) = Some w.
Proof.
  induction pre as [|[k' x] t IH]; intros H; cbn [app dget].
  - destruct (name_dec k k); [reflexivity|congruence].
  - destruct (name_dec k' k) as [->|D]; [destruct H; now left|]. apply IH. intros I. apply H. now right.
Qed.
Lemma find_bang_app k t : ~ In bang k -> find_bang (k ++ bang :: t) = Some k.
Proof.
  induction k as [|c r IH]; intros H; cbn [find_bang app].
  - rewrite Nat.eqb_refl. reflexivity.
  - destruct (Nat.eqb_spec c bang) as [->|N]; [destruct H; now left|]. rewrite IH; [reflexivity|]. intros I. apply H. now right.
Qed.
Lemma before_app k t : ~ In bang k -> before_bang (k ++ bang :: t) = k.
Proof. intros H. unfold before_bang. rewrite (find_bang_app k t H). reflexivity. Qed.
Lemma all_some_map {X} (l : list X) : all_some (map Some l) = Some l.
Proof. induction l as [|x r IH]; cbn [map all_some]; [reflexivity|]. now rewrite IH. Qed.

Section Read.
Context {A M L : Type}.
Notation item := (item A M L).
Notation file := (file A M L).

(** what a file gives back for an item, before and after the array subclasses are rebuilt *)
Definition raw (v : item) : item := match v with Spec _ a _ => Arr a | Sub _ _ _ => Nothing | _ => v end.
Definition ph (v : item) : item := match v with Sub _ _ _ => Nothing | _ => v end.
Definition on (f : item -> item) (its : list (name * item)) : list (name * item) := map (fun p => (fst p, f (snd p))) its.
Lemma on_names f its : map fst (on f its) = map fst its.
Proof. unfold on. rewrite map_map. reflexivity. Qed.

Lemma cells_ok (its : list (name * item)) : forall (d : list (name * item)) sp, NoDup (map fst d ++ map fst its) -> (forall k, ~ In (k, Nothing) its) ->
  fold_left read_cell (map cell_of its) (d, sp) = (d ++ on raw its, sp).
Proof.
  induction its as [|[k v] r IH]; intros d sp N H; cbn [map fold_left].
  - unfold on. cbn. rewrite app_nil_r. reflexivity.
  - assert (F : ~ In k (map fst d)).
    { intros I. cbn [map fst] in N. apply NoDup_remove_2 in N. apply N. apply in_or_app. now left. }
    assert (E : read_cell (d, sp) (cell_of (k, v)) = (d ++ [(k, raw v)], sp)).
    { destruct v; cbn [cell_of snd fst read_cell raw]; rewrite ?(dset_fresh k _ d F); try reflexivity. destruct (H k). now left. }
    rewrite E, IH.
    + unfold on. cbn [map]. rewrite <- app_assoc. reflexivity.
    + rewrite map_app. cbn [map fst]. rewrite <- app_assoc. exact N.
    + intros k' I. apply (H k'). now right.
Qed.

Definition lk (k : name) (sp : list (name * list (option A))) : list (option A) := match dget k sp with Some l => l | None => [] end.
Lemma lk_add k x sp k' : lk k' (spec_add k x sp) = lk k' sp ++ (if name_dec k k' then [x] else []).
Proof.
  unfold spec_add, lk. rewrite dget_dset. destruct (name_dec k k') as [->|D]; [reflexivity|]. now rewrite app_nil_r.
Qed.
Lemma extra_one k (l : list (nat * A)) : ~ In bang k -> forall (d : list (name * item)) sp, exists sp',
  fold_left read_cell (map (fun ic => (k ++ bang :: col_i (fst ic), FExtra, Some (snd ic))) l) (d, sp) = (d, sp') /\
  forall k', lk k' sp' = lk k' sp ++ (if name_dec k k' then map Some (map snd l) else []).
Proof.
  intros H. induction l as [|[i x] r IH]; intros d sp; cbn [map fold_left fst snd].
  - exists sp. split; [reflexivity|]. intros k'. destruct (name_dec k k'); now rewrite app_nil_r.
  - cbn [read_cell]. rewrite (before_app k _ H). destruct (IH d (spec_add k (Some x) sp)) as [sp' [E F]].
    exists sp'. split; [exact E|]. intros k'. rewrite F, lk_add, <- app_assoc. f_equal. destruct (name_dec k k'); reflexivity.
Qed.
Lemma map_snd_seq {X} (l : list X) : forall s, map snd (combine (seq s (length l)) l) = l.
Proof. induction l as [|x r IH]; intros s; cbn; [reflexivity|]. now rewrite IH. Qed.
Lemma extra_ok (its : list (name * item)) : NoDup (map fst its) -> (forall k m a cols, In (k, Spec m a cols) its -> ~ In bang k) ->
  forall (d : list (name * item)) sp, exists sp', fold_left read_cell (flat_map extra_cells its) (d, sp) = (d, sp') /\
  forall k', lk k' sp' = lk k' sp ++ match dget k' its with Some (Spec _ _ cols) => map Some cols | _ => [] end.
Proof.
  induction its as [|[k v] r IH]; intros N H d sp; cbn [flat_map fold_left].
  - exists sp. split; [reflexivity|]. intros k'. now rewrite app_nil_r.
  - inversion N as [|x l N1 N2]; subst. rewrite fold_left_app.
    assert (Hr : forall k m a cols, In (k, Spec m a cols) r -> ~ In bang k) by (intros k0 m a cols I; apply (H k0 m a cols); now right).
    assert (G : exists sp1, fold_left read_cell (extra_cells (k, v)) (d, sp) = (d, sp1) /\
      forall k', lk k' sp1 = lk k' sp ++ (if name_dec k k' then match v with Spec _ _ cols => map Some cols | _ => [] end else [])).
    { destruct v as [a|a|m a cols|ds lab its|]; cbn [extra_cells snd fst]; cycle 2.
      { destruct (extra_one k (combine (seq 0 (length cols)) cols) (H k m a cols (or_introl eq_refl)) d sp) as [sp1 [E F]].
        exists sp1. split; [exact E|]. intros k'. rewrite F, map_snd_seq. reflexivity. }
      all: exists sp; split; [reflexivity|]; intros k'; destruct (name_dec k k'); now rewrite app_nil_r. }
    destruct G as [sp1 [E1 F1]]. rewrite E1. destruct (IH N2 Hr d sp1) as [sp2 [E2 F2]].
    exists sp2. split; [exact E2|]. intros k'. rewrite F2, F1. cbn [dget]. rewrite <- app_assoc. f_equal.
    destruct (name_dec k k') as [->|D]; [|reflexivity].
    rewrite (proj2 (dget_none k' r) N1), app_nil_r. reflexivity.
Qed.
Lemma metas_ok sp (its : list (name * item)) : forall pre, NoDup (map fst pre ++ map fst its) ->
  (forall k m a cols, In (k, Spec m a cols) its -> lk k sp = map Some cols) ->
  fold_left (read_meta sp) (flat_map meta_of its) (Some (on ph pre ++ on raw its)) = Some (on ph pre ++ on ph its).
Proof.
  induction its as [|[k v] r IH]; intros pre N H; [reflexivity|].
  assert (F : ~ In k (map fst (on ph pre))).
  { rewrite on_names. intros I. cbn [map fst] in N. apply NoDup_remove_2 in N. apply N. apply in_or_app. now left. }
  cbn [flat_map]. rewrite fold_left_app.
  assert (E : fold_left (read_meta sp) (meta_of (k, v)) (Some (on ph pre ++ on raw ((k, v) :: r))) = Some (on ph (pre ++ [(k, v)]) ++ on raw r)).
  { unfold on. rewrite map_app. fold (on ph pre). fold (on raw r). cbn [map fst snd]. rewrite <- app_assoc. cbn [app]. fold (on raw r).
    destruct v as [a|a|m a cols|ds lab its|]; cbn [meta_of snd fst fold_left raw ph]; try reflexivity.
    unfold read_meta. cbn [fst snd]. rewrite (dget_mid k (Arr a) (on ph pre) (on raw r) F).
    specialize (H k m a cols (or_introl eq_refl)). unfold lk in H. rewrite H, all_some_map.
    rewrite (dset_mid k _ _ _ _ F). reflexivity. }
  rewrite E, IH.
  - unfold on. rewrite map_app. cbn [map fst snd]. rewrite <- app_assoc. reflexivity.
  - rewrite map_app. cbn [map fst]. rewrite <- app_assoc. exact N.
  - intros k0 m a cols I. apply (H k0 m a cols). now right.
Qed.
Lemma read_items_ok t (lab : L) (its : list (name * item)) : NoDup (map fst its) -> (forall k, ~ In (k, Nothing) its) ->
  (forall k m a cols, In (k, Spec m a cols) its -> ~ In bang k) -> read_items (file_of t lab its) = Some (on ph its).
Proof.
  intros N H S. unfold read_items, file_of. cbn [f_cells f_metas]. rewrite fold_left_app.
  rewrite (cells_ok its [] [] N H). cbn [app].
  destruct (extra_ok its N S (on raw its) []) as [sp [E F]]. rewrite E.
  apply (metas_ok sp its [] N). intros k m a cols I. rewrite F, (dget_nodup _ _ _ N I). reflexivity.
Qed.
Lemma read_file_ok t (lab : L) (its : list (name * item)) : NoDup (map fst its) -> (forall k, ~ In (k, Nothing) its) ->
  (forall k m a cols, In (k, Spec m a cols) its -> ~ In bang k) -> t <> TArray ->
  read_file (file_of t lab its) = Some (Sub (is_ds t) lab (on ph its)).
Proof.
  intros N H S T. unfold read_file. rewrite (read_items_ok t lab its N H S). cbn [f_type file_of f_labels].
  destruct t; [reflexivity|reflexivity|congruence].
Qed.
Lemma good_items ds (lab : L) (its : list (name * item)) : good (Sub ds lab its) -> NoDup (map fst its) /\ (forall k, ~ In (k, Nothing) its) /\
  (forall k m a cols, In (k, Spec m a cols) its -> ~ In bang k).
Proof.
  intros G. inversion G as [| | |d l i N V B S]; subst. split; [exact N|split; [|exact S]].
  intros k I. specialize (V k _ I). inversion V.
Qed.
Lemma filter_all_true {X} (f : X -> bool) l : (forall x, In x l -> f x = true) -> filter f l = l.
Proof.
  induction l as [|x r IH]; intros H; cbn [filter]; [reflexivity|]. rewrite (H x (or_introl eq_refl)), IH; [reflexivity|].
  intros y I. apply H. now right.
Qed.
Lemma filter_all_false {X} (f : X -> bool) l : (forall x, In x l -> f x = false) -> filter f l = [].
Proof.
  induction l as [|x r IH]; intros H; cbn [filter]; [reflexivity|]. rewrite (H x (or_introl eq_refl)). apply IH.
  intros y I. apply H. now right.
Qed.
Definition original (c : name * flag * option A) : bool := match snd (fst c) with FExtra => false | _ => true end.
Lemma original_cells (its : list (name * item)) : filter original (map cell_of its ++ flat_map extra_cells its) = map cell_of its.
Proof.
  rewrite filter_app, filter_all_true, filter_all_false, app_nil_r; [reflexivity| |].
  - intros c I. apply in_flat_map in I. destruct I as [[k v] [_ I]].
    destruct v as [a|a|m a cols|ds lab its'|]; cbn [extra_cells snd fst] in I; try (destruct I; fail).
    apply in_map_iff in I. destruct I as [[i x] [<- _]]. reflexivity.
  - intros c I. apply in_map_iff in I. destruct I as [[k v] [<- _]]. destruct v; reflexivity.
Qed.
Lemma cell_names (its : list (name * item)) : map (fun c => fst (fst c)) (map cell_of its) = map fst its.
Proof. rewrite map_map. apply map_ext. intros [k v]. destruct v; reflexivity. Qed.
Lemma order_ok t (lab : L) (its : list (name * item)) : order_from_meta (file_of t lab its) (on ph its) = Some (map fst its).
Proof.
  unfold order_from_meta. cbn [f_cells file_of]. fold original. rewrite original_cells, cell_names.
  unfold on. rewrite !map_length, Nat.eqb_refl. reflexivity.
Qed.
End Read.
