(** Proofs about loading a clean directory with a root file. *)
From Coq Require Import List Arith Bool Lia Permutation.
From Verif Require Import FlattenModel DsModel SdsModel SdsSpec FlattenProofs DsProofs3 AggProofs2 SdsProofs SdsProofs2 SdsProofs3.
Import ListNotations.

Section Root.
Context {A M L : Type}.
Variable no_labels : L.
Notation item := (item A M L).
Notation file := (file A M L).
Notation dir := (dir A M L).
Variable ds_put : list (name * item) -> name -> item -> option (list (name * item)).
Notation direct := (direct no_labels ds_put).
Notation build := (build no_labels ds_put).
Notation fill := (fill ds_put).
Notation load_dir := (load_dir no_labels ds_put).

Lemma pending_dset (data : list (name * item)) k v k' : k <> k' -> pending (dset k v data) k' = pending data k'.
Proof. intros D. unfold pending. rewrite dget_dset. destruct (name_dec k k'); [congruence|reflexivity]. Qed.
Definition wanted (data : list (name * item)) (kids : list (name * schema)) : list (name * schema) := filter (fun ks => pending data (fst ks)) kids.
Definition files_wanted (d : dir) (data : list (name * item)) (kids : list (name * schema)) : list name :=
  flat_map (fun ks => if pending data (fst ks) then collect d None (fst ks) (snd ks) else []) kids.
Lemma fill_ok (d : dir) m : clean d -> forall kids data l1 l2, NoDup (map fst kids) ->
  (forall k s, In (k, s) kids -> clear_name k /\ sch_ok (below d [k]) s) ->
  m = l1 ++ files_of d (files_wanted d data kids) ++ l2 ->
  exists vs, fill (build d m None) false kids data (length l1) = Some (dset_all vs data) /\
    map fst vs = map fst (wanted data kids) /\
    forall k v, In (k, v) vs -> exists s, In (k, s) kids /\ direct d None k s = Some v.
Proof.
  intros C. induction kids as [|[k s] r IH]; intros data l1 l2 N H Em.
  - exists []. repeat split; try reflexivity. intros k v [].
  - inversion N as [|x l N1 N2]; subst x l.
    unfold files_wanted in Em. cbn [flat_map fst snd] in Em. fold (files_wanted d data r) in Em.
    unfold wanted. cbn [SdsModel.fill filter fst]. destruct (pending data k) eqn:P.
    + destruct (H k s (or_introl eq_refl)) as [Ck Sk].
      destruct (direct_ok no_labels ds_put d C s [] k) as [it [E _]]; [constructor; [exact Ck|constructor]|exact Sk|]. cbn [pre_of] in E.
      rewrite files_app, <- app_assoc in Em.
      pose proof (build_direct no_labels ds_put d m C s [] k it l1 _ Sk Em E) as B. cbn [pre_of] in B. rewrite B. cbn [put].
      assert (Ew : files_wanted d (dset k it data) r = files_wanted d data r).
      { unfold files_wanted. clear -N1. induction r as [|[k' s'] r IH]; [reflexivity|]. cbn [flat_map fst snd]. cbn [map fst In] in N1.
        rewrite pending_dset, IH; [reflexivity| |]; intros I; apply N1; [now right|now left]. }
      assert (Ef : filter (fun ks => pending (dset k it data) (fst ks)) r = filter (fun ks => pending data (fst ks)) r).
      { clear -N1. induction r as [|[k' s'] r IH]; [reflexivity|]. cbn [filter fst]. cbn [map fst In] in N1.
        rewrite pending_dset, IH; [reflexivity| |]; intros I; apply N1; [now right|now left]. }
      destruct (IH (dset k it data) (l1 ++ files_of d (collect d None k s)) l2 N2) as [vs [F [Nm S]]].
      * intros k' s' I. apply H. now right.
      * rewrite Ew, <- app_assoc. exact Em.
      * exists ((k, it) :: vs). rewrite app_length in F. rewrite F. split; [reflexivity|split].
        -- cbn [map fst]. unfold wanted in Nm. rewrite Nm, Ef. reflexivity.
        -- intros k' v [I|I]; [injection I as <- <-; exists s; split; [now left|exact E]|]. destruct (S k' v I) as [s' [I' E']]. exists s'. split; [now right|exact E'].
    + cbn [app] in Em. destruct (IH data l1 l2 N2 (fun k s I => H k s (or_intror I)) Em) as [vs [F [Nm S]]].
      exists vs. split; [exact F|split; [exact Nm|]]. intros k' v I. destruct (S k' v I) as [s' [I' E']]. exists s'. split; [now right|exact E'].
Qed.
Lemma collect_has (d : dir) : forall s pre k n, In n (collect d pre k s) -> has d n = true.
Proof.
  induction s as [kids IH] using schema_rect'. intros pre k n I. rewrite collect_eq in I. apply in_app_or in I. destruct I as [I|I].
  - destruct (has d (under pre k)) eqn:E; [|destruct I]. destruct I as [<-|[]]. exact E.
  - apply in_flat_map in I. destruct I as [[k' s'] [I1 I2]]. exact (IH k' s' I1 _ _ _ I2).
Qed.
Lemma files_some (d : dir) l : (forall n, In n l -> has d n = true) -> all_some (map (fun n => dget n d) l) = Some (files_of d l).
Proof.
  induction l as [|n r IH]; intros H; [reflexivity|]. cbn [map all_some files_of flat_map].
  destruct (proj1 (has_get d n) (H n (or_introl eq_refl))) as [f G]. rewrite G.
  rewrite IH by (intros n' I; apply H; now right). reflexivity.
Qed.
Lemma filter_nodup {X} (f : name * X -> bool) l : NoDup (map fst l) -> NoDup (map fst (filter f l)).
Proof.
  induction l as [|[k v] r IH]; intros N; [constructor|]. cbn [filter]. inversion N as [|x l N1 N2]; subst.
  destruct (f (k, v)); [|exact (IH N2)]. cbn [map fst]. constructor; [|exact (IH N2)].
  intros I. apply N1. apply in_map_iff in I. destruct I as [p [E I]]. apply filter_In in I. apply in_map_iff. exists p. easy.
Qed.

(** the subtrees of the root that are looked at *)
Definition subtrees (d : dir) : list (name * schema) := ddrop root_name (build_schema (map fst d)).
Lemma subtrees_ok d : NoDup (map fst (subtrees d)) /\
  (forall k, In k (map fst (subtrees d)) <-> k <> root_name /\ exists q, below d [k] q) /\
  (forall k s, In (k, s) (subtrees d) -> clear_name k /\ sch_ok (below d [k]) s).
Proof.
  pose proof (build_ok (map fst d)) as B. inversion B as [P kids N1 N2 N3 E1 E2]; subst P kids.
  unfold subtrees, ddrop. split; [exact (filter_nodup _ _ N1)|split].
  - intros k. split.
    + intros I. apply in_map_iff in I. destruct I as [[k' s] [E I]]. cbn [fst] in E. subst k'. apply filter_In in I. destruct I as [I J]. cbn [fst] in J.
      destruct (name_dec k root_name) as [->|D]; [discriminate|]. split; [exact D|].
      assert (K : In k (map fst (build_schema (map fst d)))) by (apply in_map_iff; exists (k, s); easy). apply N2 in K. exact K.
    + intros [D K]. apply N2 in K. apply in_map_iff in K. destruct K as [[k' s] [E I]]. cbn [fst] in E. subst k'. apply in_map_iff. exists (k, s). split; [reflexivity|].
      apply filter_In. split; [exact I|]. cbn [fst]. destruct (name_dec k root_name); [congruence|reflexivity].
  - intros k s I. apply filter_In in I. destruct I as [I _]. split; [|exact (N3 k s I)].
    assert (K : In k (map fst (build_schema (map fst d)))) by (apply in_map_iff; exists (k, s); easy). apply N2 in K. destruct K as [q [f [_ K]]].
    pose proof (split_clear f) as Z. rewrite K in Z. inversion Z; assumption.
Qed.
Definition pick (data : list (name * item)) (o : list name) : list (name * item) :=
  flat_map (fun k => match dget k data with None | Some Nothing => [] | Some v => [(k, v)] end) o.
Lemma pick_names data o : map fst (pick data o) = filter (fun k => negb (pending data k)) o.
Proof.
  unfold pick, pending. induction o as [|k r IH]; [reflexivity|]. cbn [flat_map filter]. rewrite map_app, IH.
  destruct (dget k data) as [[]|]; reflexivity.
Qed.
Lemma pick_in data o k v : In (k, v) (pick data o) <-> In k o /\ dget k data = Some v /\ v <> Nothing.
Proof.
  unfold pick. rewrite in_flat_map. split.
  - intros [k' [I J]]. destruct (dget k' data) as [w|] eqn:G; [|destruct J].
    destruct w; try (destruct J; fail); (destruct J as [J|[]]; injection J as <- <-; split; [exact I|split; [exact G|discriminate]]).
  - intros (I & G & NN). exists k. split; [exact I|]. rewrite G. destruct v; try (now left). congruence.
Qed.
Definition kept (all : bool) (d : dir) (o : list name) : list name :=
  if all then o ++ filter (fun k => negb (mem k o)) (names (subtrees d)) else o.
Lemma load_root (all : bool) (d : dir) f data o : clean d -> dget root_name d = Some f -> f_type f = TStruct -> read_items f = Some data ->
  order_from_meta f data = Some o ->
  exists its, load_dir all d = Some (Sub false no_labels its) /\
    map fst its = filter (fun k => negb (pending data k) || mem k (names (subtrees d))) (kept all d o) /\
    forall k v, In (k, v) its -> In k (kept all d o) /\ v <> Nothing /\
      ((pending data k = false /\ dget k data = Some v) \/
       (pending data k = true /\ exists s, In (k, s) (subtrees d) /\ direct d None k s = Some v)).
Proof.
  intros C G T R O. unfold SdsModel.load_dir. rewrite G, R, T, O. cbn [is_ds option_map]. fold (subtrees d).
  destruct (subtrees_ok d) as (N1 & N2 & N3).
  set (extra := filter (fun k => negb (mem k o)) (names (subtrees d))).
  set (sch := if all then subtrees d else filter (fun ks => negb (mem (fst ks) extra)) (subtrees d)).
  assert (Ns : NoDup (map fst sch)) by (unfold sch; destruct all; [exact N1|exact (filter_nodup _ _ N1)]).
  assert (Is : forall k s, In (k, s) sch -> In (k, s) (subtrees d)) by (unfold sch; destruct all; intros k s I; [exact I|now apply filter_In in I]).
  assert (Ks : forall k, In k (kept all d o) -> In k (map fst sch) <-> In k (map fst (subtrees d))).
  { intros k Ik. unfold sch. destruct all; [reflexivity|]. split.
    - intros I. apply in_map_iff in I. destruct I as [p [E I]]. apply filter_In in I. apply in_map_iff. exists p. easy.
    - intros I. apply in_map_iff in I. destruct I as [[k' s] [E I]]. cbn [fst] in E. subst k'. apply in_map_iff. exists (k, s). split; [reflexivity|].
      apply filter_In. split; [exact I|]. cbn [fst]. apply negb_true_iff, mem_not. unfold extra. intros J. apply filter_In in J. destruct J as [_ J].
      apply negb_true_iff, mem_not in J. exact (J Ik). }
  rewrite files_some; cycle 1.
  { intros n I. apply in_flat_map in I. destruct I as [[k s] [_ I]]. cbn [fst snd] in I. destruct (pending data k); [|destruct I]. exact (collect_has d _ _ _ _ I). }
  destruct (fill_ok d (files_of d (files_wanted d data sch)) C sch data [] [] Ns) as [vs [F [Nm S]]].
  { intros k s I. exact (N3 k s (Is k s I)). }
  { cbn [app]. now rewrite app_nil_r. }
  cbn [length] in F. unfold files_wanted in F. rewrite F.
  assert (Nv : NoDup (map fst vs)) by (rewrite Nm; exact (filter_nodup _ _ Ns)).
  assert (NNv : forall k v, In (k, v) vs -> v <> Nothing).
  { intros k v I. destruct (S k v I) as [s [J E]]. destruct (N3 k s (Is k s J)) as [Ck Sk].
    destruct (direct_ok no_labels ds_put d C s [] k) as [it [E' [_ [NN _]]]]; [constructor; [exact Ck|constructor]|exact Sk|]. cbn [pre_of] in E'. congruence. }
  assert (Gv : forall k, dget k (dset_all vs data) = match dget k vs with Some v => Some v | None => dget k data end) by (intros k; apply dget_dset_all; exact Nv).
  assert (Iv : forall k, In k (map fst vs) <-> In k (map fst sch) /\ pending data k = true).
  { intros k. rewrite Nm. unfold wanted. split.
    - intros I. apply in_map_iff in I. destruct I as [p [<- I]]. apply filter_In in I. destruct I as [I J]. split; [apply in_map; exact I|exact J].
    - intros [I J]. apply in_map_iff in I. destruct I as [p [<- I]]. apply in_map. apply filter_In. easy. }
  assert (Pe : forall k, In k (kept all d o) -> negb (pending (dset_all vs data) k) = negb (pending data k) || mem k (names (subtrees d))).
  { intros k Ik. unfold pending at 1. rewrite Gv. destruct (dget k vs) as [v|] eqn:Gk.
    - apply dget_some_in in Gk. pose proof (NNv k v Gk) as NN. assert (I : In k (map fst vs)) by (apply in_map_iff; exists (k, v); easy).
      apply Iv in I. destruct I as [I P]. apply (Ks k Ik) in I. apply mem_in in I. change (map fst (subtrees d)) with (names (subtrees d)) in I. rewrite I, P.
      destruct v; try reflexivity. congruence.
    - fold (pending data k). destruct (pending data k) eqn:P; [|reflexivity]. cbn [negb orb]. symmetry. apply mem_not. intros I.
      apply dget_none in Gk. apply Gk. apply Iv. split; [|exact P]. apply (Ks k Ik). exact I. }
  assert (Ek : (if all then o ++ extra else o) = kept all d o) by reflexivity. rewrite Ek. fold (pick (dset_all vs data) (kept all d o)).
  eexists. split; [reflexivity|split].
  - rewrite pick_names. apply filter_ext_in. exact Pe.
  - intros k v I. apply pick_in in I. destruct I as (Ik & Gk & NN). split; [exact Ik|split; [exact NN|]]. rewrite Gv in Gk.
    destruct (dget k vs) as [w|] eqn:Gw.
    + injection Gk as ->. apply dget_some_in in Gw. right. assert (I : In k (map fst vs)) by (apply in_map_iff; exists (k, v); easy).
      apply Iv in I. split; [exact (proj2 I)|]. destruct (S k v Gw) as [s [J E]]. exists s. split; [exact (Is k s J)|exact E].
    + left. split; [|exact Gk]. unfold pending. rewrite Gk. destruct v; try reflexivity. congruence.
Qed.
End Root.
