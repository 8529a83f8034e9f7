From Coq Require Import List Arith Bool ZArith Lia Permutation Sorted.
From Verif Require Import FlattenModel DsModel SdsModel SdsSpec FlattenProofs DsProofs3 AggProofs2 SdsProofs SdsProofs2 SdsProofs3 SdsProofs4 SdsProofs5 SdsProofs6 SdsProofs7 SdsProofs8 SdsProofs9 SdsProofs10.
Import ListNotations.

Section Fin.
Context {A M L : Type}.
Variable no_labels : L.
Notation item := (item A M L).
Notation file := (file A M L).
Notation dir := (dir A M L).
Notation fs := (fs A M L).
Variable ds_put : list (name * item) -> name -> item -> option (list (name * item)).
Notation load_dir := (load_dir no_labels ds_put).
Notation load_sds := (load_sds no_labels ds_put).
Notation save_sds := (save_sds no_labels).

Lemma same_own (v v' : item) : all_own v -> same no_labels v v' -> v' = v.
Proof.
  revert v'. induction v as [a|a|m a cols| |ds lab its IH] using item_rect'; intros v' O S; inversion S as [v0 B E1 E2|ds0 lab0 its0 its' Ow F E1 E2|lab0 its0 its1 its' Ow P F E1 E2]; subst; try reflexivity; try discriminate.
  - inversion O as [v0 B|ds0 lab0 its0 Ow' Ok]; subst; [discriminate|]. f_equal. clear S O Ow Ow'. revert its' F. induction its as [|[k v] r IHr]; intros its' F; inversion F as [|p q l l' [E H] F' E1 E2]; subst; [reflexivity|].
    destruct q as [k' v']. cbn in E, H. subst k'. f_equal.
    + f_equal. apply (IH k v); [now left|apply (Ok k v); now left|exact H].
    + apply IHr; [intros k0 v0 I0; apply (IH k0 v0); now right|intros k0 v0 I0; apply (Ok k0 v0); now right|exact F'].
  - inversion O as [v0 B|ds0 lab0 its0 Ow' Ok]; subst; [discriminate|]. congruence.
Qed.
Lemma entries_own (its its' : list (name * item)) : (forall k v, In (k, v) its -> all_own v) -> Forall2 (entry no_labels) its its' -> its' = its.
Proof.
  intros O F. induction F as [|[k v] [k' v'] l l' [E S] F IH]; [reflexivity|]. cbn in E, S. subst k'. f_equal.
  - f_equal. apply same_own; [apply (O k v); now left|exact S].
  - apply IH. intros k0 v0 I. apply (O k0 v0). now right.
Qed.
Lemma fresh_save nm (lab : L) (its : list (name * item)) (s s' : fs) ok : good (Sub false lab its) -> has_nested its = true -> at_dir s = None -> save_sds nm (Sub false lab its) s = (s', ok) ->
  ok = true /\ exists d, at_dir s' = Some d /\ holds d lab its /\ dget root_name d = Some (file_of TStruct lab its) /\ at_file s' = at_file s.
Proof.
  intros G Hn Ed E. unfold SdsModel.save_sds in E. rewrite Hn, Ed in E. rewrite (struct_written lab its [] G) in E. 
  assert (Es : s' = {| at_file := at_file s; at_dir := Some (dset_all (struct_writes lab its) []) |} /\ ok = true) by (cbv iota beta in E; remember (dset_all (struct_writes lab its) []) as dd; clear -E; inversion E; split; reflexivity).
  destruct Es as [-> ->]. split; [reflexivity|].
  cbn [at_dir at_file]. eexists. split; [reflexivity|].
  destruct (save_holds lab its [] G ltac:(constructor)) as [d' [Ew H]]; [intros n []|]. rewrite (struct_written lab its [] G) in Ew. assert (d' = dset_all (struct_writes lab its) []) as -> by congruence. split; [exact H|]. split; [|reflexivity].
  rewrite dget_dset_all by now apply struct_nodup. assert (I : In (root_name, file_of TStruct lab its) (struct_writes lab its)) by now left. now rewrite (dget_nodup _ _ _ (struct_nodup lab its G) I).
Qed.
Lemma relisted_dir (s s' : fs) d : relisted s s' -> at_dir s = Some d -> exists d', at_dir s' = Some d' /\ Permutation d d'.
Proof. intros [_ R] E. rewrite E in R. destruct (at_dir s') as [d'|]; [|destruct R]. now exists d'. Qed.
Lemma prefix_nodup {X} n (l : list (name * X)) : NoDup (map fst l) -> NoDup (map fst (firstn n l)).
Proof.
  revert n. induction l as [|[k v] r IH]; intros n N; [now rewrite firstn_nil|]. destruct n; [constructor|]. cbn [firstn map fst]. inversion N as [|x y N1 N2]; subst. constructor; [|now apply IH].
  intros I. apply N1. apply in_map_iff in I. destruct I as [p [E I]]. apply in_map_iff. exists p. split; [exact E|]. exact (firstn_incl n r p I).
Qed.
Lemma crash_dir n (lab : L) (its : list (name * item)) : good (Sub false lab its) -> writes (firstn n (struct_writes lab its)) [] = (firstn n (struct_writes lab its), true).
Proof.
  intros G. rewrite writes_ok.
  - f_equal. apply (dset_all_id (firstn n (struct_writes lab its)) []). cbn [map app]. apply prefix_nodup. now apply struct_nodup.
  - intros m f I. apply firstn_incl in I. rewrite struct_paths in I. destruct I as [I|I]; [injection I as <- <-; split; reflexivity|].
    apply in_map_iff in I. destruct I as [[q g] [E I]]. unfold named in E. cbn in E. injection E as <- <-. destruct (root_paths lab its q g G I) as [Nq Fq]. now apply plain_write.
Qed.
End Fin.
