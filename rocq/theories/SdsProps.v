(** Saving and loading .sds files: properties C139 to C148. *)
From Coq Require Import List Arith Bool ZArith Lia Permutation Sorted.
From Verif Require Import FlattenModel DsModel SdsModel SdsAppModel SdsSpec FlattenProofs DsProofs3 AggProofs2 SdsProofs SdsProofs2 SdsProofs3 SdsProofs4 SdsProofs5 SdsProofs6 SdsProofs7 SdsProofs8 SdsProofs9 SdsProofs10 SdsProofs11 SdsAppProofs.
Import ListNotations.

(** ---------- literals for the cases ---------- *)
Definition na : name := [97].
Definition nb : name := [98].
Definition nc : name := [99].
Definition nx : name := [120].
Notation citem := (item nat nat nat).
Definition cput (d : list (name * citem)) (k : name) (v : citem) : option (list (name * citem)) := Some (dset k v d).
(** a : array; b : Struct with a Dataset in it and a Categorical; c : Struct that holds containers only *)
Definition case_its : list (name * citem) :=
  [(na, Arr 1);
   (nb, Sub false 5 [(nx, Spec 7 2 [3; 4]); (na, Sub true 6 [(nb, Arr 8); (nc, Arr 9)])]);
   (nc, Sub false 0 [(nb, Sub true 0 [(nx, Arr 10)]); (na, Sub false 0 [(nx, Scal 11)])])].
Definition no_fs : fs nat nat nat := {| at_file := None; at_dir := None |}.
Ltac items I := cbn in I; repeat (destruct I as [I|I]; [injection I as <- <-|]); [..|destruct I].
Ltac plain_tac := split; [cbn; intuition discriminate|split; [reflexivity|split; [discriminate|cbn; intuition (subst; discriminate)]]].
Ltac good_tac := lazymatch goal with
  | |- good (Arr _) => apply good_arr
  | |- good (Scal _) => apply good_scal
  | |- good (Spec _ _ _) => apply good_spec
  | |- good (Sub _ _ _) => apply good_sub;
      [repeat constructor; cbn; intuition discriminate
      |let I := fresh in intros ? ? I; items I; good_tac
      |let I := fresh in let B := fresh in intros ? ? I B; items I; try discriminate B; (split; [reflexivity|plain_tac])
      |let I := fresh in intros ? ? ? ? I; cbn in I; repeat (destruct I as [I|I]; [try discriminate I; injection I as <- <- <- <-; cbn; intuition discriminate|]); destruct I]
  end.
Lemma case_good : good (Sub false 3 case_its).
Proof. unfold case_its. good_tac. Qed.

(** ---------- C139: a saved Struct is loaded again ---------- *)
(** A Struct with nested containers that is saved to a path without a directory is loaded again with
    the same items in the same order, whatever the order in which the files are listed.  [same]
    allows a container that holds containers only to come back in another order and without labels;
    the labels of the root are lost too.  Missing: those, and the names excluded by [good]. *)
Theorem C139_saved_struct_is_loaded_partial {A M L} (no_labels : L) ds_put (all : bool) nm (lab : L) (its : list (name * item A M L)) (s s' s'' : fs A M L) ok :
  good (Sub false lab its) -> has_nested its = true -> at_dir s = None -> save_sds no_labels nm (Sub false lab its) s = (s', ok) -> relisted s' s'' ->
  ok = true /\ exists its', load_sds no_labels ds_put all s'' = Some (Sub false no_labels its') /\
    Forall2 (fun p q => fst p = fst q /\ same no_labels (snd p) (snd q)) its its'.
Proof.
  intros G Hn Ed E R. destruct (fresh_save no_labels nm lab its s s' ok G Hn Ed E) as (-> & d & Ed' & H & _). split; [reflexivity|].
  destruct (relisted_dir s' s'' d R Ed') as (d' & Ed'' & P). destruct (holds_load no_labels ds_put all d' lab its (holds_perm d d' lab its P H)) as (its' & Ld & F).
  exists its'. split; [|exact F]. unfold load_sds. now rewrite Ed'', Ld.
Qed.
Print Assumptions C139_saved_struct_is_loaded_partial.
(** When every container inside the Struct is empty or holds something besides containers, it comes
    back exactly, labels of the root apart. *)
Theorem C139_saved_struct_is_loaded_exactly_partial {A M L} (no_labels : L) ds_put (all : bool) nm (lab : L) (its : list (name * item A M L)) (s s' s'' : fs A M L) ok :
  good (Sub false lab its) -> has_nested its = true -> (forall k v, In (k, v) its -> all_own v) -> at_dir s = None ->
  save_sds no_labels nm (Sub false lab its) s = (s', ok) -> relisted s' s'' ->
  ok = true /\ load_sds no_labels ds_put all s'' = Some (Sub false no_labels its).
Proof.
  intros G Hn O Ed E R. destruct (C139_saved_struct_is_loaded_partial no_labels ds_put all nm lab its s s' s'' ok G Hn Ed E R) as (-> & its' & Ld & F).
  split; [reflexivity|]. now rewrite (entries_own no_labels its its' O F) in Ld.
Qed.
Print Assumptions C139_saved_struct_is_loaded_exactly_partial.
Example C139_case : good (Sub false 3 case_its) /\ has_nested case_its = true /\
  (let '(s, ok) := save_sds 0 nx (Sub false 3 case_its) no_fs in
   ok = true /\ map fst (match at_dir s with Some d => d | None => [] end) = [root_name; [98; 33; 97]; [98]; [99; 33; 98]; [99; 33; 97]] /\
   load_sds 0 cput false s = Some (Sub false 0 case_its) /\
   load_sds 0 cput false {| at_file := None; at_dir := option_map (@rev _) (at_dir s) |} =
     Some (Sub false 0 (firstn 2 case_its ++ [(nc, Sub false 0 [(na, Sub false 0 [(nx, Scal 11)]); (nb, Sub true 0 [(nx, Arr 10)])])]))).
Proof. split; [exact case_good|]. vm_compute. repeat split. Qed.
(** Finding: the order of the containers in a Struct that holds only containers is not saved (such a
    Struct has no file); it comes back in the order in which the directory happens to be listed. *)
Theorem C139_order_of_containers_is_kept_refuted : exists (its : list (name * citem)) s s' s'',
  good (Sub false 0 its) /\ at_dir s = None /\ save_sds 0 nx (Sub false 0 its) s = (s', true) /\ relisted s' s'' /\ load_sds 0 cput true s'' <> load_sds 0 cput true s'.
Proof.
  pose (v := Sub false 0 [(nb, Sub true 0 [(nx, Arr 10)]); (na, Sub true 0 [(nx, Arr 11)])] : citem).
  exists [(nc, v)], no_fs. eexists. 
  exists {| at_file := None; at_dir := Some (rev (struct_writes 0 [(nc, v)])) |}. split; [unfold v; good_tac|]. split; [reflexivity|]. split; [reflexivity|].
  split; [split; [reflexivity|apply Permutation_rev]|]. vm_compute. discriminate.
Qed.
Print Assumptions C139_order_of_containers_is_kept_refuted.
(** Finding: the labels of a Struct with nested containers are saved in _root.sds but are not set on the
    loaded Struct, because the items are put in order by making a new Struct. *)
Theorem C139_labels_are_kept_refuted : exists (its : list (name * citem)) s',
  good (Sub false 3 its) /\ save_sds 0 nx (Sub false 3 its) no_fs = (s', true) /\ load_sds 0 cput true s' = Some (Sub false 0 its).
Proof. exists [(nb, Sub true 6 [(nx, Arr 8)])]. eexists. split; [good_tac|]. split; [reflexivity|]. vm_compute. reflexivity. Qed.
Print Assumptions C139_labels_are_kept_refuted.
(** Finding: a nested Dataset whose name contains "!" is saved without an error and is missing from the
    loaded Struct; only the part of the name after the last "!" is checked for invalid characters. *)
Theorem C139_exclamation_mark_refuted : exists (its : list (name * citem)) s',
  its = [(na, Arr 1); ([120; 33; 121], Sub true 0 [(nx, Arr 8)])] /\
  save_sds 0 nx (Sub false 0 its) no_fs = (s', true) /\ load_sds 0 cput false s' = Some (Sub false 0 [(na, Arr 1)]).
Proof. eexists. eexists. split; [reflexivity|]. split; [reflexivity|]. vm_compute. reflexivity. Qed.
Print Assumptions C139_exclamation_mark_refuted.
(** Finding: a nested container whose name ends in ".sds" is written to the file of the container without
    that ending: here the Datasets "a" and "a.sds" are saved without an error, "a" comes back with the
    data of "a.sds", and "a.sds" is missing. *)
Theorem C139_sds_ending_refuted : exists (its : list (name * citem)) s',
  its = [(na, Sub true 0 [(nx, Arr 1)]); (na ++ ext, Sub true 0 [(nx, Arr 2)])] /\
  save_sds 0 nx (Sub false 0 its) no_fs = (s', true) /\ load_sds 0 cput false s' = Some (Sub false 0 [(na, Sub true 0 [(nx, Arr 2)])]).
Proof. eexists. eexists. split; [reflexivity|]. split; [reflexivity|]. vm_compute. reflexivity. Qed.
Print Assumptions C139_sds_ending_refuted.

(** ---------- C140: files are missing, and a save that stops half way ---------- *)
(** When some files of a saved Struct are missing but not _root.sds, exactly the data whose own
    container's file is present is loaded, at its place. *)
Theorem C140_missing_files_partial {A M L} (no_labels : L) ds_put (all : bool) (lab : L) (its : list (name * item A M L)) (d0 d : dir A M L) :
  good (Sub false lab its) -> writes (struct_writes lab its) [] = (d0, true) -> NoDup (map fst d) -> incl d d0 -> In root_name (map fst d) ->
  exists r, load_dir no_labels ds_put all d = Some (Sub false no_labels r) /\
    forall p x, x <> Nothing -> leaf_at (Sub false no_labels r) p x <->
      leaf_at (Sub false lab its) p x /\ (length p = 1 \/ In (join (removelast p)) (map fst d)).
Proof.
  intros G E N I R. pose proof (crash_dir (length (struct_writes lab its)) lab its G) as Ew. rewrite firstn_all in Ew. rewrite Ew in E. assert (d0 = struct_writes lab its) as -> by congruence.
  apply lost_load; try assumption. apply in_map_iff in R. destruct R as [[n f] [En R]]. cbn in En. subst n. pose proof (I _ R) as Rw.
  assert (J : In (root_name, file_of TStruct lab its) (struct_writes lab its)) by now left. pose proof (struct_nodup lab its G) as Nw.
  assert (f = file_of TStruct lab its) as -> by (pose proof (dget_nodup _ _ _ Nw Rw); pose proof (dget_nodup _ _ _ Nw J); congruence). exact R.
Qed.
Print Assumptions C140_missing_files_partial.
(** A save into a new directory that stops after any number of files leaves a directory that loads:
    nothing that was not saved is in it, no item is None, and what is in a written file is there. *)
Theorem C140_stopped_save {A M L} (no_labels : L) ds_put (all : bool) (lab : L) (its : list (name * item A M L)) (n : nat) (d : dir A M L) ok :
  good (Sub false lab its) -> writes (firstn n (struct_writes lab its)) [] = (d, ok) ->
  ok = true /\ exists r, load_dir no_labels ds_put all d = Some (Sub false no_labels r) /\
    (forall p x, leaf_at (Sub false no_labels r) p x -> x <> Nothing /\ leaf_at (Sub false lab its) p x) /\
    (forall p x, leaf_at (Sub false lab its) p x -> (length p = 1 /\ 0 < n) \/ (2 <= length p /\ In (join (removelast p)) (map fst d)) ->
       leaf_at (Sub false no_labels r) p x).
Proof.
  intros G E. rewrite (crash_dir n lab its G) in E. assert (Es : d = firstn n (struct_writes lab its) /\ ok = true) by (split; congruence). destruct Es as [-> ->]. split; [reflexivity|].
  destruct n as [|n].
  - exists []. split; [reflexivity|]. split.
    + intros [|k q] x; cbn [leaf_at]; [intros [<- []]|intros []].
    + intros p x _ [[_ Z]|[_ []]]. lia.
  - assert (N : NoDup (map fst (firstn (S n) (struct_writes lab its)))) by (apply prefix_nodup; now apply struct_nodup).
    destruct (lost_load no_labels ds_put lab its G all (firstn (S n) (struct_writes lab its)) N (firstn_incl _ _)) as [r [Ld H]]; [now left|].
    exists r. split; [exact Ld|]. split.
    + intros p x Lf. assert (NN : x <> Nothing) by (intros ->; exact (crash_nothing no_labels ds_put lab its G n all r p Ld Lf)). split; [exact NN|]. now apply H in Lf.
    + intros p x Lf C. assert (NN : x <> Nothing).
      { destruct (snoc_or p) as [->|(c & k & ->)]; [destruct Lf as [<- []]|]. exact (leaf_good_ne lab its G c k x Lf). }
      apply H; [exact NN|]. split; [exact Lf|]. destruct C as [[C _]|[_ C]]; [now left|now right].
Qed.
Print Assumptions C140_stopped_save.
Example C140_case : good (Sub false 3 case_its) /\
  (let d := fst (writes (firstn 3 (struct_writes 3 case_its)) []) in
   load_dir 0 cput false d = Some (Sub false 0 (firstn 2 case_its))) /\
  (let d := fst (writes (firstn 2 (struct_writes 3 case_its)) []) in
   load_dir 0 cput false d = Some (Sub false 0 [(na, Arr 1); (nb, Sub false 0 [(na, Sub true 6 [(nb, Arr 8); (nc, Arr 9)])])])).
Proof. split; [exact case_good|]. vm_compute. split; reflexivity. Qed.
(** Finding: a missing file is not reported.  Below the root the container comes back as the value
    None, at the root it is left out. *)
Theorem C140_missing_file_is_reported_refuted : exists (its : list (name * citem)) (d : dir nat nat nat),
  good (Sub false 0 its) /\ incl d (struct_writes 0 its) /\ length d + 2 = length (struct_writes 0 its) /\
  its = [(nb, Sub false 0 [(nx, Arr 1); (na, Sub true 0 [(nx, Arr 2)])]); (nc, Sub true 0 [(nx, Arr 3)])] /\
  load_dir 0 cput false d = Some (Sub false 0 [(nb, Sub false 0 [(nx, Arr 1); (na, Nothing)])]).
Proof.
  eexists. exists (filter (fun nf => mem (fst nf) [root_name; nb]) (struct_writes 0 [(nb, Sub false 0 [(nx, Arr 1); (na, Sub true 0 [(nx, Arr 2)])]); (nc, Sub true 0 [(nx, Arr 3)])])).
  split; [|split; [|split; [|split; [reflexivity|]]]].
  - good_tac.
  - intros y I. apply filter_In in I. exact (proj1 I).
  - reflexivity.
  - vm_compute. reflexivity.
Qed.
Print Assumptions C140_missing_file_is_reported_refuted.

(** ---------- C141: saving over an existing directory ---------- *)
(** A Struct saved to a path that has a directory already: the loaded Struct has exactly its names, and
    its data, except where a file of the old contents lies at or below the place; and everything that
    is loaded was saved now or is in an old file that was not written again. *)
Theorem C141_saved_over_partial {A M L} (no_labels : L) ds_put (lab : L) (its : list (name * item A M L)) (d0 d : dir A M L) ok :
  good (Sub false lab its) -> writes (struct_writes lab its) d0 = (d, ok) -> clean d ->
  ok = true /\ exists r, load_dir no_labels ds_put false d = Some (Sub false no_labels r) /\ map fst r = map fst its /\
    (forall p x, leaf_at (Sub false lab its) p x -> length p = 1 \/ ~ occupied d0 p -> leaf_at (Sub false no_labels r) p x) /\
    (forall p x, leaf_at (Sub false no_labels r) p x -> leaf_at (Sub false lab its) p x \/
       (exists k v, p = k :: tl p /\ In (k, v) its /\ is_box v = true) /\
       ((file_array d0 p x /\ ~ In (join p) (map fst (struct_writes lab its))) \/
        exists c k, p = c ++ [k] /\ c <> [] /\ file_item d0 c k x /\ ~ In (join c) (map fst (struct_writes lab its)))).
Proof.
  intros G E C. rewrite (struct_written lab its d0 G) in E. pose proof (f_equal fst E) as E1. pose proof (f_equal snd E) as E2. cbv [fst snd] in E1, E2. subst d ok. split; [reflexivity|].
  exact (over_load no_labels ds_put lab its G d0 C).
Qed.
Print Assumptions C141_saved_over_partial.
(** When every file of the old contents is written again, the new Struct is loaded as from a new
    directory. *)
Theorem C141_saved_over_covered_partial {A M L} (no_labels : L) ds_put (all : bool) (lab : L) (its : list (name * item A M L)) (d0 d d' : dir A M L) ok :
  good (Sub false lab its) -> NoDup (map fst d0) -> (forall n, In n (map fst d0) -> In n (map fst (struct_writes lab its))) ->
  writes (struct_writes lab its) d0 = (d, ok) -> Permutation d d' ->
  ok = true /\ exists r, load_dir no_labels ds_put all d' = Some (Sub false no_labels r) /\
    Forall2 (fun p q => fst p = fst q /\ same no_labels (snd p) (snd q)) its r.
Proof.
  intros G N Cov E P. destruct (save_holds lab its d0 G N Cov) as [d1 [E1 H]]. rewrite E in E1. assert (Es : d = d1 /\ ok = true) by (split; congruence). destruct Es as [<- ->].
  split; [reflexivity|]. exact (holds_load no_labels ds_put all d' lab its (holds_perm d d' lab its P H)).
Qed.
Print Assumptions C141_saved_over_covered_partial.
Example C141_case :
  let old := [(nb, Sub false 0 [(nx, Arr 20)]); (nx, Sub true 0 [(na, Arr 21)])] : list (name * citem) in
  let d0 := fst (writes (struct_writes 0 old) []) in
  good (Sub false 3 case_its) /\ NoDup (map fst d0) /\ clean (fst (writes (struct_writes 3 case_its) d0)) /\
  load_dir 0 cput false (fst (writes (struct_writes 3 case_its) d0)) = Some (Sub false 0 case_its).
Proof.
  split; [exact case_good|]. split; [repeat constructor; cbn; intuition discriminate|]. split; [|vm_compute; reflexivity].
  split; [vm_compute; repeat constructor; cbn; intuition discriminate|]. intros n f I. vm_compute in I.
  repeat (destruct I as [I|I]; [injection I as <- <-; eexists; split; [vm_compute; reflexivity|]; split; [discriminate|]; first [left; eexists; eexists; reflexivity|right; intros t J; vm_compute in J; repeat (destruct J as [J|J]; [discriminate J|]); destruct J]|]). destruct I.
Qed.
(** Finding: saving over an existing directory does not remove its files.  Here a Struct whose "b" is an
    empty Struct is saved over one whose "b" held a Dataset; the Dataset is loaded again. *)
Theorem C141_old_contents_are_gone_refuted : exists (old new : list (name * citem)) s1 s2,
  good (Sub false 0 old) /\ good (Sub false 0 new) /\ save_sds 0 nx (Sub false 0 old) no_fs = (s1, true) /\ save_sds 0 nx (Sub false 0 new) s1 = (s2, true) /\
  new = [(nb, Sub false 0 [(nx, Arr 2)])] /\
  load_sds 0 cput false s2 = Some (Sub false 0 [(nb, Sub false 0 [(nx, Arr 2); (na, Sub true 0 [(nx, Arr 1)])])]).
Proof.
  set (old := [(nb, Sub false 0 [(na, Sub true 0 [(nx, Arr 1)])])] : list (name * citem)). set (new := [(nb, Sub false 0 [(nx, Arr 2)])] : list (name * citem)).
  exists old, new, (fst (save_sds 0 nx (Sub false 0 old) no_fs)), (fst (save_sds 0 nx (Sub false 0 new) (fst (save_sds 0 nx (Sub false 0 old) no_fs)))).
  split; [unfold old; good_tac|]. split; [unfold new; good_tac|]. split; [vm_compute; reflexivity|]. split; [vm_compute; reflexivity|]. split; [reflexivity|]. vm_compute. reflexivity.
Qed.
Print Assumptions C141_old_contents_are_gone_refuted.
(** Finding: below the root an old container even replaces newly saved data: here the new array b.a is
    hidden by the Dataset that b.a was in the old contents. *)
Theorem C141_new_data_is_loaded_refuted : exists (old new : list (name * citem)) s1 s2,
  good (Sub false 0 old) /\ good (Sub false 0 new) /\ save_sds 0 nx (Sub false 0 old) no_fs = (s1, true) /\ save_sds 0 nx (Sub false 0 new) s1 = (s2, true) /\
  new = [(nb, Sub false 0 [(na, Arr 2)])] /\
  load_sds 0 cput false s2 = Some (Sub false 0 [(nb, Sub false 0 [(na, Sub true 0 [(nx, Arr 1)])])]).
Proof.
  set (old := [(nb, Sub false 0 [(na, Sub true 0 [(nx, Arr 1)])])] : list (name * citem)). set (new := [(nb, Sub false 0 [(na, Arr 2)])] : list (name * citem)).
  exists old, new, (fst (save_sds 0 nx (Sub false 0 old) no_fs)), (fst (save_sds 0 nx (Sub false 0 new) (fst (save_sds 0 nx (Sub false 0 old) no_fs)))).
  split; [unfold old; good_tac|]. split; [unfold new; good_tac|]. split; [vm_compute; reflexivity|]. split; [vm_compute; reflexivity|]. split; [reflexivity|]. vm_compute. reflexivity.
Qed.
Print Assumptions C141_new_data_is_loaded_refuted.

(** ---------- C142: loading in bulk and file by file ---------- *)
(** On a clean directory, loading all files in one call and handing them out by a running index gives
    each item what reading the files one by one gives. *)
Theorem C142_bulk_load_is_file_by_file_partial {A M L} (no_labels : L) ds_put (all : bool) (d : dir A M L) :
  clean d -> dget root_name d = None ->
  exists r, load_dir no_labels ds_put all d = Some (Sub false no_labels r) /\ map fst r = map fst (build_schema (map fst d)) /\
    forall k v, In (k, v) r -> exists s, In (k, s) (build_schema (map fst d)) /\ direct no_labels ds_put d None k s = Some v.
Proof.
  intros C R. destruct (noroot_items no_labels ds_put all d C R) as (r & E & Nm & H). exists r. split; [exact E|]. split; [exact Nm|]. intros k v I. destruct (H k v I) as (s & _ & D & Is). now exists s.
Qed.
Print Assumptions C142_bulk_load_is_file_by_file_partial.
Definition case_dir : dir nat nat nat :=
  [([98; 33; 97], file_of TDataset 6 [(nx, Arr 8)]); (nb, file_of TStruct 5 [(nx, Spec 7 2 [3; 4])]); (nc, file_of TArray 0 [(nc, Arr 12)]); ([97; 33; 97], file_of TDataset 1 [(nx, Arr 13)])].
Lemma case_clean : clean case_dir.
Proof.
  split; [vm_compute; repeat constructor; cbn; intuition discriminate|]. intros n f I. cbn [case_dir] in I.
  repeat (destruct I as [I|I]; [injection I as <- <-; eexists; split; [vm_compute; reflexivity|]; split; [discriminate|]; first [left; eexists; eexists; reflexivity|right; intros t J; vm_compute in J; repeat (destruct J as [J|J]; [discriminate J|]); destruct J]|]). destruct I.
Qed.
Example C142_case : clean case_dir /\ dget root_name case_dir = None /\
  load_dir 0 cput false case_dir = Some (Sub false 0 [(nb, Sub false 5 [(nx, Spec 7 2 [3; 4]); (na, Sub true 6 [(nx, Arr 8)])]); (nc, Arr 12); (na, Sub false 0 [(na, Sub true 1 [(nx, Arr 13)])])]).
Proof. split; [exact case_clean|]. vm_compute. split; reflexivity. Qed.
(** Finding: when an array file a.sds and a file a!b.sds lie in one directory, the bulk load gives every
    later item the data of another file, without an error: here c is loaded with the contents of a!b. *)
Theorem C142_bulk_load_is_file_by_file_refuted : exists (d : dir nat nat nat) s,
  NoDup (map fst d) /\ d = [(na, file_of TArray 0 [(na, Arr 1)]); ([97; 33; 98], file_of TDataset 0 [(nx, Arr 2)]); (nc, file_of TDataset 0 [(nx, Arr 3)])] /\
  load_dir 0 cput false d = Some (Sub false 0 [(na, Arr 1); (nc, Sub true 0 [(nx, Arr 2)])]) /\
  In (nc, s) (build_schema (map fst d)) /\ direct 0 cput d None nc s = Some (Sub true 0 [(nx, Arr 3)]).
Proof.
  eexists. exists (Node []). split; [|split; [reflexivity|]].
  - repeat constructor; cbn; intuition discriminate.
  - split; [vm_compute; reflexivity|]. split; [vm_compute; tauto|vm_compute; reflexivity].
Qed.
Print Assumptions C142_bulk_load_is_file_by_file_refuted.

(** ---------- C143: every loaded item comes from its file ---------- *)
(** What is loaded from a clean directory at a path is what the file at that path, or the file of the
    container before it, says; [found] spells this out.  Without _root.sds: *)
Theorem C143_data_comes_from_its_file_partial {A M L} (no_labels : L) ds_put (all : bool) (d : dir A M L) :
  clean d -> dget root_name d = None ->
  exists r, load_dir no_labels ds_put all d = Some (Sub false no_labels r) /\
    forall p x, leaf_at (Sub false no_labels r) p x <-> p <> [] /\ found d p x.
Proof.
  intros C R. destruct (load_noroot no_labels ds_put all d C R) as (r & E & H). exists r. split; [exact E|]. intros p x. destruct p as [|k q].
  - cbn [leaf_at]. split; [intros [<- []]|intros [Z _]; congruence].
  - rewrite H, found_src. split; [intros F; split; [discriminate|exact F]|tauto].
Qed.
Print Assumptions C143_data_comes_from_its_file_partial.
(** With the _root.sds of a saved Struct: its own arrays first, then the files; the files of containers
    that it does not know are loaded only with include_all_sds. *)
Theorem C143_data_comes_from_its_file_root_partial {A M L} (no_labels : L) ds_put (all : bool) (lab : L) (its : list (name * item A M L)) (d : dir A M L) :
  good (Sub false lab its) -> clean d -> dget root_name d = Some (file_of TStruct lab its) ->
  exists r, load_dir no_labels ds_put all d = Some (Sub false no_labels r) /\
    forall k q x, leaf_at (Sub false no_labels r) (k :: q) x <->
      (q = [] /\ leaf_at (Sub false lab its) [k] x) \/
      ((exists v, In (k, v) its /\ is_box v = true) /\ found d (k :: q) x) \/
      (all = true /\ ~ In k (map fst its) /\ k <> root_name /\ found d (k :: q) x).
Proof. intros G C R. destruct (root_leaves no_labels ds_put lab its G all d C R) as (r & E & _ & H). exists r. split; [exact E|exact H]. Qed.
Print Assumptions C143_data_comes_from_its_file_root_partial.
Example C143_case : clean case_dir /\ found case_dir [nb; na; nx] (Arr 8) /\ found case_dir [nc] (Arr 12) /\
  let d := (root_name, file_of TStruct 0 [(nb, Sub false 5 []); (nx, Arr 30)]) :: case_dir in
  load_dir 0 cput false d = Some (Sub false 0 [(nb, Sub false 5 [(nx, Spec 7 2 [3; 4]); (na, Sub true 6 [(nx, Arr 8)])]); (nx, Arr 30)]) /\
  load_dir 0 cput true d = Some (Sub false 0 [(nb, Sub false 5 [(nx, Spec 7 2 [3; 4]); (na, Sub true 6 [(nx, Arr 8)])]); (nx, Arr 30); (nc, Arr 12); (na, Sub false 0 [(na, Sub true 1 [(nx, Arr 13)])])]).
Proof.
  split; [exact case_clean|]. split; [|split].
  - apply found_src. cbn [src]. left. split; [exists []; exists [98; 33; 97]; vm_compute; tauto|]. right. split.
    + intros t (f & I & E). cbn in I. repeat (destruct I as [<-|I]; [vm_compute in E; discriminate E|]). destruct I.
    + split; [reflexivity|]. split; [exact Logic.I|]. split; [repeat constructor; cbn; intuition discriminate|]. eexists _, _, _, _. split; [vm_compute; reflexivity|]. split; [vm_compute; reflexivity|reflexivity].
  - apply found_src. cbn [src]. split; [exact Logic.I|]. split; [repeat constructor; cbn; intuition discriminate|]. eexists. split; [vm_compute; reflexivity|reflexivity].
  - vm_compute. split; reflexivity.
Qed.

(** ---------- C144: Datasets saved into the directory of a Struct ---------- *)
(** After a Struct was saved to a new directory and any number of Datasets were saved into that
    directory, under new names or in place of flat containers, loading gives the Struct with those
    Datasets set, the last save of each name winning. *)
Theorem C144_dataset_saved_into_directory_partial {A M L} (no_labels : L) ds_put (all : bool) nm (lab : L) (its : list (name * item A M L)) (s s' : fs A M L) ok d0
    (saves : list (name * (L * list (name * item A M L)))) (d : dir A M L) :
  good (Sub false lab its) -> has_nested its = true -> at_dir s = None -> save_sds no_labels nm (Sub false lab its) s = (s', ok) -> at_dir s' = Some d0 ->
  (forall k lb i, In (k, (lb, i)) saves -> plain_name k /\ good (Sub true lb i) /\ forall v, In (k, v) its -> flat_box v) ->
  Permutation (fold_left (fun d ks => save_in no_labels d (fst ks) (Sub true (fst (snd ks)) (snd (snd ks)))) saves d0) d ->
  exists r, load_dir no_labels ds_put all d = Some (Sub false no_labels r) /\
    Forall2 (fun p q => fst p = fst q /\ same no_labels (snd p) (snd q))
      (fold_left (fun its ks => dset (fst ks) (Sub true (fst (snd ks)) (snd (snd ks))) its) saves its) r.
Proof.
  intros G Hn Ed E E0 H P. destruct (fresh_save no_labels nm lab its s s' ok G Hn Ed E) as (-> & d1 & E1 & Hd & R & _). rewrite E0 in E1. injection E1 as <-.
  pose proof (w_holds2 d0 lab its Hd R) as H2. clear E E0 Ed Hd R Hn G s s' nm.
  assert (Q : holds2 (fold_left (fun d ks => save_in no_labels d (fst ks) (Sub true (fst (snd ks)) (snd (snd ks)))) saves d0) lab (fold_left (fun its ks => dset (fst ks) (Sub true (fst (snd ks)) (snd (snd ks))) its) saves its)).
  { clear P. revert d0 its H H2. induction saves as [|[k [lb i]] t IH]; intros d0 its H H2; [exact H2|]. cbn [fold_left fst snd].
    destruct (H k lb i (or_introl eq_refl)) as (Pk & Gi & Rk).
    assert (Fi : has_nested i = false). { apply nested_in. intros k0 v I. destruct (is_box v) eqn:B; [|reflexivity]. inversion Gi as [| | |ds0 l0 i0 Nn0 V0 Bx0 Sp0]; subst. destruct (Bx0 k0 v I B). discriminate. }
    apply IH; [|now apply save_in_holds]. intros k' lb' i' I. destruct (H k' lb' i' (or_intror I)) as (Pk' & Gi' & Rk'). split; [exact Pk'|]. split; [exact Gi'|].
    intros v J. pose proof (h2 _ _ _ H2) as [G0 _ _ _ _]. inversion G0 as [| | |ds0 l0 i0 Nn0 V0 Bx0 Sp0]; subst.
    apply (dget_nodup _ _ _ (DsProofs3.dset_nodup k (Sub true lb i) its Nn0)) in J. rewrite dget_dset in J. destruct (name_dec k k').
    - injection J as <-. now exists true, lb, i.
    - apply dget_some_in in J. exact (Rk' v J). }
  exact (holds_load no_labels ds_put all d lab _ (holds_perm _ d lab _ P (h2 _ _ _ Q))).
Qed.
Print Assumptions C144_dataset_saved_into_directory_partial.
Example C144_case : good (Sub false 3 case_its) /\ plain_name nx /\
  (let d0 := match at_dir (fst (save_sds 0 nx (Sub false 3 case_its) no_fs)) with Some d => d | None => [] end in
   load_dir 0 cput false (save_in 0 (save_in 0 d0 nx (Sub true 1 [(na, Arr 40)])) nx (Sub true 1 [(na, Arr 41)])) = Some (Sub false 0 (case_its ++ [(nx, Sub true 1 [(na, Arr 41)])]))).
Proof. split; [exact case_good|]. split; [plain_tac|]. vm_compute. reflexivity. Qed.
(** Finding: a flat Struct saved into the directory of a saved Struct is not loaded with it, although a
    Dataset is: the root file is looked for in the directory dir/k.sds. *)
Theorem C144_struct_saved_into_directory_refuted : exists (its : list (name * citem)) (d0 : dir nat nat nat) v,
  good (Sub false 0 its) /\ good v /\ writes (struct_writes 0 its) [] = (d0, true) /\ v = Sub false 0 [(na, Arr 2)] /\
  load_dir 0 cput false (save_in 0 d0 nx v) = Some (Sub false 0 its).
Proof. exists [(nb, Sub true 0 [(nx, Arr 1)])]. eexists. eexists. split; [good_tac|]. split; [|split; [reflexivity|split; [reflexivity|vm_compute; reflexivity]]]. good_tac. Qed.
Print Assumptions C144_struct_saved_into_directory_refuted.
(** Finding: a Dataset saved into the directory under the name of an array of the saved Struct succeeds,
    but the old array is loaded. *)
Theorem C144_dataset_over_array_refuted : exists (its : list (name * citem)) (d0 : dir nat nat nat) v,
  good (Sub false 0 its) /\ good v /\ writes (struct_writes 0 its) [] = (d0, true) /\ v = Sub true 0 [(nx, Arr 2)] /\
  its = [(na, Arr 5); (nb, Sub true 0 [(nx, Arr 1)])] /\ load_dir 0 cput true (save_in 0 d0 na v) = Some (Sub false 0 its).
Proof. exists [(na, Arr 5); (nb, Sub true 0 [(nx, Arr 1)])]. eexists. exists (Sub true 0 [(nx, Arr 2)]). split; [good_tac|]. split; [good_tac|]. split; [reflexivity|]. split; [reflexivity|]. split; [reflexivity|]. vm_compute. reflexivity. Qed.
Print Assumptions C144_dataset_over_array_refuted.

(** ---------- C145: the last save to a path is loaded ---------- *)
(** Any number of saves of Datasets, flat Structs and arrays to one path that has no directory: the
    last one is loaded. *)
Theorem C145_last_save_is_loaded_partial {A M L} (no_labels : L) ds_put (all : bool) nm (saves : list (item A M L)) (it : item A M L) (s s' : fs A M L) :
  ~ In bang nm -> at_dir s = None -> (forall v, In v (saves ++ [it]) -> good v /\ (is_array v = true \/ flat_box v)) ->
  fold_left (fun s v => fst (save_sds no_labels nm v s)) (saves ++ [it]) s = s' ->
  load_sds no_labels ds_put all s' = Some it.
Proof.
  intros Nb Ed H E. rewrite fold_left_app in E. cbn [fold_left] in E. set (s1 := fold_left _ saves s) in E.
  assert (E1 : at_dir s1 = None).
  { assert (H1 : forall v, In v saves -> good v /\ (is_array v = true \/ flat_box v)) by (intros v I; apply H; apply in_or_app; now left). unfold s1. clear -Ed H1. revert s Ed. induction saves as [|v r IH]; intros s Ed; [exact Ed|].
    cbn [fold_left]. apply IH; [intros v0 I; apply H1; now right|]. destruct (H1 v (or_introl eq_refl)) as [_ [Z|(ds & lb & i & -> & F)]].
    - destruct v; try discriminate; exact Ed.
    - destruct ds; cbn [save_sds]; [exact Ed|]. rewrite F. exact Ed. }
  destruct (H it) as [G [Z|(ds & lb & i & -> & F)]]; [apply in_or_app; right; now left| |]; subst s'; unfold load_sds.
  - pose proof (read_array no_labels nm it Z Nb) as R. destruct it; try discriminate; cbn [save_sds fst at_dir at_file]; rewrite E1; exact R.
  - pose proof (read_flat ds lb i G F) as R. destruct ds; cbn [save_sds]; [|rewrite F]; cbn [fst at_dir at_file]; rewrite E1; exact R.
Qed.
Print Assumptions C145_last_save_is_loaded_partial.
Example C145_case : ~ In bang nx /\
  load_sds 0 cput false (fold_left (fun s v => fst (save_sds 0 nx v s)) [Sub true 1 [(na, Arr 1)]; Arr 2; Sub false 4 [(nb, Spec 7 2 [3; 4]); (na, Scal 5)]] no_fs) = Some (Sub false 4 [(nb, Spec 7 2 [3; 4]); (na, Scal 5)]).
Proof. split; [cbn; intuition discriminate|]. vm_compute. reflexivity. Qed.
(** Finding: after a Struct with nested containers was saved to a path, a Dataset saved to the same path
    goes to another file, and loading the path gives the old Struct. *)
Theorem C145_last_save_is_loaded_refuted : exists (old new : citem) s1 s2,
  good old /\ good new /\ save_sds 0 nx old no_fs = (s1, true) /\ save_sds 0 nx new s1 = (s2, true) /\ load_sds 0 cput false s2 = Some old /\ old <> new.
Proof.
  set (old := Sub false 0 [(nb, Sub true 0 [(nx, Arr 1)])] : citem). set (new := Sub true 0 [(nx, Arr 2)] : citem).
  exists old, new, (fst (save_sds 0 nx old no_fs)), (fst (save_sds 0 nx new (fst (save_sds 0 nx old no_fs)))).
  split; [unfold old; good_tac|]. split; [unfold new; good_tac|]. split; [vm_compute; reflexivity|]. split; [vm_compute; reflexivity|]. split; [vm_compute; reflexivity|discriminate].
Qed.
Print Assumptions C145_last_save_is_loaded_refuted.

(** ---------- C146: one file ---------- *)
(** A Dataset or flat Struct, with any mix of arrays, scalars and Categoricals in it, written to one file
    is read back exactly: items, order, labels and the arrays of each Categorical. *)
Theorem C146_one_file_round_trip_partial {A M L} (ds : bool) (lab : L) (its : list (name * item A M L)) :
  good (Sub ds lab its) -> has_nested its = false -> read_file (file_of (type_of ds) lab its) = Some (Sub ds lab its).
Proof. exact (read_flat ds lab its). Qed.
Print Assumptions C146_one_file_round_trip_partial.
Example C146_case : let its := [(na, Spec 1 2 [3; 4; 5]); (nb, Arr 6); (nc, Spec 1 7 []); (nx, Scal 8)] : list (name * citem) in
  good (Sub true 9 its) /\ read_file (file_of TDataset 9 its) = Some (Sub true 9 its).
Proof. split; [good_tac|]. vm_compute. reflexivity. Qed.
(** Finding: the arrays of a Categorical are looked up by the part of their name before the first "!".  When
    the name of the Categorical itself contains "!", it is read back without its categories, and a
    Categorical with that first part as its name gets them in addition to its own. *)
Theorem C146_exclamation_mark_refuted : exists (its : list (name * citem)),
  its = [(na, Spec 1 2 [3]); ([97; 33; 98], Spec 1 4 [5])] /\
  read_file (file_of TDataset 0 its) = Some (Sub true 0 [(na, Spec 1 2 [3; 5]); ([97; 33; 98], Spec 1 4 [])]).
Proof. eexists. split; [reflexivity|]. vm_compute. reflexivity. Qed.
Print Assumptions C146_exclamation_mark_refuted.

(** ---------- C147: files saved to with append ---------- *)
(** The sections of a file are put together in the order in which they were appended, whatever order
    the threads deliver them in, and nothing is lost: the result is one Dataset with all the columns
    in order, each under its own name or that name with a number, or a Struct with every section
    under its name, or all the sections in an array. *)
Theorem C147_appended_sections {A} (sections : list name) (parts delivered : list (part A)) :
  StronglySorted (fun p q => p_off p < p_off q)%Z parts -> Permutation parts delivered -> length sections = length parts ->
  load_sections sections delivered = load_sections sections parts /\
  match load_sections sections delivered with
  | LDataset d => NoDup (map fst d) /\ Forall2 renamed (concat (map p_cols parts)) d
  | LStruct st => st = combine sections parts
  | LArray l => l = parts
  end.
Proof.
  intros S P Len. unfold load_sections. rewrite (by_offset_order parts delivered S P), (by_offset_order parts parts S (Permutation_refl _)). split; [reflexivity|].
  set (fb := if length (dset_all (combine sections parts) []) =? length parts then _ else _).
  assert (Hfb : match fb with LDataset d => NoDup (map fst d) /\ Forall2 renamed (concat (map p_cols parts)) d | LStruct st => st = combine sections parts | LArray l => l = parts end).
  { unfold fb. destruct (length (dset_all (combine sections parts) []) =? length parts) eqn:E; [|reflexivity]. apply Nat.eqb_eq in E. apply (dset_all_len (combine sections parts) []); [constructor|].
    rewrite E, combine_length, Len. cbn. lia. }
  destruct (mergeable parts); [|exact Hfb]. destruct (merge_parts parts ([], 0)) as [d|] eqn:E; [|exact Hfb].
  destruct (merge_ok parts [] 0 d E) as [N [e [-> F]]]; [constructor|]. split; [exact N|exact F].
Qed.
Print Assumptions C147_appended_sections.
Example C147_case :
  let p (o : Z) n cols := {| p_off := o; p_ds := true; p_len := n; p_cols := cols |} in
  let a := p 10%Z 3 [(na, 1); (nb, 2)] in let b := p 20%Z 3 [(na, 3); (nc, 4)] in let c := p 30%Z 2 [(na, 5)] in
  StronglySorted (fun p q => p_off p < p_off q)%Z [a; b; c] /\
  load_sections [na; nb] [b; a] = LDataset [(na, 1); (nb, 2); ([97; 95; 48], 3); (nc, 4)] /\
  load_sections [na; nb; nc] [c; b; a] = LStruct [(na, a); (nb, b); (nc, c)] /\
  load_sections [na; nb; na] [c; b; a] = LArray [a; b; c].
Proof. split; [repeat constructor|]. vm_compute. repeat split. Qed.
(** Finding: the names of the sections are kept only when the sections differ in length or kind: two
    Datasets appended as "a" and "b" come back as one Dataset when they have the same number of rows,
    with the columns of "b" renamed. *)
Theorem C147_sections_have_their_names_refuted : exists (sections : list name) (parts : list (part nat)),
  NoDup sections /\ length sections = length parts /\ StronglySorted (fun p q => p_off p < p_off q)%Z parts /\
  load_sections sections parts = LDataset [(nx, 1); ([120; 95; 48], 2)].
Proof.
  exists [na; nb], [{| p_off := 1%Z; p_ds := true; p_len := 3; p_cols := [(nx, 1)] |}; {| p_off := 2%Z; p_ds := true; p_len := 3; p_cols := [(nx, 2)] |}].
  split; [repeat constructor; cbn; intuition discriminate|]. split; [reflexivity|]. split; [repeat constructor|]. vm_compute. reflexivity.
Qed.
Print Assumptions C147_sections_have_their_names_refuted.

(** ---------- C148: sds_flatten ---------- *)
(** A directory that holds only directories of saved Structs, flattened and then loaded: every Struct is
    there under the name of its directory, with its labels and its items in order, and all the
    directories are gone. *)
Theorem C148_flattened_directory_is_loaded_partial {A M L} (no_labels : L) ds_put (all : bool) (structs : list (name * (L * list (name * item A M L)))) (dirs : list (name * dir A M L)) (d : dir A M L) :
  NoDup (map fst structs) ->
  Forall2 (fun p q => fst p = fst q /\ plain_name (fst p) /\ good (Sub false (fst (snd p)) (snd (snd p))) /\
             Permutation (fst (writes (struct_writes (fst (snd p)) (snd (snd p))) [])) (snd q)) structs dirs ->
  Permutation (b_files (sds_flatten {| b_files := []; b_dirs := dirs |})) d ->
  b_dirs (sds_flatten {| b_files := []; b_dirs := dirs |}) = [] /\
  exists r, load_dir no_labels ds_put all d = Some (Sub false no_labels r) /\ Permutation (map fst r) (map fst structs) /\
    forall n lab its, In (n, (lab, its)) structs -> exists its', In (n, Sub false lab its') r /\
      Forall2 (fun p q => fst p = fst q /\ same no_labels (snd p) (snd q)) its its'.
Proof.
  intros N F P.
  assert (En : map fst dirs = map fst structs). { clear -F. induction F as [|p q l l' (E & _) F IH]; [reflexivity|]. cbn. rewrite IH. now rewrite E. }
  assert (Hh : forall n dd, In (n, dd) dirs -> exists lab its, In (n, (lab, its)) structs /\ plain_name n /\ holds dd lab its).
  { clear N P En. intros n dd I. induction F as [|[n1 [lab its]] [n2 d2] l l' (E & Pn & G & Pd) F IH]; [destruct I|]. cbn [fst snd] in E, Pn, G, Pd. subst n2. destruct I as [I|I].
    - injection I as -> ->. exists lab, its. split; [now left|]. split; [exact Pn|]. destruct (save_holds lab its [] G ltac:(constructor)) as [d' [Ew H]]; [intros x []|]. rewrite Ew in Pd. cbn [fst] in Pd. exact (holds_perm d' dd lab its Pd H).
    - destruct (IH I) as (lab' & its' & I' & R). exists lab', its'. split; [now right|exact R]. }
  assert (S : forall n dd, In (n, dd) dirs -> plain_name n /\ exists lab its, holds dd lab its).
  { intros n dd I. destruct (Hh n dd I) as (lab & its & _ & Pn & H). split; [exact Pn|]. now exists lab, its. }
  rewrite <- En in N. pose proof (all_rooted dirs S) as Ro.
  assert (Ef : sds_flatten {| b_files := []; b_dirs := dirs |} = {| b_files := flat_map block dirs; b_dirs := [] |}).
  { unfold sds_flatten. cbn [b_files b_dirs]. rewrite (flatten_all dirs [] N Ro); [reflexivity|]. intros nd _ x []. }
  rewrite Ef in P |- *. cbn [b_files b_dirs] in *. split; [reflexivity|].
  destruct (F_load no_labels ds_put dirs N S d P all) as (r & E & Pr & H). exists r. split; [exact E|]. split; [now rewrite <- En|].
  intros n lab its I. assert (J : In n (map fst dirs)) by (rewrite En; apply in_map_iff; exists (n, (lab, its)); easy). apply in_map_iff in J. destruct J as [[n' dd] [E' J]]. cbn in E'. subst n'.
  destruct (Hh n dd J) as (lab' & its' & I' & _ & Hd). rewrite En in N. assert ((lab', its') = (lab, its)) as Z by (pose proof (dget_nodup _ _ _ N I); pose proof (dget_nodup _ _ _ N I'); congruence).
  injection Z as -> ->. exact (H n dd lab its J Hd).
Qed.
Print Assumptions C148_flattened_directory_is_loaded_partial.
Example C148_case :
  let dirs := [(nx, struct_writes 3 case_its); (na, struct_writes 4 [(nb, Sub true 0 [(nx, Arr 1)])])] in
  good (Sub false 3 case_its) /\ plain_name nx /\
  load_dir 0 cput false (b_files (sds_flatten {| b_files := []; b_dirs := dirs |})) = Some (Sub false 0 [(nx, Sub false 3 case_its); (na, Sub false 4 [(nb, Sub true 0 [(nx, Arr 1)])])]).
Proof. split; [exact case_good|]. split; [plain_tac|]. vm_compute. reflexivity. Qed.
(** Finding: before moving files sds_flatten checks that their new names are free, but not the name dir.sds
    of the moved root file: a file of that name in the base directory is overwritten and lost. *)
Theorem C148_flatten_keeps_files_refuted : exists (b : base nat nat nat) f,
  NoDup (map fst (b_files b)) /\ In (na, f) (b_files b) /\ read_file f = Some (Sub true 0 [(nx, Arr 1)]) /\
  b_dirs b = [(na, struct_writes 0 [(nb, Sub true 0 [(nx, Arr 2)])])] /\
  b_dirs (sds_flatten b) = [] /\ ~ In f (map snd (b_files (sds_flatten b))).
Proof.
  exists {| b_files := [(na, file_of TDataset 0 [(nx, Arr 1)])]; b_dirs := [(na, struct_writes 0 [(nb, Sub true 0 [(nx, Arr 2)])])] |}, (file_of TDataset 0 [(nx, Arr 1)]).
  split; [repeat constructor; cbn; tauto|]. split; [now left|]. split; [reflexivity|]. split; [reflexivity|]. split; [vm_compute; reflexivity|].
  vm_compute. intros [E|[E|[]]]; discriminate E.
Qed.
Print Assumptions C148_flatten_keeps_files_refuted.
