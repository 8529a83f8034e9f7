(** What is loaded from an arbitrary clean directory. *)
From Coq Require Import List Arith Bool Lia Permutation.
From Verif Require Import FlattenModel DsModel SdsModel SdsSpec FlattenProofs DsProofs3 AggProofs2 SdsProofs SdsProofs2 SdsProofs3 SdsProofs4 SdsProofs5 SdsProofs6.
Import ListNotations.

Section Found.
Context {A M L : Type}.
Variable no_labels : L.
Notation item := (item A M L).
Notation file := (file A M L).
Notation dir := (dir A M L).
Variable ds_put : list (name * item) -> name -> item -> option (list (name * item)).
Notation direct := (direct no_labels ds_put).
Notation load_dir := (load_dir no_labels ds_put).

Lemma occupied_below (d : dir) p : p <> [] -> occupied d p <-> exists t, below d p t.
Proof.
  intros N. unfold occupied. split.
  - intros (q & Nq & I & F). exists q. now apply below_in.
  - intros [q J]. exists q. pose proof (below_clear d p q J) as F. assert (Nq : p ++ q <> []) by (destruct p; easy).
    split; [exact Nq|]. split; [now apply below_in in J|exact F].
Qed.
Lemma not_occupied (d : dir) p : p <> [] -> ~ occupied d p <-> forall t, ~ below d p t.
Proof. intros N. rewrite (occupied_below d p N). firstorder. Qed.
Lemma file_below (d : dir) p q f : p <> [] -> Forall clear_name (p ++ q) -> dget (join (p ++ q)) d = Some f -> below d p q.
Proof. intros N F G. apply below_in; [destruct p; easy|exact F|]. apply dget_some_in in G. apply in_map_iff. eexists. split; [|exact G]. reflexivity. Qed.
Lemma src_found (d : dir) x : forall p pth, pth <> [] -> src d pth p x <-> is_leaf x /\ (file_array d (pth ++ p) x \/
  exists q k, p = q ++ [k] /\ (forall t, ~ below d (pth ++ p) t) /\ file_item d (pth ++ q) k x).
Proof.
  induction p as [|k p IH]; intros pth N; cbn [src].
  - rewrite app_nil_r. split; [intros [I F]; split; [exact I|now left]|]. intros [I [F|(q & k & E & _)]]; [easy|]. destruct q; discriminate.
  - assert (N' : pth ++ [k] <> []) by (destruct pth; easy). rewrite (IH (pth ++ [k]) N'). split.
    + intros [[[t B] [I [F|(q & k' & -> & Nb & F)]]]|(Nb & -> & I & F)].
      * split; [exact I|left]. now rewrite <- app_assoc in F.
      * split; [exact I|right]. exists (k :: q), k'. rewrite <- app_assoc in Nb, F. cbn [app] in Nb, F. split; [reflexivity|]. split; assumption.
      * split; [exact I|right]. exists [], k. rewrite app_nil_r. split; [reflexivity|]. split; assumption.
    + intros [I [F|(q & k' & E & Nb & F)]].
      * left. destruct F as [Cl [f [G R]]]. replace (pth ++ k :: p) with ((pth ++ [k]) ++ p) in * by (rewrite <- app_assoc; reflexivity). split.
        -- exists p. now apply (file_below d (pth ++ [k]) p f).
        -- split; [exact I|left]. split; [exact Cl|]. now exists f.
      * destruct q as [|k0 q]; injection E as -> ->.
        -- right. rewrite app_nil_r in F. repeat split; try assumption. exact (proj1 F). exact (proj2 F).
        -- left. pose proof F as [Cl (f & ds & lab & its & G & _)]. replace (pth ++ k0 :: q) with ((pth ++ [k0]) ++ q) in * by (rewrite <- app_assoc; reflexivity). split.
           ++ exists q. now apply (file_below d (pth ++ [k0]) q f).
           ++ split; [exact I|right]. exists q, k'. split; [reflexivity|]. rewrite <- app_assoc. cbn [app]. split; assumption.
Qed.
(** the leaves of a loaded directory that has a root file *)
Lemma load_leaf (all : bool) (d : dir) f data o : clean d -> dget root_name d = Some f -> f_type f = TStruct -> read_items f = Some data ->
  order_from_meta f data = Some o -> NoDup (kept all d o) ->
  exists its, load_dir all d = Some (Sub false no_labels its) /\
    map fst its = filter (fun k => negb (pending data k) || mem k (names (subtrees d))) (kept all d o) /\
    forall k q x, leaf_at (Sub false no_labels its) (k :: q) x <-> In k (kept all d o) /\
      ((pending data k = false /\ q = [] /\ is_leaf x /\ dget k data = Some x) \/
       (pending data k = true /\ k <> root_name /\ src d [k] q x)).
Proof.
  intros C G T R O Nk. destruct (load_root no_labels ds_put all d f data o C G T R O) as [its [E [Nm Val]]].
  exists its. split; [exact E|split; [exact Nm|]]. intros k q x. cbn [leaf_at].
  destruct (subtrees_ok d) as (N1 & N2 & N3).
  assert (Ni : NoDup (map fst its)) by (rewrite Nm; now apply NoDup_filter).
  destruct (read_items_flat f data R) as [Nd Fl].
  destruct (dget k its) as [v|] eqn:Gk.
  - apply dget_some_in in Gk. destruct (Val k v Gk) as (Ik & NN & [[P Gd]|[P (s & Is & D)]]).
    + rewrite leaf_flat by exact (Fl k v (dget_some_in _ _ _ Gd)). split.
      * intros (-> & -> & Lx). split; [exact Ik|]. left. easy.
      * intros (_ & [(_ & -> & Lx & Gd')|(P' & _)]); [|congruence]. split; [reflexivity|split; [congruence|exact Lx]].
    + destruct (N3 k s Is) as [Ck Sk]. assert (J : In k (map fst (subtrees d))) by (apply in_map_iff; exists (k, s); easy). apply N2 in J. destruct J as [Nr J].
      destruct (direct_ok no_labels ds_put d C s [] k) as [it [D' [Lf _]]]; [constructor; [exact Ck|constructor]|exact Sk|].
      cbn [pre_of] in D'. rewrite D in D'. injection D' as ->. rewrite (Lf q x). cbn [app]. split.
      * intros Sx. split; [exact Ik|]. right. easy.
      * intros (_ & [(P' & _)|(_ & _ & Sx)]); [congruence|exact Sx].
  - split; [intros []|]. intros (Ik & H). apply dget_none in Gk. apply Gk. rewrite Nm. apply filter_In. split; [exact Ik|].
    destruct H as [(P & _)|(P & Nr & Sx)]; rewrite P; [reflexivity|]. cbn [negb orb]. apply mem_in. apply N2. split; [exact Nr|].
    apply src_found in Sx; [|easy]. destruct Sx as [_ [[Cl [f0 [G0 _]]]|(c & k' & -> & _ & Cl & f0 & ds & lab & its0 & G0 & _)]].
    + exists q. apply (file_below d [k] q f0); [easy|exact Cl|exact G0].
    + exists c. apply (file_below d [k] c f0); [easy|exact Cl|exact G0].
Qed.
Lemma load_noroot (all : bool) (d : dir) : clean d -> dget root_name d = None ->
  exists its, load_dir all d = Some (Sub false no_labels its) /\
    forall k q x, leaf_at (Sub false no_labels its) (k :: q) x <-> src d [k] q x.
Proof.
  intros C G. unfold SdsModel.load_dir. rewrite G. pose proof (build_ok (map fst d)) as B. inversion B as [P kids0 N1 N2 N3 E1 E2]; subst P kids0.
  remember (build_schema (map fst d)) as kids eqn:Ek. clear Ek B.
  rewrite files_some; cycle 1.
  { intros n I. apply in_flat_map in I. destruct I as [[k s] [_ I]]. exact (collect_has d _ _ _ _ I). }
  assert (Ew : flat_map (fun ks => collect d None (fst ks) (snd ks)) kids = files_wanted d [] kids) by reflexivity.
  assert (Hk : forall k s, In (k, s) kids -> clear_name k /\ sch_ok (below d [k]) s).
  { intros k s I. split.
    - assert (J : In k (map fst kids)) by (apply in_map_iff; exists (k, s); easy). apply N2 in J. destruct J as [q [f [_ J]]]. pose proof (split_clear f) as Z. rewrite J in Z. now inversion Z.
    - eapply sch_ext; [|exact (N3 k s I)]. intros q. reflexivity. }
  destruct (fill_ok no_labels ds_put d (files_of d (files_wanted d [] kids)) C kids [] [] [] N1 Hk) as [vs [F [Nm S]]]; [cbn [app]; now rewrite app_nil_r|].
  cbn [length] in F. match goal with |- context [files_of d ?X] => change X with (files_wanted d [] kids) end. rewrite F. cbn [option_map].
  assert (Nw : wanted (@nil (name * item)) kids = kids) by (unfold wanted; apply filter_all_true; reflexivity). rewrite Nw in Nm.
  assert (Nv : NoDup (map fst vs)) by (rewrite Nm; exact N1).
  exists (dset_all vs []). split; [reflexivity|]. intros k q x. cbn [leaf_at]. rewrite dget_dset_all by exact Nv. destruct (dget k vs) as [v|] eqn:Gk.
  - apply dget_some_in in Gk. destruct (S k v Gk) as [s [Is D]]. destruct (Hk k s Is) as [Ck Sk].
    destruct (direct_ok no_labels ds_put d C s [] k) as [it [D' [Lf _]]]; [constructor; [exact Ck|constructor]|exact Sk|].
    cbn [pre_of] in D'. rewrite D in D'. injection D' as ->. exact (Lf q x).
  - cbn [dget]. split; [intros []|]. intros Sx. apply dget_none in Gk. apply Gk. rewrite Nm. apply N2.
    apply src_found in Sx; [|easy]. destruct Sx as [_ [[Cl [f0 [G0 _]]]|(c & k' & -> & _ & Cl & f0 & ds & lab & its0 & G0 & _)]].
    + exists q. apply (file_below d [k] q f0); [easy|exact Cl|exact G0].
    + exists c. apply (file_below d [k] c f0); [easy|exact Cl|exact G0].
Qed.
Lemma found_src (d : dir) k q x : src d [k] q x <-> found d (k :: q) x.
Proof.
  rewrite src_found by easy. cbn [app]. unfold found. split.
  - intros [I [F|(c & k' & -> & Nb & F)]].
    + split; [exact I|now left].
    + split; [exact I|]. right. exists (k :: c), k'. split; [reflexivity|]. split; [easy|]. split; [apply not_occupied; [easy|exact Nb]|exact F].
  - intros [I [F|(c & k' & E & Nc & Nb & F)]]; [split; [exact I|now left]|]. split; [exact I|].
    destruct c as [|k0 c]; [congruence|]; cbn [app] in E; injection E as -> E.
    subst q. right. exists c, k'. split; [reflexivity|]. split; [apply not_occupied; [easy|exact Nb]|exact F].
Qed.
End Found.
