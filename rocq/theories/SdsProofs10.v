(** Flattening a directory of saved Structs. *)
From Coq Require Import List Arith Bool Lia Permutation.
From Verif Require Import FlattenModel DsModel SdsModel SdsSpec FlattenProofs DsProofs3 AggProofs2 SdsProofs SdsProofs2 SdsProofs3 SdsProofs4 SdsProofs5 SdsProofs6 SdsProofs7 SdsProofs8 SdsProofs9.
Import ListNotations.

Section Flat.
Context {A M L : Type}.
Variable no_labels : L.
Notation item := (item A M L).
Notation file := (file A M L).
Notation dir := (dir A M L).
Variable ds_put : list (name * item) -> name -> item -> option (list (name * item)).
Notation direct := (direct no_labels ds_put).
Notation load_dir := (load_dir no_labels ds_put).
Notation entry := (entry no_labels).

Lemma tree_shift (v : item) : forall p p' t f, p <> [] -> p' <> [] -> In (p ++ t, f) (tree_paths p v) -> In (p' ++ t, f) (tree_paths p' v).
Proof.
  induction v as [a|a|m a cols| |ds lab its IH] using item_rect'; intros p p' t f Np Np' I; try (destruct I; fail).
  apply in_tree in I. apply in_tree. destruct I as [I|(_ & O & E & ->)].
  - left. apply in_kids in I. destruct I as (k & v & I & B & J). apply in_kids. exists k, v. split; [exact I|split; [exact B|]].
    destruct (tree_prefix v (p ++ [k]) _ f J) as [t' E]. rewrite <- app_assoc in E. apply app_inv_head in E. subst t.
    replace (p' ++ [k] ++ t') with ((p' ++ [k]) ++ t') by now rewrite <- app_assoc. replace (p ++ [k] ++ t') with ((p ++ [k]) ++ t') in J by now rewrite <- app_assoc.
    apply (IH k v I (p ++ [k]) (p' ++ [k]) t' f); [destruct p; easy|destruct p'; easy|exact J].
  - right. rewrite <- (app_nil_r p) in E at 2. apply app_inv_head in E. subst t. rewrite app_nil_r. easy.
Qed.
Lemma bang_split (n m : name) : ~ In bang n -> split_bang (n ++ bang :: m) = n :: split_bang m.
Proof. intros N. induction n as [|c n IH]; cbn [app split_bang]; [now rewrite Nat.eqb_refl|]. assert (E : (c =? bang) = false) by (apply Nat.eqb_neq; intros ->; apply N; now left). rewrite E, IH; [reflexivity|]. intros I. apply N. now right. Qed.
Lemma plain_split (n : name) : ~ In bang n -> split_bang n = [n].
Proof. intros N. change n with (join [n]) at 1. apply split_join; [easy|]. constructor; [exact N|constructor]. Qed.

Definition block (nd : name * dir) : dir :=
  map (fun nf => (fst nd ++ bang :: fst nf, snd nf)) (ddrop root_name (snd nd)) ++ match dget root_name (snd nd) with Some f => [(fst nd, f)] | None => [] end.
Definition rooted (nd : name * dir) : Prop := plain_name (fst nd) /\ NoDup (map fst (snd nd)) /\ exists f, dget root_name (snd nd) = Some f.
Lemma in_drop (d : dir) m f : In (m, f) (ddrop root_name d) <-> m <> root_name /\ In (m, f) d.
Proof. unfold ddrop. rewrite filter_In. cbn [fst]. destruct (name_dec m root_name); intuition discriminate. Qed.
Lemma in_block (nd : name * dir) x g : NoDup (map fst (snd nd)) -> In (x, g) (block nd) <-> (x = fst nd /\ dget root_name (snd nd) = Some g) \/ exists m, m <> root_name /\ In (m, g) (snd nd) /\ x = fst nd ++ bang :: m.
Proof.
  intros N. unfold block. rewrite in_app_iff, in_map_iff. split.
  - intros [[[m f] [E I]]|I].
    + cbn in E. injection E as <- <-. apply in_drop in I. right. exists m. easy.
    + left. match type of I with context [match ?X with _ => _ end] => destruct X as [f|] eqn:E end; [|destruct I]. destruct I as [I|[]]. injection I as <- <-. split; reflexivity.
  - intros [[-> E]|(m & D & I & ->)].
    + right. rewrite E. now left.
    + left. exists (m, g). split; [reflexivity|]. now apply in_drop.
Qed.
Lemma block_head (nd : name * dir) x g : rooted nd -> In (x, g) (block nd) -> exists t, split_bang x = fst nd :: t.
Proof.
  intros (P & N & _) I. apply (in_block nd x g N) in I. destruct I as [[-> _]|(m & _ & _ & ->)].
  - exists []. apply plain_split. exact (proj1 P).
  - exists (split_bang m). apply bang_split. exact (proj1 P).
Qed.
Lemma block_nodup (nd : name * dir) : rooted nd -> NoDup (map fst (block nd)).
Proof.
  intros (P & N & f & R). unfold block. rewrite R, map_app, map_map. apply NoDup_app_d.
  - match goal with |- NoDup ?X => assert (E0 : X = map (fun m => fst nd ++ bang :: m) (map fst (ddrop root_name (snd nd)))) by (rewrite map_map; reflexivity) end.
    rewrite E0. apply (NoDup_map_inj (fun m => fst nd ++ bang :: m)).
    + intros a b E. cbn beta in E. apply app_inv_head in E. now injection E.
    + unfold ddrop. now apply filter_nodup.
  - constructor; [intros []|constructor].
  - intros k I [<-|[]]. apply in_map_iff in I. destruct I as [p [E _]]. cbn [fst] in E. apply (f_equal (@length nat)) in E. rewrite app_length in E. cbn in E. lia.
Qed.
Lemma blocks_nodup (dirs : list (name * dir)) : NoDup (map fst dirs) -> Forall rooted dirs -> NoDup (map fst (flat_map block dirs)).
Proof.
  induction dirs as [|nd r IH]; intros N F; [constructor|]. cbn [flat_map]. inversion N as [|x l N1 N2]; subst. inversion F as [|x l F1 F2]; subst. rewrite map_app.
  apply NoDup_app_d; [now apply block_nodup|now apply IH|]. intros k I J. apply in_map_iff in I. destruct I as [[x g] [E I]]. cbn in E. subst x.
  apply in_map_iff in J. destruct J as [[x g'] [E J]]. cbn in E. subst x. apply in_flat_map in J. destruct J as [nd' [I' J]].
  destruct (block_head nd k g F1 I) as [t E1]. destruct (block_head nd' k g' (proj1 (Forall_forall _ _) F2 nd' I') J) as [t' E2]. rewrite E1 in E2. injection E2 as E2 _.
  apply N1. rewrite E2. now apply in_map.
Qed.
Lemma flatten_step (files : dir) kept (nd : name * dir) : rooted nd -> (forall x, In x (map fst files) -> forall t, split_bang x <> fst nd :: t) ->
  flatten_one (files, kept) nd = (files ++ block nd, kept).
Proof.
  intros R H. pose proof R as (P & N & f & Rf). unfold flatten_one.
  set (moved := map (fun nf => (fst nd ++ bang :: fst nf, snd nf)) (ddrop root_name (snd nd))).
  assert (E : existsb (fun nf : name * file => mem (fst nf) (map fst files)) moved = false).
  { match goal with |- ?X = false => destruct X eqn:E end; [|reflexivity]. apply existsb_exists in E. destruct E as [[x g] [I J]]. cbn [fst] in J. apply mem_in in J. unfold moved in I. apply in_map_iff in I.
    destruct I as [[m g'] [E I]]. cbn in E. injection E as <- <-. exfalso. apply (H _ J (split_bang m)). apply bang_split. exact (proj1 P). }
  rewrite E, Rf. f_equal. unfold block. fold moved. rewrite Rf. rewrite app_assoc. apply dset_fresh. rewrite map_app, in_app_iff. intros [I|I].
  - apply (H _ I []). apply plain_split. exact (proj1 P).
  - unfold moved in I. rewrite map_map in I. apply in_map_iff in I. destruct I as [p [Ep _]]. cbn in Ep. apply (f_equal (@length nat)) in Ep. rewrite app_length in Ep. cbn in Ep. lia.
Qed.
Lemma flatten_all (dirs : list (name * dir)) : forall (files : dir), NoDup (map fst dirs) -> Forall rooted dirs -> (forall nd, In nd dirs -> forall x, In x (map fst files) -> forall t, split_bang x <> fst nd :: t) ->
  fold_left flatten_one dirs (files, []) = (files ++ flat_map block dirs, []).
Proof.
  induction dirs as [|nd r IH]; intros files N F H; [cbn; now rewrite app_nil_r|]. inversion N as [|x l N1 N2]; subst. inversion F as [|x l F1 F2]; subst.
  cbn [fold_left flat_map]. rewrite flatten_step by (try assumption; apply H; now left). rewrite IH; [now rewrite app_assoc|exact N2|exact F2|].
  intros nd' I x J t E. rewrite map_app, in_app_iff in J. destruct J as [J|J]; [exact (H nd' (or_intror I) x J t E)|].
  apply in_map_iff in J. destruct J as [[y g] [Ey J]]. cbn in Ey. subst y. destruct (block_head nd x g F1 J) as [t' E']. rewrite E in E'. injection E' as E' _. apply N1. rewrite <- E'. now apply in_map.
Qed.

(** ---------- loading the flattened directory ---------- *)
Variable dirs : list (name * dir).
Hypothesis N : NoDup (map fst dirs).
Hypothesis S : forall n d, In (n, d) dirs -> plain_name n /\ exists lab its, holds d lab its.
Variable F : dir.
Hypothesis P : Permutation (flat_map block dirs) F.

Lemma all_rooted : Forall rooted dirs.
Proof.
  apply Forall_forall. intros [n d] I. destruct (S n d I) as [Pn (lab & its & [G Nd (f & R & _) _ _])]. split; [exact Pn|]. split; [exact Nd|]. now exists f.
Qed.
Lemma F_nodup : NoDup (map fst F).
Proof. eapply Permutation_NoDup; [apply Permutation_map; exact P|]. apply blocks_nodup; [exact N|exact all_rooted]. Qed.
Lemma in_F x g : In (x, g) F <-> exists n d, In (n, d) dirs /\ ((x = n /\ dget root_name d = Some g) \/ exists m, m <> root_name /\ In (m, g) d /\ x = n ++ bang :: m).
Proof.
  assert (E : In (x, g) F <-> In (x, g) (flat_map block dirs)) by (split; [apply Permutation_in, Permutation_sym; exact P|apply Permutation_in; exact P]).
  rewrite E, in_flat_map. split.
  - intros [[n d] [I J]]. pose proof (proj1 (Forall_forall _ _) all_rooted _ I) as (_ & Nd & _). apply (in_block (n, d) x g Nd) in J. exists n, d. easy.
  - intros (n & d & I & J). exists (n, d). split; [exact I|]. pose proof (proj1 (Forall_forall _ _) all_rooted _ I) as (_ & Nd & _). apply (in_block (n, d) x g Nd). exact J.
Qed.
Lemma in_F_names x : In x (map fst F) <-> exists n d, In (n, d) dirs /\ (x = n \/ exists m, m <> root_name /\ In m (map fst d) /\ x = n ++ bang :: m).
Proof.
  rewrite in_map_iff. split.
  - intros [[y g] [E I]]. cbn in E. subst y. apply in_F in I. destruct I as (n & d & I & J). exists n, d. split; [exact I|]. destruct J as [[-> _]|(m & D & J & ->)]; [now left|right].
    exists m. split; [exact D|split; [|reflexivity]]. apply in_map_iff. exists (m, g). easy.
  - intros (n & d & I & J). destruct J as [->|(m & D & J & ->)].
    + pose proof (proj1 (Forall_forall _ _) all_rooted _ I) as (_ & _ & f & R). exists (n, f). split; [reflexivity|]. apply in_F. exists n, d. split; [exact I|left]. easy.
    + apply in_map_iff in J. destruct J as [[m' g] [E J]]. cbn in E. subst m'. exists (n ++ bang :: m, g). split; [reflexivity|]. apply in_F. exists n, d. split; [exact I|right]. now exists m.
Qed.
Lemma dirs_fun n d d' : In (n, d) dirs -> In (n, d') dirs -> d = d'.
Proof. intros I J. pose proof (dget_nodup _ _ _ N I). pose proof (dget_nodup _ _ _ N J). congruence. Qed.
Lemma below_F n d t : In (n, d) dirs -> below F [n] t <-> t = [] \/ exists m, m <> root_name /\ In m (map fst d) /\ split_bang m = t.
Proof.
  intros I. destruct (S n d I) as [Pn _]. unfold below. split.
  - intros [x [J E]]. apply in_F_names in J. destruct J as (n' & d' & I' & J). destruct (S n' d' I') as [Pn' _]. destruct J as [->|(m & D & J & ->)].
    + rewrite plain_split in E by exact (proj1 Pn'). injection E as _ E. now left.
    + rewrite bang_split in E by exact (proj1 Pn'). cbn in E. injection E as -> E. right. exists m. rewrite (dirs_fun n d d' I I'). easy.
  - intros [->|(m & D & J & E)].
    + exists n. split; [apply in_F_names; exists n, d; split; [exact I|now left]|]. apply plain_split. exact (proj1 Pn).
    + exists (n ++ bang :: m). split; [apply in_F_names; exists n, d; split; [exact I|right; now exists m]|]. rewrite bang_split by exact (proj1 Pn). now rewrite E.
Qed.
Lemma F_clean : clean F.
Proof.
  split; [exact F_nodup|]. intros x g I. apply in_F in I. destruct I as (n & d & I & J). destruct (S n d I) as [Pn (lab & its & H)]. destruct J as [[-> R]|(m & D & J & ->)].
  - destruct H as [G Nd (f & R1 & R2 & RL & R3 & R4) Hg Ho]. rewrite R in R1. injection R1 as ->. unfold read_file. rewrite R3, R2. eexists. split; [reflexivity|]. split; [discriminate|]. left. now eexists _, _.
  - destruct (holds_clean d lab its H) as [_ C]. destruct (C m g J) as (it & E & NN & Q). exists it. split; [exact E|]. split; [exact NN|]. destruct Q as [Q|Q]; [now left|right].
    intros t K. apply in_F_names in K. destruct K as (n' & d' & I' & K). destruct (S n' d' I') as [Pn' _]. destruct K as [E'|(m' & D' & K & E')].
    + apply (proj1 Pn'). rewrite <- E'. rewrite <- app_assoc. apply in_or_app. right. now left.
    + rewrite <- app_assoc in E'. cbn [app] in E'. assert (Z := f_equal split_bang E'). rewrite (bang_split n _ (proj1 Pn)), (bang_split n' _ (proj1 Pn')) in Z. apply (f_equal (hd [])) in Z. cbn [hd] in Z. subst n'.
      apply app_inv_head in E'. injection E' as E'. rewrite (dirs_fun n d d' I I') in Q. apply (Q t). now rewrite E'.
Qed.
Lemma F_stored n d lab its k v : In (n, d) dirs -> holds d lab its -> In (k, v) its -> is_box v = true -> stored F ([n] ++ [k]) v.
Proof.
  intros I H Ik B. destruct (S n d I) as [Pn _]. destruct (holds_stored d lab its k v H Ik B) as [S1 S2].
  pose proof H as [G _ _ _ _]. inversion G as [| | |d1 l1 i1 Nn V Bx Sp]; subst. pose proof (Bx k v Ik B) as [_ Pk]. split.
  - intros t f J. apply (tree_shift v _ [k]) in J; [|easy|easy]. pose proof (S1 t f J) as Gd. apply dget_nodup; [exact F_nodup|]. apply in_F. exists n, d. split; [exact I|right].
    exists (join ([k] ++ t)). split; [|split; [exact (dget_some_in _ _ _ Gd)|]].
    + destruct (good_box_names [k] v (V k v Ik) _ f J) as [t' [E Ft]]. apply app_inv_head in E. subst t'. apply root_not_join; [easy|]. constructor; [exact Pk|exact Ft].
    + cbn [app]. reflexivity.
  - intros t J. unfold below in J. rewrite <- app_assoc in J. assert (J' : below F [n] ([k] ++ t)) by exact J. apply (below_F n d _ I) in J'. destruct J' as [Z|(m & D & K & E)]; [discriminate|].
    destruct (S2 t) as [f Kf]; [exists m; split; [exact K|exact E]|]. exists f. apply (tree_shift v [k] ([n] ++ [k]) t f); [easy|easy|exact Kf].
Qed.
Lemma F_names n d lab its sc : In (n, d) dirs -> holds d lab its -> sch_ok (below F [n]) sc -> forall k, In k (map fst (kids_of sc)) <-> exists v, In (k, v) its /\ is_box v = true.
Proof.
  intros I H Hs k. inversion Hs as [Q kids N1 N2 N3 E1 E2]; subst. cbn [kids_of]. rewrite N2. pose proof H as [G _ _ Hg Ho]. split.
  - intros [q J]. apply (below_F n d _ I) in J. destruct J as [Z|(m & D & K & E)]; [discriminate|]. destruct (Ho m K) as [Z|(q' & f & Iq & ->)]; [congruence|].
    destruct (root_paths lab its q' f G Iq) as [Nq Fq]. rewrite split_join in E by (try exact Nq; now apply plain_clear). subst q'. exact (kid_name [] false lab its k q f Iq).
  - intros [v [Ik B]]. inversion G as [| | |d1 l1 i1 Nn V Bx Sp]; subst. pose proof (Bx k v Ik B) as [_ Pk].
    destruct (tree_some v (V k v Ik) B [k]) as (q & f & J); [easy|]. destruct (good_box_names [k] v (V k v Ik) q f J) as [t [-> Ft]]. exists t. apply (below_F n d _ I). right.
    assert (Fk : Forall plain_name ([k] ++ t)) by (constructor; assumption).
    exists (join ([k] ++ t)). split; [now apply root_not_join|split; [|apply split_join; [easy|now apply plain_clear]]].
    apply (kid_step [] false lab its k v t f Nn Ik B) in J. apply Hg in J. apply dget_some_in in J. apply in_map_iff. eexists. split; [|exact J]. reflexivity.
Qed.
Lemma F_direct n d lab its sc : In (n, d) dirs -> holds d lab its -> sch_ok (below F [n]) sc ->
  exists its', direct F None n sc = Some (Sub false lab its') /\ Forall2 entry its its'.
Proof.
  intros I H Hs. destruct (S n d I) as [Pn _]. pose proof H as [G Nd (f & R1 & R2 & RL & R3 & R4) Hg Ho]. pose proof (F_names n d lab its sc I H Hs) as Hn.
  inversion G as [| | |d1 l1 i1 Nn V Bx Sp]; subst d1 l1 i1.
  assert (Gf : dget n F = Some f) by (apply dget_nodup; [exact F_nodup|]; apply in_F; exists n, d; split; [exact I|left]; easy).
  destruct (kids_load' no_labels ds_put F [n] its sc) with (data := on (A:=A) (M:=M) (L:=L) ph its) as [vs [E [Nm Sm]]].
  - constructor; [exact (proj1 Pn)|constructor].
  - exact Nn.
  - intros k v Ik B. exact (proj1 (proj2 (Bx k v Ik B))).
  - intros k v Ik B. exact (F_stored n d lab its k v I H Ik B).
  - exact Hn.
  - exact Hs.
  - intros k v Ik B s0 Cl St Sc. exact (same_direct no_labels ds_put F v (V k v Ik) B [n] k s0 Cl St Sc).
  - rewrite direct_eq. cbn [under]. assert (Hf : has F n = true) by (apply has_get; now exists f). rewrite Hf, Gf. unfold read_file. rewrite R3, R2. cbn [is_ds is_array]. cbn [pre_of join] in E. rewrite E. cbn [option_map].
    rewrite RL. eexists. split; [reflexivity|]. apply same_kids; [exact Nn|rewrite Nm; exact (kids_nodup _ _ Hs)| |exact Sm]. intros k. rewrite Nm. exact (Hn k).
Qed.
Lemma noroot_items (all : bool) (d : dir) : clean d -> dget root_name d = None ->
  exists vs, load_dir all d = Some (Sub false no_labels vs) /\ map fst vs = map fst (build_schema (map fst d)) /\
    forall k v, In (k, v) vs -> exists s, sch_ok (below d [k]) s /\ direct d None k s = Some v /\ In (k, s) (build_schema (map fst d)).
Proof.
  intros C G. unfold SdsModel.load_dir. rewrite G. pose proof (build_ok (map fst d)) as B. inversion B as [Q kids0 N1 N2 N3 E1 E2]; subst Q kids0.
  remember (build_schema (map fst d)) as kids eqn:Ek. clear Ek B.
  rewrite files_some; cycle 1.
  { intros n I. apply in_flat_map in I. destruct I as [[k s] [_ I]]. exact (collect_has d _ _ _ _ I). }
  assert (Hk : forall k s, In (k, s) kids -> clear_name k /\ sch_ok (below d [k]) s).
  { intros k s I. split.
    - assert (J : In k (map fst kids)) by (apply in_map_iff; exists (k, s); easy). apply N2 in J. destruct J as [q [f [_ J]]]. pose proof (split_clear f) as Z. rewrite J in Z. now inversion Z.
    - eapply sch_ext; [|exact (N3 k s I)]. intros q. reflexivity. }
  destruct (fill_ok no_labels ds_put d (files_of d (files_wanted d [] kids)) C kids [] [] [] N1 Hk) as [vs [Fl [Nm Sv]]]; [cbn [app]; now rewrite app_nil_r|].
  cbn [length] in Fl. match goal with |- context [files_of d ?X] => change X with (files_wanted d [] kids) end. rewrite Fl. cbn [option_map].
  assert (Nw : wanted (@nil (name * item)) kids = kids) by (unfold wanted; apply filter_all_true; reflexivity). rewrite Nw in Nm.
  assert (Nv : NoDup (map fst vs)) by (rewrite Nm; exact N1).
  exists vs. split; [rewrite (dset_all_id vs []); [reflexivity|exact Nv]|]. split; [exact Nm|]. intros k v I. destruct (Sv k v I) as [s [Is D]]. exists s. split; [exact (proj2 (Hk k s Is))|split; [exact D|exact Is]].
Qed.
Lemma F_load (all : bool) : exists r, load_dir all F = Some (Sub false no_labels r) /\ Permutation (map fst r) (map fst dirs) /\
  forall n d lab its, In (n, d) dirs -> holds d lab its -> exists its', In (n, Sub false lab its') r /\ Forall2 entry its its'.
Proof.
  assert (Nr : dget root_name F = None).
  { apply dget_none. intros I. apply in_F_names in I. destruct I as (n & d & I & J). destruct (S n d I) as [Pn _]. destruct J as [E|(m & _ & _ & E)].
    - apply (proj1 (proj2 (proj2 Pn))). now symmetry.
    - assert (Z := f_equal split_bang E). rewrite bang_split in Z by exact (proj1 Pn). cbn in Z. injection Z as _ Z. exact (split_ne m (eq_sym Z)). }
  destruct (noroot_items all F F_clean Nr) as [vs [E [Nm D]]]. exists vs. split; [exact E|].
  pose proof (build_ok (map fst F)) as B. inversion B as [Q kids0 N1 N2 N3 E1 E2]; subst Q kids0.
  assert (Hn : forall k, In k (map fst vs) <-> In k (map fst dirs)).
  { intros k. rewrite Nm, N2. split.
    - intros (q & x & I & Ex). apply in_F_names in I. destruct I as (n & d & I & J). destruct (S n d I) as [Pn _].
      assert (k = n) as ->. { destruct J as [->|(m & _ & _ & ->)]; [rewrite plain_split in Ex by exact (proj1 Pn)|rewrite bang_split in Ex by exact (proj1 Pn)]; injection Ex as Ex _; now symmetry. }
      apply in_map_iff. exists (n, d). easy.
    - intros I. apply in_map_iff in I. destruct I as [[n d] [Ek I]]. cbn in Ek. subst k. exists [], n. destruct (S n d I) as [Pn _]. split; [|apply plain_split; exact (proj1 Pn)].
      apply in_F_names. exists n, d. split; [exact I|now left]. }
  assert (Nv : NoDup (map fst vs)) by (rewrite Nm; exact N1).
  split; [apply NoDup_Permutation; assumption|]. intros n d lab its I H. assert (J : In n (map fst vs)) by (apply Hn; apply in_map_iff; exists (n, d); easy).
  apply in_map_iff in J. destruct J as [[n' v] [En J]]. cbn in En. subst n'. destruct (D n v J) as [s [Hs [Dn _]]]. destruct (F_direct n d lab its s I H Hs) as [its' [Dn' Fe]].
  rewrite Dn in Dn'. injection Dn' as ->. now exists its'.
Qed.
End Flat.
