(** Saving over an existing directory, saving into it, and single files. *)
From Coq Require Import List Arith Bool Lia Permutation.
From Verif Require Import FlattenModel DsModel SdsModel SdsSpec FlattenProofs DsProofs3 AggProofs2 SdsProofs SdsProofs2 SdsProofs3 SdsProofs4 SdsProofs5 SdsProofs6 SdsProofs7 SdsProofs8.
Import ListNotations.

Section Over.
Context {A M L : Type}.
Variable no_labels : L.
Notation item := (item A M L).
Notation file := (file A M L).
Notation dir := (dir A M L).
Variable ds_put : list (name * item) -> name -> item -> option (list (name * item)).
Notation direct := (direct no_labels ds_put).
Notation load_dir := (load_dir no_labels ds_put).

Section One.
Variables (lab : L) (its : list (name * item)).
Hypothesis G : good (Sub false lab its).
Notation s := (Sub false lab its).
Notation w := (struct_writes lab its).
Variable d0 : dir.
Hypothesis N0 : NoDup (map fst d0).
Notation d := (dset_all w d0).
Hypothesis C : clean d.

Lemma over_get n : dget n d = match dget n w with Some f => Some f | None => dget n d0 end.
Proof. apply dget_dset_all. now apply struct_nodup. Qed.
Lemma over_root : dget root_name d = Some (file_of TStruct lab its).
Proof. rewrite over_get. assert (I : In (root_name, file_of TStruct lab its) w) by now left. now rewrite (dget_nodup _ _ _ (struct_nodup lab its G) I). Qed.
Lemma over_names n : In n (map fst d) <-> In n (map fst w) \/ In n (map fst d0).
Proof. rewrite dset_all_in. tauto. Qed.
Lemma box_subtree k v : In (k, v) its -> is_box v = true -> In k (names (subtrees d)).
Proof.
  intros I B. destruct v as [| | |ds lb i|]; try discriminate. pose proof (proj1 (at_root lab its G k _) I) as At.
  destruct (box_written lab its G [k] ds lb i ltac:(easy) At) as [t [Ft Jt]]. apply subtrees_ok. inversion G as [| | |d1 l1 i1 Nn V Bx Sp]; subst.
  destruct (Bx k _ I B) as [_ (_ & _ & Nr & _)]. split; [exact Nr|]. exists t. apply below_in; [easy|now apply plain_clear|]. apply over_names. now left.
Qed.
Lemma over_load : exists r, load_dir false d = Some (Sub false no_labels r) /\ map fst r = map fst its /\
  (forall p x, leaf_at s p x -> length p = 1 \/ ~ occupied d0 p -> leaf_at (Sub false no_labels r) p x) /\
  (forall p x, leaf_at (Sub false no_labels r) p x -> leaf_at s p x \/
     (exists k v, p = k :: tl p /\ In (k, v) its /\ is_box v = true) /\
     ((file_array d0 p x /\ ~ In (join p) (map fst w)) \/ exists c k, p = c ++ [k] /\ c <> [] /\ file_item d0 c k x /\ ~ In (join c) (map fst w))).
Proof.
  destruct (root_leaves no_labels ds_put lab its G false d C over_root) as [r [E [Nm H]]]. exists r. split; [exact E|]. split; [|split].
  - rewrite Nm. cbn [kept]. apply filter_all_true. intros k I. destruct (pending (on ph its) k) eqn:P; [|reflexivity]. cbn [negb orb]. apply mem_in.
    apply (root_pending lab its G) in P; [|exact I]. destruct P as (v & Iv & B). exact (box_subtree k v Iv B).
  - intros p x Lf Ho. destruct p as [|k q]; [destruct Lf as [<- []]|]. apply H. destruct (snoc_or q) as [->|(c & k' & ->)]; [now left|].
    right. left. change (k :: c ++ [k']) with ((k :: c) ++ [k']) in *. destruct (box_head lab its (k :: c) k' x k Lf eq_refl) as (v & Iv & B). split; [now exists v|].
    destruct Ho as [Z|No]; [rewrite app_length in Z; cbn in Z; lia|].
    pose proof Lf as Lf'. apply leaf_snoc in Lf. destruct Lf as (Lx & ds & lb & i & At & Gk). pose proof (plain_at _ G _ _ _ _ At) as Fc. split; [exact Lx|]. right.
    exists (k :: c), k'. split; [reflexivity|split; [easy|split]].
    + intros (q & Nq & Iq & Fq). apply over_names in Iq. destruct Iq as [Iq|Iq].
      * exact (leaf_not_below lab its G (k :: c) k' x ds lb i At Gk Lx ltac:(easy) q (conj Fq Iq)).
      * apply No. exists q. easy.
    + split; [now apply plain_clear|]. pose proof (at_written lab its G (k :: c) ds lb i ltac:(easy) At (own_of_leaf i k' x Gk Lx)) as Jc.
      exists (file_of (type_of ds) lb i), ds, lb, (on ph i). split; [rewrite over_get; now rewrite (dget_nodup _ _ _ (struct_nodup lab its G) Jc)|].
      destruct (good_items ds lb i (good_at _ G _ _ At)) as (Nn & Nt & Ss). split.
      * rewrite read_file_ok by (try assumption; destruct ds; discriminate). destruct ds; reflexivity.
      * rewrite on_get, Gk. cbn [option_map]. f_equal. apply ph_leaf. destruct x; try reflexivity. destruct Lx.
  - intros p x Lf. destruct p as [|k q]; [destruct Lf as [<- []]|]. apply H in Lf. destruct Lf as [[-> Lf]|[[(v & Iv & B) F]|(Z & _)]]; [now left| |discriminate].
    assert (Nr : k <> root_name). { inversion G as [| | |d1 l1 i1 Nn V Bx Sp]; subst. destruct (Bx k v Iv B) as [_ (_ & _ & Nr & _)]. exact Nr. }
    destruct F as [Lx [[Cl [f [Gf Rf]]]|(c & k' & Ec & Nc & No & Cl & f & ds & lb & i & Gf & Rf & Gk)]].
    + rewrite over_get in Gf. destruct (dget (join (k :: q)) w) as [g|] eqn:Gw.
      * exfalso. injection Gf as ->. exact (no_array lab its G f _ x (dget_some_in _ _ _ Gw) Rf Lx).
      * right. split; [now exists k, v|]. left. split; [split; [exact Cl|now exists f]|]. now apply dget_none.
    + rewrite over_get in Gf. destruct (dget (join c) w) as [g|] eqn:Gw.
      * left. injection Gf as ->. assert (Nrc : c <> [root_name]) by (intros ->; injection Ec as -> _; congruence).
        destruct (found_written lab its G d c k' x f ds lb i Nc Nrc Cl (dget_some_in _ _ _ Gw) Rf Gk) as (i0 & u & At & Gu & ->).
        destruct (is_box u) eqn:Bu.
        -- exfalso. destruct u as [| | |du lu iu|]; try discriminate. assert (Atu : item_at s (c ++ [k']) (Sub du lu iu)) by (apply at_snoc; now exists ds, lb, i0).
           destruct (box_written lab its G (c ++ [k']) du lu iu) as [t [Ft Jt]]; [destruct c; easy|exact Atu|]. rewrite Ec in No. apply No. exists t.
           split; [destruct c; easy|]. split; [apply over_names; now left|now apply plain_clear].
        -- rewrite Ec. apply leaf_snoc. split; [exact Lx|]. exists ds, lb, i0. split; [exact At|]. now rewrite ph_leaf.
      * right. split; [now exists k, v|]. right. exists c, k'. split; [exact Ec|split; [exact Nc|]]. split; [|now apply dget_none]. split; [exact Cl|]. now exists f, ds, lb, i.
Qed.
End One.

(** ---------- single files ---------- *)
Lemma read_flat (ds : bool) (lab : L) (its : list (name * item)) : good (Sub ds lab its) -> has_nested its = false ->
  read_file (file_of (type_of ds) lab its) = Some (Sub ds lab its).
Proof.
  intros G F. destruct (good_items ds lab its G) as (Nn & Nt & Ss). rewrite read_file_ok by (try assumption; destruct ds; discriminate). rewrite on_ph_flat by exact F. destruct ds; reflexivity.
Qed.
Lemma read_array nm (it : item) : is_array it = true -> ~ In bang nm -> read_file (file_of TArray no_labels [(nm, it)]) = Some it.
Proof.
  intros I Nb. destruct it as [a| |m a cols| |]; try discriminate; [reflexivity|].
  assert (G : good (Sub (A:=A) (M:=M) (L:=L) false no_labels [(nm, Spec m a cols)])).
  { constructor.
    - constructor; [intros []|constructor].
    - intros k v [E|[]]. injection E as <- <-. constructor.
    - intros k v [E|[]]. injection E as <- <-. discriminate.
    - intros k m0 a0 c0 [E|[]]. injection E as <- <- <- <-. exact Nb. }
  destruct (good_items false no_labels _ G) as (Nn & Nt & Ss). unfold read_file.
  assert (R : read_items (file_of TArray no_labels [(nm, Spec m a cols)]) = Some (on ph [(nm, Spec m a cols)])) by (apply read_items_ok; assumption).
  rewrite R. reflexivity.
Qed.

(** ---------- saving a Dataset into the directory ---------- *)
Record holds2 (d : dir) (lab : L) (its : list (name * item)) : Prop := {
  h2 : holds d lab its;
  h2_root : forall f, dget root_name d = Some f ->
    (forall k x, In (k, FExtra, x) (f_cells f) -> In bang k) /\ (forall k m, In (k, m) (f_metas f) -> In k (map fst its))
}.
Lemma dset_in_names {X} k (v : X) l : In k (map fst l) -> map fst (dset k v l) = map fst l.
Proof. intros I. rewrite dset_names. now rewrite (proj2 (mem_in k (map fst l)) I). Qed.
Lemma read_meta_fresh sp metas k : forall data data', fold_left (read_meta (A:=A) (M:=M) (L:=L) sp) metas (Some data) = Some data' -> ~ In k (map fst data) ->
  (forall k' m, In (k', m) metas -> k' <> k) -> fold_left (read_meta sp) metas (Some (data ++ [(k, Nothing)])) = Some (data' ++ [(k, Nothing)]) /\ map fst data' = map fst data.
Proof.
  assert (None_ : forall l, fold_left (read_meta (A:=A) (M:=M) (L:=L) sp) l None = None) by (induction l; [reflexivity|assumption]).
  induction metas as [|[k0 m] r IH]; intros data data' H Nk Nm; [cbn in H; injection H as <-; easy|]. cbn [fold_left] in *.
  assert (D0 : k0 <> k) by (apply (Nm k0 m); now left).
  assert (Gd : forall dd : list (name * item), dget k0 (dd ++ [(k, Nothing)]) = dget k0 dd).
  { induction dd as [|[k1 v1] t IHd]; cbn [app dget]; [destruct (name_dec k k0); [congruence|reflexivity]|]. destruct (name_dec k1 k0); [reflexivity|exact IHd]. }
  unfold read_meta at 2 in H. unfold read_meta at 2. cbn [fst snd] in *. rewrite Gd. destruct (dget k0 data) as [v|] eqn:G0.
  - destruct v as [a| | | |]; try (rewrite None_ in H; discriminate). destruct (all_some (match dget k0 sp with Some l => l | None => [] end)) as [cols|]; [|rewrite None_ in H; discriminate].
    assert (I0 : In k0 (map fst data)) by (apply in_map_iff; eexists; split; [|exact (dget_some_in _ _ _ G0)]; reflexivity).
    assert (Es : forall dd : list (name * item), In k0 (map fst dd) -> dset k0 (Spec m a cols) (dd ++ [(k, Nothing)]) = dset k0 (Spec m a cols) dd ++ [(k, Nothing)]).
    { induction dd as [|[k1 v1] t IHd]; intros I; [destruct I|]. cbn [app dset]. destruct (name_dec k1 k0) as [E|E]; [reflexivity|]. cbn [app]. f_equal. apply IHd. destruct I as [I|I]; [cbn in I; congruence|exact I]. }
    rewrite Es by exact I0. destruct (IH (dset k0 (Spec m a cols) data) data' H) as [E1 E2].
    + now rewrite dset_in_names.
    + intros k' m' I. apply (Nm k' m'). now right.
    + split; [exact E1|]. rewrite E2. now apply dset_in_names.
  - apply (IH data data' H Nk). intros k' m' I. apply (Nm k' m'). now right.
Qed.
Lemma dset_new {X} k (v : X) l : ~ In k (map fst l) -> dset k v l = l ++ [(k, v)].
Proof. apply dset_fresh. Qed.
Lemma put_root (f : file) data k : read_items f = Some data -> ~ In k (map fst data) -> (forall k' m, In (k', m) (f_metas f) -> k' <> k) ->
  read_items {| f_type := f_type f; f_labels := f_labels f; f_metas := f_metas f; f_cells := f_cells f ++ [(k, FNested, None)] |} = Some (data ++ [(k, Nothing)]).
Proof.
  unfold read_items. cbn [f_cells f_metas]. rewrite fold_left_app. destruct (fold_left read_cell (f_cells f) ([], [])) as [data0 sp]. cbn [fold_left read_cell]. intros H Nk Nm.
  assert (Ed : map fst data = map fst data0).
  { clear Nk Nm. assert (None_ : forall l, fold_left (read_meta (A:=A) (M:=M) (L:=L) sp) l None = None) by (induction l; [reflexivity|assumption]).
    revert data0 H. induction (f_metas f) as [|[k0 m] r IH]; intros data0 H; [cbn in H; now injection H as <-|]. cbn [fold_left] in H. unfold read_meta at 2 in H. cbn [fst snd] in H.
    destruct (dget k0 data0) as [v|] eqn:G0; [|exact (IH _ H)].
    destruct v as [a| | | |]; try (rewrite None_ in H; discriminate). destruct (all_some (match dget k0 sp with Some l => l | None => [] end)) as [cols|]; [|rewrite None_ in H; discriminate].
    rewrite (IH _ H). apply dset_in_names. apply in_map_iff; eexists; split; [|exact (dget_some_in _ _ _ G0)]; reflexivity. }
  rewrite Ed in Nk. rewrite dset_new by exact Nk. exact (proj1 (read_meta_fresh sp (f_metas f) k data0 data H Nk Nm)).
Qed.
Lemma flat_paths p ds (lab : L) (its : list (name * item)) : p <> [] -> has_nested its = false -> tree_paths p (Sub ds lab its) = [(p, file_of (type_of ds) lab its)].
Proof.
  intros Np F. rewrite tree_paths_eq. assert (K : kid_paths p its = []).
  { unfold kid_paths. assert (H := proj1 (nested_in its) F). clear F. induction its as [|[k v] r IH]; [reflexivity|]. cbn [flat_map fst snd]. rewrite (H k v) by now left. apply IH. intros k' v' I. apply (H k' v'). now right. }
  rewrite K. assert (O : owns its = true).
  { apply owns_ok. destruct its as [|[k v] r]; [now left|right]. exists k, v. split; [now left|]. apply (proj1 (nested_in ((k, v) :: r)) F k v). now left. }
  rewrite O. destruct p; [congruence|reflexivity].
Qed.
Lemma dset_app_new {X} k (v : X) l : In k (map fst l) -> exists a u b, l = a ++ (k, u) :: b /\ dset k v l = a ++ (k, v) :: b /\ ~ In k (map fst a).
Proof.
  induction l as [|[k0 v0] r IH]; intros I; [destruct I|]. cbn [dset]. destruct (name_dec k0 k) as [E|E].
  - subst k0. exists [], v0, r. easy.
  - destruct I as [I|I]; [cbn in I; congruence|]. destruct (IH I) as (a & u & b & E1 & E2 & N). exists ((k0, v0) :: a), u, b. rewrite E1 at 1. rewrite E2. split; [reflexivity|split; [reflexivity|]].
    cbn. intros [Z|Z]; [congruence|exact (N Z)].
Qed.
Lemma good_dset ds (lab : L) (its : list (name * item)) k v : good (Sub ds lab its) -> good v -> (is_box v = true -> ds = false /\ plain_name k) -> (forall m a c, v = Spec m a c -> ~ In bang k) -> good (Sub ds lab (dset k v its)).
Proof.
  intros G Gv Bv Sv. inversion G as [| | |d0 l0 i0 Nn V Bx Sp]; subst.
  assert (H : forall k' v', In (k', v') (dset k v its) -> (k' = k /\ v' = v) \/ In (k', v') its).
  { clear. induction its as [|[k0 v0] r IH]; intros k' v' I; cbn [dset] in I.
    - destruct I as [I|[]]. injection I as <- <-. now left.
    - destruct (name_dec k0 k) as [E|E].
      + destruct I as [I|I]; [injection I as <- <-; left; easy|right; now right].
      + destruct I as [I|I]; [right; now left|]. destruct (IH k' v' I) as [Z|Z]; [now left|right; now right]. }
  constructor.
  - now apply DsProofs3.dset_nodup.
  - intros k' v' I. destruct (H k' v' I) as [[-> ->]|J]; [exact Gv|exact (V k' v' J)].
  - intros k' v' I B. destruct (H k' v' I) as [[-> ->]|J]; [now apply Bv|exact (Bx k' v' J B)].
  - intros k' m a c I. destruct (H k' _ I) as [[-> E]|J]; [symmetry in E; now apply (Sv m a c)|exact (Sp k' m a c J)].
Qed.
Lemma paths_one (lab : L) (its : list (name * item)) k lb i q f : NoDup (map fst its) -> has_nested i = false -> (forall v, In (k, v) its -> flat_box v) ->
  In (q, f) (tree_paths [] (Sub false lab (dset k (Sub true lb i) its))) <-> (q = [k] /\ f = file_of TDataset lb i) \/ (q <> [k] /\ In (q, f) (tree_paths [] (Sub false lab its))).
Proof.
  intros Nn F R. rewrite !in_tree. split.
  - intros [I|[Z _]]; [|congruence]. apply in_kids in I. destruct I as (k' & v & I & B & J). cbn [app] in J.
    pose proof (dget_nodup _ _ _ (DsProofs3.dset_nodup k (Sub true lb i) its Nn) I) as Gk. rewrite dget_dset in Gk. destruct (name_dec k k') as [E|E].
    + injection Gk as <-. subst k'. rewrite flat_paths in J by (try easy; exact F). destruct J as [J|[]]. injection J as <- <-. now left.
    + right. apply dget_some_in in Gk. destruct (tree_prefix v [k'] q f J) as [t Eq]. split; [intros ->; injection Eq as Z; congruence|]. left. apply in_kids. exists k', v. easy.
  - intros [[-> ->]|[Nq [I|[Z _]]]]; [| |congruence].
    + left. apply in_kids. exists k, (Sub true lb i). split; [|split; [reflexivity|]].
      * apply dget_some_in. rewrite dget_dset. destruct (name_dec k k); [reflexivity|congruence].
      * cbn [app]. rewrite flat_paths by (try easy; exact F). now left.
    + left. apply in_kids in I. destruct I as (k' & v & I & B & J). apply in_kids. exists k', v. split; [|easy]. apply dget_some_in. rewrite dget_dset. destruct (name_dec k k') as [E|E].
      * exfalso. subst k'. destruct (R v I) as (ds & lb' & i' & -> & F'). cbn [app] in J. rewrite flat_paths in J by (try easy; exact F'). destruct J as [J|[]]. injection J as <- <-. congruence.
      * exact (dget_nodup _ _ _ Nn I).
Qed.
Lemma on_dset_in (its : list (name * item)) k lb i : (forall v, In (k, v) its -> is_box v = true) -> In k (map fst its) -> on ph (dset k (Sub true lb i) its) = on ph its.
Proof.
  intros R I. destruct (dset_app_new k (Sub true lb i) its I) as (a & u & b & E1 & E2 & _). rewrite E2. transitivity (on ph (a ++ (k, u) :: b)); [|now rewrite <- E1]. unfold on. rewrite !map_app. cbn [map fst snd ph]. do 3 f_equal.
  symmetry. apply ph_box. apply R. rewrite E1. apply in_or_app. right. now left.
Qed.
Lemma save_in_holds (d : dir) (lab : L) (its : list (name * item)) k lb i : holds2 d lab its -> plain_name k -> good (Sub true lb i) -> (forall v, In (k, v) its -> flat_box v) ->
  holds2 (save_in no_labels d k (Sub true lb i)) lab (dset k (Sub true lb i) its).
Proof.
  intros [H H2] Pk Gi R. pose proof H as [G N (f & R1 & R2 & RL & R3 & R4) Hg Ho]. inversion G as [| | |d1 l1 i1 Nn V Bx Sp]; subst d1 l1 i1.
  assert (Ek : stem k = k) by (apply stem_id; exact (proj1 (proj2 Pk))). unfold save_in. rewrite Ek.
  assert (F : has_nested i = false). { apply nested_in. intros k0 v I. destruct (is_box v) eqn:B; [|reflexivity]. inversion Gi as [| | |d0 l0 i0 Nn0 V0 Bx0 Sp0]; subst. destruct (Bx0 k0 v I B). discriminate. }
  assert (Nr : k <> root_name) by exact (proj1 (proj2 (proj2 Pk))).
  set (dd := dset k (file_of TDataset lb i) d).
  assert (Rd : dget root_name dd = Some f) by (unfold dd; rewrite dget_dset; destruct (name_dec k root_name); [congruence|exact R1]).
  assert (Nd : NoDup (map fst dd)) by (now apply DsProofs3.dset_nodup).
  assert (Gd : good (Sub false lab (dset k (Sub true lb i) its))) by (apply good_dset; [exact G|exact Gi|intros _; easy|intros; discriminate]).
  destruct (H2 f R1) as [He Hm].
  (* the other files *)
  assert (Files : forall d', dget k d' = Some (file_of TDataset lb i) -> (forall n, n <> k -> n <> root_name -> dget n d' = dget n d) ->
    (forall n, In n (map fst d') -> n = k \/ In n (map fst d)) ->
    (forall q g, In (q, g) (tree_paths [] (Sub false lab (dset k (Sub true lb i) its))) -> dget (join q) d' = Some g) /\
    (forall n, In n (map fst d') -> n = root_name \/ exists q g, In (q, g) (tree_paths [] (Sub false lab (dset k (Sub true lb i) its))) /\ n = join q)).
  { intros d' K1 K2 K3. split.
    - intros q g I. destruct (root_paths _ _ _ _ Gd I) as [Nq Fq]. apply paths_one in I; try assumption. destruct I as [[-> ->]|[Nk I]]; [exact K1|].
      rewrite K2; [now apply Hg| |].
      + intros E. apply Nk. apply (join_inj q [k]); [exact Nq|easy|now apply plain_clear|constructor; [exact (proj1 Pk)|constructor]|exact E].
      + now apply root_not_join.
    - intros n I. destruct (name_dec n k) as [E|E].
      + right. exists [k], (file_of TDataset lb i). subst n. split; [apply paths_one; [assumption..|now left]|reflexivity].
      + destruct (K3 n I) as [Z|J]; [congruence|]. destruct (Ho n J) as [Z|(q & g & Iq & ->)]; [now left|right]. exists q, g. split; [|reflexivity]. apply paths_one; try assumption. right. split; [intros ->; cbn in E; congruence|exact Iq]. }
  unfold rebuild_root. rewrite Rd.
  assert (Cells : In k (map (fun c => fst (fst c)) (f_cells f)) <-> In k (map fst its)).
  { unfold order_from_meta in R4. match type of R4 with (if ?b then _ else _) = _ => destruct b end; [|discriminate]. injection R4 as R4. rewrite <- R4. rewrite !in_map_iff. split.
    - intros [[[n g] x] [E I]]. cbn in E. subst n. exists (k, g, x). split; [reflexivity|]. apply filter_In. split; [exact I|]. cbn. destruct g; try reflexivity. exfalso. exact (proj1 Pk (He k x I)).
    - intros [c [E I]]. apply filter_In in I. exists c. easy. }
  destruct (mem k (map (fun c => fst (fst c)) (f_cells f))) eqn:Mk.
  - apply mem_in in Mk. apply Cells in Mk.
    assert (On : on ph (dset k (Sub true lb i) its) = on ph its).
    { apply on_dset_in; [|exact Mk]. intros v I. destruct (R v I) as (? & ? & ? & -> & _). reflexivity. }
    assert (Nm : map fst (dset k (Sub true lb i) its) = map fst its) by now apply dset_in_names.
    destruct (Files dd) as [Fg Fo].
    { unfold dd. rewrite dget_dset. destruct (name_dec k k); [reflexivity|congruence]. }
    { intros n D1 D2. unfold dd. rewrite dget_dset. destruct (name_dec k n); [congruence|reflexivity]. }
    { intros n I. unfold dd in I. rewrite dset_names in I. destruct (mem k (map fst d)); [now right|]. apply in_app_or in I. destruct I as [I|[I|[]]]; [now right|now left]. }
    split.
    + split; [exact Gd|exact Nd| |exact Fg|exact Fo]. exists f. rewrite On, Nm. easy.
    + intros f' Rf. rewrite Rd in Rf. injection Rf as <-. rewrite Nm. easy.
  - apply mem_not in Mk. rewrite Cells in Mk.
    assert (Ds : dset k (Sub true lb i) its = its ++ [(k, Sub true lb i)]) by now apply dset_new.
    assert (On : on ph (dset k (Sub true lb i) its) = on ph its ++ [(k, Nothing)]) by (rewrite Ds; unfold on; now rewrite map_app).
    set (f' := {| f_type := f_type f; f_labels := f_labels f; f_metas := f_metas f; f_cells := f_cells f ++ [(k, FNested, None)] |}).
    assert (Nk : ~ In k (map fst (on ph its))) by now rewrite on_names.
    assert (Rf' : dget root_name (dset root_name f' dd) = Some f') by (rewrite dget_dset; destruct (name_dec root_name root_name); [reflexivity|congruence]).
    destruct (Files (dset root_name f' dd)) as [Fg Fo].
    { rewrite dget_dset. destruct (name_dec root_name k); [congruence|]. unfold dd. rewrite dget_dset. destruct (name_dec k k); [reflexivity|congruence]. }
    { intros n D1 D2. rewrite dget_dset. destruct (name_dec root_name n); [congruence|]. unfold dd. rewrite dget_dset. destruct (name_dec k n); [congruence|reflexivity]. }
    { intros n I. rewrite dset_in_names in I by (apply in_map_iff; eexists; split; [|exact (dget_some_in _ _ _ Rd)]; reflexivity).
      unfold dd in I. rewrite dset_names in I. destruct (mem k (map fst d)); [now right|]. apply in_app_or in I. destruct I as [I|[I|[]]]; [now right|now left]. }
    split.
    + split; [exact Gd|now apply DsProofs3.dset_nodup| |exact Fg|exact Fo]. exists f'. split; [exact Rf'|]. split; [exact R2|]. split; [exact RL|]. rewrite On. split.
      * apply put_root; [exact R3|exact Nk|]. intros k' m I. intros ->. exact (Mk (Hm k m I)).
      * unfold order_from_meta in *. cbn [f_cells f'] . rewrite filter_app, map_app, !app_length. cbn [filter map length fst snd].
        destruct (length (map (fun c => fst (fst c)) (filter (fun c => match snd (fst c) with FExtra => false | _ => true end) (f_cells f))) =? length (on ph its)) eqn:Eq; [|discriminate].
        apply Nat.eqb_eq in Eq. rewrite Eq, Nat.eqb_refl. injection R4 as ->. rewrite Ds, map_app. reflexivity.
    + intros f0 Rf0. rewrite Rf' in Rf0. injection Rf0 as <-. cbn [f' f_cells f_metas]. split.
      * intros k0 x I. apply in_app_or in I. destruct I as [I|[I|[]]]; [exact (He k0 x I)|discriminate].
      * intros k0 m I. rewrite Ds, map_app, in_app_iff. left. exact (Hm k0 m I).
Qed.
Lemma w_holds2 (d : dir) (lab : L) (its : list (name * item)) : holds d lab its -> dget root_name d = Some (file_of TStruct lab its) -> holds2 d lab its.
Proof.
  intros H R. split; [exact H|]. intros f E. rewrite R in E. injection E as <-. cbn [file_of f_cells f_metas]. split.
  - intros k x I. apply in_app_or in I. destruct I as [I|I].
    + apply in_map_iff in I. destruct I as [[k0 v] [E I]]. destruct v; discriminate.
    + apply in_flat_map in I. destruct I as [[k0 v] [_ I]]. destruct v as [| |m a cols| |]; try (destruct I; fail). cbn [extra_cells snd fst] in I.
      apply in_map_iff in I. destruct I as [ic [E _]]. injection E as <- _. apply in_or_app. right. now left.
  - intros k m I. apply in_flat_map in I. destruct I as [[k0 v] [I J]]. destruct v as [| |m0 a cols| |]; try (destruct J; fail). destruct J as [J|[]]. cbn in J. injection J as <- <-.
    apply in_map_iff. eexists. split; [|exact I]. reflexivity.
Qed.
End Over.
