(** Proofs that a saved container is loaded again. *)
From Coq Require Import List Arith Bool Lia Permutation.
From Verif Require Import FlattenModel DsModel SdsModel SdsSpec FlattenProofs DsProofs3 AggProofs2 SdsProofs SdsProofs2 SdsProofs3 SdsProofs4 SdsProofs5.
Import ListNotations.

Lemma forall2_names {X Y} (R : X -> Y -> Prop) : forall (a : list (name * X)) (b : list (name * Y)), map fst a = map fst b ->
  (forall k v w, In (k, v) a -> In (k, w) b -> R v w) -> Forall2 (fun p q => fst p = fst q /\ R (snd p) (snd q)) a b.
Proof.
  induction a as [|[k v] r IH]; intros [|[k' w] t] E H; try discriminate; constructor.
  - cbn in E |- *. injection E as <- _. split; [reflexivity|]. apply (H k); now left.
  - apply IH; [now injection E|]. intros k0 v0 w0 I J. apply (H k0); now right.
Qed.
Lemma dset_all_names {X} (vs : list (name * X)) : forall base, (forall k, In k (map fst vs) -> In k (map fst base)) -> map fst (dset_all vs base) = map fst base.
Proof.
  induction vs as [|[k v] r IH]; intros base H; [reflexivity|]. change (dset_all ((k, v) :: r) base) with (dset_all r (dset k v base)).
  assert (E : map fst (dset k v base) = map fst base). { rewrite dset_names. rewrite (proj2 (mem_in k (map fst base))); [reflexivity|]. apply H. now left. }
  rewrite IH; [exact E|]. intros k' I. rewrite E. apply H. now right.
Qed.
Definition fetch {X} (its : list (name * X)) (ks : list name) : list (name * X) :=
  flat_map (fun k => match dget k its with Some v => [(k, v)] | None => [] end) ks.
Lemma fetch_names {X} (its : list (name * X)) ks : (forall k, In k ks -> In k (map fst its)) -> map fst (fetch its ks) = ks.
Proof.
  unfold fetch. induction ks as [|k r IH]; intros H; [reflexivity|]. cbn [flat_map]. rewrite map_app, IH by (intros k' I; apply H; now right).
  destruct (dget_has k its (H k (or_introl eq_refl))) as [v ->]. reflexivity.
Qed.
Lemma fetch_in {X} (its : list (name * X)) ks k v : In (k, v) (fetch its ks) -> In (k, v) its.
Proof.
  unfold fetch. rewrite in_flat_map. intros [k' [_ I]]. destruct (dget k' its) as [w|] eqn:G; [|destruct I]. destruct I as [I|[]]. injection I as <- <-. exact (dget_some_in _ _ _ G).
Qed.
Lemma nodup_fst {X} (l : list (name * X)) : NoDup (map fst l) -> NoDup l.
Proof. apply NoDup_map_inv. Qed.
Lemma fetch_perm {X} (its : list (name * X)) ks : NoDup (map fst its) -> NoDup ks -> (forall k, In k ks <-> In k (map fst its)) -> Permutation its (fetch its ks).
Proof.
  intros N Nk H. assert (E : map fst (fetch its ks) = ks) by (apply fetch_names; intros k I; now apply H).
  apply NoDup_Permutation; [now apply nodup_fst|apply nodup_fst; now rewrite E|].
  intros [k v]. split; [|apply fetch_in]. intros I. unfold fetch. rewrite in_flat_map. exists k. split.
  - apply H. apply in_map_iff. exists (k, v). easy.
  - rewrite (dget_nodup _ _ _ N I). now left.
Qed.

Section Round.
Context {A M L : Type}.
Variable no_labels : L.
Notation item := (item A M L).
Notation file := (file A M L).
Notation dir := (dir A M L).
Variable ds_put : list (name * item) -> name -> item -> option (list (name * item)).
Notation direct := (direct no_labels ds_put).
Notation load_dir := (load_dir no_labels ds_put).
Notation same := (same no_labels).
Definition entry (p q : name * item) : Prop := fst p = fst q /\ same (snd p) (snd q).

(** the directory holds the files of [v] at [p], and no others there *)
Record stored (d : dir) (p : list name) (v : item) : Prop := {
  st_get : forall t f, In (p ++ t, f) (tree_paths p v) -> dget (join (p ++ t)) d = Some f;
  st_only : forall t, below d p t -> exists f, In (p ++ t, f) (tree_paths p v)
}.
Lemma below_in (d : dir) p t : p ++ t <> [] -> Forall clear_name (p ++ t) -> below d p t <-> In (join (p ++ t)) (map fst d).
Proof.
  intros N F. unfold below. split.
  - intros [f [I E]]. rewrite <- E, join_split. exact I.
  - intros I. exists (join (p ++ t)). split; [exact I|]. now apply split_join.
Qed.
Lemma below_clear (d : dir) p t : below d p t -> Forall clear_name (p ++ t).
Proof. intros [f [_ E]]. rewrite <- E. apply split_clear. Qed.
Lemma stored_kid d p ds lab its k v : good (Sub ds lab its) -> stored d p (Sub ds lab its) -> In (k, v) its -> is_box v = true -> stored d (p ++ [k]) v.
Proof.
  intros G S I B. inversion G as [| | |ds0 lab0 its0 N V Bx Sp]; subst. destruct S as [S1 S2]. split.
  - intros t f J. apply (kid_step p ds lab its k v t f N I B) in J. rewrite <- app_assoc. apply S1. exact J.
  - intros t J. unfold below in J. rewrite <- app_assoc in J. destruct (S2 (k :: t) J) as [f Jf]. exists f. now apply (kid_step p ds lab its k v t f N I B).
Qed.
Lemma stored_names d p ds lab its s : Forall clear_name p -> p <> [] -> good (Sub ds lab its) -> stored d p (Sub ds lab its) -> sch_ok (below d p) s ->
  forall k, In k (map fst (kids_of s)) <-> exists v, In (k, v) its /\ is_box v = true.
Proof.
  intros Cp Np G [S1 S2] H k. inversion H as [P kids N1 N2 N3 E1 E2]; subst. cbn [kids_of]. rewrite N2. split.
  - intros [q J]. destruct (S2 _ J) as [f Jf]. exact (kid_name p ds lab its k q f Jf).
  - intros [v [I B]]. inversion G as [| | |ds0 lab0 its0 N V Bx Sp]; subst.
    destruct (tree_some v (V k v I) B (p ++ [k])) as (q & f & J); [destruct p; easy|].
    destruct (good_box_names (p ++ [k]) v (V k v I) q f J) as [t [-> Ft]].
    pose proof J as J'. apply (kid_step p ds lab its k v t f N I B) in J'. exists t.
    apply below_in; [destruct p; easy| |].
    + apply Forall_app. split; [exact Cp|]. constructor; [exact (proj1 (proj2 (Bx k v I B)))|now apply plain_clear].
    + apply S1 in J'. apply dget_some_in in J'. apply in_map_iff. eexists. split; [|exact J']. reflexivity.
Qed.
Lemma good_ph its k v : NoDup (map fst its) -> In (k, v) (on (L:=L) (A:=A) (M:=M) ph its) -> exists w, In (k, w) its /\ v = ph w.
Proof. intros _ I. unfold on in I. apply in_map_iff in I. destruct I as [[k' w] [E I]]. cbn in E. injection E as <- <-. now exists w. Qed.
Lemma same_kids its (vs : list (name * item)) : NoDup (map fst its) -> NoDup (map fst vs) ->
  (forall k, In k (map fst vs) <-> exists v, In (k, v) its /\ is_box v = true) ->
  (forall k v w, In (k, v) its -> In (k, w) vs -> same v w) -> Forall2 entry its (dset_all vs (on ph its)).
Proof.
  intros N Nv Hn Hs.
  assert (Sub1 : forall k, In k (map fst vs) -> In k (map fst (on ph its))).
  { intros k I. rewrite on_names. apply Hn in I. destruct I as [v [I _]]. apply in_map_iff. exists (k, v). easy. }
  assert (En : map fst (dset_all vs (on ph its)) = map fst its) by (rewrite dset_all_names by exact Sub1; apply on_names).
  apply forall2_names; [now rewrite En|]. intros k v w I J.
  apply dget_nodup in J; [|rewrite En; exact N]. rewrite dget_dset_all in J by exact Nv.
  destruct (dget k vs) as [w'|] eqn:G.
  - injection J as ->. apply (Hs k v w I). exact (dget_some_in _ _ _ G).
  - apply dget_some_in in J. destruct (good_ph its k w N J) as [v' [I' ->]].
    assert (v' = v) as -> by (pose proof (dget_nodup _ _ _ N I); pose proof (dget_nodup _ _ _ N I'); congruence).
    destruct (is_box v) eqn:B.
    + exfalso. apply dget_none in G. apply G. apply Hn. now exists v.
    + assert (ph v = v) as -> by (destruct v; try reflexivity; discriminate). now constructor.
Qed.
Lemma on_ph_flat its : has_nested its = false -> on (A:=A) (M:=M) (L:=L) ph its = its.
Proof.
  unfold on, has_nested. intros H. rewrite <- (map_id its) at 2. apply map_ext_in. intros [k v] I. cbn [fst snd].
  destruct v; try reflexivity. assert (E : existsb (fun p : name * item => is_box (snd p)) its = true) by (apply existsb_exists; eexists; split; [exact I|reflexivity]). congruence.
Qed.
Lemma nested_in its : has_nested its = false <-> forall k v, In (k, v) its -> is_box (A:=A) (M:=M) (L:=L) v = false.
Proof.
  unfold has_nested. split.
  - intros H k v I. destruct (is_box v) eqn:B; [|reflexivity].
    assert (E : existsb (fun p : name * item => is_box (snd p)) its = true) by (apply existsb_exists; eexists; split; [exact I|exact B]). congruence.
  - intros H. destruct (existsb (fun p : name * item => is_box (snd p)) its) eqn:E; [|reflexivity]. apply existsb_exists in E. destruct E as [[k v] [I B]]. cbn in B.
    rewrite (H k v I) in B. discriminate.
Qed.
(** the kids of a container, loaded *)
Lemma kids_load' (d : dir) p (its : list (name * item)) s : Forall clear_name p -> NoDup (map fst its) -> (forall k v, In (k, v) its -> is_box v = true -> clear_name k) ->
  (forall k v, In (k, v) its -> is_box v = true -> stored d (p ++ [k]) v) ->
  (forall k, In k (map fst (kids_of s)) <-> exists v, In (k, v) its /\ is_box v = true) -> sch_ok (below d p) s ->
  (forall k v, In (k, v) its -> is_box v = true -> forall s, Forall clear_name (p ++ [k]) -> stored d (p ++ [k]) v -> sch_ok (below d (p ++ [k])) s ->
     exists it, direct d (pre_of p) k s = Some it /\ same v it) ->
  forall data, exists vs, each_d ds_put (direct d (pre_of p)) false (kids_of s) data = Some (dset_all vs data) /\ map fst vs = map fst (kids_of s) /\
    forall k v w, In (k, v) its -> In (k, w) vs -> same v w.
Proof.
  intros Cp N Bx St Hn H IH data.
  inversion H as [P kids N1 N2 N3 E1 E2]; subst. cbn [kids_of] in *.
  assert (Hk : forall k s, In (k, s) kids -> exists v, In (k, v) its /\ is_box v = true /\ exists it, direct d (pre_of p) k s = Some it /\ same v it).
  { intros k s I. assert (J : In k (map fst kids)) by (apply in_map_iff; exists (k, s); easy). apply Hn in J. destruct J as [v [J B]]. exists v. split; [exact J|split; [exact B|]].
    apply (IH k v J B s); [|exact (St k v J B)|apply below_step; exact (N3 k s I)].
    apply Forall_app. split; [exact Cp|]. constructor; [|constructor]. exact (Bx k v J B). }
  destruct (each_ok ds_put (direct d (pre_of p)) kids data) as [vs [E [Nm Sv]]].
  { intros k s I. destruct (Hk k s I) as (v & _ & _ & it & D & _). now exists it. }
  exists vs. split; [exact E|split; [exact Nm|]]. intros k v w I J. destruct (Sv k w J) as [s [Is Ds]].
  destruct (Hk k s Is) as (v' & I' & _ & it & D & Sm). rewrite Ds in D. injection D as ->.
  assert (v' = v) as <- by (pose proof (dget_nodup _ _ _ N I); pose proof (dget_nodup _ _ _ N I'); congruence). exact Sm.
Qed.
Lemma kids_load (d : dir) p ds lab its s : Forall clear_name p -> p <> [] -> good (Sub ds lab its) -> stored d p (Sub ds lab its) -> sch_ok (below d p) s ->
  (forall k v, In (k, v) its -> is_box v = true -> forall s, Forall clear_name (p ++ [k]) -> stored d (p ++ [k]) v -> sch_ok (below d (p ++ [k])) s ->
     exists it, direct d (pre_of p) k s = Some it /\ same v it) ->
  forall data, exists vs, each_d ds_put (direct d (pre_of p)) false (kids_of s) data = Some (dset_all vs data) /\ map fst vs = map fst (kids_of s) /\
    forall k v w, In (k, v) its -> In (k, w) vs -> same v w.
Proof.
  intros Cp Np G S H IH data. inversion G as [| | |ds0 lab0 its0 N V Bx Sp]; subst. apply kids_load'; try assumption.
  - intros k v I B. exact (proj1 (proj2 (Bx k v I B))).
  - intros k v I B. exact (stored_kid d p ds lab its k v G S I B).
  - exact (stored_names d p ds lab its s Cp Np G S H).
Qed.
Lemma kids_nodup (P : list name -> Prop) s : sch_ok P s -> NoDup (map fst (kids_of s)).
Proof. intros H. inversion H; subst. assumption. Qed.
Lemma same_direct (d : dir) v : good v -> is_box v = true -> forall p k s, Forall clear_name (p ++ [k]) -> stored d (p ++ [k]) v -> sch_ok (below d (p ++ [k])) s ->
  exists it, direct d (pre_of p) k s = Some it /\ same v it.
Proof.
  intros G. induction G as [a|a|m a cols|ds lab its N V IH Bx Sp]; intros B p k s Cp S H; try discriminate.
  assert (G : good (Sub ds lab its)) by now constructor.
  assert (Np : p ++ [k] <> []) by (destruct p; easy).
  pose proof (stored_names d (p ++ [k]) ds lab its s Cp Np G S H) as Hn.
  pose proof (kids_nodup _ s H) as Ns.
  destruct (kids_load d (p ++ [k]) ds lab its s Cp Np G S H (fun k0 v I Bv s0 => IH k0 v I Bv (p ++ [k]) k0 s0) (if owns its then on ph its else [])) as [vs [E [Nm Sm]]].
  rewrite direct_eq, under_pre. rewrite <- (under_pre p k), <- pre_snoc, under_pre in *.
  assert (Nv : NoDup (map fst vs)) by (rewrite Nm; exact Ns).
  destruct (owns its) eqn:O.
  - assert (Gf : dget (join (p ++ [k])) d = Some (file_of (type_of ds) lab its)).
    { rewrite <- (app_nil_r (p ++ [k])). apply (st_get _ _ _ S). rewrite app_nil_r. apply own_step; [exact Np|]. easy. }
    assert (Hf : has d (join (p ++ [k])) = true) by (apply has_get; eexists; exact Gf). rewrite Hf, Gf.
    destruct (good_items ds lab its G) as (_ & Nn & Ss).
    rewrite read_file_ok by (try assumption; destruct ds; discriminate).
    assert (Ed : is_ds (type_of ds) = ds) by (destruct ds; reflexivity). rewrite Ed. cbn [is_array].
    destruct ds.
    + assert (Hx : has_nested its = false). { apply nested_in. intros k0 v I. destruct (is_box v) eqn:Bv; [|reflexivity]. destruct (Bx k0 v I Bv). discriminate. }
      assert (Kn : kids_of s = []). { destruct (kids_of s) as [|[k0 s0] r]; [reflexivity|]. destruct (proj1 (Hn k0) (or_introl eq_refl)) as [v [I Bv]]. destruct (Bx k0 v I Bv). discriminate. }
      rewrite Kn. cbn [each_d option_map]. eexists. split; [reflexivity|]. rewrite (on_ph_flat its Hx). apply same_box; [now apply owns_ok|].
      apply forall2_names; [reflexivity|]. intros k0 v w I J. assert (v = w) as -> by (pose proof (dget_nodup _ _ _ N I); pose proof (dget_nodup _ _ _ N J); congruence).
      constructor. exact (proj1 (nested_in its) Hx k0 w J).
    + rewrite E. cbn [option_map]. eexists. split; [reflexivity|]. apply same_box; [now apply owns_ok|]. apply same_kids; try assumption.
      intros k0. rewrite Nm. exact (Hn k0).
  - assert (Gf : dget (join (p ++ [k])) d = None).
    { destruct (dget (join (p ++ [k])) d) as [f|] eqn:Gf; [|reflexivity]. exfalso. apply dget_some_in in Gf.
      assert (J : below d (p ++ [k]) []). { apply below_in; rewrite ?app_nil_r; [exact Np|exact Cp|]. apply in_map_iff. eexists. split; [|exact Gf]. reflexivity. }
      destruct (st_only _ _ _ S [] J) as [f' Jf]. rewrite app_nil_r in Jf. apply own_step in Jf; [|exact Np]. destruct Jf. congruence. }
    apply has_not in Gf. rewrite Gf. cbn [is_array]. rewrite E. cbn [option_map].
    assert (Ow : ~ own_file its) by (intros Ow; apply owns_ok in Ow; congruence).
    assert (ds = false) as ->.
    { destruct its as [|[k0 v0] r]; [destruct Ow; now left|]. destruct (is_box v0) eqn:B0.
      - exact (proj1 (Bx k0 v0 (or_introl eq_refl) B0)).
      - destruct Ow. right. exists k0, v0. split; [now left|exact B0]. }
    eexists. split; [reflexivity|].
    assert (Ev : dset_all vs [] = vs) by (apply (dset_all_id vs []); exact Nv). rewrite Ev.
    apply (same_bare no_labels lab its (fetch its (map fst vs))); [exact Ow| |].
    + apply fetch_perm; [exact N|exact Nv|]. intros k0. rewrite Nm, (Hn k0). split.
      * intros [v [I _]]. apply in_map_iff. exists (k0, v). easy.
      * intros I. apply in_map_iff in I. destruct I as [[k1 v] [E1 I]]. cbn in E1. subst k1. exists v. split; [exact I|].
        destruct (is_box v) eqn:Bv; [reflexivity|]. destruct Ow. right. exists k0, v. easy.
    + apply forall2_names.
      * rewrite fetch_names; [reflexivity|]. intros k0 I. rewrite Nm in I. apply Hn in I. destruct I as [v [I _]]. apply in_map_iff. exists (k0, v). easy.
      * intros k0 v w I J. apply fetch_in in I. exact (Sm k0 v w I J).
Qed.

(** ---------- a directory that holds a saved Struct ---------- *)
Record holds (d : dir) (lab : L) (its : list (name * item)) : Prop := {
  h_good : good (Sub false lab its);
  h_nodup : NoDup (map fst d);
  h_root : exists f, dget root_name d = Some f /\ f_type f = TStruct /\ f_labels f = lab /\ read_items f = Some (on ph its) /\ order_from_meta f (on ph its) = Some (map fst its);
  h_get : forall q f, In (q, f) (tree_paths [] (Sub false lab its)) -> dget (join q) d = Some f;
  h_only : forall n, In n (map fst d) -> n = root_name \/ exists q f, In (q, f) (tree_paths [] (Sub false lab its)) /\ n = join q
}.
Lemma holds_stored d lab its k v : holds d lab its -> In (k, v) its -> is_box v = true -> stored d [k] v.
Proof.
  intros [G N R H1 H2] I B. inversion G as [| | |ds0 lab0 its0 Nn V Bx Sp]; subst. split.
  - intros t f J. apply H1. apply (kid_step [] false lab its k v t f Nn I B). exact J.
  - intros t J. pose proof (below_clear d _ _ J) as Cl. apply below_in in J; [|easy|exact Cl]. destruct (H2 _ J) as [E|(q & f & I' & E)].
    + exfalso. assert (Z : split_bang (join ([k] ++ t)) = [k] ++ t) by (apply split_join; [easy|exact Cl]). rewrite E in Z. cbn in Z. injection Z as Z _.
      destruct (Bx k v I B) as [_ (_ & _ & Nr & _)]. apply Nr. symmetry. exact Z.
    + destruct (root_paths lab its q f G I') as [Nq Fq]. apply join_inj in E; [|easy|exact Nq|exact Cl|now apply plain_clear]. subst q.
      exists f. apply (kid_step [] false lab its k v t f Nn I B). exact I'.
Qed.
Lemma holds_clean d lab its : holds d lab its -> clean d.
Proof.
  intros H. pose proof H as [G N (f0 & R1 & R2 & _ & R3 & R4) H1 H2]. split; [exact N|]. intros n f I. pose proof (dget_nodup _ _ _ N I) as Gn.
  destruct (H2 n) as [->|(q & f' & I' & E)].
  { apply in_map_iff. exists (n, f). easy. }
  - rewrite Gn in R1. injection R1 as ->. unfold read_file. rewrite R3, R2. cbn [is_ds]. eexists. split; [reflexivity|]. split; [discriminate|]. left. now eexists _, _.
  - subst n. pose proof (H1 q f' I') as Gq. rewrite Gn in Gq. injection Gq as <-.
    destruct (tree_file _ G [] q f I') as (t & ds & lab' & its' & E & At & O & -> & G'). cbn [app] in E. subst q.
    destruct (good_items ds lab' its' G') as (Nn & Nt & Ss). exists (Sub ds lab' (on ph its')).
    split; [rewrite read_file_ok by (try assumption; destruct ds; discriminate); destruct ds; reflexivity|]. split; [discriminate|].
    destruct ds; [right|left; now eexists _, _]. intros u J. destruct (root_paths lab its t _ G I') as [Nq Fq].
    assert (Ej : join t ++ bang :: u = join (t ++ split_bang u)) by (rewrite join_app, join_split by (try exact Nq; apply split_ne); reflexivity).
    rewrite Ej in J. destruct (H2 _ J) as [E|(q2 & f2 & I2 & E)].
    + assert (Z : split_bang (join (t ++ split_bang u)) = t ++ split_bang u).
      { apply split_join; [destruct t; easy|]. apply Forall_app. split; [now apply plain_clear|apply split_clear]. }
      rewrite E in Z. cbn in Z. destruct t as [|k t]; [congruence|]. injection Z as Z Z2. symmetry in Z2. apply app_eq_nil in Z2. destruct (split_ne u (proj2 Z2)).
    + destruct (root_paths lab its q2 f2 G I2) as [Nq2 Fq2]. apply join_inj in E; [|destruct t; easy|exact Nq2| |now apply plain_clear].
      2: { apply Forall_app. split; [now apply plain_clear|apply split_clear]. }
      subst q2. destruct (tree_file _ G [] _ f2 I2) as (t2 & ds2 & lab2 & its2 & E2 & At2 & _). cbn [app] in E2. subst t2.
      (* the container at [t] would be a Dataset with a container below it *)
      clear -At At2 G G'. destruct (split_bang u) as [|k0 r] eqn:Eu; [destruct (split_ne u Eu)|]. clear Eu u.
      revert At At2. revert G. generalize (Sub false lab its). induction t as [|k t IH]; intros v G At At2.
      * cbn [item_at] in At. subst v. cbn [app item_at] in At2. destruct (dget k0 its') as [w|] eqn:Gk; [|destruct At2]. apply dget_some_in in Gk.
        inversion G as [| | |d0 l0 i0 Nn V Bx Sp]; subst.
        assert (Bw : is_box w = true). { destruct w; try reflexivity; destruct r; cbn [item_at] in At2; try discriminate; destruct At2. }
        destruct (Bx k0 w Gk Bw). discriminate.
      * cbn [app item_at] in At, At2. destruct v as [| | |d0 l0 i0|]; try (destruct At; fail). destruct (dget k i0) as [w|] eqn:Gk; [|destruct At]. apply dget_some_in in Gk.
        inversion G as [| | |d1 l1 i1 Nn V Bx Sp]; subst. exact (IH w (V k w Gk) At At2).
Qed.
Lemma filter_true {X} (f : X -> bool) l : (forall x, In x l -> f x = true) -> filter f l = l.
Proof. apply filter_all_true. Qed.
Lemma holds_load (all : bool) d lab its : holds d lab its -> exists its', load_dir all d = Some (Sub false no_labels its') /\ Forall2 entry its its'.
Proof.
  intros H. pose proof (holds_clean d lab its H) as C. pose proof H as [G N (f & R1 & R2 & _ & R3 & R4) H1 H2].
  inversion G as [| | |ds0 lab0 its0 Nn V Bx Sp]; subst.
  destruct (load_root no_labels ds_put all d f (on ph its) (map fst its) C R1 R2 R3 R4) as [its' [E [Nm Val]]].
  destruct (subtrees_ok d) as (N1 & N2 & N3).
  assert (Hsub : forall k, In k (map fst (subtrees d)) <-> exists v, In (k, v) its /\ is_box v = true).
  { intros k. rewrite N2. split.
    - intros [D [q J]]. pose proof (below_clear d _ _ J) as Cl. apply below_in in J; [|easy|exact Cl]. destruct (H2 _ J) as [Z|(q' & f' & I' & Z)].
      + exfalso. assert (Y : split_bang (join ([k] ++ q)) = [k] ++ q) by (apply split_join; [easy|exact Cl]). rewrite Z in Y. cbn in Y. injection Y as Y _. exact (D (eq_sym Y)).
      + destruct (root_paths lab its q' f' G I') as [Nq Fq]. apply join_inj in Z; [|easy|exact Nq|exact Cl|now apply plain_clear]. subst q'.
        exact (kid_name [] false lab its k q f' I').
    - intros [v [I B]]. destruct (Bx k v I B) as [_ (Cl & _ & Nr & _)]. split; [exact Nr|].
      destruct (tree_some v (V k v I) B [k]) as (q & f' & J); [easy|]. destruct (good_box_names [k] v (V k v I) q f' J) as [t [-> Ft]]. exists t.
      apply below_in; [easy|constructor; [exact Cl|now apply plain_clear]|]. apply (kid_step [] false lab its k v t f' Nn I B) in J. apply H1 in J. apply dget_some_in in J.
      apply in_map_iff. eexists. split; [|exact J]. reflexivity. }
  assert (Ek : kept all d (map fst its) = map fst its).
  { unfold kept. destruct all; [|reflexivity]. rewrite filter_all_false, app_nil_r; [reflexivity|]. intros k I. apply negb_false_iff, mem_in.
    apply Hsub in I. destruct I as [v [I _]]. apply in_map_iff. exists (k, v). easy. }
  rewrite Ek in Nm. rewrite filter_true in Nm.
  2: { intros k I. apply in_map_iff in I. destruct I as [[k' v] [E0 I]]. cbn in E0. subst k'.
    destruct (is_box v) eqn:B.
    - apply orb_true_iff. right. apply mem_in. apply Hsub. now exists v.
    - apply orb_true_iff. left. apply negb_true_iff. unfold pending.
      assert (Gk : dget k (on ph its) = Some v).
      { apply dget_nodup; [rewrite on_names; exact Nn|]. unfold on. apply in_map_iff. exists (k, v). split; [|exact I]. cbn [fst snd]. destruct v; try reflexivity; discriminate. }
      rewrite Gk. specialize (V k v I). destruct v; try reflexivity. inversion V. }
  exists its'. split; [exact E|]. apply forall2_names; [now rewrite Nm|]. intros k v w I J. destruct (Val k w J) as (_ & NN & [[P Gk]|[P (s & Is & D)]]).
  - apply dget_some_in in Gk. destruct (good_ph its k w Nn Gk) as [v' [I' Ew]].
    assert (v' = v) as -> by (pose proof (dget_nodup _ _ _ Nn I); pose proof (dget_nodup _ _ _ Nn I'); congruence).
    subst w. destruct v; try (constructor; reflexivity). exfalso. apply NN. reflexivity.
  - destruct (N3 k s Is) as [Ck Sk]. assert (J' : In k (map fst (subtrees d))) by (apply in_map_iff; exists (k, s); easy).
    apply Hsub in J'. destruct J' as [v' [I' B]]. assert (v' = v) as -> by (pose proof (dget_nodup _ _ _ Nn I); pose proof (dget_nodup _ _ _ Nn I'); congruence).
    destruct (same_direct d v (V k v I) B [] k s) as [it [D' Sm]]; [constructor; [exact Ck|constructor]|exact (holds_stored d lab its k v H I B)|exact Sk|].
    cbn [pre_of] in D'. rewrite D in D'. injection D' as ->. exact Sm.
Qed.
(** ---------- saving and listing ---------- *)
Lemma dget_perm {X} k (d d' : list (name * X)) : Permutation d d' -> NoDup (map fst d) -> dget k d' = dget k d.
Proof.
  intros P N. assert (N' : NoDup (map fst d')) by (eapply Permutation_NoDup; [apply Permutation_map; exact P|exact N]).
  destruct (dget k d) as [v|] eqn:G.
  - apply dget_nodup; [exact N'|]. eapply Permutation_in; [exact P|]. exact (dget_some_in _ _ _ G).
  - apply dget_none. apply dget_none in G. intros I. apply G. eapply Permutation_in; [apply Permutation_sym, Permutation_map; exact P|exact I].
Qed.
Lemma holds_perm d d' lab its : Permutation d d' -> holds d lab its -> holds d' lab its.
Proof.
  intros P [G N (f & R1 & R) H1 H2]. split.
  - exact G.
  - eapply Permutation_NoDup; [apply Permutation_map; exact P|exact N].
  - exists f. rewrite (dget_perm _ d d' P N). easy.
  - intros q f' I. rewrite (dget_perm _ d d' P N). now apply H1.
  - intros n I. apply H2. eapply Permutation_in; [apply Permutation_sym, Permutation_map; exact P|exact I].
Qed.
(** saving over a directory all of whose files are written again *)
Lemma save_holds lab its (d : dir) : good (Sub false lab its) -> NoDup (map fst d) -> (forall n, In n (map fst d) -> In n (map fst (struct_writes lab its))) ->
  exists d', writes (struct_writes lab its) d = (d', true) /\ holds d' lab its.
Proof.
  intros G N Cov. rewrite (struct_written lab its d G). eexists. split; [reflexivity|]. pose proof (struct_nodup lab its G) as Nw.
  assert (Gd : forall n f, In (n, f) (struct_writes lab its) -> dget n (dset_all (struct_writes lab its) d) = Some f).
  { intros n f I. rewrite dget_dset_all by exact Nw. rewrite (dget_nodup _ _ _ Nw I). reflexivity. }
  split.
  - exact G.
  - now apply dset_all_nodup.
  - exists (file_of TStruct lab its). split; [apply Gd; now left|]. split; [reflexivity|]. destruct (good_items false lab its G) as (Nn & Nt & Ss).
    split; [reflexivity|]. split; [now apply read_items_ok|apply order_ok].
  - intros q f I. apply Gd. rewrite struct_paths. right. apply in_map_iff. exists (q, f). easy.
  - intros n I. apply dset_all_in in I. assert (In n (map fst (struct_writes lab its))) as J by (destruct I as [I|I]; [exact I|now apply Cov]).
    rewrite struct_paths in J. cbn [map fst] in J. destruct J as [J|J]; [now left|right]. apply in_map_iff in J. destruct J as [[n' f'] [E J]]. cbn in E. subst n'.
    apply in_map_iff in J. destruct J as [[q f] [E J]]. unfold named in E. cbn in E. injection E as <- <-. exists q, f. easy.
Qed.
End Round.
