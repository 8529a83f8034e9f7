(** Directories from which files are missing, and directories saved over. *)
From Coq Require Import List Arith Bool Lia Permutation.
From Verif Require Import FlattenModel DsModel SdsModel SdsSpec FlattenProofs DsProofs3 AggProofs2 SdsProofs SdsProofs2 SdsProofs3 SdsProofs4 SdsProofs5 SdsProofs6 SdsProofs7.
Import ListNotations.

Section Lost.
Context {A M L : Type}.
Variable no_labels : L.
Notation item := (item A M L).
Notation file := (file A M L).
Notation dir := (dir A M L).
Variable ds_put : list (name * item) -> name -> item -> option (list (name * item)).
Notation direct := (direct no_labels ds_put).
Notation load_dir := (load_dir no_labels ds_put).

Lemma clean_incl (d d' : dir) : clean d -> NoDup (map fst d') -> incl d' d -> clean d'.
Proof.
  intros [N C] N' H. split; [exact N'|]. intros n f I. destruct (C n f (H _ I)) as (it & E & NN & S). exists it. split; [exact E|split; [exact NN|]].
  destruct S as [S|S]; [now left|right]. intros t J. apply (S t). apply in_map_iff in J. destruct J as [p [E0 J]]. apply in_map_iff. exists p. split; [exact E0|exact (H _ J)].
Qed.
Lemma leaf_snoc (v : item) : forall c k x, leaf_at v (c ++ [k]) x <-> is_leaf x /\ exists ds lab its, item_at v c (Sub ds lab its) /\ dget k its = Some x.
Proof.
  intros c. revert v. induction c as [|k0 c IH]; intros v k x; cbn [app leaf_at item_at].
  - destruct v as [| | |ds lab its|]; try (split; [intros []|intros (_ & d0 & l0 & i0 & E & _); discriminate]).
    destruct (dget k its) as [w|] eqn:G.
    + split; [intros [-> I]; split; [exact I|]; now exists ds, lab, its|]. intros (I & d0 & l0 & i0 & E & G0). injection E as <- <- <-. rewrite G in G0. injection G0 as ->. easy.
    + split; [intros []|]. intros (I & d0 & l0 & i0 & E & G0). injection E as <- <- <-. congruence.
  - destruct v as [| | |ds lab its|]; try (split; [intros []|intros (_ & d0 & l0 & i0 & [] & _)]).
    destruct (dget k0 its) as [w|]; [apply IH|]. split; [intros []|intros (_ & d0 & l0 & i0 & [] & _)].
Qed.
Lemma good_at (v : item) : good v -> forall c w, item_at v c w -> good w.
Proof.
  intros G c. revert v G. induction c as [|k c IH]; intros v G w I; cbn [item_at] in I; [now subst|].
  destruct v as [| | |ds lab its|]; try (destruct I; fail). destruct (dget k its) as [u|] eqn:E; [|destruct I]. apply dget_some_in in E.
  inversion G as [| | |d0 l0 i0 Nn V Bx Sp]; subst. exact (IH u (V k u E) w I).
Qed.
Lemma at_det (v : item) c : forall w w', item_at v c w -> item_at v c w' -> w = w'.
Proof.
  revert v. induction c as [|k c IH]; intros v w w' I J; cbn [item_at] in I, J; [congruence|].
  destruct v as [| | |ds lab its|]; try (destruct I; fail). destruct (dget k its) as [u|] eqn:E; [|destruct I]. exact (IH u w w' I J).
Qed.
Lemma at_snoc (v : item) c : forall k w, item_at v (c ++ [k]) w <-> exists ds lab its, item_at v c (Sub ds lab its) /\ dget k its = Some w.
Proof.
  revert v. induction c as [|k0 c IH]; intros v k w; cbn [app item_at].
  - destruct v as [| | |ds lab its|]; try (split; [intros []|intros (d0 & l0 & i0 & E & _); discriminate]).
    destruct (dget k its) as [u|] eqn:G.
    + split; [intros <-; now exists ds, lab, its|]. intros (d0 & l0 & i0 & E & G0). injection E as <- <- <-. congruence.
    + split; [intros []|]. intros (d0 & l0 & i0 & E & G0). injection E as <- <- <-. congruence.
  - destruct v as [| | |ds lab its|]; try (split; [intros []|intros (d0 & l0 & i0 & [] & _)]).
    destruct (dget k0 its) as [u|]; [apply IH|]. split; [intros []|intros (d0 & l0 & i0 & [] & _)].
Qed.
Lemma plain_at (v : item) : good v -> forall c ds lab its, item_at v c (Sub ds lab its) -> Forall plain_name c.
Proof.
  intros G c. revert v G. induction c as [|k c IH]; intros v G ds lab its I; [constructor|]. cbn [item_at] in I.
  destruct v as [| | |d0 l0 i0|]; try (destruct I; fail). destruct (dget k i0) as [u|] eqn:E; [|destruct I]. apply dget_some_in in E.
  inversion G as [| | |d1 l1 i1 Nn V Bx Sp]; subst. constructor; [|exact (IH u (V k u E) ds lab its I)].
  assert (B : is_box u = true). { destruct u; try reflexivity; destruct c; cbn [item_at] in I; try discriminate; destruct I. }
  exact (proj2 (Bx k u E B)).
Qed.
Lemma ph_leaf (v : item) : is_box v = false -> ph v = v. Proof. destruct v; try reflexivity; discriminate. Qed.
Lemma ph_box (v : item) : is_box v = true -> ph v = Nothing. Proof. destruct v; try reflexivity; discriminate. Qed.
Lemma on_get (its : list (name * item)) k : dget k (on ph its) = option_map ph (dget k its).
Proof.
  unfold on. induction its as [|[k' v] r IH]; [reflexivity|]. cbn [map fst snd dget]. destruct (name_dec k' k); [reflexivity|exact IH].
Qed.

(** a directory with a saved root file, and files that are those of the Struct or [old] ones *)
Variables (lab : L) (its : list (name * item)).
Hypothesis G : good (Sub false lab its).
Notation s := (Sub false lab its).
Notation w := (struct_writes lab its).

Lemma root_read : read_items (file_of TStruct lab its) = Some (on ph its) /\ order_from_meta (file_of TStruct lab its) (on ph its) = Some (map fst its).
Proof. destruct (good_items false lab its G) as (Nn & Nt & Ss). split; [now apply read_items_ok|apply order_ok]. Qed.
Lemma root_pending k : In k (map fst its) -> pending (on ph its) k = true <-> exists v, In (k, v) its /\ is_box v = true.
Proof.
  intros I. inversion G as [| | |d0 l0 i0 Nn V Bx Sp]; subst. destruct (dget_has k its I) as [v Gv]. unfold pending. rewrite on_get, Gv. cbn [option_map].
  pose proof (dget_some_in _ _ _ Gv) as Iv. split.
  - intros P. exists v. split; [exact Iv|]. pose proof (V k v Iv) as Gd. destruct v; try discriminate; [reflexivity|inversion Gd].
  - intros [v' [I' B]]. assert (v' = v) as -> by (pose proof (dget_nodup _ _ _ Nn I'); congruence). now rewrite ph_box.
Qed.
(** what a written file holds *)
Lemma written_at n f : In (n, f) w -> n = root_name /\ f = file_of TStruct lab its \/
  exists c ds lb i, c <> [] /\ Forall plain_name c /\ n = join c /\ item_at s c (Sub ds lb i) /\ own_file i /\ good (Sub ds lb i) /\ f = file_of (type_of ds) lb i /\
     read_file f = Some (Sub ds lb (on ph i)).
Proof.
  rewrite struct_paths. intros [E|I]; [injection E as <- <-; now left|]. right. apply in_map_iff in I. destruct I as [[c f'] [E I]]. unfold named in E. cbn in E. injection E as <- <-.
  destruct (root_paths lab its c f' G I) as [Nc Fc]. destruct (tree_file _ G [] c f' I) as (t & ds & lb & i & E & At & O & -> & Gi). cbn [app] in E. subst t.
  exists c, ds, lb, i. repeat (split; [assumption || reflexivity|]). split; [now apply owns_ok|]. split; [exact Gi|]. split; [reflexivity|].
  destruct (good_items ds lb i Gi) as (Nn & Nt & Ss). rewrite read_file_ok by (try assumption; destruct ds; discriminate). destruct ds; reflexivity.
Qed.
Lemma at_written c ds lb i : c <> [] -> item_at s c (Sub ds lb i) -> own_file i -> In (join c, file_of (type_of ds) lb i) w.
Proof.
  intros Nc At O. rewrite struct_paths. right. apply in_map_iff. exists (c, file_of (type_of ds) lb i). split; [reflexivity|].
  destruct c as [|k c]; [congruence|]. cbn [item_at] in At. destruct (dget k its) as [v|] eqn:E; [|destruct At]. apply dget_some_in in E.
  inversion G as [| | |d0 l0 i0 Nn V Bx Sp]; subst.
  assert (B : is_box v = true). { destruct v; try reflexivity; destruct c; cbn [item_at] in At; try discriminate; destruct At. }
  apply (kid_step [] false lab its k v c _ Nn E B). apply (tree_has v (V k v E) ([] ++ [k]) c ds lb i); [easy|exact At|now apply owns_ok].
Qed.
(** a container always has a file at its path or below it *)
Lemma box_written c ds lb i : c <> [] -> item_at s c (Sub ds lb i) -> exists t, Forall plain_name (c ++ t) /\ In (join (c ++ t)) (map fst w).
Proof.
  intros Nc At. pose proof (good_at _ G _ _ At) as Gi. pose proof (plain_at _ G _ _ _ _ At) as Fc.
  destruct (tree_some (Sub ds lb i) Gi eq_refl c Nc) as (q & f & I). destruct (good_box_names c _ Gi q f I) as [t [-> Ft]].
  exists t. split; [apply Forall_app; easy|]. destruct (tree_file _ Gi c _ f I) as (t' & ds' & lb' & i' & E & At' & O & -> & Gi'). apply app_inv_head in E. subst t'.
  assert (J : In (join (c ++ t), file_of (type_of ds') lb' i') w).
  { apply at_written; [destruct c; easy| |now apply owns_ok]. clear -At At'. revert At. generalize s. induction c as [|k c IH]; intros v At; cbn [app item_at] in *; [now subst|].
    destruct v as [| | |d0 l0 i0|]; try (destruct At; fail). destruct (dget k i0) as [u|]; [|destruct At]. exact (IH u At). }
  apply in_map_iff. eexists. split; [|exact J]. reflexivity.
Qed.
Lemma own_of_leaf (i : list (name * item)) k x : dget k i = Some x -> is_leaf x -> own_file i.
Proof. intros E I. right. exists k, x. split; [exact (dget_some_in _ _ _ E)|]. destruct x; try reflexivity. destruct I. Qed.
Lemma leaf_good_ne c k x : leaf_at s (c ++ [k]) x -> x <> Nothing.
Proof. intros H. apply leaf_snoc in H. destruct H as (_ & ds & lb & i & At & E). intros ->. pose proof (good_at _ G (c ++ [k]) Nothing) as Z. assert (good (@Nothing A M L)) as Y by (apply Z; apply at_snoc; now exists ds, lb, i). inversion Y. Qed.

(** the leaves of the root container *)
Lemma at_root k v : In (k, v) its <-> item_at s [k] v.
Proof.
  inversion G as [| | |d0 l0 i0 Nn V Bx Sp]; subst. cbn [item_at]. split.
  - intros I. now rewrite (dget_nodup _ _ _ Nn I).
  - destruct (dget k its) as [u|] eqn:E; [intros <-; exact (dget_some_in _ _ _ E)|intros []].
Qed.
Lemma root_leaves (all : bool) (d : dir) : clean d -> dget root_name d = Some (file_of TStruct lab its) ->
  exists r, load_dir all d = Some (Sub false no_labels r) /\
    map fst r = filter (fun k => negb (pending (on ph its) k) || mem k (names (subtrees d))) (kept all d (map fst its)) /\
    forall k q x, leaf_at (Sub false no_labels r) (k :: q) x <->
      ((q = [] /\ leaf_at s [k] x) \/ ((exists v, In (k, v) its /\ is_box v = true) /\ found d (k :: q) x) \/ (all = true /\ ~ In k (map fst its) /\ k <> root_name /\ found d (k :: q) x)).
Proof.
  intros C Rt. destruct root_read as [R O]. inversion G as [| | |d0 l0 i0 Nn V Bx Sp]; subst.
  assert (Nk : NoDup (kept all d (map fst its))).
  { unfold kept. destruct all; [|exact Nn]. apply NoDup_app_d; [exact Nn|apply NoDup_filter; apply (proj1 (subtrees_ok d))|]. intros k I J. apply filter_In in J. destruct J as [_ J].
    apply negb_true_iff, mem_not in J. exact (J I). }
  destruct (load_leaf no_labels ds_put all d _ _ _ C Rt eq_refl R O Nk) as [r [E [Nm H]]]. exists r. split; [exact E|split; [exact Nm|]]. intros k q x. rewrite H, found_src.
  assert (Ik : In k (kept all d (map fst its)) <-> In k (map fst its) \/ (all = true /\ ~ In k (map fst its) /\ In k (names (subtrees d)))).
  { unfold kept. destruct all; [|intuition; discriminate]. rewrite in_app_iff, filter_In, negb_true_iff. rewrite mem_not. intuition. }
  assert (Np : ~ In k (map fst its) -> pending (on ph its) k = true).
  { intros N. unfold pending. rewrite on_get. apply dget_none in N. now rewrite N. }
  split.
  - intros [I [(P & -> & Lx & Gk)|(P & Nr & F)]].
    + left. split; [reflexivity|]. cbn [leaf_at]. rewrite on_get in Gk. destruct (dget k its) as [v|] eqn:Gv; [|discriminate]. cbn [option_map] in Gk. injection Gk as <-.
      split; [|exact Lx]. symmetry. apply ph_leaf. destruct (is_box v) eqn:B; [|reflexivity]. exfalso. rewrite (proj2 (root_pending k ltac:(apply in_map_iff; exists (k, v); split; [reflexivity|exact (dget_some_in _ _ _ Gv)]))) in P; [discriminate|].
      exists v. split; [exact (dget_some_in _ _ _ Gv)|exact B].
    + right. apply Ik in I. destruct I as [I|(-> & N & _)].
      * left. split; [|exact F]. now apply root_pending.
      * right. easy.
  - intros [[-> Lf]|[[(v & I & B) F]|(-> & N & Nr & F)]].
    + cbn [leaf_at] in Lf. destruct (dget k its) as [v|] eqn:Gv; [|destruct Lf]. destruct Lf as [-> Lx]. pose proof (dget_some_in _ _ _ Gv) as Iv.
      assert (J : In k (map fst its)) by (apply in_map_iff; exists (k, x); easy). split; [apply Ik; now left|]. left.
      assert (B : is_box x = false) by (destruct x; try reflexivity; destruct Lx).
      split; [|split; [reflexivity|split; [exact Lx|rewrite on_get, Gv; cbn [option_map]; now rewrite ph_leaf]]].
      destruct (pending (on ph its) k) eqn:P; [|reflexivity]. apply root_pending in P; [|exact J]. destruct P as [v' [I' B']].
      assert (v' = x) as -> by (pose proof (dget_nodup _ _ _ Nn I'); congruence). congruence.
    + assert (J : In k (map fst its)) by (apply in_map_iff; exists (k, v); easy). split; [apply Ik; now left|]. right. split; [apply root_pending; [exact J|now exists v]|].
      split; [|exact F]. exact (proj1 (proj2 (proj2 (proj2 (Bx k v I B))))).
    + split.
      * apply Ik. right. split; [reflexivity|split; [exact N|]]. apply subtrees_ok. split; [exact Nr|].
        apply (occupied_below d [k]); [easy|]. destruct F as [_ [[Cl [f0 [G0 _]]]|(c & k' & Ec & Nc & _ & Cl & f0 & ds & lb & i & G0 & _)]].
        -- apply (occupied_below d [k]); [easy|]. exists q. now apply (file_below d [k] q f0).
        -- destruct c as [|k1 c]; [congruence|]. injection Ec as -> Ec. apply (occupied_below d [k1]); [easy|]. exists c. now apply (file_below d [k1] c f0).
      * right. split; [now apply Np|split; [exact Nr|exact F]].
Qed.
(** ---------- files are missing ---------- *)
Lemma w_holds : holds w lab its.
Proof.
  pose proof (struct_nodup lab its G) as N. split.
  - exact G.
  - exact N.
  - exists (file_of TStruct lab its). split; [apply dget_nodup; [exact N|now left]|]. split; [reflexivity|]. split; [reflexivity|]. exact root_read.
  - intros q f I. apply dget_nodup; [exact N|]. rewrite struct_paths. right. apply in_map_iff. now exists (q, f).
  - intros n I. rewrite struct_paths in I. destruct I as [I|I]; [now left|right]. rewrite map_map in I. apply in_map_iff in I. destruct I as [[q f] [E I]]. now exists q, f.
Qed.
Lemma lost_clean (d : dir) : NoDup (map fst d) -> incl d w -> clean d.
Proof. intros N I. exact (clean_incl w d (holds_clean w lab its w_holds) N I). Qed.
Lemma found_written (d : dir) c k x f ds lb i : c <> [] -> c <> [root_name] -> Forall clear_name c -> In (join c, f) w -> read_file f = Some (Sub ds lb i) -> dget k i = Some x ->
  exists i0 v, item_at s c (Sub ds lb i0) /\ dget k i0 = Some v /\ x = ph v.
Proof.
  intros Nc Nr Cl I Rf Gk. destruct (written_at _ _ I) as [[Er _]|(c0 & ds0 & lb0 & i0 & Nc0 & Fc0 & E & At & O & Gi & _ & R)].
  - exfalso. assert (Z : split_bang (join c) = c) by (apply split_join; [exact Nc|exact Cl]). rewrite Er in Z. apply Nr. symmetry. exact Z.
  - apply join_inj in E; [|exact Nc|exact Nc0|exact Cl|now apply plain_clear]. subst c0. rewrite R in Rf. injection Rf as <- <- <-. rewrite on_get in Gk.
    destruct (dget k i0) as [v|] eqn:Gv; [|discriminate]. cbn [option_map] in Gk. injection Gk as <-. exists i0, v. easy.
Qed.
Lemma no_array (f : file) n x : In (n, f) w -> read_file f = Some x -> ~ is_leaf x.
Proof.
  intros I Rf Lx. destruct (written_at _ _ I) as [[_ ->]|(c0 & ds & lb & i & _ & _ & _ & _ & _ & _ & _ & R)].
  - unfold read_file in Rf. destruct root_read as [R _]. rewrite R in Rf. cbn in Rf. injection Rf as <-. destruct Lx.
  - rewrite R in Rf. injection Rf as <-. destruct Lx.
Qed.
Lemma leaf_not_below c k x ds lb i : item_at s c (Sub ds lb i) -> dget k i = Some x -> is_leaf x -> c <> [] -> forall t, ~ (Forall clear_name ((c ++ [k]) ++ t) /\ In (join ((c ++ [k]) ++ t)) (map fst w)).
Proof.
  intros At Gk Lx Nc t [Cl I]. apply in_map_iff in I. destruct I as [[n f] [E I]]. cbn in E. subst n.
  destruct (written_at _ _ I) as [[Er _]|(c0 & ds0 & lb0 & i0 & Nc0 & Fc0 & E & At0 & _)].
  - assert (Z : split_bang (join ((c ++ [k]) ++ t)) = (c ++ [k]) ++ t) by (apply split_join; [destruct c; easy|exact Cl]). rewrite Er in Z.
    destruct c as [|k0 c]; [congruence|]. cbn in Z. injection Z as _ Z. destruct c; discriminate.
  - apply join_inj in E; [|destruct c; easy|exact Nc0|exact Cl|now apply plain_clear]. subst c0.
    clear -At Gk Lx At0. revert At At0. generalize s. induction c as [|k0 c IH]; intros v At At0.
    + cbn [item_at] in At. subst v. cbn [app item_at] in At0. rewrite Gk in At0. destruct x; try (destruct t; cbn [item_at] in At0; try discriminate; destruct At0; fail). destruct Lx.
    + cbn [app item_at] in At, At0. destruct v as [| | |d1 l1 i1|]; try (destruct At; fail). destruct (dget k0 i1) as [u|]; [|destruct At]. exact (IH u At At0).
Qed.
Lemma lost_found (d : dir) c k x : NoDup (map fst d) -> incl d w -> c <> [] -> c <> [root_name] -> x <> Nothing ->
  found d (c ++ [k]) x <-> leaf_at s (c ++ [k]) x /\ In (join c) (map fst d).
Proof.
  intros N I Nc Nr NN. split.
  - intros [Lx [[Cl [f [Gf Rf]]]|(c' & k' & E & _ & No & Cl & f & ds & lb & i & Gf & Rf & Gk)]].
    + exfalso. apply dget_some_in, I in Gf. exact (no_array _ _ _ Gf Rf Lx).
    + apply app_inj_tail in E. destruct E as [<- <-]. pose proof Gf as Gf'. apply dget_some_in, I in Gf. split.
      2: { apply dget_some_in in Gf'. apply in_map_iff. eexists. split; [|exact Gf']. reflexivity. }
      destruct (found_written d c k x f ds lb i Nc Nr Cl Gf Rf Gk) as (i0 & v & At & Gv & ->). apply leaf_snoc. split; [exact Lx|]. exists ds, lb, i0. split; [exact At|].
      rewrite Gv. f_equal. symmetry. apply ph_leaf. destruct v; try reflexivity. cbn [ph] in NN. congruence.
  - intros [Lf J]. apply leaf_snoc in Lf. destruct Lf as (Lx & ds & lb & i & At & Gk). pose proof (plain_at _ G _ _ _ _ At) as Fc. split; [exact Lx|]. right.
    exists c, k. split; [reflexivity|split; [exact Nc|split]].
    + apply not_occupied; [destruct c; easy|]. intros t Bt. pose proof (below_clear d _ _ Bt) as Cl. apply below_in in Bt; [|destruct c; easy|exact Cl].
      apply (leaf_not_below c k x ds lb i At Gk Lx Nc t). split; [exact Cl|]. apply in_map_iff in Bt. destruct Bt as [p [Ep Ip]]. apply in_map_iff. exists p. split; [exact Ep|exact (I _ Ip)].
    + split; [now apply plain_clear|]. apply in_map_iff in J. destruct J as [[n f] [E J]]. cbn in E. subst n. pose proof (I _ J) as Jw.
      pose proof (at_written c ds lb i Nc At (own_of_leaf i k x Gk Lx)) as Jc. pose proof (struct_nodup lab its G) as Nw.
      pose proof (dget_nodup _ _ _ Nw Jw) as E1. pose proof (dget_nodup _ _ _ Nw Jc) as E2. rewrite E1 in E2. injection E2 as ->.
      exists (file_of (type_of ds) lb i), ds, lb, (on ph i). split; [exact (dget_nodup _ _ _ N J)|]. destruct (written_at _ _ Jc) as [[Er _]|(c0 & ds0 & lb0 & i0 & Nc0 & Fc0 & E & At0 & _ & _ & _ & R)].
      * exfalso. exact (root_not_join c Nc Fc Er).
      * apply join_inj in E; [|exact Nc|exact Nc0|now apply plain_clear|now apply plain_clear]. subst c0. pose proof (at_det _ _ _ _ At At0) as E. injection E as <- <- <-.
        split; [exact R|]. rewrite on_get, Gk. cbn [option_map]. f_equal. apply ph_leaf. destruct x; try reflexivity. destruct Lx.
Qed.
Lemma snoc_or (q : list name) : q = [] \/ exists c k, q = c ++ [k].
Proof. destruct q as [|a q] using rev_ind; [now left|right]. now exists q, a. Qed.
Lemma found_one (d : dir) k x : incl d w -> ~ found d [k] x.
Proof.
  intros I [Lx [[Cl [f [Gf Rf]]]|(c & k' & E & Nc & _)]].
  - apply dget_some_in, I in Gf. exact (no_array _ _ _ Gf Rf Lx).
  - destruct c as [|? [|]]; try discriminate. congruence.
Qed.
Lemma box_head c k x q : leaf_at s (c ++ [k]) x -> c = q :: tl c -> exists v, In (q, v) its /\ is_box v = true.
Proof.
  intros Lf E. rewrite E in Lf. cbn [app leaf_at] in Lf. destruct (dget q its) as [v|] eqn:Gv; [|destruct Lf]. exists v. split; [exact (dget_some_in _ _ _ Gv)|].
  destruct v; try reflexivity; destruct (tl c); cbn [app leaf_at] in Lf; destruct Lf.
Qed.
Lemma lost_load (all : bool) (d : dir) : NoDup (map fst d) -> incl d w -> In (root_name, file_of TStruct lab its) d ->
  exists r, load_dir all d = Some (Sub false no_labels r) /\
    forall p x, x <> Nothing -> leaf_at (Sub false no_labels r) p x <-> leaf_at s p x /\ (length p = 1 \/ In (join (removelast p)) (map fst d)).
Proof.
  intros N I J. destruct (root_leaves all d (lost_clean d N I) (dget_nodup _ _ _ N J)) as [r [E [_ H]]]. exists r. split; [exact E|]. intros p x NN.
  destruct p as [|k q]; [cbn [leaf_at]; split; [intros [<- []]|intros [[<- []] _]]|]. rewrite H. clear H.
  destruct (snoc_or q) as [->|(c & k' & ->)].
  - split.
    + intros [[_ Lf]|[[_ F]|(_ & _ & _ & F)]]; [split; [exact Lf|now left]| |]; destruct (found_one d k x I F).
    + intros [Lf _]. left. easy.
  - change (k :: c ++ [k']) with ((k :: c) ++ [k']). rewrite removelast_last.
    assert (Len : length ((k :: c) ++ [k']) = 1 <-> False) by (rewrite app_length; cbn; split; [lia|easy]). rewrite Len. split.
    + intros [[E0 _]|[[(v & Iv & B) F]|(_ & Ni & Nr & F)]].
      * destruct c; discriminate.
      * apply lost_found in F; try assumption; [|easy|].
        -- split; [exact (proj1 F)|]. right. exact (proj2 F).
        -- intros Z. injection Z as -> ->. inversion G as [| | |d0 l0 i0 Nn V Bx Sp]; subst. destruct (Bx _ v Iv B) as [_ (_ & _ & Nr & _)]. congruence.
      * apply lost_found in F; try assumption; [|easy|congruence]. destruct F as [Lf _]. exfalso. destruct (box_head (k :: c) k' x k Lf eq_refl) as (v & Iv & _).
        apply Ni. apply in_map_iff. exists (k, v). easy.
    + intros [Lf [[]|Jc]]. right. left. destruct (box_head (k :: c) k' x k Lf eq_refl) as (v & Iv & B). split; [now exists v|].
      apply lost_found; try assumption; [easy| |easy].
      intros Z. injection Z as -> ->. inversion G as [| | |d0 l0 i0 Nn V Bx Sp]; subst. destruct (Bx _ v Iv B) as [_ (_ & _ & Nr & _)]. congruence.
Qed.
(** ---------- a save that stops half way ---------- *)
Definition closed (l : list (list name * file)) : Prop :=
  forall n c f k t g, In (c, f) (firstn n l) -> In (c ++ k :: t, g) l -> In (c ++ k :: t, g) (firstn n l).
Lemma closed_app a b : closed a -> closed b -> (forall c f k t g, In (c, f) a -> ~ In (c ++ k :: t, g) b) -> closed (a ++ b).
Proof.
  intros Ca Cb D n c f k t g. rewrite firstn_app, !in_app_iff. intros [I|I] [J|J].
  - left. exact (Ca n c f k t g I J).
  - exfalso. apply (D c f k t g); [|exact J]. rewrite <- (firstn_skipn n a). apply in_or_app. now left.
  - left. destruct (Nat.le_gt_cases n (length a)) as [Le|Gt]; [replace (n - length a) with 0 in I by lia; destruct I|]. rewrite firstn_all2 by lia. exact J.
  - right. exact (Cb _ c f k t g I J).
Qed.
Lemma tree_closed (v : item) : good v -> forall p, closed (tree_paths p v).
Proof.
  intros Gv. induction Gv as [a|a|m a cols|ds lb i Nn V IH Bx Sp]; intros p; try (intros n c f k t g []; fail).
  { intros n c f k t g I. cbn in I. rewrite firstn_nil in I. destruct I. } { intros n c f k t g I. cbn in I. rewrite firstn_nil in I. destruct I. } { intros n c f k t g I. cbn in I. rewrite firstn_nil in I. destruct I. }
  rewrite tree_paths_eq. apply closed_app.
  - clear Sp Bx. unfold kid_paths. induction i as [|[k v] r IHr]; [intros n c f k t g I; cbn in I; rewrite firstn_nil in I; destruct I|]. cbn [flat_map fst snd].
    inversion Nn as [|k0 l0 N1 N2]; subst. apply closed_app.
    + destruct (is_box v); [|intros n c f k1 t g I; cbn in I; rewrite firstn_nil in I; destruct I]. apply (IH k v). now left.
    + apply IHr; [exact N2| |]; intros k1 v1 I1; [apply (V k1 v1)|apply (IH k1 v1)]; now right.
    + intros c f k1 t g I J. destruct (is_box v); [|destruct I]. destruct (tree_prefix v (p ++ [k]) c f I) as [t1 ->].
      destruct (kid_prefix p r _ g J) as (k2 & v2 & t2 & I2 & _ & _ & E). rewrite <- !app_assoc in E. cbn [app] in E. apply app_inv in E. destruct E as [-> _].
      apply N1. apply in_map_iff. exists (k2, v2). easy.
  - intros n c f k t g I J. destruct p; [destruct J|]. destruct (owns i); [|destruct J]. destruct J as [J|[]]. injection J as J _.
    destruct n; [destruct I|]. cbn [firstn] in I. rewrite firstn_nil in I. destruct I as [I|[]]. injection I as <- <-. symmetry in J.
    apply (f_equal (@length name)) in J. rewrite app_length in J. cbn in J. lia.
  - intros c f k t g I J. destruct p; [destruct J|]. destruct (owns i); [|destruct J]. destruct J as [J|[]]. injection J as J _.
    destruct (kid_prefix _ i c f I) as (k2 & v2 & t2 & _ & _ & _ & E). subst c.
    apply (f_equal (@length name)) in J. repeat rewrite app_length in J. cbn in J. repeat rewrite app_length in J. cbn in J. lia.
Qed.
Lemma crash_closed n c f k t g : c <> [] -> Forall clear_name c -> c <> [root_name] -> In (join c, f) (firstn n w) -> Forall clear_name (c ++ k :: t) -> In (join (c ++ k :: t), g) w -> In (join (c ++ k :: t), g) (firstn n w).
Proof.
  intros Nc Cl Nr I Cl' J. destruct n as [|n]; [destruct I|]. rewrite struct_paths in *. cbn [firstn] in *.
  assert (Hx : forall q, Forall clear_name q -> q <> [] -> q <> [root_name] -> forall h l, (forall q' h', In (q', h') l -> q' <> [] /\ Forall plain_name q') -> In (join q, h) ((root_name, file_of TStruct lab its) :: map named l) -> In (q, h) l).
  { intros q Cq Nq Nrq h l Hl [E|K].
    - exfalso. injection E as E _. assert (Z : split_bang (join q) = q) by (apply split_join; assumption). rewrite <- E in Z. apply Nrq. symmetry. exact Z.
    - apply in_map_iff in K. destruct K as [[q' h'] [E K]]. unfold named in E. cbn [fst snd] in E. injection E as E ->. destruct (Hl q' h K) as [Nq' Fq'].
      apply join_inj in E; [now subst|assumption|assumption|now apply plain_clear|assumption]. }
  assert (Hw : forall q' h', In (q', h') (tree_paths [] s) -> q' <> [] /\ Forall plain_name q') by (intros q' h' K; exact (root_paths lab its q' h' G K)).
  assert (Hf : forall q' h', In (q', h') (firstn n (tree_paths [] s)) -> q' <> [] /\ Forall plain_name q').
  { intros q' h' K. apply (Hw q' h'). rewrite <- (firstn_skipn n (tree_paths [] s)). apply in_or_app. now left. }
  rewrite firstn_map in *.
  apply Hx in I; try assumption. apply Hx in J; try assumption; [|destruct c; easy|intros Z; destruct c as [|? [|]]; try discriminate; congruence].
  right. apply in_map_iff. exists (c ++ k :: t, g). split; [reflexivity|]. exact (tree_closed s G [] n c f k t g I J).
Qed.
Lemma firstn_incl {X} n (l : list X) : incl (firstn n l) l.
Proof. intros x I. rewrite <- (firstn_skipn n l). apply in_or_app. now left. Qed.
Lemma crash_nothing n (all : bool) r p : load_dir all (firstn (S n) w) = Some (Sub false no_labels r) -> ~ leaf_at (Sub false no_labels r) p Nothing.
Proof.
  intros E Lf. set (d := firstn (S n) w) in *. assert (I : incl d w) by apply firstn_incl.
  assert (N : NoDup (map fst d)). { unfold d. rewrite <- firstn_map. pose proof (struct_nodup lab its G) as Nw. rewrite <- (firstn_skipn (S n)) in Nw. now apply NoDup_app_remove_l in Nw || (revert Nw; generalize (firstn (S n) (map fst w)) (skipn (S n) (map fst w)); clear; intros a b; induction a as [|x a IH]; intros H; [constructor|]; inversion H; subst; constructor; [intros J; apply H2; apply in_or_app; now left|now apply IH]). }
  assert (J : In (root_name, file_of TStruct lab its) d) by now left.
  destruct (root_leaves all d (lost_clean d N I) (dget_nodup _ _ _ N J)) as [r' [E' [_ H]]]. rewrite E in E'. injection E' as <-.
  destruct p as [|k q]; [destruct Lf as [Z _]; discriminate|]. apply H in Lf. clear H.
  assert (Hn : k <> root_name -> found d (k :: q) Nothing -> False).
  { intros Nr [_ [[Cl [f [Gf Rf]]]|(c & k' & Ec & Nc & No & Cl & f & ds & lb & i & Gf & Rf & Gk)]].
    - apply dget_some_in, I in Gf. exact (no_array _ _ _ Gf Rf Logic.I).
    - assert (Nrc : c <> [root_name]) by (intros ->; injection Ec as -> _; congruence).
      pose proof (dget_some_in _ _ _ Gf) as Id. destruct (found_written d c k' Nothing f ds lb i Nc Nrc Cl (I _ Id) Rf Gk) as (i0 & v & At & Gv & Ev).
      assert (Atv : item_at s (c ++ [k']) v) by (apply at_snoc; now exists ds, lb, i0).
      pose proof (good_at _ G _ _ Atv) as Gd. destruct v as [| | |dv lv iv|]; try discriminate; [|inversion Gd].
      destruct (box_written (c ++ [k']) dv lv iv) as [t [Ft Jt]]; [destruct c; easy|exact Atv|]. apply in_map_iff in Jt. destruct Jt as [[m g] [Em Jt]]. cbn in Em. subst m.
      rewrite Ec in No. apply No. exists t. split; [destruct c; easy|split; [|now apply plain_clear]]. apply plain_clear in Ft. rewrite <- app_assoc in *. cbn [app] in *.
      apply (crash_closed (S n) c f k' t g Nc Cl Nrc Id Ft) in Jt. apply in_map_iff. eexists. split; [|exact Jt]. reflexivity. }
  destruct Lf as [[-> Lf]|[[(v & Iv & B) F]|(_ & _ & Nr & F)]].
  - apply (leaf_good_ne [] k Nothing Lf). reflexivity.
  - apply Hn; [|exact F]. inversion G as [| | |d0 l0 i0 Nn V Bx Sp]; subst. exact (proj1 (proj2 (proj2 (proj2 (Bx k v Iv B))))).
  - exact (Hn Nr F).
Qed.
End Lost.
