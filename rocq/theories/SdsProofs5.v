(** Proofs about the files a container is saved to. *)
From Coq Require Import List Arith Bool Lia Permutation.
From Verif Require Import FlattenModel DsModel SdsModel SdsSpec FlattenProofs DsProofs3 AggProofs2 SdsProofs SdsProofs2 SdsProofs3 SdsProofs4.
Import ListNotations.

Section Tree.
Context {A M L : Type}.
Variable no_labels : L.
Notation item := (item A M L).
Notation file := (file A M L).
Notation dir := (dir A M L).

Definition owns (its : list (name * item)) : bool := (length its =? 0) || existsb (fun p => negb (is_box (snd p))) its.
Lemma owns_ok its : owns its = true <-> own_file its.
Proof.
  unfold owns, own_file. rewrite orb_true_iff, Nat.eqb_eq, existsb_exists. split.
  - intros [E|[[k v] [I E]]]; [left; destruct its; easy|right; exists k, v; split; [exact I|now apply negb_true_iff in E]].
  - intros [->|(k & v & I & E)]; [now left|right; exists (k, v); split; [exact I|now apply negb_true_iff]].
Qed.
(** the files by the path of their container *)
Fixpoint tree_paths (p : list name) (it : item) : list (list name * file) :=
  match it with
  | Sub ds lab its =>
      (fix kids (l : list (name * item)) : list (list name * file) :=
         match l with
         | [] => []
         | (k, v) :: r => (if is_box v then tree_paths (p ++ [k]) v else []) ++ kids r
         end) its
      ++ match p with
         | [] => []
         | _ => if owns its then [(p, file_of (type_of ds) lab its)] else []
         end
  | _ => []
  end.
Definition kid_paths (p : list name) (its : list (name * item)) : list (list name * file) :=
  flat_map (fun kv => if is_box (snd kv) then tree_paths (p ++ [fst kv]) (snd kv) else []) its.
Lemma tree_paths_eq p ds lab its : tree_paths p (Sub ds lab its) =
  kid_paths p its ++ match p with [] => [] | _ => if owns its then [(p, file_of (type_of ds) lab its)] else [] end.
Proof.
  cbn [tree_paths]. f_equal. unfold kid_paths. induction its as [|[k v] r IH]; [reflexivity|]. cbn [flat_map fst snd]. rewrite <- IH. reflexivity.
Qed.
Definition named (qf : list name * file) : name * file := (join (fst qf), snd qf).
Lemma item_rect' (Q : item -> Prop) : (forall a, Q (Arr a)) -> (forall a, Q (Scal a)) -> (forall m a c, Q (Spec m a c)) -> Q Nothing ->
  (forall ds lab its, (forall k v, In (k, v) its -> Q v) -> Q (Sub ds lab its)) -> forall v, Q v.
Proof.
  intros H1 H2 H3 H4 H5. fix IH 1. intros [a|a|m a c|ds lab its|]; [apply H1|apply H2|apply H3| |apply H4].
  apply H5. induction its as [|[k v] r IHr]; intros k' v' I; [destruct I|].
  destruct I as [E|I]; [injection E as _ <-; exact (IH v)|exact (IHr k' v' I)].
Qed.
Lemma tree_writes_eq pre ds lab its : tree_writes pre (Sub ds lab its) =
  flat_map (fun kv => if is_box (snd kv) then tree_writes (Some (under pre (fst kv))) (snd kv) else []) its ++
  match pre with Some n => if owns its then [(n, file_of (type_of ds) lab its)] else [] | None => [] end.
Proof.
  cbn [tree_writes]. f_equal. induction its as [|[k v] r IH]; [reflexivity|]. cbn [flat_map fst snd]. rewrite <- IH. reflexivity.
Qed.
Lemma tree_writes_paths v : forall p, tree_writes (pre_of p) v = map named (tree_paths p v).
Proof.
  induction v as [a|a|m a c| |ds lab its IH] using item_rect'; intros p; try reflexivity.
  rewrite tree_writes_eq, tree_paths_eq, map_app. f_equal.
  - unfold kid_paths. induction its as [|[k v] r IHr]; [reflexivity|]. cbn [flat_map fst snd]. rewrite map_app.
    rewrite <- IHr by (intros k' v' I; apply (IH k' v'); now right). f_equal.
    destruct (is_box v); [|reflexivity]. rewrite <- pre_snoc. apply (IH k v). now left.
  - destruct p as [|h t]; [reflexivity|]. cbn [pre_of]. destruct (owns its); reflexivity.
Qed.

(** ---------- the paths of the files of a container that can be saved ---------- *)
Lemma in_kids p its q f : In (q, f) (kid_paths p its) <-> exists k v, In (k, v) its /\ is_box v = true /\ In (q, f) (tree_paths (p ++ [k]) v).
Proof.
  unfold kid_paths. rewrite in_flat_map. split.
  - intros [[k v] [I J]]. cbn [fst snd] in J. destruct (is_box v) eqn:B; [|destruct J]. exists k, v. easy.
  - intros (k & v & I & B & J). exists (k, v). cbn [fst snd]. rewrite B. easy.
Qed.
Lemma in_tree p ds lab its q f : In (q, f) (tree_paths p (Sub ds lab its)) <->
  In (q, f) (kid_paths p its) \/ (p <> [] /\ owns its = true /\ q = p /\ f = file_of (type_of ds) lab its).
Proof.
  rewrite tree_paths_eq, in_app_iff. destruct p as [|h t].
  - split; [intros [I|[]]; now left|intros [I|[N _]]; [now left|congruence]].
  - destruct (owns its) eqn:O; split.
    + intros [I|[I|[]]]; [now left|]. injection I as <- <-. right. easy.
    + intros [I|(_ & _ & -> & ->)]; [now left|]. right. now left.
    + intros [I|[]]. now left.
    + intros [I|(_ & N & _)]; [now left|discriminate].
Qed.
Lemma tree_prefix v : forall p q f, In (q, f) (tree_paths p v) -> exists t, q = p ++ t.
Proof.
  induction v as [a|a|m a c| |ds lab its IH] using item_rect'; intros p q f I; try (destruct I; fail).
  apply in_tree in I. destruct I as [I|(_ & _ & -> & _)]; [|exists []; now rewrite app_nil_r].
  apply in_kids in I. destruct I as (k & v & I & B & J). destruct (IH k v I _ _ _ J) as [t ->]. exists (k :: t). now rewrite <- app_assoc.
Qed.
Lemma kid_prefix p its q f : In (q, f) (kid_paths p its) -> exists k v t, In (k, v) its /\ is_box v = true /\ In (q, f) (tree_paths (p ++ [k]) v) /\ q = p ++ k :: t.
Proof.
  intros I. apply in_kids in I. destruct I as (k & v & I & B & J). destruct (tree_prefix v _ _ _ J) as [t E]. exists k, v, t. repeat split; try assumption.
  rewrite E, <- app_assoc. reflexivity.
Qed.
Lemma app_inv p (k k' : name) t t' : p ++ k :: t = p ++ k' :: t' -> k = k' /\ t = t'.
Proof. intros E. apply app_inv_head in E. injection E as -> ->. easy. Qed.
Lemma good_box_names p (v : item) : good v -> forall q f, In (q, f) (tree_paths p v) -> exists t, q = p ++ t /\ Forall plain_name t.
Proof.
  intros G. revert p. induction G as [a|a|m a cols|ds lab its N V IH B S]; intros p q f I; try (destruct I; fail).
  apply in_tree in I. destruct I as [I|(_ & _ & -> & _)]; [|exists []; split; [now rewrite app_nil_r|constructor]].
  apply in_kids in I. destruct I as (k & v & I & Bv & J). destruct (IH k v I _ _ _ J) as [t [-> F]]. exists (k :: t). rewrite <- app_assoc. split; [reflexivity|].
  constructor; [exact (proj2 (B k v I Bv))|exact F].
Qed.
Lemma plain_clear t : Forall plain_name t -> Forall clear_name t.
Proof. intros F. eapply Forall_impl; [|exact F]. intros k [H _]. exact H. Qed.
Lemma tree_nodup (v : item) : good v -> forall p, NoDup (map fst (tree_paths p v)).
Proof.
  intros G. induction G as [a|a|m a cols|ds lab its N V IH B S]; intros p; try constructor.
  rewrite tree_paths_eq, map_app. apply NoDup_app_d.
  - unfold kid_paths. clear -N IH. induction its as [|[k v] r IHr]; [constructor|]. cbn [flat_map fst snd]. rewrite map_app. inversion N as [|x l N1 N2]; subst.
    apply NoDup_app_d.
    + destruct (is_box v); [|constructor]. apply (IH k v (or_introl eq_refl)).
    + apply IHr; [exact N2|]. intros k' v' I. apply (IH k' v'). now right.
    + intros q I J. destruct (is_box v); [|destruct I]. apply in_map_iff in I. destruct I as [[q1 f1] [E1 I]]. cbn in E1. subst q1. destruct (tree_prefix v _ _ _ I) as [t E].
      apply in_map_iff in J. destruct J as [[q2 f2] [E2 J]]. cbn in E2. subst q2. fold (kid_paths p r) in J. apply kid_prefix in J. destruct J as (k' & v' & t' & J1 & _ & _ & E').
      rewrite E, <- app_assoc in E'. cbn [app] in E'. apply app_inv in E'. destruct E' as [-> _]. apply N1. apply in_map_iff. exists (k', v'). easy.
  - destruct p; [constructor|]. destruct (owns its); repeat constructor. intros [].
  - intros q I J. apply in_map_iff in I. destruct I as [[q1 f1] [E1 I]]. cbn in E1. subst q1. apply kid_prefix in I. destruct I as (k & v & t & _ & _ & _ & E).
    assert (q = p) as ->. { destruct p; [destruct J|]. destruct (owns its); [|destruct J]. destruct J as [J|[]]. symmetry. exact J. }
    assert (Z : length p = length (p ++ k :: t)) by congruence. rewrite app_length in Z. cbn in Z. lia.
Qed.
Lemma tree_some (v : item) : good v -> is_box v = true -> forall p, p <> [] -> exists q f, In (q, f) (tree_paths p v).
Proof.
  intros G. induction G as [a|a|m a cols|ds lab its N V IH B S]; intros Bx p Np; try discriminate.
  destruct (owns its) eqn:O.
  - exists p, (file_of (type_of ds) lab its). apply in_tree. right. easy.
  - destruct its as [|[k v] r]; [discriminate|]. unfold owns in O. apply orb_false_iff in O. destruct O as [_ O]. cbn [existsb snd] in O. apply orb_false_iff in O.
    destruct O as [O _]. apply negb_false_iff in O. destruct (IH k v (or_introl eq_refl) O (p ++ [k])) as (q & f & I); [destruct p; easy|].
    exists q, f. apply in_tree. left. apply in_kids. exists k, v. split; [now left|easy].
Qed.
(** the kids of a container have the files of their own names *)
Lemma kid_step p ds lab its k v t f : NoDup (map fst its) -> In (k, v) its -> is_box v = true ->
  In (p ++ k :: t, f) (tree_paths p (Sub ds lab its)) <-> In ((p ++ [k]) ++ t, f) (tree_paths (p ++ [k]) v).
Proof.
  intros N I B. rewrite <- app_assoc. cbn [app]. split.
  - intros J. apply in_tree in J. destruct J as [J|(_ & _ & E & _)].
    + apply kid_prefix in J. destruct J as (k' & v' & t' & J1 & J2 & J3 & E). apply app_inv in E. destruct E as [<- <-].
      assert (v' = v) as -> by (pose proof (dget_nodup _ _ _ N I); pose proof (dget_nodup _ _ _ N J1); congruence). exact J3.
    + assert (Z : length (p ++ k :: t) = length p) by congruence. rewrite app_length in Z. cbn in Z. lia.
  - intros J. apply in_tree. left. apply in_kids. exists k, v. easy.
Qed.
Lemma own_step p ds lab its f : p <> [] -> In (p, f) (tree_paths p (Sub ds lab its)) <-> owns its = true /\ f = file_of (type_of ds) lab its.
Proof.
  intros Np. rewrite in_tree. split.
  - intros [I|(_ & O & _ & E)]; [|easy]. apply kid_prefix in I. destruct I as (k & v & t & _ & _ & _ & E).
    assert (Z : length p = length (p ++ k :: t)) by congruence. rewrite app_length in Z. cbn in Z. lia.
  - intros [O E]. right. easy.
Qed.
Lemma kid_name p ds lab its k t f : In (p ++ k :: t, f) (tree_paths p (Sub ds lab its)) -> exists v, In (k, v) its /\ is_box v = true.
Proof.
  intros J. apply in_tree in J. destruct J as [J|(_ & _ & E & _)].
  - apply kid_prefix in J. destruct J as (k' & v' & t' & J1 & J2 & J3 & E). apply app_inv in E. destruct E as [<- <-]. now exists v'.
  - assert (Z : length (p ++ k :: t) = length p) by congruence. rewrite app_length in Z. cbn in Z. lia.
Qed.
(** every file is that of a container of the tree *)
Lemma tree_file (v : item) : good v -> forall p q f, In (q, f) (tree_paths p v) ->
  exists t ds lab its, q = p ++ t /\ item_at v t (Sub ds lab its) /\ owns its = true /\ f = file_of (type_of ds) lab its /\ good (Sub ds lab its).
Proof.
  intros G. induction G as [a|a|m a cols|ds lab its N V IH B S]; intros p q f I; try (destruct I; fail).
  apply in_tree in I. destruct I as [I|(_ & O & -> & ->)].
  - apply in_kids in I. destruct I as (k & v & I & Bv & J). destruct (IH k v I _ _ _ J) as (t & ds' & lab' & its' & E & At & O & F & G').
    exists (k :: t), ds', lab', its'. rewrite E, <- app_assoc. split; [reflexivity|]. split; [|easy]. cbn [item_at]. rewrite (dget_nodup _ _ _ N I). exact At.
  - exists [], ds, lab, its. rewrite app_nil_r. split; [reflexivity|]. split; [reflexivity|]. split; [exact O|]. split; [reflexivity|]. now constructor.
Qed.
Lemma tree_has (v : item) : good v -> forall p t ds lab its, p <> [] -> item_at v t (Sub ds lab its) -> owns its = true ->
  In (p ++ t, file_of (type_of ds) lab its) (tree_paths p v).
Proof.
  intros G. induction G as [a|a|m a cols|ds0 lab0 its0 N V IH B S]; intros p t ds lab its Np At O;
    try (destruct t; cbn [item_at] in At; [discriminate|destruct At]).
  destruct t as [|k t]; cbn [item_at] in At.
  - injection At as <- <- <-. rewrite app_nil_r. apply in_tree. right. easy.
  - destruct (dget k its0) as [v|] eqn:Gk; [|destruct At]. apply dget_some_in in Gk.
    assert (Bv : is_box v = true). { destruct v; try reflexivity; destruct t; cbn [item_at] in At; try discriminate; destruct At. }
    apply (kid_step p ds0 lab0 its0 k v t _ N Gk Bv). apply (IH k v Gk (p ++ [k])); [destruct p; easy|exact At|exact O].
Qed.

(** ---------- the writes ---------- *)
Lemma writes_ok l : forall (d : dir), (forall n f, In (n, f) l -> escapes n = false /\ stem n = n) -> writes l d = (dset_all l d, true).
Proof.
  induction l as [|[n f] r IH]; intros d H; [reflexivity|]. cbn [writes]. unfold write. cbn [fst snd].
  destruct (H n f (or_introl eq_refl)) as [E S]. rewrite E, S. rewrite IH; [reflexivity|]. intros n' f' I. apply (H n' f'). now right.
Qed.
Lemma join_under q : q <> [] -> exists pre k, join q = under pre k /\ q = removelast q ++ [k].
Proof.
  intros N. exists (pre_of (removelast q)), (last q []). rewrite under_pre. pose proof (app_removelast_last [] N) as E. split; [f_equal|]; exact E.
Qed.
Lemma plain_write q : q <> [] -> Forall plain_name q -> escapes (join q) = false /\ stem (join q) = join q.
Proof.
  intros N F. destruct (join_under q N) as (pre & k & E & Eq). rewrite E. assert (plain_name k).
  { rewrite Eq in F. apply Forall_app in F. destruct F as [_ F]. now inversion F. }
  split; [now apply escapes_plain|now apply stem_plain].
Qed.
Lemma root_not_join q : q <> [] -> Forall plain_name q -> join q <> root_name.
Proof.
  intros N F E. assert (Z : split_bang (join q) = q) by (apply split_join; [exact N|now apply plain_clear]). rewrite E in Z. cbn in Z.
  destruct q as [|k t]; [congruence|]. injection Z as <- <-. inversion F as [|x l (_ & _ & H & _) _]; subst. apply H. reflexivity.
Qed.
Lemma struct_paths (lab : L) (its : list (name * item)) : struct_writes lab its = (root_name, file_of TStruct lab its) :: map named (tree_paths [] (Sub false lab its)).
Proof. unfold struct_writes. rewrite <- tree_writes_paths. reflexivity. Qed.
Lemma root_paths (lab : L) (its : list (name * item)) q f : good (Sub false lab its) -> In (q, f) (tree_paths [] (Sub false lab its)) -> q <> [] /\ Forall plain_name q.
Proof.
  intros G I. destruct (good_box_names [] _ G q f I) as [t [-> F]]. split; [|exact F]. apply in_tree in I.
  destruct I as [I|(N & _)]; [|congruence]. apply kid_prefix in I. destruct I as (k & v & t' & _ & _ & _ & ->). easy.
Qed.
Lemma struct_nodup (lab : L) (its : list (name * item)) : good (Sub false lab its) -> NoDup (map fst (struct_writes lab its)).
Proof.
  intros G. rewrite struct_paths. cbn [map fst]. rewrite map_map. constructor.
  - intros I. apply in_map_iff in I. destruct I as [[q f] [E I]]. cbn [named fst] in E. destruct (root_paths lab its q f G I) as [N F]. exact (root_not_join q N F E).
  - change (fun x => fst (named x)) with (fun x : list name * file => join (fst x)). rewrite <- (map_map fst join). pose proof (tree_nodup _ G []) as N.
    assert (H : forall q, In q (map fst (tree_paths [] (Sub false lab its))) -> q <> [] /\ Forall plain_name q).
    { intros q I. apply in_map_iff in I. destruct I as [[q' f] [E I]]. cbn in E. subst q'. exact (root_paths lab its q f G I). }
    induction (map fst (tree_paths [] (Sub false lab its))) as [|q r IH]; [constructor|]. inversion N as [|x l N1 N2]; subst. cbn [map]. constructor.
    + intros I. apply in_map_iff in I. destruct I as [q' [E I]]. destruct (H q (or_introl eq_refl)) as [Nq Fq]. destruct (H q' (or_intror I)) as [Nq' Fq'].
      apply join_inj in E; try assumption; try (now apply plain_clear). subst q'. exact (N1 I).
    + apply IH; [exact N2|]. intros q' I. apply H. now right.
Qed.
Lemma struct_written (lab : L) (its : list (name * item)) (d : dir) : good (Sub false lab its) -> writes (struct_writes lab its) d = (dset_all (struct_writes lab its) d, true).
Proof.
  intros G. apply writes_ok. intros n f I. rewrite struct_paths in I. destruct I as [I|I].
  - injection I as <- <-. split; reflexivity.
  - apply in_map_iff in I. destruct I as [[q f'] [E I]]. injection E as <- <-. destruct (root_paths lab its q f' G I) as [N F]. exact (plain_write q N F).
Qed.
End Tree.
