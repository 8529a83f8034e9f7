(** Proofs about the sizes of Structs and searches in them. *)
From Coq Require Import List ZArith Bool Lia Permutation.
From Verif Require Import FlattenModel SzSpec SzModel.
Import ListNotations.
Local Open Scope Z_scope.

Lemma memb_in : forall x l, memb x l = true <-> In x l.
Proof.
  intros x l. unfold memb. rewrite existsb_exists. split.
  - intros (y & I & E). apply Nat.eqb_eq in E. now subst.
  - intro I. exists x. split; [exact I|apply Nat.eqb_refl].
Qed.
Lemma total_app : forall a b, total (a ++ b) = total a + total b.
Proof. induction a as [|x a IH]; intro b; cbn; [reflexivity|]. fold (total (a ++ b)). rewrite IH. fold (total a). lia. Qed.
Lemma total_perm : forall a b, Permutation a b -> total a = total b.
Proof. intros a b P. induction P; cbn; try fold (total l); try fold (total l'); lia. Qed.
Lemma total_size_is : forall cats b, total_size b cats = b + fold_right Z.add 0 (map snd cats).
Proof. unfold total_size. induction cats as [|p cats IH]; intro b; cbn; [lia|]. rewrite IH. lia. Qed.

Definition cols (V : list cell) : list (nat * Z) := flat_map column V.
Definition nints (V : list cell) : Z := Z.of_nat (length (filter is_int V)).
Lemma cols_app : forall a b, cols (a ++ b) = cols a ++ cols b.
Proof. intros. apply flat_map_app. Qed.
Lemma nints_app : forall a b, nints (a ++ b) = nints a + nints b.
Proof. intros. unfold nints. rewrite filter_app, app_length. lia. Qed.

(** what is true after visiting the cells [V] *)
Definition counted (G : Prop) (sz : nat -> Z) (V : list cell) (z : sizes) : Prop :=
  NoDup (z_arrays z) /\ (forall o, In o (z_arrays z) <-> In o (map fst (cols V))) /\
  z_logical z = total (map snd (cols V)) + 4 * nints V /\
  (G -> z_physical z = total (map sz (z_arrays z)) + 4 * nints V).
Lemma count_is : forall (G : Prop) sz V z o b c, column c = [(o, b)] -> is_int c = false -> (G -> sz o = b) -> counted G sz V z -> counted G sz (V ++ [c]) (count o b z).
Proof.
  intros G sz V z o b c C I E (N & A & L & P).
  assert (CA : cols (V ++ [c]) = cols V ++ [(o, b)]) by (rewrite cols_app; unfold cols at 2; cbn; now rewrite C).
  assert (NA : nints (V ++ [c]) = nints V) by (rewrite nints_app; unfold nints at 2; cbn; rewrite I; cbn; lia).
  unfold counted, count. rewrite CA, NA, !map_app, total_app. cbn [map fst snd total fold_right].
  destruct (memb o (z_arrays z)) eqn:M; cbn [z_arrays z_logical z_physical].
  - apply memb_in in M. split; [exact N|]. split; [|split; [lia|exact P]]. intro o'. rewrite in_app_iff, A. cbn. split; [auto|].
    intros [H|[<-|[]]]; [exact H|]. now apply A.
  - assert (M' : ~ In o (z_arrays z)) by (intro X; apply memb_in in X; congruence). split; [now constructor|]. split.
    + intro o'. rewrite in_app_iff. cbn. rewrite A. tauto.
    + split; [lia|]. intro g. specialize (E g). specialize (P g). cbn [map total fold_right]. fold (total (map sz (z_arrays z))). lia.
Qed.
Lemma cols_skip : forall V c, column c = [] -> cols (V ++ [c]) = cols V.
Proof. intros V c C. rewrite cols_app. replace (cols [c]) with (@nil (nat * Z)) by (cbn; now rewrite C). apply app_nil_r. Qed.
Lemma nints_one : forall V c, nints (V ++ [c]) = nints V + if is_int c then 1 else 0.
Proof. intros V c. rewrite nints_app. f_equal. unfold nints. cbn. now destruct (is_int c). Qed.
Lemma visit_counted : forall (G : Prop) sz V z c, (G -> forall o b, In (o, b) (column c) -> sz o = b) -> counted G sz V z -> counted G sz (V ++ [c]) (visit z c).
Proof.
  intros G sz V z c E H. destruct c as [| |o b ob|o b cats|s]; cbn [visit].
  - destruct H as (N & A & L & P). unfold counted. rewrite cols_skip, nints_one by reflexivity. cbn [is_int]. repeat split; auto; try apply A; try (intro g; specialize (P g)); lia.
  - destruct H as (N & A & L & P). unfold counted. rewrite cols_skip, nints_one by reflexivity. cbn [is_int z_arrays z_logical z_physical]. repeat split; auto; try apply A; try (intro g; specialize (P g)); lia.
  - apply count_is; auto. intro g. apply (E g). now left.
  - rewrite total_size_is. apply count_is; auto. intro g. apply (E g). now left.
  - destruct H as (N & A & L & P). unfold counted. rewrite cols_skip, nints_one by reflexivity. cbn [is_int].
    destruct (memb s (z_structs z)); cbn [z_arrays z_logical z_physical]; repeat split; auto; try apply A; try (intro g; specialize (P g)); lia.
Qed.
Lemma fold_counted : forall (G : Prop) sz cs V z, (G -> forall o b, In (o, b) (cols cs) -> sz o = b) -> counted G sz V z -> counted G sz (V ++ cs) (fold_left visit cs z).
Proof.
  intros G sz. induction cs as [|c cs IH]; intros V z E H; cbn [fold_left]; [now rewrite app_nil_r|].
  replace (V ++ c :: cs) with ((V ++ [c]) ++ cs) by now rewrite <- app_assoc.
  apply IH; [|apply visit_counted; auto]; intros g o b I; apply (E g); unfold cols; cbn [flat_map]; apply in_or_app; auto.
Qed.

(** the Structs found *)
Lemma visit_structs : forall c z, NoDup (z_structs z) ->
  exists new, z_pending (visit z c) = new ++ z_pending z /\ z_structs (visit z c) = new ++ z_structs z /\ NoDup (z_structs (visit z c)) /\
  (forall x, In x new -> c = Sub x) /\ (forall t, c = Sub t -> In t (z_structs (visit z c))).
Proof.
  intros c z N. destruct c as [| |o b ob|o b cats|s]; cbn [visit]; unfold count;
    try (exists []; cbn [app]; repeat destruct (memb _ _); cbn [z_pending z_structs]; (repeat split; [exact N|intros x []|discriminate])).
  destruct (memb s (z_structs z)) eqn:M.
  - exists []. cbn [app]. repeat split; [exact N|intros x []|]. intros t [= <-]. now apply memb_in.
  - exists [s]. cbn [z_pending z_structs app]. repeat split.
    + constructor; [|exact N]. intro X. apply memb_in in X. congruence.
    + intros x [<-|[]]. reflexivity.
    + intros t [= <-]. now left.
Qed.
Lemma fold_structs : forall cs z, NoDup (z_structs z) ->
  exists new, z_pending (fold_left visit cs z) = new ++ z_pending z /\ z_structs (fold_left visit cs z) = new ++ z_structs z /\ NoDup (z_structs (fold_left visit cs z)) /\
  (forall x, In x new -> In (Sub x) cs) /\ (forall t, In (Sub t) cs -> In t (z_structs (fold_left visit cs z))).
Proof.
  induction cs as [|c cs IH]; intros z N; cbn [fold_left].
  - exists []. repeat split; [exact N|intros x []|intros t []].
  - destruct (visit_structs c z N) as (n1 & P1 & S1 & N1 & A1 & B1). destruct (IH (visit z c) N1) as (n2 & P2 & S2 & N2 & A2 & B2).
    exists (n2 ++ n1). rewrite P2, P1, S2, S1, <- !app_assoc. repeat split; auto.
    + rewrite <- S1, <- S2. exact N2.
    + intros x I. apply in_app_or in I. destruct I as [I|I]; [right; now apply A2|left; now apply A1].
    + intros t [I|I].
      * apply in_or_app. right. rewrite <- S1. now apply B1.
      * rewrite <- S1, <- S2. now apply B2.
Qed.

Definition cells (m : memory) (l : list nat) : list cell := flat_map (items m) l.
Record inv (G : Prop) (sz : nat -> Z) (m : memory) (root : nat) (done : list nat) (z : sizes) : Prop := mkInv {
  i_perm : Permutation (done ++ z_pending z) (root :: z_structs z);
  i_nodup : NoDup (z_structs z);
  i_inside : forall x, In x (z_structs z) -> inside m root x;
  i_closed : forall s t, In s done -> In (Sub t) (items m s) -> In t (z_structs z);
  i_counted : counted G sz (cells m done) z }.

Lemma inside_lt : forall m root x, closed m -> inside m root x -> (x < length m)%nat.
Proof. intros m root x C H. destruct H as [t I|t u _ I]; exact (C _ _ I). Qed.

Lemma loop_inv : forall (G : Prop) sz m root, closed m ->
  (G -> forall s o b, s = root \/ inside m root s -> In (o, b) (cols (items m s)) -> sz o = b) ->
  forall fuel done z, inv G sz m root done z -> (S (length m) <= fuel + length done)%nat ->
  exists z' done', loop m fuel z = Some z' /\ inv G sz m root done' z' /\ z_pending z' = [].
Proof.
  intros G sz m root C E. induction fuel as [|fuel IH]; intros done z I L.
  - cbn [loop]. destruct (z_pending z) as [|s rest] eqn:P; [exists z, done; auto|]. exfalso.
    destruct I as [IP IN II _ _]. apply Permutation_length in IP. rewrite app_length, P in IP. cbn in IP.
    assert (length (z_structs z) <= length (seq 0 (length m)))%nat.
    { apply NoDup_incl_length; [exact IN|]. intros x X. apply in_seq. specialize (inside_lt _ _ _ C (II x X)). lia. }
    rewrite seq_length in H. lia.
  - cbn [loop]. destruct (z_pending z) as [|s rest] eqn:P; [exists z, done; auto|].
    destruct I as [IP IN II IC IK]. set (z0 := mkS rest (z_structs z) (z_arrays z) (z_physical z) (z_logical z)).
    assert (RS : s = root \/ inside m root s).
    { assert (X : In s (root :: z_structs z)). { eapply Permutation_in; [exact IP|]. rewrite P. apply in_or_app. right. now left. }
      destruct X as [->|X]; auto. }
    destruct (fold_structs (items m s) z0 IN) as (new & P1 & S1 & N1 & A1 & B1).
    apply (IH (done ++ [s])); [|rewrite app_length; cbn; lia]. split.
    + rewrite P1, S1. cbn [z0 z_pending z_structs]. rewrite P in IP. rewrite <- app_assoc. cbn [app].
      transitivity (new ++ (done ++ s :: rest)).
      * transitivity (done ++ new ++ s :: rest); [apply Permutation_app_head, Permutation_middle|].
        rewrite !app_assoc. apply Permutation_app_tail, Permutation_app_comm.
      * transitivity (new ++ (root :: z_structs z)); [now apply Permutation_app_head|]. symmetry. apply Permutation_middle.
    + exact N1.
    + rewrite S1. intros x X. apply in_app_or in X. destruct X as [X|X]; [|now apply II].
      specialize (A1 x X). destruct RS as [->|RS]; [now constructor|now apply in_sub with s].
    + intros t u T U. apply in_app_or in T. destruct T as [T|[<-|[]]]; [|now apply B1].
      rewrite S1. apply in_or_app. right. now apply (IC t).
    + unfold cells. rewrite flat_map_app. cbn [flat_map]. rewrite app_nil_r. apply fold_counted; [intros g o b; now apply (E g s)|].
      exact IK.
Qed.

(** searching *)
Lemma tree_rec' : forall P : tree -> Prop, (forall l, P (Leaf l)) -> (forall d l, (forall k t, In (k, t) l -> P t) -> P (Node d l)) -> forall t, P t.
Proof.
  intros P HL HN. fix F 1. intros [l|d l]; [apply HL|]. apply HN. induction l as [|(k', t') l IH]; intros k t; [intros []|]. intros [E|I]; [|exact (IH k t I)].
  injection E as _ <-. apply F.
Qed.

Definition below (hit : name -> bool) (recursive : bool) (path : list name) (l : list (name * tree)) : list (list name) :=
  flat_map (fun p => key_search hit recursive (path ++ [fst p]) (snd p)) l.
Lemma search_node : forall hit recursive path d l, key_search hit recursive path (Node d l) =
  map (fun k => path ++ [k]) (filter hit (map fst l)) ++ (if recursive && negb d then below hit recursive path l else []).
Proof.
  intros. cbn [key_search]. f_equal. destruct (recursive && negb d); [|reflexivity].
  unfold below. induction l as [|(k, v) l IH]; [reflexivity|]. cbn [flat_map fst snd]. now rewrite IH.
Qed.
Lemma search_in : forall hit t path p, In p (key_search hit true path t) <-> exists q k, p = path ++ q ++ [k] /\ at_key t (q ++ [k]) /\ hit k = true.
Proof.
  intros hit t. induction t as [l|d l IH] using tree_rec'; intros path p.
  - cbn. split; [intros []|]. intros (q & k & _ & A & _). inversion A.
  - rewrite search_node, in_app_iff, in_map_iff. split.
    + intros [(k & <- & I)|I].
      * apply filter_In in I. destruct I as (I & H). apply in_map_iff in I. destruct I as ((k', v) & <- & I). exists [], k'. repeat split; auto.
        cbn. now apply ak_here with v.
      * destruct d; cbn in I; [destruct I|]. apply in_flat_map in I. destruct I as ((k, v) & J & I). cbn in I.
        apply (IH k v J) in I. destruct I as (q & k' & -> & A & H). exists (k :: q), k'. split; [now rewrite <- app_assoc|]. split; [|exact H].
        cbn. destruct v as [lv|d' l']; [inversion A|]. now apply ak_down with d' l'.
    + intros (q & k & -> & A & H). destruct q as [|k1 q]; cbn in A.
      * left. exists k. split; [reflexivity|]. apply filter_In. split; [|exact H]. inversion A; subst; [|match goal with X : at_key _ [] |- _ => inversion X end].
        apply in_map_iff. exists (k, t). auto.
      * right. inversion A as [? ? ? ? ? E|? ? ? ? ? J B]; subst; [destruct q; discriminate|]. cbn [andb negb]. apply in_flat_map.
        exists (k1, Node d' l'). split; [exact J|]. cbn. apply (IH _ _ J). exists q, k. split; [now rewrite <- app_assoc|auto].
Qed.
Lemma search_longer : forall hit t path p, In p (key_search hit true path t) -> exists x q, p = path ++ x :: q.
Proof.
  intros hit t path p I. apply search_in in I. destruct I as (q & k & -> & _). destruct q as [|x q]; cbn; eauto.
Qed.
Lemma nodup_append : forall X (a b : list X), NoDup a -> NoDup b -> (forall x, In x a -> ~ In x b) -> NoDup (a ++ b).
Proof.
  intros X a b N. induction N as [|x a H N IH]; intros B D; [exact B|]. cbn. constructor.
  - intro I. apply in_app_or in I. destruct I as [I|I]; [auto|]. exact (D x (or_introl eq_refl) I).
  - apply IH; [exact B|]. intros y Y. apply D. now right.
Qed.
Lemma search_nodup : forall hit t path, distinct t -> NoDup (key_search hit true path t).
Proof.
  intros hit t. induction t as [l|d l IH] using tree_rec'; intros path D; [constructor|].
  inversion D as [|? ? ND DS]; subst. rewrite search_node. apply nodup_append.
  - apply FinFun.Injective_map_NoDup; [|now apply NoDup_filter]. intros a b E. apply app_inv_head in E. congruence.
  - destruct d; cbn [andb negb]; [constructor|]. unfold below. clear D. induction l as [|(k, v) l IHl]; [constructor|].
    cbn [flat_map fst snd]. cbn [map fst] in ND. inversion ND as [|? ? NI ND']; subst. apply nodup_append.
    + apply (IH k v); [now left|]. apply (DS k v). now left.
    + apply IHl; auto; intros k' t' I; [apply (IH k' t')|apply (DS k' t')]; now right.
    + intros p A B. apply search_longer in A. destruct A as (x & q & ->). apply in_flat_map in B. destruct B as ((k', v') & J & B).
      apply search_longer in B. destruct B as (x' & q' & B). cbn in B. rewrite <- !app_assoc in B. apply app_inv_head in B. cbn in B. injection B as -> _.
      apply NI. change k' with (fst (k', v')). now apply in_map.
  - intros p A B. apply in_map_iff in A. destruct A as (k & <- & _). destruct (true && negb d); [|destruct B].
    apply in_flat_map in B. destruct B as ((k', v') & J & B). apply search_longer in B. destruct B as (x' & q' & B). cbn in B.
    rewrite <- app_assoc in B. apply app_inv_head in B. discriminate.
Qed.
