From Coq Require Import List Arith ZArith Bool Lia.
From Verif Require Import FlattenModel FlattenProofs DsModel DsProofs3 GroupingModel GroupingProofs StModel StSpec StProofs.
Import ListNotations.

Section Stack.
Context {X D : Type}.
Variable ds_stack : list D -> option D.
Hypothesis ds_total : forall l, 2 <= length l -> ds_stack l <> None.
Implicit Types (i j x y : item X D) (ls : list (list (name * item X D))) (s r : list (name * item X D)).
Notation good := (good ds_stack).

Definition stack_ (fuel : nat) (b : bucket) (l : list (item X D)) : option (item X D) :=
  match l with
  | [i] => Some i
  | _ => match b with
         | BArr k => Some (IArr k (concat (map elems l)))
         | BDs => option_map IDs (ds_stack (concat (map datasets l)))
         | BSt => match fuel with O => None | S f => option_map ISt (hstack_f ds_stack f (map items_of l)) end
         end
  end.
Definition entries fuel ls := flat_map (fun bd => map (fun e => (fst e, stack_ fuel (fst bd) (snd e))) (snd bd)) (collect ls).
Definition finish ls (es : list (name * item X D)) := flat_map (fun k => match dget k (fold_left (fun d p => dset (fst p) (snd p) d) es []) with Some i => [(k, i)] | None => [] end) (all_keys ls).
Lemma hstack_eq fuel ls : 2 <= length ls -> hstack_f ds_stack fuel ls = option_map (finish ls) (all_or_none (entries fuel ls)).
Proof using. intros H. destruct ls as [|s [|s' r]]; try (cbn in H; lia). destruct fuel; reflexivity. Qed.

Lemma get_cons k q s : get (k :: q) (ISt s) = match dget k s with Some j => get q j | None => None end.
Proof using. reflexivity. Qed.
Lemma at_occ {Y} (f : option (item X D) -> list Y) k q ls : f None = [] -> concat (map (fun s => f (get (k :: q) (ISt s))) ls) = concat (map (fun j => f (get q j)) (occ k ls)).
Proof using.
  intros N. unfold occ. induction ls as [|s ls IH]; [reflexivity|]. cbn [map concat flat_map]. rewrite IH, map_app, concat_app. f_equal. rewrite get_cons. destruct (dget k s); [cbn [map concat]; now rewrite app_nil_r|exact N].
Qed.
Lemma elems_occ k q ls : concat (map (elems_at (k :: q)) (map ISt ls)) = concat (map (elems_at q) (occ k ls)).
Proof using. rewrite map_map. exact (at_occ (fun o => match o with Some (IArr _ l) => l | Some (IScal x) => [x] | _ => [] end) k q ls eq_refl). Qed.
Lemma ds_occ k q ls : concat (map (datasets_at (k :: q)) (map ISt ls)) = concat (map (datasets_at q) (occ k ls)).
Proof using. rewrite map_map. exact (at_occ (fun o => match o with Some (IDs d) => [d] | _ => [] end) k q ls eq_refl). Qed.
Lemma names_occ k q ls : concat (map (names_at (k :: q)) (map ISt ls)) = concat (map (names_at q) (occ k ls)).
Proof using. rewrite map_map. exact (at_occ (fun o => match o with Some (ISt its) => map fst its | _ => [] end) k q ls eq_refl). Qed.
Lemma in_occ k ls j : In j (occ k ls) <-> exists s, In s ls /\ dget k s = Some j.
Proof using.
  unfold occ. rewrite in_flat_map. split; intros (s & I & E); exists s; (split; [exact I|]).
  - destruct (dget k s); [destruct E as [->|[]]; reflexivity|destruct E].
  - rewrite E. now left.
Qed.
Lemma concat_nil {Y Z0} (f : Y -> list Z0) (l : list Y) : (forall y : Y, In y l -> f y = []) -> concat (map f l) = [].
Proof using. induction l as [|y l IH]; intros H; [reflexivity|]. cbn [map concat]. rewrite (H y) by (now left). apply IH. intros; apply H; now right. Qed.

Lemma good_box r ls : map fst r = firsts (map fst (concat ls)) ->
  (forall k, (occ k ls = [] /\ dget k r = None) \/ (exists x, dget k r = Some x /\ good x (occ k ls))) -> ls <> [] -> good (ISt r) (map ISt ls).
Proof using.
  intros N H Ne. split.
  - intros [|k q]; [symmetry; apply concat_nil; intros y I; apply in_map_iff in I; destruct I as (s & <- & _); reflexivity|]. rewrite elems_occ. unfold elems_at at 1. rewrite get_cons.
    destruct (H k) as [[E ->]|(x & -> & G)]; [now rewrite E|]. exact (good_elems _ _ _ G q).
  - intros [|k q].
    + rewrite concat_nil; [reflexivity|]. intros y I; apply in_map_iff in I; destruct I as (s & <- & _); reflexivity.
    + rewrite ds_occ. unfold datasets_at at 2 3 4. rewrite get_cons. destruct (H k) as [[E ->]|(x & -> & G)]; [rewrite E; reflexivity|]. exact (good_ds _ _ _ G q).
  - intros [|k q].
    + unfold names_at at 1. cbn [get]. rewrite N. f_equal. rewrite map_map, concat_map. reflexivity.
    + rewrite names_occ. unfold names_at at 1. rewrite get_cons. destruct (H k) as [[E ->]|(x & -> & G)]; [now rewrite E|]. exact (good_names _ _ _ G q).
  - intros [|k q].
    + split; intros _; [|eexists; reflexivity]. destruct ls as [|s ls]; [congruence|]. exists (ISt s), (ISt s). split; [now left|reflexivity].
    + rewrite get_cons. destruct (H k) as [[E ->]|(x & -> & G)].
      * split; [intros [y Q]; discriminate|]. intros (i & y & I & Q). apply in_map_iff in I. destruct I as (s & <- & I). rewrite get_cons in Q. destruct (dget k s) eqn:Es; [|discriminate]. assert (K : In i (occ k ls)) by (apply in_occ; eauto). rewrite E in K. destruct K.
      * rewrite (good_there _ _ _ G q). split.
        -- intros (i & y & I & Q). apply in_occ in I. destruct I as (s & I & Es). exists (ISt s), y. split; [now apply in_map|]. rewrite get_cons, Es. exact Q.
        -- intros (i & y & I & Q). apply in_map_iff in I. destruct I as (s & <- & I). rewrite get_cons in Q. destruct (dget k s) as [j|] eqn:Es; [|discriminate]. exists j, y. split; [apply in_occ; eauto|exact Q].
  - intros [|k q] i y z I Q R.
    + apply in_map_iff in I. destruct I as (s & <- & I). cbn [get] in Q, R. injection Q as <-. injection R as <-. reflexivity.
    + apply in_map_iff in I. destruct I as (s & <- & I). rewrite get_cons in Q, R. destruct (dget k s) as [j|] eqn:Es; [|discriminate].
      destruct (H k) as [[E _]|(x & E & G)]; [assert (K : In j (occ k ls)) by (apply in_occ; eauto); rewrite E in K; destruct K|]. rewrite E in R. eapply (good_bucket _ _ _ G q j); eauto. apply in_occ; eauto.
Qed.

Lemma get_leaf p i y : (forall s, i <> ISt s) -> get p i = Some y -> p = [] /\ y = i.
Proof using. intros N. destruct p as [|k q]; cbn [get]; [intros E; injection E as <-; auto|]. destruct i; try discriminate. exfalso. eapply N; reflexivity. Qed.
Lemma good_one x : well_formed x -> good x [x].
Proof using.
  intros W. split.
  - intros p. cbn. now rewrite app_nil_r.
  - intros p. cbn [map concat]. rewrite app_nil_r. unfold datasets_at. destruct (get p x) as [[]|]; reflexivity.
  - intros p. cbn [map concat]. rewrite app_nil_r. symmetry. apply firsts_id, W.
  - intros p. split; [intros [y H]; exists x, y; split; [now left|exact H]|]. intros (i & y & [<-|[]] & H). eauto.
  - intros p i y z [<-|[]] Q R. congruence.
Qed.
Lemma normal_at i : (forall p, elems_at p (normal i) = elems_at p i) /\ (forall p, datasets_at p (normal i) = datasets_at p i) /\ (forall p, names_at p (normal i) = names_at p i) /\
  (forall p, (exists y, get p (normal i) = Some y) <-> (exists y, get p i = Some y)) /\ (forall p y, get p i = Some y -> exists z, get p (normal i) = Some z /\ bucket_of z = bucket_of y).
Proof using.
  destruct i as [k l|x|d|s]; cbn [normal]; repeat split; try reflexivity; try tauto; eauto.
  - intros [|n q]; reflexivity.
  - intros [|n q]; reflexivity.
  - intros [|n q]; reflexivity.
  - destruct p as [|n q]; cbn [get]; eauto.
  - destruct p as [|n q]; cbn [get]; eauto.
  - intros [|n q] y E; cbn [get] in *; [|discriminate]. injection E as <-. eexists. split; reflexivity.
Qed.
Lemma map_ext_at {Y Z0} (f : Y -> list Z0) (g : Y -> Y) (l : list Y) : (forall y : Y, f (g y) = f y) -> concat (map f (map g l)) = concat (map f l).
Proof using. intros H. rewrite map_map. f_equal. apply map_ext. exact H. Qed.
Lemma good_normal x l : good x (map normal l) -> good x l.
Proof using.
  intros [A B C E F]. split.
  - intros p. rewrite A. apply map_ext_at. intros i. apply normal_at.
  - intros p. specialize (B p). rewrite map_ext_at in B by (intros i; apply normal_at). exact B.
  - intros p. rewrite C. f_equal. apply map_ext_at. intros i. apply normal_at.
  - intros p. rewrite E. split.
    + intros (i & y & I & Q). apply in_map_iff in I. destruct I as (j & <- & I). destruct (proj1 (proj1 (proj2 (proj2 (proj2 (normal_at j)))) p) (ex_intro _ y Q)) as [z R]. eauto.
    + intros (i & y & I & Q). destruct (proj2 (proj1 (proj2 (proj2 (proj2 (normal_at i)))) p) (ex_intro _ y Q)) as [z R]. exists (normal i), z. split; [now apply in_map|exact R].
  - intros p i y z I Q R. destruct (proj2 (proj2 (proj2 (proj2 (normal_at i)))) p y Q) as (w & W1 & W2). rewrite <- W2. eapply F; [apply in_map, I|exact W1|exact R].
Qed.
Lemma wf_normal i : well_formed i -> well_formed (normal i).
Proof using. intros W p. rewrite (proj1 (proj2 (proj2 (normal_at i)))). apply W. Qed.

Lemma good_arr k l : l <> [] -> (forall i, In i l -> bucket_of i = BArr k) -> good (IArr k (concat (map elems l))) l.
Proof using.
  intros Ne H. assert (NS : forall i, In i l -> forall s, i <> ISt s) by (intros i I s ->; specialize (H _ I); discriminate).
  assert (ND : forall i, In i l -> forall d, i <> IDs d) by (intros i I s ->; specialize (H _ I); discriminate).
  split.
  - intros [|n q].
    + unfold elems_at at 1. cbn [get]. f_equal. 
    + symmetry. apply concat_nil. intros i I. unfold elems_at. destruct (get (n :: q) i) eqn:E; [|reflexivity]. apply get_leaf in E; [destruct E; discriminate|exact (NS _ I)].
  - intros p. rewrite (concat_nil (datasets_at p) l).
    + destruct p; reflexivity.
    + intros i I. unfold datasets_at. destruct (get p i) eqn:E; [|reflexivity]. apply get_leaf in E; [|exact (NS _ I)]. destruct E as [_ ->]. destruct i; try reflexivity. exfalso. now apply (ND _ I d).
  - intros p. rewrite (concat_nil (names_at p) l).
    + destruct p; reflexivity.
    + intros i I. unfold names_at. destruct (get p i) eqn:E; [|reflexivity]. apply get_leaf in E; [|exact (NS _ I)]. destruct E as [_ ->]. destruct i; try reflexivity. exfalso. now apply (NS _ I its).
  - intros [|n q]; cbn [get]; split.
    + intros _. destruct l as [|i l]; [congruence|]. exists i, i. split; [now left|reflexivity].
    + eauto.
    + intros [y Q]; discriminate.
    + intros (i & y & I & Q). change (get (n :: q) i = Some y) in Q. apply get_leaf in Q; [destruct Q; discriminate|exact (NS _ I)].
  - intros p i y z I Q R. apply get_leaf in Q; [|exact (NS _ I)]. destruct Q as [-> ->]. cbn [get] in R. injection R as <-. symmetry. exact (H _ I).
Qed.
Lemma good_dss l d : 2 <= length l -> (forall i, In i l -> bucket_of i = BDs) -> ds_stack (concat (map datasets l)) = Some d -> good (IDs d) l.
Proof using.
  intros Ne H E0. assert (K : forall i, In i l -> exists e, i = IDs e) by (intros i I; specialize (H _ I); destruct i; try discriminate; eauto).
  assert (NS : forall i, In i l -> forall s, i <> ISt s) by (intros i I s ->; destruct (K _ I); discriminate).
  assert (L : length (concat (map datasets l)) = length l).
  { clear - K. induction l as [|i l IH]; [reflexivity|]. destruct (K i (or_introl eq_refl)) as [e ->]. cbn. f_equal. apply IH. intros; apply K; now right. }
  split.
  - intros p. rewrite concat_nil; [destruct p; reflexivity|]. intros i I. unfold elems_at. destruct (get p i) eqn:E; [|reflexivity]. apply get_leaf in E; [|exact (NS _ I)]. destruct E as [_ ->]. destruct (K _ I) as [e ->]. reflexivity.
  - intros [|n q].
    + replace (concat (map (datasets_at []) l)) with (concat (map datasets l)) by reflexivity. destruct (concat (map datasets l)) as [|d1 [|d2 r]]; [cbn in L; lia|cbn in L; lia|]. exists d. split; [exact E0|reflexivity].
    + rewrite concat_nil; [reflexivity|]. intros i I. unfold datasets_at. destruct (get (n :: q) i) eqn:E; [|reflexivity]. apply get_leaf in E; [destruct E; discriminate|exact (NS _ I)].
  - intros p. rewrite concat_nil; [destruct p; reflexivity|]. intros i I. unfold names_at. destruct (get p i) eqn:E; [|reflexivity]. apply get_leaf in E; [|exact (NS _ I)]. destruct E as [_ ->]. destruct (K _ I) as [e ->]. reflexivity.
  - intros [|n q]; cbn [get]; split.
    + intros _. destruct l as [|i l]; [cbn in Ne; lia|]. exists i, i. split; [now left|reflexivity].
    + eauto.
    + intros [y Q]; discriminate.
    + intros (i & y & I & Q). change (get (n :: q) i = Some y) in Q. apply get_leaf in Q; [destruct Q; discriminate|exact (NS _ I)].
  - intros p i y z I Q R. apply get_leaf in Q; [|exact (NS _ I)]. destruct Q as [-> ->]. cbn [get] in R. injection R as <-. symmetry. exact (H _ I).
Qed.

Definition shallow (n : nat) i : Prop := forall p y, get p i = Some y -> length p <= n.
Lemma dget_nodup_names (s : list (name * item X D)) : well_formed (ISt s) -> NoDup (map fst s).
Proof using. intros W. exact (W []). Qed.
Lemma wf_child k s j : well_formed (ISt s) -> dget k s = Some j -> well_formed j.
Proof using. intros W E p. specialize (W (k :: p)). unfold names_at in *. rewrite get_cons, E in W. exact W. Qed.
Lemma agree_child k ls : agree (map ISt ls) -> agree (occ k ls).
Proof using.
  intros A p i j x y I J Q R. apply in_occ in I. apply in_occ in J. destruct I as (s & I & Es). destruct J as (t & J & Et).
  apply (A (k :: p) (ISt s) (ISt t)); [now apply in_map|now apply in_map|rewrite get_cons, Es; exact Q|rewrite get_cons, Et; exact R].
Qed.
Lemma shallow_child n k s j : shallow n (ISt s) -> dget k s = Some j -> exists m, n = S m /\ shallow m j.
Proof using.
  intros H E. destruct n as [|m].
  - exfalso. specialize (H [k] j). rewrite get_cons, E in H. specialize (H eq_refl). cbn in H. lia.
  - exists m. split; [reflexivity|]. intros p y Q. specialize (H (k :: p) y). rewrite get_cons, E in H. specialize (H Q). cbn in H. lia.
Qed.

Theorem hstack_good fuel : forall ls, ls <> [] -> (forall s, In s ls -> well_formed (ISt s)) -> (forall s, In s ls -> shallow fuel (ISt s)) -> agree (map ISt ls) ->
  exists r, hstack_f ds_stack fuel ls = Some r /\ good (ISt r) (map ISt ls).
Proof using ds_total.
  induction fuel as [fuel IHf] using lt_wf_ind. intros ls Ne W Sh Ag.
  destruct (Nat.eq_dec (length ls) 1) as [L1|L1].
  { destruct ls as [|s [|s' r]]; try discriminate. exists s. split; [destruct fuel; reflexivity|]. apply good_one, W. now left. }
  assert (L2 : 2 <= length ls) by (destruct ls as [|s [|s' r]]; cbn in *; try congruence; lia).
  rewrite (hstack_eq fuel ls L2).
  (* one item *)
  assert (P : forall k, occ k ls <> [] -> exists b x, (forall j, In j (occ k ls) -> bucket_of j = b) /\ stack_ fuel b (map normal (occ k ls)) = Some x /\ good x (occ k ls)).
  { intros k Nk. set (l := occ k ls) in *.
    assert (Wl : forall j, In j l -> well_formed j) by (intros j I; apply in_occ in I; destruct I as (s & I & E); exact (wf_child k s j (W s I) E)).
    assert (Al : agree l) by apply agree_child, Ag.
    assert (Hb : exists b, forall j, In j l -> bucket_of j = b).
    { destruct l as [|j0 l0]; [congruence|]. exists (bucket_of j0). intros j I. apply (Al [] j j0); [exact I|now left|reflexivity|reflexivity]. }
    destruct Hb as [b Hb]. exists b.
    assert (Hbn : forall j, In j (map normal l) -> bucket_of j = b) by (intros j I; apply in_map_iff in I; destruct I as (j' & <- & I); rewrite <- (Hb j' I); destruct j'; reflexivity).
    assert (Shl : forall j, In j l -> exists m, fuel = S m /\ shallow m j) by (intros j I; apply in_occ in I; destruct I as (s & I & E); exact (shallow_child fuel k s j (Sh s I) E)).
    destruct (Nat.eq_dec (length l) 1) as [K1|K1].
    { destruct l as [|j [|j' l']]; try discriminate. exists (normal j). split; [exact Hb|]. split; [reflexivity|]. apply good_normal. apply good_one, wf_normal, Wl. now left. }
    assert (K2 : 2 <= length (map normal l)) by (rewrite map_length; destruct l as [|j [|j' l']]; cbn in *; try congruence; lia).
    assert (Nn : map normal l <> []) by (destruct (map normal l); [cbn in K2; lia|discriminate]).
    assert (Es : stack_ fuel b (map normal l) = match b with
         | BArr k => Some (IArr k (concat (map elems (map normal l))))
         | BDs => option_map IDs (ds_stack (concat (map datasets (map normal l))))
         | BSt => match fuel with O => None | S f => option_map ISt (hstack_f ds_stack f (map items_of (map normal l))) end
         end) by (destruct (map normal l) as [|a [|a' r]]; [cbn in K2; lia|cbn in K2; lia|reflexivity]).
    destruct b as [kk| |].
    - exists (IArr kk (concat (map elems (map normal l)))). split; [exact Hb|]. split; [exact Es|]. apply good_normal, good_arr; assumption.
    - destruct (ds_stack (concat (map datasets (map normal l)))) as [d|] eqn:Ed.
      + exists (IDs d). split; [exact Hb|]. split; [exact Es|]. apply good_normal, good_dss; assumption.
      + exfalso. apply ds_total in Ed; [exact Ed|]. assert (Hl : forall i, In i (map normal l) -> exists e, i = IDs e) by (intros i I; specialize (Hbn _ I); destruct i; try discriminate; eauto).
        revert K2 Hl. clear. intros K2 Hl. assert (L : length (concat (map datasets (map normal l))) = length (map normal l)); [|lia]. revert Hl. generalize (map normal l) as m. induction m as [|i m IH]; intros Hl; [reflexivity|]. destruct (Hl i (or_introl eq_refl)) as [e ->]. cbn. f_equal. apply IH. intros; apply Hl; now right.
    - assert (Ef : exists m, fuel = S m /\ forall j, In j l -> shallow m j).
      { destruct fuel as [|m]; [destruct l as [|j l']; [congruence|]; destruct (Shl j (or_introl eq_refl)) as (m & E & _); discriminate|]. exists m. split; [reflexivity|]. intros j I. destruct (Shl j I) as (m' & E & Q). injection E as <-. exact Q. }
      destruct Ef as (m & -> & Hm).
      assert (St : forall j, In j l -> j = ISt (items_of j)) by (intros j I; specialize (Hb _ I); destruct j; try discriminate; reflexivity).
      assert (Nm : map normal l = l) by (rewrite <- (map_id l) at 2; apply map_ext_in; intros j I; rewrite (St j I); reflexivity).
      assert (Ms : map ISt (map items_of l) = l) by (rewrite map_map; rewrite <- (map_id l) at 2; apply map_ext_in; intros j I; symmetry; apply St, I).
      destruct (IHf m ltac:(lia) (map items_of l)) as (r & Er & Gr).
      + destruct l; [congruence|discriminate].
      + intros s I. apply in_map_iff in I. destruct I as (j & <- & I). rewrite <- (St j I). exact (Wl j I).
      + intros s I. apply in_map_iff in I. destruct I as (j & <- & I). rewrite <- (St j I). exact (Hm j I).
      + rewrite Ms. exact Al.
      + exists (ISt r). split; [exact Hb|]. rewrite Es, Nm, Er. split; [reflexivity|]. rewrite Ms in Gr. exact Gr. }
  (* every entry *)
  assert (Ent : forall k v, In (k, v) (entries fuel ls) -> exists b x, (forall j, In j (occ k ls) -> bucket_of j = b) /\ stack_ fuel b (map normal (occ k ls)) = Some x /\ good x (occ k ls) /\ v = Some x).
  { intros k v I. unfold entries in I. apply in_flat_map in I. destruct I as ([b d] & I & J). apply in_map_iff in J. destruct J as ([k' l] & E & J). cbn [fst snd] in *. injection E as -> <-.
    pose proof (bget_in _ _ _ _ _ (collect_ok ls) I J) as Bg. pose proof (bo_lists _ (collect_ok ls) _ _ _ _ I J) as Nl.
    assert (Nd : forall s, In s ls -> NoDup (map fst s)) by (intros s Is; apply dget_nodup_names, W, Is).
    assert (Ex : exists j, In j (occ k ls) /\ bucket_of j = b).
    { rewrite collect_get in Bg. destruct (filter (here b k) (concat ls)) as [|[n j] fr] eqn:Ef; [cbn in Bg; congruence|].
      assert (In (n, j) (filter (here b k) (concat ls))) as Q by (rewrite Ef; now left). apply filter_In in Q. destruct Q as [Q1 Q2]. unfold here in Q2. cbn [fst snd] in Q2. destruct (name_dec n k) as [->|]; [|discriminate]. destruct (bucket_dec (bucket_of j) b); [|discriminate].
      apply in_concat in Q1. destruct Q1 as (s & Is & Q1). exists j. split; [|assumption]. apply in_occ. exists s. split; [exact Is|]. apply dget_in; [apply Nd, Is|exact Q1]. }
    destruct Ex as (j & Ij & Ej). destruct (P k) as (b' & x & Hb & Es & G); [intros Z; rewrite Z in Ij; destruct Ij|]. assert (b' = b) by (rewrite <- Ej; symmetry; apply Hb, Ij). subst b'.
    exists b, x. split; [exact Hb|]. split; [exact Es|]. split; [exact G|]. rewrite <- Bg. rewrite (collect_occ b k ls Nd Hb). exact Es. }
  destruct (all_or_none_some (entries fuel ls)) as (es & Ee & Me); [intros k v I Z; destruct (Ent k v I) as (b & x & _ & _ & _ & E); congruence|].
  rewrite Ee. cbn [option_map]. exists (finish ls es). split; [reflexivity|].
  set (final := fold_left (fun d p => dset (fst p) (snd p) d) es []).
  assert (Fin : forall k, occ k ls <> [] -> exists x, dget k final = Some x /\ good x (occ k ls)).
  { intros k Nk. destruct (P k Nk) as (b & x & Hb & Es & G). exists x. split; [|exact G]. unfold final. rewrite fold_dset_get.
    assert (Nd : forall s, In s ls -> NoDup (map fst s)) by (intros s Is; apply dget_nodup_names, W, Is).
    assert (Ik : In (k, Some x) (entries fuel ls)).
    { pose proof (collect_occ b k ls Nd Hb) as Q. destruct (bget_ex (collect ls) b k) as (d & I & J); [rewrite Q; destruct (occ k ls); [congruence|discriminate]|].
      unfold entries. apply in_flat_map. exists (b, d). split; [exact I|]. apply in_map_iff. exists (k, bget b k (collect ls)). split; [|exact J]. cbn [fst snd]. rewrite Q, Es. reflexivity. }
    rewrite <- Me in Ik. apply in_map_iff in Ik. destruct Ik as ([k' x'] & E & Ik). cbn [fst snd] in E. injection E as -> ->.
    destruct (find (fun p => if name_dec (fst p) k then true else false) (rev es)) as [[k' x']|] eqn:Ef.
    - apply find_some in Ef. destruct Ef as [Ef1 Ef2]. cbn [fst] in Ef2. destruct (name_dec k' k) as [->|]; [|discriminate]. apply in_rev in Ef1. cbn [snd]. f_equal.
      assert (Q : In (k, Some x') (entries fuel ls)) by (rewrite <- Me; apply in_map_iff; exists (k, x'); auto). destruct (Ent _ _ Q) as (b2 & x2 & Hb2 & Es2 & _ & E2). injection E2 as ->.
      assert (b2 = b) by (destruct (occ k ls) as [|j l]; [congruence|]; rewrite <- (Hb j), <- (Hb2 j); auto; now left). subst b2. congruence.
    - exfalso. apply in_rev in Ik. pose proof (find_none _ _ Ef _ Ik) as Q. cbn [fst] in Q. destruct (name_dec k k); congruence. }
  assert (Occ : forall k, In k (map fst (concat ls)) <-> occ k ls <> []).
  { intros k. split.
    - intros I. apply in_map_iff in I. destruct I as ([n j] & <- & I). cbn [fst]. apply in_concat in I. destruct I as (s & Is & I). intros Z. assert (Q : In j (occ n ls)) by (apply in_occ; exists s; split; [exact Is|apply dget_in; [apply dget_nodup_names, W, Is|exact I]]). rewrite Z in Q. destruct Q.
    - intros Nk. destruct (occ k ls) as [|j l] eqn:E; [congruence|]. assert (Q : In j (occ k ls)) by (rewrite E; now left). apply in_occ in Q. destruct Q as (s & Is & Q). apply dget_some_in in Q. change k with (fst (k, j)). apply in_map. apply in_concat. eauto. }
  assert (Names : forall ks, (forall k, In k ks -> occ k ls <> []) -> map fst (flat_map (fun k => match dget k final with Some i => [(k, i)] | None => [] end) ks) = ks /\
     forall k, dget k (flat_map (fun k => match dget k final with Some i => [(k, i)] | None => [] end) ks) = if in_dec name_dec k ks then dget k final else None).
  { induction ks as [|k0 ks IH]; intros H; [split; [reflexivity|intros k; reflexivity]|]. destruct (Fin k0 (H k0 (or_introl eq_refl))) as (x0 & E0 & _). destruct IH as [I1 I2]; [intros; apply H; now right|].
    cbn [flat_map]. rewrite E0. cbn [app map fst]. split; [now rewrite I1|]. intros k. cbn [dget]. destruct (name_dec k0 k) as [->|N].
    - destruct (in_dec name_dec k (k :: ks)) as [|K]; [now rewrite E0|exfalso; apply K; now left].
    - rewrite I2. destruct (in_dec name_dec k ks) as [K|K]; destruct (in_dec name_dec k (k0 :: ks)) as [K'|K']; try reflexivity; [exfalso; apply K'; now right|exfalso; destruct K'; congruence]. }
  destruct (Names (all_keys ls)) as [Nm Gt]; [intros k I; apply (proj1 (Occ k)); rewrite all_keys_firsts in I; exact (proj1 (firsts_in _ _) I)|].
  apply good_box; [|intros k|exact Ne].
  - unfold finish. fold final. rewrite Nm. apply all_keys_firsts.
  - unfold finish. fold final. rewrite Gt. destruct (in_dec name_dec k (all_keys ls)) as [I|I].
    + right. apply Fin, (proj1 (Occ k)). rewrite all_keys_firsts in I. exact (proj1 (firsts_in _ _) I).
    + left. split; [|reflexivity]. destruct (occ k ls) as [|j l] eqn:E; [reflexivity|]. exfalso. apply I. rewrite all_keys_firsts. apply (proj2 (firsts_in _ _)), (proj2 (Occ k)). rewrite E. discriminate.
Qed.

(** the fuel *)
Lemma depth_path p : forall i y, get p i = Some y -> length p <= depth i.
Proof using.
  induction p as [|k q IH]; intros i y E; [cbn; lia|]. destruct i as [| | |its]; cbn [get] in E; try discriminate. destruct (dget k its) as [j|] eqn:Ej; [|discriminate]. apply IH in E. cbn [length depth]. apply le_n_S. etransitivity; [exact E|].
  apply dget_some_in in Ej. clear - Ej. induction its as [|[n v] r IH]; [destruct Ej|]. destruct Ej as [Q|Q]; [injection Q as -> ->; lia|]. specialize (IH Q). lia.
Qed.
Theorem hstack_struct_good ls : ls <> [] -> (forall s, In s ls -> well_formed (ISt s)) -> agree (map ISt ls) ->
  exists r, hstack_struct ds_stack ls = Some r /\ good (ISt r) (map ISt ls).
Proof using ds_total.
  intros Ne W A. apply hstack_good; auto. intros s I p y E. apply depth_path in E. etransitivity; [exact E|].
  clear - I. induction ls as [|t ls IH]; [destruct I|]. cbn [map list_max fold_right]. destruct I as [->|I]; [lia|]. specialize (IH I). unfold list_max in IH. lia.
Qed.
End Stack.
