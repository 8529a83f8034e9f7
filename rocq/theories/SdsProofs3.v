(** Proofs about loading a directory: the two-pass load reads the same as the direct one. *)
From Coq Require Import List Arith Bool Lia Permutation.
From Verif Require Import FlattenModel DsModel SdsModel SdsSpec FlattenProofs DsProofs3 AggProofs2 SdsProofs SdsProofs2.
Import ListNotations.

Section Load.
Context {A M L : Type}.
Variable no_labels : L.
Notation item := (item A M L).
Notation file := (file A M L).
Notation dir := (dir A M L).
Variable ds_put : list (name * item) -> name -> item -> option (list (name * item)).
Notation direct := (direct no_labels ds_put).
Notation build := (build no_labels ds_put).

(** ---------- the loops as functions of their own ---------- *)
Definition each_d (f : name -> schema -> option item) (ds : bool) :=
  fix each (l : list (name * schema)) (data : list (name * item)) : option (list (name * item)) :=
    match l with
    | [] => Some data
    | (k', s') :: r =>
        match f k' s' with
        | Some v => match put ds_put ds data k' v with Some data' => each r data' | None => None end
        | None => None
        end
    end.
Definition each_b (f : name -> schema -> nat -> option item * nat) (ds : bool) :=
  fix each (l : list (name * schema)) (data : list (name * item)) (i : nat) : option (list (name * item)) * nat :=
    match l with
    | [] => (Some data, i)
    | (k', s') :: r =>
        match f k' s' i with
        | (Some v, i') => match put ds_put ds data k' v with Some data' => each r data' i' | None => (None, i') end
        | (None, i') => (None, i')
        end
    end.
Lemma direct_eq d pre k s : direct d pre k s =
  match (if has d (under pre k) then match dget (under pre k) d with Some f => read_file f | None => None end else Some (Sub false no_labels [])) with
  | None => None
  | Some it => if is_array it then Some it
               else match it with
                    | Sub ds lab data => option_map (Sub ds lab) (each_d (direct d (Some (under pre k))) ds (kids_of s) data)
                    | _ => match kids_of s with [] => Some it | _ => None end
                    end
  end.
Proof. destruct s. reflexivity. Qed.
Lemma build_eq d m pre k s i : build d m pre k s i =
  match (if has d (under pre k)
         then match nth_error m i with
              | Some f => match read_file f with Some it => (Some it, S i) | None => (None, i) end
              | None => (None, i)
              end
         else (Some (Sub false no_labels []), i)) with
  | (None, i) => (None, i)
  | (Some it, i) =>
      if is_array it then (Some it, i)
      else match it with
           | Sub ds lab data => let '(r, j) := each_b (build d m (Some (under pre k))) ds (kids_of s) data i in (option_map (Sub ds lab) r, j)
           | _ => match kids_of s with [] => (Some it, i) | _ => (None, i) end
           end
  end.
Proof. destruct s. reflexivity. Qed.
Lemma collect_eq (d : dir) pre k s : collect d pre k s =
  (if has d (under pre k) then [under pre k] else []) ++ flat_map (fun ks => collect d (Some (under pre k)) (fst ks) (snd ks)) (kids_of s).
Proof.
  destruct s as [kids]. cbn [collect kids_of]. f_equal. induction kids as [|[k' s'] r IH]; [reflexivity|].
  cbn [flat_map fst snd]. rewrite <- IH. reflexivity.
Qed.

Lemma has_get (d : dir) n : has d n = true <-> exists f, dget n d = Some f.
Proof.
  unfold has. rewrite mem_in. split; [apply dget_has|]. intros [f G]. apply dget_some_in in G. apply in_map_iff. exists (n, f). easy.
Qed.
Lemma has_not (d : dir) n : has d n = false <-> dget n d = None.
Proof. unfold has. rewrite mem_not, dget_none. reflexivity. Qed.

(** the files of the tree below [p] *)
Definition below (d : dir) (p : list name) : list name -> Prop := fun q => exists f, In f (map fst d) /\ split_bang f = p ++ q.
Lemma below_step (d : dir) p k s : sch_ok (fun q => below d p (k :: q)) s -> sch_ok (below d (p ++ [k])) s.
Proof. apply sch_ext. intros q. unfold below. rewrite <- app_assoc. reflexivity. Qed.

(** ---------- a clean directory ---------- *)
Lemma clean_read (d : dir) n f : clean d -> dget n d = Some f -> exists it, read_file f = Some it.
Proof. intros [_ C] G. apply dget_some_in in G. destruct (C n f G) as [it [E _]]. now exists it. Qed.
Lemma no_kids (d : dir) p s f it : clean d -> p <> [] -> sch_ok (below d p) s -> dget (join p) d = Some f -> read_file f = Some it ->
  (exists lab its, it = Sub false lab its) \/ kids_of s = [].
Proof.
  intros [_ C] Np H G E. apply dget_some_in in G. destruct (C _ f G) as [it' [E' [_ [S|S]]]].
  - left. rewrite E in E'. injection E' as <-. exact S.
  - right. inversion H as [P kids N1 N2 N3 E1 E2]; subst. cbn [kids_of]. destruct kids as [|[k s] r]; [reflexivity|exfalso].
    assert (I : In k (map fst ((k, s) :: r))) by now left. apply N2 in I. destruct I as [q [g [I J]]].
    rewrite <- (join_split g), J, (join_app p (k :: q) Np) in I by easy. exact (S _ I).
Qed.

Lemma under_clean (d : dir) p k s f it : clean d -> sch_ok (below d (p ++ [k])) s -> dget (under (pre_of p) k) d = Some f -> read_file f = Some it ->
  (exists lab its, it = Sub false lab its) \/ kids_of s = [].
Proof.
  intros C H G E. rewrite under_pre in G. apply (no_kids d (p ++ [k]) s f it C); try assumption. destruct p; easy.
Qed.

(** ---------- the two passes ---------- *)
Lemma nth_error_mid {X} (l1 : list X) x l2 : nth_error (l1 ++ x :: l2) (length l1) = Some x.
Proof. rewrite nth_error_app2, Nat.sub_diag by lia. reflexivity. Qed.
Definition files_of (d : dir) (ns : list name) : list file := flat_map (fun n => match dget n d with Some f => [f] | None => [] end) ns.
Lemma files_app (d : dir) a b : files_of d (a ++ b) = files_of d a ++ files_of d b.
Proof. apply flat_map_app. Qed.
Lemma each_two (d : dir) m fn kids : forall ds data data' l1 l2 p, pre_of p = Some fn -> clean d ->
  (forall k s, In (k, s) kids -> forall it l1 l2, m = l1 ++ files_of d (collect d (Some fn) k s) ++ l2 -> direct d (Some fn) k s = Some it ->
     build d m (Some fn) k s (length l1) = (Some it, length l1 + length (files_of d (collect d (Some fn) k s)))) ->
  m = l1 ++ files_of d (flat_map (fun ks => collect d (Some fn) (fst ks) (snd ks)) kids) ++ l2 ->
  each_d (direct d (Some fn)) ds kids data = Some data' ->
  each_b (build d m (Some fn)) ds kids data (length l1) =
    (Some data', length l1 + length (files_of d (flat_map (fun ks => collect d (Some fn) (fst ks) (snd ks)) kids))).
Proof.
  induction kids as [|[k s] r IH]; intros ds data data' l1 l2 p Hp C B Em E.
  - cbn in E |- *. rewrite Nat.add_0_r. congruence.
  - cbn [flat_map fst snd] in Em |- *. rewrite files_app in Em |- *.
    cbn [each_d] in E. destruct (direct d (Some fn) k s) as [v|] eqn:V; [|discriminate].
    destruct (put ds_put ds data k v) as [data1|] eqn:P; [|discriminate].
    cbn [each_b]. rewrite <- app_assoc in Em.
    rewrite (B k s (or_introl eq_refl) v l1 _ Em V), P.
    assert (Em2 : m = (l1 ++ files_of d (collect d (Some fn) k s)) ++ files_of d (flat_map (fun ks => collect d (Some fn) (fst ks) (snd ks)) r) ++ l2)
      by (rewrite <- app_assoc; exact Em).
    rewrite <- app_length.
    rewrite (IH ds data1 data' _ l2 p Hp C (fun k s I => B k s (or_intror I)) Em2 E).
    rewrite !app_length. f_equal. lia.
Qed.
Lemma build_direct (d : dir) m : clean d -> forall s p k it l1 l2, sch_ok (below d (p ++ [k])) s ->
  m = l1 ++ files_of d (collect d (pre_of p) k s) ++ l2 -> direct d (pre_of p) k s = Some it ->
  build d m (pre_of p) k s (length l1) = (Some it, length l1 + length (files_of d (collect d (pre_of p) k s))).
Proof.
  intros C s. induction s as [kids IH] using schema_rect'. intros p k it l1 l2 H Em E.
  rewrite collect_eq, files_app in Em |- *. rewrite direct_eq in E. rewrite build_eq.
  set (fn := under (pre_of p) k) in *.
  assert (Hk : forall m', m' = m -> forall k' s', In (k', s') kids -> forall it l1 l2, m' = l1 ++ files_of d (collect d (Some fn) k' s') ++ l2 ->
     direct d (Some fn) k' s' = Some it -> build d m' (Some fn) k' s' (length l1) = (Some it, length l1 + length (files_of d (collect d (Some fn) k' s')))).
  { intros m' -> k' s' I it' l1' l2' Em' E'. unfold fn in *. rewrite <- pre_snoc in *.
    apply (IH k' s' I (p ++ [k]) k' it' l1' l2'); try assumption.
    inversion H as [P kk N1 N2 N3 E1 E2]; subst. apply below_step. exact (N3 k' s' I). }
  destruct (has d fn) eqn:Hf.
  - apply has_get in Hf. destruct Hf as [f G]. rewrite G in E.
    cbn [files_of flat_map] in Em |- *. rewrite G in Em |- *. cbn [app] in Em |- *.
    change (flat_map (fun n => match dget n d with Some f => [f] | None => [] end)) with (files_of d) in *.
    assert (Nx : nth_error m (length l1) = Some f) by (rewrite Em; apply nth_error_mid).
    rewrite Nx. destruct (read_file f) as [it0|] eqn:R; [|discriminate].
    destruct (under_clean d p k _ f it0 C H G R) as [[lab [data ->]]|Z].
    + cbn [is_array] in E |- *. cbn [kids_of] in E |- *.
      destruct (each_d (direct d (Some fn)) false kids data) as [data'|] eqn:D; [|discriminate].
      assert (Em2 : m = (l1 ++ [f]) ++ files_of d (flat_map (fun ks => collect d (Some fn) (fst ks) (snd ks)) kids) ++ l2)
        by (rewrite <- app_assoc; exact Em).
      pose proof (each_two d m fn kids false data data' (l1 ++ [f]) l2 (p ++ [k]) (pre_snoc p k) C (Hk m eq_refl) Em2 D) as T.
      rewrite app_length in T. cbn [length] in T. rewrite Nat.add_1_r in T. rewrite T.
      cbn [option_map] in E |- *. injection E as <-. cbn [length]. f_equal. lia.
    + cbn [kids_of] in Z. subst kids. cbn [kids_of flat_map files_of length app] in *.
      destruct it0 as [a|a|mm a cols|ds lab data|]; cbn [is_array each_d each_b option_map] in E |- *; injection E as <-; f_equal; lia.
  - cbn [files_of flat_map app] in Em |- *. change (flat_map (fun n => match dget n d with Some f => [f] | None => [] end)) with (files_of d) in *.
    cbn [is_array kids_of] in E |- *. cbn [kids_of] in Em.
    destruct (each_d (direct d (Some fn)) false kids []) as [data'|] eqn:D; [|discriminate].
    rewrite (each_two d m fn kids false [] data' l1 l2 (p ++ [k]) (pre_snoc p k) C (Hk m eq_refl) Em D).
    cbn [option_map] in E |- *. injection E as <-. reflexivity.
Qed.

(** ---------- the direct load of a clean directory ---------- *)
Lemma each_ok f kids : forall data, (forall k s, In (k, s) kids -> exists v, f k s = Some v) -> exists vs,
  each_d f false kids data = Some (dset_all vs data) /\ map fst vs = map fst kids /\
  forall k v, In (k, v) vs -> exists s, In (k, s) kids /\ f k s = Some v.
Proof.
  induction kids as [|[k s] r IH]; intros data H; [exists []; repeat split; try reflexivity; intros k v []|].
  destruct (H k s (or_introl eq_refl)) as [v V]. destruct (IH (dset k v data) (fun k s I => H k s (or_intror I))) as [vs [E [Nm S]]].
  exists ((k, v) :: vs). cbn [each_d]. rewrite V. unfold put. fold (each_d f false). split; [exact E|split].
  - cbn [map fst]. now rewrite Nm.
  - intros k' v' [I|I]; [injection I as <- <-; exists s; split; [now left|exact V]|]. destruct (S k' v' I) as [s' [I' E']]. exists s'. split; [now right|exact E'].
Qed.
(** the items read from a file are not containers *)
Lemma read_cell_flat c st : (forall k v, In (k, v) (fst st) -> is_box v = false) -> NoDup (map fst (fst st)) ->
  NoDup (map fst (fst (@read_cell A M L st c))) /\ forall k v, In (k, v) (fst (read_cell st c)) -> is_box v = false.
Proof.
  destruct st as [data sp], c as [[k0 fl] x]. intros H N. cbn [fst] in H, N.
  destruct fl; [destruct x| destruct x| |]; cbn [read_cell fst]; try (split; [exact N|exact H]).
  all: split; [apply DsProofs3.dset_nodup; exact N|].
  all: intros k v I; apply (in_dset _ _ _ N) in I; destruct I as [[_ ->]|[_ I]]; [reflexivity|exact (H k v I)].
Qed.
Lemma read_items_flat (f : file) data : read_items f = Some data -> NoDup (map fst data) /\ forall k v, In (k, v) data -> is_box v = false.
Proof.
  unfold read_items. intros E.
  assert (G : forall cs st, (forall k v, In (k, v) (fst st) -> is_box v = false) -> NoDup (map fst (fst st)) ->
    NoDup (map fst (fst (fold_left (@read_cell A M L) cs st))) /\ forall k v, In (k, v) (fst (fold_left read_cell cs st)) -> is_box v = false).
  { induction cs as [|c r IH]; intros st H N; cbn [fold_left]; [easy|].
    destruct (read_cell_flat c st H N) as [N' H']. exact (IH _ H' N'). }
  destruct (fold_left read_cell (f_cells f) ([], [])) as [data0 sp] eqn:D.
  specialize (G (f_cells f) ([], [])). rewrite D in G. destruct G as [N0 H0]; [intros k v []|constructor|]. cbn [fst] in N0, H0.
  clear D. revert data0 N0 H0 E. induction (f_metas f) as [|[k m] r IH]; intros data0 N0 H0 E; cbn [fold_left] in E; [injection E as <-; easy|].
  destruct (read_meta sp (Some data0) (k, m)) as [d1|] eqn:R.
  - apply (IH d1); [| |exact E].
    + cbn [read_meta fst snd] in R. destruct (dget k data0) as [[]|]; try discriminate; [|congruence].
      destruct (all_some _) in R; [|discriminate]. injection R as <-. apply DsProofs3.dset_nodup. exact N0.
    + cbn [read_meta fst snd] in R. destruct (dget k data0) as [[]|]; try discriminate; [|injection R as <-; exact H0].
      destruct (all_some _) in R; [|discriminate]. injection R as <-. intros k' v' I. apply (in_dset _ _ _ N0) in I.
      destruct I as [[_ ->]|[_ I]]; [reflexivity|exact (H0 k' v' I)].
  - exfalso. clear -E. induction r as [|x r IH]; [discriminate|exact (IH E)].
Qed.
Lemma read_file_flat (f : file) ds lab data : read_file f = Some (Sub ds lab data) ->
  read_items f = Some data /\ ds = is_ds (f_type f) /\ lab = f_labels f /\ NoDup (map fst data) /\ forall k v, In (k, v) data -> is_box v = false.
Proof.
  unfold read_file. destruct (read_items f) as [data0|] eqn:R; [|discriminate]. destruct (read_items_flat f data0 R) as [N H].
  destruct (f_type f).
  - intros E. injection E as <- <- <-. repeat split; assumption.
  - intros E. injection E as <- <- <-. repeat split; assumption.
  - destruct data0 as [|[k v] r]; [discriminate|]. intros E. injection E as ->. specialize (H k _ (or_introl eq_refl)). discriminate.
Qed.

(** where the data at a path below [pth] comes from *)
Fixpoint src (d : dir) (pth p : list name) (x : item) : Prop :=
  match p with
  | [] => is_leaf x /\ file_array d pth x
  | k :: q => ((exists t, below d (pth ++ [k]) t) /\ src d (pth ++ [k]) q x) \/
              ((forall t, ~ below d (pth ++ [k]) t) /\ q = [] /\ is_leaf x /\ file_item d pth k x)
  end.
Lemma leaf_flat (v x : item) q : is_box v = false -> leaf_at v q x <-> q = [] /\ v = x /\ is_leaf x.
Proof.
  intros B. destruct q as [|k q]; cbn [leaf_at]; [intuition|]. destruct v; try discriminate; split; [intros []| |intros []| |intros []| |intros []|]; intros [E _]; discriminate.
Qed.
Lemma direct_ok (d : dir) : clean d -> forall s p k, Forall clear_name (p ++ [k]) -> sch_ok (below d (p ++ [k])) s ->
  exists it, direct d (pre_of p) k s = Some it /\ (forall q x, leaf_at it q x <-> src d (p ++ [k]) q x) /\ it <> Nothing /\
    (dget (under (pre_of p) k) d = None -> exists its, it = Sub false no_labels its).
Proof.
  intros C s. induction s as [kids IH] using schema_rect'. intros p k Cl H.
  rewrite direct_eq. set (fn := under (pre_of p) k).
  inversion H as [P kk N1 N2 N3 E1 E2]; subst P kk.
  assert (Hc : forall k' s', In (k', s') kids -> Forall clear_name ((p ++ [k]) ++ [k'])).
  { intros k' s' I. assert (J : In k' (map fst kids)) by (apply in_map_iff; exists (k', s'); easy). apply N2 in J. destruct J as [q [f [_ J]]].
    pose proof (split_clear f) as Z. rewrite J in Z. apply Forall_app in Z. destruct Z as [_ Z]. inversion Z; subst.
    apply Forall_app. split; [exact Cl|]. constructor; [assumption|constructor]. }
  assert (Hk : forall k' s', In (k', s') kids -> exists v, direct d (Some fn) k' s' = Some v).
  { intros k' s' I. unfold fn. rewrite <- pre_snoc. destruct (IH k' s' I (p ++ [k]) k') as [it [E _]]; [exact (Hc k' s' I)|apply below_step; exact (N3 k' s' I)|]. now exists it. }
  assert (Hl : forall k' s' v, In (k', s') kids -> direct d (Some fn) k' s' = Some v -> forall q x, leaf_at v q x <-> src d ((p ++ [k]) ++ [k']) q x).
  { intros k' s' v I E. unfold fn in E. rewrite <- pre_snoc in E. destruct (IH k' s' I (p ++ [k]) k') as [it [E' [F _]]]; [exact (Hc k' s' I)|apply below_step; exact (N3 k' s' I)|].
    rewrite E in E'. injection E' as <-. exact F. }
  (** a Struct with items [data] that the file at this place holds *)
  assert (Main : forall lab data, NoDup (map fst data) -> (forall k v, In (k, v) data -> is_box v = false) ->
    (forall k' x, dget k' data = Some x <-> file_item d (p ++ [k]) k' x) -> (forall x, is_leaf x -> ~ file_array d (p ++ [k]) x) ->
    exists its, each_d (direct d (Some fn)) false kids data = Some its /\ forall q x, leaf_at (Sub false lab its) q x <-> src d (p ++ [k]) q x).
  { intros lab data Nd Fd Gd Ad. destruct (each_ok (direct d (Some fn)) kids data Hk) as [vs [E [Nm S]]].
    exists (dset_all vs data). split; [exact E|]. intros q x. destruct q as [|k' q]; cbn [leaf_at src].
    - split; [intros [<- []]|]. intros [I J]. destruct (Ad x I J).
    - rewrite dget_dset_all by (rewrite Nm; exact N1).
      destruct (dget k' vs) as [v|] eqn:G.
      + apply dget_some_in in G. destruct (S k' v G) as [s' [I' E']]. rewrite (Hl k' s' v I' E' q x).
        assert (J : exists t, below d ((p ++ [k]) ++ [k']) t).
        { assert (In k' (map fst kids)) as J by (apply in_map_iff; exists (k', s'); easy). apply N2 in J. destruct J as [t J]. exists t.
          unfold below in *. rewrite <- !app_assoc in *. exact J. }
        split; [intros K; left; easy|]. intros [[_ K]|[K _]]; [exact K|]. destruct J as [t J]. destruct (K t J).
      + apply dget_none in G. rewrite Nm in G.
        assert (J : forall t, ~ below d ((p ++ [k]) ++ [k']) t).
        { intros t J. apply G. apply N2. exists t. unfold below in *. rewrite <- !app_assoc in *. exact J. }
        split.
        * destruct (dget k' data) as [v|] eqn:Gv; [|intros []]. intros Lf. apply (leaf_flat v x q) in Lf; [|exact (Fd k' v (dget_some_in _ _ _ Gv))].
          destruct Lf as (-> & -> & Lx). right. split; [exact J|split; [reflexivity|split; [exact Lx|]]]. apply Gd. exact Gv.
        * intros [[[t K] _]|(_ & -> & Lx & K)]; [destruct (J t K)|]. apply Gd in K. rewrite K. cbn [leaf_at]. easy. }
  assert (Ej : fn = join (p ++ [k])) by apply under_pre.
  destruct (has d fn) eqn:Hf.
  - apply has_get in Hf. destruct Hf as [f G]. rewrite G. destruct (clean_read d fn f C G) as [it R]. rewrite R.
    destruct (under_clean d p k _ f it C H G R) as [[lab [data ->]]|Z].
    + cbn [is_array kids_of]. destruct (read_file_flat f false lab data R) as (_ & _ & _ & Nd & Fd).
      destruct (Main lab data Nd Fd) as [its [E F]].
      * intros k' x. split; [intros I; split; [exact Cl|]; exists f, false, lab, data; rewrite <- Ej; easy|].
        intros (_ & f' & ds' & lab' & its' & I1 & I2 & I3). rewrite <- Ej, G in I1. injection I1 as <-. rewrite R in I2. injection I2 as <- <- <-. exact I3.
      * intros x Lx (_ & f' & I1 & I2). rewrite <- Ej, G in I1. injection I1 as <-. rewrite R in I2. injection I2 as <-. exact Lx.
      * rewrite E. eexists. split; [reflexivity|]. split; [exact F|]. split; [discriminate|]. intros Z. discriminate.
    + cbn [kids_of] in Z. subst kids.
      exists it. split; [destruct it as [a|a|mm a cols|ds lab data|]; reflexivity|]. split; [|split; [|discriminate]].
      * intros q x. assert (J : forall k' t, ~ below d ((p ++ [k]) ++ [k']) t).
        { intros k' t J. apply (proj2 (N2 k')). exists t. unfold below in *. rewrite <- !app_assoc in *. exact J. }
        destruct q as [|k' q]; cbn [src].
        -- cbn [leaf_at]. split; [intros [<- Lx]; split; [exact Lx|]; split; [exact Cl|]; exists f; rewrite <- Ej; easy|].
           intros [Lx (_ & f' & I1 & I2)]. rewrite <- Ej, G in I1. injection I1 as <-. rewrite R in I2. injection I2 as <-. easy.
        -- split.
           ++ intros Lf. right. split; [exact (J k')|]. cbn [leaf_at] in Lf. destruct it as [a|a|mm a cols|ds lab data|]; try (destruct Lf; fail).
              destruct (read_file_flat f ds lab data R) as (_ & _ & _ & Nd & Fd).
              destruct (dget k' data) as [v|] eqn:Gv; [|destruct Lf]. apply (leaf_flat v x q) in Lf; [|exact (Fd k' v (dget_some_in _ _ _ Gv))].
              destruct Lf as (-> & -> & Lx). split; [reflexivity|split; [exact Lx|]]. split; [exact Cl|]. exists f, ds, lab, data. rewrite <- Ej. easy.
           ++ intros [[[t K] _]|(_ & -> & Lx & (_ & f' & ds' & lab' & its' & I1 & I2 & I3))]; [destruct (J k' t K)|].
              rewrite <- Ej, G in I1. injection I1 as <-. rewrite R in I2. injection I2 as ->. cbn [leaf_at]. rewrite I3. easy.
      * destruct C as [_ C]. apply dget_some_in in G. destruct (C _ f G) as [it' [R' [NN _]]]. congruence.
  - apply has_not in Hf. cbn [is_array kids_of]. destruct (Main no_labels [] (NoDup_nil _)) as [its [E F]].
    + intros k' v [].
    + intros k' x. split; [discriminate|]. intros (_ & f' & ds' & lab' & its' & I1 & _). rewrite <- Ej, Hf in I1. discriminate.
    + intros x Lx (_ & f' & I1 & _). rewrite <- Ej, Hf in I1. discriminate.
    + rewrite E. eexists. split; [reflexivity|]. split; [exact F|]. split; [discriminate|]. intros _. now exists its.
Qed.
End Load.
