(** Proofs about duplicated, map, replacena and the mask operations. *)
From Coq Require Import List Arith Bool ZArith Lia.
From Verif Require Import GroupModel GroupFacts MergeModel MergeFacts DsModel DsSpec DsProofs ArrModel ArrSpec ArrProofs.
Import ListNotations.

(** ** duplicated *)
Section Dup.
Context {B : Type}.
Variables (keys us : list B) (ikey : list nat).
Hypothesis G : grouping_of (map Some keys) us ikey.
Hypothesis U : forall u, In u us -> In u keys.
Let n := length us.

Lemma in_ifirst i g : nth_error ikey i = Some g -> 1 <= g <= n -> In i (ifirstkey ikey n) <-> i = hd 0 (group_rows ikey g).
Proof.
  intros H Hg. unfold ifirstkey. rewrite in_map_iff. split.
  - intros (k & E & I). apply in_seq in I. pose proof (group_ne keys us ikey G U (S k) ltac:(fold n; lia)) as NE.
    assert (In i (group_rows ikey (S k))) by (destruct (group_rows ikey (S k)); [congruence|cbn in E; subst; now left]).
    apply group_rows_in in H0. assert (g = S k) by congruence. subst. reflexivity.
  - intros E. exists (g - 1). replace (S (g - 1)) with g by lia. split; [now symmetry|]. apply in_seq. lia.
Qed.
Lemma first_clear i : i < length keys -> exists b, nth_error (clear (ifirstkey ikey n) (repeat true (length keys))) i = Some b /\
  (b = true <-> seen_before keys i).
Proof.
  intros Hi. destruct (code_of keys us ikey G i Hi) as (g & Hg & R).
  destruct (clear_true (ifirstkey ikey n) (length keys) i Hi) as (b & E & Q). exists b. split; [exact E|]. rewrite Q.
  rewrite (in_ifirst i g Hg R), (head_spec keys us ikey G U i g Hg R).
  destruct (seen_before_dec keys us ikey G U i Hi); tauto.
Qed.
Lemma in_select {A} (f : A -> bool) (k : nat -> A) (h : nat -> nat) l i :
  In i (select (map (fun g => f (k g)) l) (map h l)) <-> exists g, In g l /\ f (k g) = true /\ h g = i.
Proof.
  induction l as [|g r IH]; cbn [map select]; [split; [intros []|intros (g & [] & _)]|].
  destruct (f (k g)) eqn:E; cbn [In]; rewrite IH; split.
  - intros [H|(g' & H)]; [exists g; tauto|exists g'; tauto].
  - intros (g' & [->|H] & H'); [left; tauto|right; exists g'; tauto].
  - intros (g' & H); exists g'; tauto.
  - intros (g' & [->|H] & H1 & H2); [congruence|exists g'; tauto].
Qed.
Lemma none_clear i : i < length keys ->
  exists b, nth_error (clear (select (map (fun c => c =? 1) (skipn 1 (ncountgroup ikey n))) (ifirstkey ikey n)) (repeat true (length keys))) i = Some b /\
  (b = false <-> ~ seen_before keys i /\ ~ seen_after keys i).
Proof.
  intros Hi. destruct (code_of keys us ikey G i Hi) as (g & Hg & R).
  match goal with |- context [clear ?l (repeat true _)] => set (idx := l) end.
  destruct (clear_true idx (length keys) i Hi) as (b & E & Q). exists b. split; [exact E|].
  assert (M : In i idx <-> i = hd 0 (group_rows ikey g) /\ length (group_rows ikey g) = 1).
  { unfold idx, ncountgroup, ifirstkey. cbn [seq map skipn]. rewrite <- (seq_shift n 0), !map_map.
    rewrite (in_select (fun c => c =? 1) (fun k => length (group_rows ikey (S k)))).
    split.
    - intros (k & I & L & H). apply in_seq in I. apply Nat.eqb_eq in L.
      assert (In i (group_rows ikey (S k))) by (destruct (group_rows ikey (S k)); [discriminate|cbn in H; subst; now left]).
      apply group_rows_in in H0. assert (g = S k) by congruence. subst. tauto.
    - intros (H & L). exists (g - 1). replace (S (g - 1)) with g by lia. rewrite L. split; [apply in_seq; lia|]. split; [reflexivity|now symmetry]. }
  assert (X : b = false <-> In i idx).
  { destruct b; split; intros H; try congruence; [elim (proj1 Q eq_refl H)|].
    destruct (in_dec Nat.eq_dec i idx) as [J|J]; [exact J|]. pose proof (proj2 Q J). discriminate. }
  rewrite X, M, <- (head_spec keys us ikey G U i g Hg R), <- (last_spec keys us ikey G U i g Hg R).
  pose proof (group_rows_increasing ikey g) as Inc. pose proof (group_ne keys us ikey G U g R) as NE.
  destruct (group_rows ikey g) as [|a [|c l]] eqn:Eg; [congruence| |].
  - cbn. intuition.
  - split; [intros (_ & H); discriminate|]. intros (H1 & H2). cbn [hd] in H1. exfalso.
    set (L := length (c :: l)). assert (T : nth_error (a :: c :: l) L = Some (last (a :: c :: l) 0)).
    { rewrite (nth_error_nth' _ 0) by (cbn [length]; unfold L; cbn; lia). f_equal. unfold L. clear.
      generalize (c :: l) as r. intros r. revert a. induction r as [|x r IH]; intros a; [reflexivity|]. cbn [length nth last] in *. apply IH. }
    specialize (Inc 0 L a (last (a :: c :: l) 0) eq_refl T ltac:(unfold L; cbn; lia)). lia.
Qed.
End Dup.

Lemma seen_rev {B} (l : list B) i : i < length l -> (seen_before (rev l) i <-> seen_after l (length l - 1 - i)).
Proof.
  intros H. assert (R : forall j, j < length l -> nth_error (rev l) j = nth_error l (length l - 1 - j)).
  { intros j L. destruct l as [|d0 r0] eqn:El; [cbn in L; lia|]. rewrite <- El in *.
    rewrite (nth_error_nth' (rev l) d0) by (rewrite rev_length; exact L). rewrite rev_nth by exact L.
    rewrite (nth_error_nth' l d0) by lia. f_equal. f_equal. lia. }
  split; intros (j & Lj & E).
  - exists (length l - 1 - j). split; [lia|]. rewrite <- !R by lia. exact E.
  - exists (length l - 1 - j). split; [lia|]. rewrite !R by lia. replace (length l - 1 - (length l - 1 - j)) with j by lia. exact E.
Qed.

Lemma fa_dup {B} (grouping : list B -> nat * list nat) keep (l : list B) :
  (forall arr, groups_of arr (fst (grouping arr)) (snd (grouping arr))) ->
  length (fa_duplicated grouping keep l) = length l /\
  forall i, i < length l -> exists b, nth_error (fa_duplicated grouping keep l) i = Some b /\
    (b = true <-> match keep with
                  | KeepFirst => seen_before l i
                  | KeepLast => seen_after l i
                  | KeepNone => seen_before l i \/ seen_after l i
                  end).
Proof.
  intros GH. unfold fa_duplicated. destruct keep.
  - specialize (GH l). destruct (grouping l) as [n ikey]. cbn [fst snd] in GH. destruct GH as (us & G & En & U). subst n.
    split; [rewrite clear_length; apply repeat_length|]. intros i Hi. exact (first_clear l us ikey G U i Hi).
  - specialize (GH (rev l)). destruct (grouping (rev l)) as [n ikey]. cbn [fst snd] in GH. destruct GH as (us & G & En & U). subst n.
    split; [now rewrite rev_length, clear_length, repeat_length, rev_length|]. intros i Hi.
    set (c := clear (ifirstkey ikey (length us)) (repeat true (length (rev l)))).
    assert (Lc : length c = length l) by (unfold c; now rewrite clear_length, repeat_length, rev_length).
    destruct (first_clear (rev l) us ikey G U (length l - 1 - i) ltac:(rewrite rev_length; lia)) as (b & E & Q). fold c in E.
    exists b. split.
    + rewrite (nth_error_nth' _ true) by (rewrite rev_length; lia). rewrite rev_nth by lia.
      rewrite (nth_error_nth' _ true) in E by lia. rewrite <- E. f_equal. f_equal. lia.
    + rewrite Q, seen_rev by lia. replace (length l - 1 - (length l - 1 - i)) with i by lia. reflexivity.
  - specialize (GH l). destruct (grouping l) as [n ikey]. cbn [fst snd] in GH. destruct GH as (us & G & En & U). subst n.
    split; [rewrite clear_length; apply repeat_length|]. intros i Hi. destruct (none_clear l us ikey G U i Hi) as (b & E & Q).
    exists b. split; [exact E|].
    destruct (seen_before_dec l us ikey G U i Hi) as [D|D].
    + destruct b; [split; tauto|]. destruct (proj1 Q eq_refl) as (D' & _). contradiction.
    + destruct (code_of l us ikey G i Hi) as (g & Hg & R). pose proof (last_spec l us ikey G U i g Hg R) as LS.
      destruct (Nat.eq_dec i (last (group_rows ikey g) 0)) as [Y|Y].
      * apply LS in Y. destruct b; [|split; [discriminate|tauto]]. pose proof (proj2 Q (conj D Y)). discriminate.
      * assert (NN : ~ ~ seen_after l i) by tauto.
        assert (SA : seen_after l i).
        { pose proof (proj2 (group_rows_in ikey g i) Hg) as I. pose proof (group_ne l us ikey G U g R) as NE.
          pose proof (last_In _ NE) as La. exists (last (group_rows ikey g) 0).
          apply group_rows_in in La.
          assert (Ll : last (group_rows ikey g) 0 < length l) by (rewrite <- (dup_len l us ikey G); apply nth_error_Some; congruence).
          split.
          - split; [|exact Ll]. apply In_nth_error in I. destruct I as (p & Hp).
            rewrite (app_removelast_last 0 NE) in Hp.
            assert (Inc := group_rows_increasing ikey g). rewrite (app_removelast_last 0 NE) in Inc.
            set (rl := removelast (group_rows ikey g)) in *. set (la := last (group_rows ikey g) 0) in *.
            destruct (Nat.lt_ge_cases p (length rl)) as [Lp|Lp].
            + apply (Inc p (length rl) i la Hp); [rewrite nth_error_app2, Nat.sub_diag by lia; reflexivity|exact Lp].
            + rewrite nth_error_app2 in Hp by lia. destruct (p - length rl) as [|[|q]]; cbn in Hp; [|discriminate|discriminate].
              exfalso. apply Y. congruence.
          - apply (same_key l us ikey G); [exact Ll|exact Hi|congruence]. }
        destruct b; [tauto|]. destruct (proj1 Q eq_refl) as (_ & D'). contradiction.
Qed.

(** ** assignment through a mask *)
Lemma select_length {A C} (m : list bool) (a : list A) (c : list C) : length a = length c -> length (select m a) = length (select m c).
Proof.
  revert a c. induction m as [|b m IH]; intros a c E; [reflexivity|]. destruct a as [|x a], c as [|y c]; try discriminate; [reflexivity|].
  cbn. destruct b; cbn; rewrite (IH a c) by (cbn in E; lia); reflexivity.
Qed.
Lemma put_select {A} (f : nat -> A) m (a : list A) : length m = length a ->
  forall (off : nat) (idx : list nat), idx = seq off (length a) ->
  let r := put_in_order m (map f (select m idx)) a in
  length r = length a /\ forall i x b, nth_error a i = Some x -> nth_error m i = Some b ->
    nth_error r i = Some (if b then f (off + i) else x).
Proof.
  revert a. induction m as [|b m IH]; intros a L off idx ->; destruct a as [|x a]; try discriminate; cbn [length seq select map put_in_order].
  - split; [reflexivity|]. intros [|i]; discriminate.
  - cbn in L. destruct (IH a ltac:(lia) (S off) _ eq_refl) as (H1 & H2). destruct b; cbn [map].
    + cbn. split; [lia|]. intros [|i] y c Hy Hc; cbn in *; [injection Hc as <-; now rewrite Nat.add_0_r|].
      rewrite (H2 i y c Hy Hc). now rewrite <- plus_n_Sm.
    + cbn. split; [lia|]. intros [|i] y c Hy Hc; cbn in *; [now injection Hc as <-|].
      rewrite (H2 i y c Hy Hc). now rewrite <- plus_n_Sm.
Qed.
Lemma select_map {A C} (f : A -> C) m (a : list A) : select m (map f a) = map f (select m a).
Proof. revert a. induction m as [|b m IH]; intros [|x a]; cbn; try reflexivity. destruct b; cbn; now rewrite IH. Qed.
Lemma list_as_seq {A} (d : A) (l : list A) : l = map (fun i => nth i l d) (seq 0 (length l)).
Proof.
  apply nth_error_ext'. intros i. destruct (Nat.lt_ge_cases i (length l)) as [H|H].
  - rewrite (nth_error_nth' l d) by exact H. rewrite (nth_error_nth' _ d) by (rewrite map_length, seq_length; exact H).
    rewrite (nth_map_seq0 (fun i => nth i l d)) by exact H. reflexivity.
  - rewrite !nth_error_none; [reflexivity|rewrite map_length, seq_length; exact H|exact H].
Qed.
(** a[m] = v[m] *)
Lemma setmask_rows {A} (d : A) (m : list bool) (v a : list A) : length m = length a -> length v = length a ->
  exists r, setmask m (select m v) a = Some r /\ length r = length a /\
    forall i x b y, nth_error a i = Some x -> nth_error m i = Some b -> nth_error v i = Some y -> nth_error r i = Some (if b then y else x).
Proof.
  intros L1 L2. unfold setmask. rewrite broadcast_same by (apply select_length; exact L2).
  eexists. split; [reflexivity|]. rewrite (list_as_seq d v), select_map, L2.
  destruct (put_select (fun i => nth i v d) m a L1 0 _ eq_refl) as (H1 & H2). split; [exact H1|].
  intros i x b y X Mb Y. rewrite (H2 i x b X Mb). cbn [Nat.add]. f_equal. destruct b; [|reflexivity].
  assert (i < length v) by (rewrite L2; apply nth_error_Some; congruence).
  rewrite nth_error_map in Y. destruct (nth_error (seq 0 (length a)) i) as [k|] eqn:E; [|discriminate].
  assert (k = i) by (apply (f_equal (fun o => match o with Some q => q | None => 0 end)) in E; rewrite (nth_error_nth' _ 0) in E by (rewrite seq_length; lia); rewrite seq_nth in E by lia; cbn in E; lia).
  subst k. cbn in Y. congruence.
Qed.
Lemma select_const {A} (v : A) m (a : list A) : length m = length a -> select m (repeat v (length a)) = repeat v (length (select m a)).
Proof.
  revert a. induction m as [|b m IH]; intros [|x a] L; try discriminate; [reflexivity|]. cbn. destruct b; cbn; rewrite IH by (cbn in L; lia); reflexivity.
Qed.
Lemma setmask_scalar {A} (m : list bool) (v : A) (a : list A) : length m = length a ->
  exists r, setmask m [v] a = Some r /\ length r = length a /\
    forall i x b, nth_error a i = Some x -> nth_error m i = Some b -> nth_error r i = Some (if b then v else x).
Proof.
  intros L. destruct (setmask_rows v m (repeat v (length a)) a L (repeat_length _ _)) as (r & E & Lr & H).
  exists r. split; [|split; [exact Lr|]].
  - unfold setmask in *. rewrite broadcast_one. rewrite select_const in E by exact L. rewrite broadcast_same in E by (now rewrite repeat_length). exact E.
  - intros i x b X Mb. apply (H i x b v X Mb). rewrite nth_error_rep. destruct (Nat.ltb_spec i (length a)); [reflexivity|].
    rewrite nth_error_none in X by lia. discriminate.
Qed.

(** ** map *)
Section Map.
Context {K V : Type}.
Variable eqb : K -> K -> bool.
Hypothesis eqb_eq : forall a b, eqb a b = true <-> a = b.
Lemma dict_index (d : list (K * V)) k v inv : NoDup (map fst d) -> maps_to d k v ->
  exists j, index_of eqb k (map fst d) = Some j /\ nth j (map snd d) inv = v.
Proof.
  intros N H. apply In_nth_error in H. destruct H as (j & H). exists j. split.
  - apply index_of_nth; [exact eqb_eq|exact N|]. rewrite nth_error_map, H. reflexivity.
  - apply nth_error_nth. rewrite nth_error_map, H. reflexivity.
Qed.
Lemma dict_none (d : list (K * V)) k : (forall v, ~ maps_to d k v) -> index_of eqb k (map fst d) = None.
Proof.
  intros H. apply index_of_none; [exact eqb_eq|]. rewrite in_map_iff. intros ((k' & v) & E & I). cbn in E. subst. exact (H v I).
Qed.
Lemma fa_map_ok (inv : V) (d : list (K * V)) (l : list K) : NoDup (map fst d) ->
  exists r, fa_map eqb inv d l = Some r /\ length r = length l /\
    forall i k, nth_error l i = Some k ->
      (forall v, maps_to d k v -> nth_error r i = Some v) /\
      ((forall v, ~ maps_to d k v) -> nth_error r i = Some inv).
Proof.
  intros N. unfold fa_map.
  set (found := map _ l). rewrite <- select_map, map_map.
  set (v := map (fun x => nth match index_of eqb x (map fst d) with Some k => k | None => 0 end (map snd d) inv) l).
  destruct (setmask_rows inv found v (repeat inv (length l))) as (r & E & Lr & H).
  - unfold found. now rewrite map_length, repeat_length.
  - unfold v. now rewrite map_length, repeat_length.
  - exists r. split; [exact E|]. split; [now rewrite Lr, repeat_length|]. intros i k Hk.
    assert (i < length l) by (apply nth_error_Some; congruence).
    assert (HI : nth_error (repeat inv (length l)) i = Some inv) by (rewrite nth_error_rep; destruct (Nat.ltb_spec i (length l)); [reflexivity|lia]).
    pose proof (H i inv _ _ HI (map_nth_error _ i l Hk) (map_nth_error _ i l Hk)) as Q. split.
    + intros y My. destruct (dict_index d k y inv N My) as (j & J1 & J2). rewrite Q, J1. cbn. now rewrite J2.
    + intros No. rewrite Q, (dict_none d k No). reflexivity.
Qed.
End Map.
Section MapOld.
Context {A : Type}.
Variable eqb : A -> A -> bool.
Hypothesis eqb_eq : forall a b, eqb a b = true <-> a = b.
Lemma map_old_steps (l : list A) : forall (d : list (A * A)) (out : list A), length out = length l ->
  exists r : list A, fold_left (fun out kv => bind out (fun out => setmask (map (fun x => eqb x (fst kv)) l) [snd kv] out)) d (Some out) = Some r /\ length r = length l /\
   (NoDup (map fst d) -> forall i k o, nth_error l i = Some k -> nth_error out i = Some o ->
      (forall v, maps_to d k v -> nth_error r i = Some v) /\ ((forall v, ~ maps_to d k v) -> nth_error r i = Some o)).
Proof.
  induction d as [|(k0, v0) d IH]; intros out Lo; cbn [fold_left bind].
  - exists out. split; [reflexivity|]. split; [exact Lo|]. intros _ i k o Hk Ho. split; [intros v []|intros _; exact Ho].
  - cbn [fst snd]. destruct (setmask_scalar (map (fun x => eqb x k0) l) v0 out) as (o1 & E1 & L1 & H1); [now rewrite map_length|].
    rewrite E1. destruct (IH o1 ltac:(lia)) as (r & Er & Lr & Hr). exists r. split; [exact Er|]. split; [exact Lr|].
    cbn [map fst]. intros N i k o Hk Ho. inversion N as [|? ? N1 N2]; subst.
    pose proof (H1 i o _ Ho (map_nth_error _ i l Hk)) as Q. destruct (Hr N2 i k _ Hk Q) as (R1 & R2).
    destruct (eqb k k0) eqn:E.
    + apply eqb_eq in E. subst k0. assert (No : forall v, ~ maps_to d k v) by (intros v M; apply N1; exact (in_map fst d _ M)).
      split.
      * intros v [M|M]; [injection M as <-; now apply R2|elim (No v M)].
      * intros Z. elim (Z v0). now left.
    + split.
      * intros v [M|M]; [injection M as -> <-; exfalso; assert (eqb k k = true) by (now apply eqb_eq); congruence|now apply R1].
      * intros Z. apply R2. intros v M. apply (Z v). now right.
Qed.
Lemma replacena_ok (isnan : A -> bool) (l : list A) inplace v :
  exists r, length r = length l /\
    (forall i x, nth_error l i = Some x -> nth_error r i = Some (if isnan x then v else x)) /\
    replacena isnan [v] inplace l = Some (if inplace then (r, None) else (l, Some r)).
Proof.
  unfold replacena. destruct (existsb (fun b => b) (map isnan l)) eqn:E.
  - destruct (setmask_scalar (map isnan l) v l) as (r & Er & Lr & Hr); [apply map_length|].
    exists r. split; [exact Lr|]. split.
    + intros i x X. apply Hr; [exact X|]. now apply map_nth_error.
    + rewrite Er. reflexivity.
  - exists l. split; [reflexivity|]. split.
    + intros i x X. destruct (isnan x) eqn:Q; [|exact X]. assert (existsb (fun b => b) (map isnan l) = true); [|congruence].
      apply existsb_exists. exists true. split; [rewrite <- Q; apply in_map; exact (nth_error_In _ _ X)|reflexivity].
    + reflexivity.
Qed.
(** one value for every invalid row, in order *)
Lemma put_fill (isnan : A -> bool) (l : list A) : forall vs, length vs = length (filter isnan l) ->
  let r := put_in_order (map isnan l) vs l in
  length r = length l /\ select (map isnan l) r = vs /\
  forall i x, nth_error l i = Some x -> isnan x = false -> nth_error r i = Some x.
Proof.
  induction l as [|x l IH]; intros vs L; cbn [map filter put_in_order select].
  - cbn in *. split; [reflexivity|]. split; [destruct vs; [reflexivity|discriminate]|]. intros [|i]; discriminate.
  - cbn in L. destruct (isnan x) eqn:E; cbn [put_in_order].
    + destruct vs as [|v vs]; [discriminate|]. destruct (IH vs ltac:(cbn in L; lia)) as (H1 & H2 & H3). cbn. split; [lia|]. split; [now f_equal|].
      intros [|i] y Y Q; cbn in *; [congruence|]. now apply H3.
    + destruct (IH vs L) as (H1 & H2 & H3). cbn. split; [lia|]. split; [exact H2|].
      intros [|i] y Y Q; cbn in *; [congruence|]. now apply H3.
Qed.
Lemma select_self (f : A -> bool) l : select (map f l) l = filter f l.
Proof. induction l as [|x l IH]; cbn; [reflexivity|]. destruct (f x); now rewrite IH. Qed.
Lemma replacena_many (isnan : A -> bool) (l : list A) inplace vs : length vs = length (filter isnan l) ->
  exists r, length r = length l /\ select (map isnan l) r = vs /\
    (forall i x, nth_error l i = Some x -> isnan x = false -> nth_error r i = Some x) /\
    replacena isnan vs inplace l = Some (if inplace then (r, None) else (l, Some r)).
Proof.
  intros L. destruct (put_fill isnan l vs L) as (H1 & H2 & H3). exists (put_in_order (map isnan l) vs l).
  split; [exact H1|]. split; [exact H2|]. split; [exact H3|]. unfold replacena, setmask. rewrite select_self, broadcast_same by exact L.
  destruct (existsb (fun b => b) (map isnan l)) eqn:E; [reflexivity|].
  assert (Z : forall x, In x l -> isnan x = false).
  { intros x X. destruct (isnan x) eqn:Q; [|reflexivity]. assert (existsb (fun b => b) (map isnan l) = true); [|congruence].
    apply existsb_exists. exists true. split; [rewrite <- Q; apply in_map; exact X|reflexivity]. }
  assert (W : put_in_order (map isnan l) vs l = l).
  { apply nth_error_ext'. intros i. destruct (nth_error l i) as [x|] eqn:Q.
    - apply H3; [exact Q|]. apply Z. exact (nth_error_In _ _ Q).
    - apply nth_error_none. apply nth_error_None in Q. lia. }
  rewrite W. reflexivity.
Qed.
Lemma replacena_wrong (isnan : A -> bool) (l : list A) inplace vs :
  filter isnan l <> [] -> length vs <> length (filter isnan l) -> length vs <> 1 -> replacena isnan vs inplace l = None.
Proof.
  intros N L1 L2. unfold replacena, setmask. rewrite select_self.
  assert (E : existsb (fun b => b) (map isnan l) = true).
  { destruct (filter isnan l) as [|x r] eqn:F; [congruence|]. assert (In x (filter isnan l)) by (rewrite F; now left). apply filter_In in H.
    apply existsb_exists. exists true. split; [rewrite <- (proj2 H); apply in_map, H|reflexivity]. }
  rewrite E. unfold broadcast. destruct (Nat.eqb_spec (length vs) (length (filter isnan l))); [contradiction|].
  destruct vs as [|a [|b r]]; [reflexivity|cbn in L2; congruence|reflexivity].
Qed.
End MapOld.

(** ** mask operations *)
Section Mask.
Variable op : bool -> bool -> bool.
Notation zipop x y := (map (fun p => op (fst p) (snd p)) (combine x y)).
Lemma upd_at (h : masks) r v a : r < length h -> mask_at (upd r v h) a = if a =? r then v else mask_at h a.
Proof. intros L. unfold mask_at. now rewrite nth_upd. Qed.
Lemma zip_len x y : length x = length y -> length (zipop x y) = length x.
Proof. intros E. rewrite map_length, combine_length. lia. Qed.
Lemma loop_ok (n : nat) : forall rest h r, r < length h -> length (mask_at h r) = n ->
  (forall b, In b rest -> b <> r /\ length (mask_at h b) = n) ->
  exists h', mask_loop op h r rest = (h', MaskAt r) /\ length h' = length h /\
    mask_at h' r = fold_masks op (mask_at h r) (map (mask_at h) rest) /\
    forall c, c <> r -> mask_at h' c = mask_at h c.
Proof.
  induction rest as [|b rest IH]; intros h r Lr Ln Hb; cbn [mask_loop map fold_masks].
  - exists h. repeat split; auto.
  - destruct (Hb b (or_introl eq_refl)) as (Nb & Lb). unfold mask_into. fold (mask_at h r) (mask_at h b).
    rewrite Ln, Lb, Nat.eqb_refl. set (h1 := upd r (zipop (mask_at h r) (mask_at h b)) h).
    assert (A1 : mask_at h1 r = zipop (mask_at h r) (mask_at h b)) by (unfold h1; rewrite upd_at, Nat.eqb_refl by exact Lr; reflexivity).
    assert (A2 : forall c, c <> r -> mask_at h1 c = mask_at h c) by (intros c N; unfold h1; rewrite upd_at by exact Lr; destruct (Nat.eqb_spec c r); [contradiction|reflexivity]).
    destruct (IH h1 r) as (h' & E & L' & V & O).
    + unfold h1. now rewrite upd_length.
    + rewrite A1, zip_len; lia.
    + intros c Hc. destruct (Hb c (or_intror Hc)) as (Nc & Lc). split; [exact Nc|]. rewrite A2 by exact Nc. exact Lc.
    + exists h'. split; [exact E|]. split; [rewrite L'; unfold h1; apply upd_length|]. split.
      * rewrite V, A1. f_equal. apply map_ext_in. intros c Hc. apply A2. apply Hb. now right.
      * intros c N. rewrite O by exact N. now apply A2.
Qed.
Lemma mask_at_snoc (h : masks) v a : a < length h -> mask_at (h ++ [v]) a = mask_at h a.
Proof. intros L. unfold mask_at. now rewrite app_nth1. Qed.
Lemma mask_new (h : masks) a b rest n :
  (forall c, In c (a :: b :: rest) -> c < length h /\ length (mask_at h c) = n) ->
  exists h', mask_op op false h (a :: b :: rest) = (h', MaskAt (length h)) /\ length h' = S (length h) /\
    mask_at h' (length h) = fold_masks op (mask_at h a) (map (mask_at h) (b :: rest)) /\
    forall c, c < length h -> mask_at h' c = mask_at h c.
Proof.
  intros Hc. destruct (Hc a) as (La & Na); [now left|]. destruct (Hc b) as (Lb & Nb); [right; now left|].
  unfold mask_op, mask_into. fold (mask_at (h ++ [[]]) a) (mask_at (h ++ [[]]) b). rewrite !mask_at_snoc by assumption.
  rewrite Na, Nb, Nat.eqb_refl. set (h1 := upd (length h) _ _).
  assert (LL : length (h ++ [[]]) = S (length h)) by (rewrite app_length; cbn; lia).
  assert (A1 : mask_at h1 (length h) = zipop (mask_at h a) (mask_at h b)) by (unfold h1; rewrite upd_at, Nat.eqb_refl by lia; reflexivity).
  assert (A2 : forall c, c < length h -> mask_at h1 c = mask_at h c).
  { intros c Lc. unfold h1. rewrite upd_at by lia. destruct (Nat.eqb_spec c (length h)); [lia|]. now apply mask_at_snoc. }
  destruct (loop_ok n rest h1 (length h)) as (h' & E & L' & W & O).
  - unfold h1. rewrite upd_length. lia.
  - rewrite A1, zip_len; lia.
  - intros c I. destruct (Hc c) as (Lc & Nc); [right; now right|]. split; [lia|]. now rewrite A2.
  - exists h'. split; [exact E|]. split; [rewrite L'; unfold h1; now rewrite upd_length|]. split.
    + rewrite W, A1. cbn [map fold_masks]. f_equal. apply map_ext_in. intros c I. apply A2. apply Hc. right. now right.
    + intros c Lc. rewrite O by lia. now apply A2.
Qed.
Lemma loop_bad (n : nat) : forall rest h r, r < length h -> length (mask_at h r) = n ->
  (exists b, In b rest /\ length (mask_at h b) <> n) -> snd (mask_loop op h r rest) = MaskError.
Proof.
  induction rest as [|c rest IH]; intros h r Lr Ln (b & I & Nb); [destruct I|]. cbn [mask_loop].
  unfold mask_into. fold (mask_at h r) (mask_at h c). rewrite Ln. destruct (Nat.eqb_spec n (length (mask_at h c))) as [E|E]; [|reflexivity].
  set (h1 := upd r _ h).
  assert (A : forall d, length (mask_at h1 d) = length (mask_at h d)).
  { intros d. unfold h1. rewrite upd_at by exact Lr. destruct (Nat.eqb_spec d r); [|reflexivity]. subst. apply zip_len. lia. }
  apply IH.
  - unfold h1. now rewrite upd_length.
  - now rewrite A.
  - destruct I as [->|I]; [congruence|]. exists b. split; [exact I|]. now rewrite A.
Qed.
Lemma fold_at n : forall rest first i b, length first = n -> (forall m, In m rest -> length m = n) -> nth_error first i = Some b ->
  exists bs, Forall2 (fun m x => nth_error m i = Some x) rest bs /\ nth_error (fold_masks op first rest) i = Some (fold_left op bs b).
Proof.
  induction rest as [|m rest IH]; intros first i b L Hm Hb; cbn [fold_masks].
  - exists []. split; [constructor|exact Hb].
  - assert (Lm : length m = n) by (apply Hm; now left).
    assert (i < n) by (rewrite <- L; apply nth_error_Some; congruence).
    destruct (nth_error m i) as [x|] eqn:E; [|apply nth_error_None in E; lia].
    destruct (bin2_ok op first m ltac:(lia)) as (r & Er & Lr & Hr). unfold bin2 in Er. rewrite L, Lm, Nat.eqb_refl in Er.
    assert (Er' : zipop first m = r) by congruence. rewrite Er'.
    destruct (IH r i (op b x)) as (bs & F & V); [lia|intros; apply Hm; now right|rewrite Hr, Hb, E; reflexivity|].
    exists (x :: bs). split; [now constructor|exact V].
Qed.
End Mask.
