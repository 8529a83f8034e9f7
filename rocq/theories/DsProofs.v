(** duplicated *)
From Coq Require Import List Arith Bool Lia.
From Verif Require Import FlattenModel MergeModel MergeFacts MergeProofs2 GroupModel GroupFacts GroupingModel FillProofs DsModel DsSpec.
Import ListNotations.

Lemma nth_error_upd {X} i (v : X) l k : k < length l -> nth_error (upd i v l) k = if k =? i then Some v else nth_error l k.
Proof.
  intros H. destruct (i <? length l) eqn:E.
  - apply Nat.ltb_lt in E. rewrite (nth_error_nth' _ v) by (now rewrite upd_length). rewrite nth_upd by exact E.
    destruct (k =? i); [reflexivity|]. now rewrite (nth_error_nth' l v).
  - unfold upd. rewrite E. apply Nat.ltb_ge in E. destruct (k =? i) eqn:Q; [apply Nat.eqb_eq in Q; lia|reflexivity].
Qed.
Lemma clear_length idx : forall r, length (clear idx r) = length r.
Proof. unfold clear. induction idx as [|i idx IH]; intros r; cbn; [reflexivity|]. now rewrite IH, upd_length. Qed.
Lemma clear_at idx : forall r i b, nth_error r i = Some b ->
  nth_error (clear idx r) i = Some (if existsb (Nat.eqb i) idx then false else b).
Proof.
  unfold clear. induction idx as [|p idx IH]; intros r i b H; cbn [fold_left existsb]; [exact H|].
  assert (L : i < length r) by (apply nth_error_Some; congruence).
  destruct (i =? p) eqn:E; cbn [orb].
  - rewrite (IH _ i false); [now destruct (existsb _ _)|]. rewrite nth_error_upd, E by exact L. reflexivity.
  - apply IH. rewrite nth_error_upd, E by exact L. exact H.
Qed.
Lemma existsb_eq i l : existsb (Nat.eqb i) l = true <-> In i l.
Proof.
  rewrite existsb_exists. split; [intros (x & Hx & E); apply Nat.eqb_eq in E; now subst|intros H; exists i; split; [exact H|apply Nat.eqb_refl]].
Qed.
Lemma clear_true idx n i : i < n -> exists b, nth_error (clear idx (repeat true n)) i = Some b /\ (b = true <-> ~ In i idx).
Proof.
  intros H. exists (if existsb (Nat.eqb i) idx then false else true). split.
  - apply clear_at. now apply nth_error_repeat.
  - rewrite <- existsb_eq. destruct (existsb _ _); split; intros Q; congruence || (elim Q; reflexivity) || reflexivity.
Qed.

Section Dup.
Context {B : Type}.
Variable keys : list B.
Variable us : list B.
Variable ikey : list nat.
Hypothesis G : grouping_of (map Some keys) us ikey.
Hypothesis U : forall u, In u us -> In u keys.
Let n := length us.
Let ig := igroup ikey n.
Let ifg := ifirstgroup ikey n.
Let nc := ncountgroup ikey n.

Lemma dup_len : length ikey = length keys.
Proof. rewrite (g_length _ _ _ G). apply map_length. Qed.
Lemma key_code i b : nth_error keys i = Some b -> exists k, nth_error ikey i = Some (S k) /\ nth_error us k = Some b.
Proof. intros H. apply (g_key _ _ _ G). now apply map_nth_error. Qed.
Lemma code_key i k : nth_error ikey i = Some (S k) -> exists b, nth_error us k = Some b /\ nth_error keys i = Some b.
Proof.
  intros H. assert (i < length keys) by (rewrite <- dup_len; apply nth_error_Some; congruence).
  destruct (nth_error keys i) as [b|] eqn:E; [|apply nth_error_None in E; lia].
  destruct (key_code i b E) as (k' & H1 & H2). exists b. split; [|reflexivity]. congruence.
Qed.
Lemma code_pos i c : nth_error ikey i = Some c -> exists k, c = S k.
Proof.
  intros H. assert (i < length keys) by (rewrite <- dup_len; apply nth_error_Some; congruence).
  destruct (nth_error keys i) as [b|] eqn:E; [|apply nth_error_None in E; lia].
  destruct (key_code i b E) as (k' & H1 & H2). exists k'. congruence.
Qed.
(** equal keys are equal codes *)
Lemma same_key i j : i < length keys -> j < length keys -> (nth_error keys i = nth_error keys j <-> nth_error ikey i = nth_error ikey j).
Proof.
  intros Hi Hj. destruct (nth_error keys i) as [b|] eqn:E; [|apply nth_error_None in E; lia].
  destruct (nth_error keys j) as [b'|] eqn:E'; [|apply nth_error_None in E'; lia].
  destruct (key_code i b E) as (k & H1 & H2), (key_code j b' E') as (k' & H1' & H2'). split; intros H.
  - injection H as ->. rewrite H1, H1'. do 2 f_equal.
    apply (proj1 (NoDup_nth_error us) (g_distinct _ _ _ G)); [apply nth_error_Some; congruence|congruence].
  - rewrite H1, H1' in H. injection H as ->. congruence.
Qed.
Lemma group_ne g : 1 <= g <= n -> group_rows ikey g <> [].
Proof.
  intros H E. destruct (nth_error us (g - 1)) as [u|] eqn:Q; [|apply nth_error_None in Q; unfold n in H; lia].
  pose proof (U u (nth_error_In _ _ Q)) as I. apply In_nth_error in I. destruct I as (i & Hi).
  destruct (key_code i u Hi) as (k & H1 & H2).
  assert (k = g - 1) by (apply (proj1 (NoDup_nth_error us) (g_distinct _ _ _ G)); [apply nth_error_Some; congruence|congruence]).
  subst k. replace (S (g - 1)) with g in H1 by lia. apply group_rows_in in H1. rewrite E in H1. destruct H1.
Qed.
Lemma group0 : group_rows ikey 0 = [].
Proof.
  destruct (group_rows ikey 0) as [|i l] eqn:E; [reflexivity|]. assert (In i (group_rows ikey 0)) by (rewrite E; now left).
  apply group_rows_in in H. destruct (code_pos i 0 H) as (k & Q). discriminate.
Qed.
Lemma nc_at g : g <= n -> nth g nc 0 = length (group_rows ikey g).
Proof. intros H. unfold nc, ncountgroup. now rewrite nth_map_seq0 by lia. Qed.
Lemma first_at g : 1 <= g <= n -> nth (nth g ifg 0) ig 0 = hd 0 (group_rows ikey g).
Proof.
  intros H. pose proof (group_idx ikey n g ltac:(lia)) as Q. fold ig ifg nc in Q. rewrite <- Q.
  pose proof (group_ne g H) as NE. rewrite nc_at by lia. destruct (group_rows ikey g); [congruence|]. reflexivity.
Qed.
Lemma if_step g : g < n -> nth (S g) ifg 0 = nth g ifg 0 + length (group_rows ikey g).
Proof.
  intros H. unfold ifg, ifirstgroup. rewrite !nth_map_seq0 by lia. rewrite seq_S, map_app, concat_app, app_length. cbn. rewrite app_nil_r. reflexivity.
Qed.
Lemma last_at g : 1 <= g < n -> nth (pred (nth (S g) ifg 0)) ig 0 = last (group_rows ikey g) 0.
Proof.
  intros H. pose proof (group_idx ikey n g ltac:(lia)) as Q. fold ig ifg nc in Q. rewrite if_step by lia.
  pose proof (group_ne g ltac:(lia)) as NE. rewrite nc_at in Q by lia. rewrite <- Q at 2.
  destruct (length (group_rows ikey g)) as [|k] eqn:E; [apply length_zero_iff_nil in E; congruence|].
  rewrite seq_S, map_app. cbn [map]. rewrite last_last. f_equal. lia.
Qed.
Lemma ig_len : length ig = length keys.
Proof.
  assert (Q : length ig = length ikey); [|rewrite Q; apply dup_len].
  unfold ig, igroup. 
  assert (P : forall l, NoDup l -> length (concat (map (group_rows ikey) l)) = length (filter (fun i => existsb (Nat.eqb (nth i ikey 0)) l) (seq 0 (length ikey)))).
  { induction l as [|g l IH]; intros ND; cbn [map concat].
    - cbn [existsb]. rewrite (proj2 (length_zero_iff_nil (filter (fun _ => false) _))); [reflexivity|]. induction (seq 0 (length ikey)); [reflexivity|assumption].
    - inversion ND as [|? ? N1 N2]; subst. rewrite app_length, IH by exact N2. unfold group_rows. clear IH.
      induction (seq 0 (length ikey)) as [|i r IHr]; [reflexivity|]. cbn [existsb] in IHr. cbn [filter existsb].
      destruct (nth i ikey 0 =? g) eqn:E1; cbn [orb].
      + apply Nat.eqb_eq in E1. destruct (existsb (Nat.eqb (nth i ikey 0)) l) eqn:E2; [apply existsb_eq in E2; rewrite E1 in E2; contradiction|]. cbn [length]. lia.
      + destruct (existsb (Nat.eqb (nth i ikey 0)) l); cbn [length]; lia. }
  rewrite P by apply seq_NoDup. rewrite <- (seq_length (length ikey) 0) at 2. f_equal.
  assert (A : forall l, (forall i, In i l -> i < length ikey) -> filter (fun i => existsb (Nat.eqb (nth i ikey 0)) (seq 0 (S n))) l = l).
  { induction l as [|i l IH]; intros H; cbn [filter]; [reflexivity|].
    assert (Q : existsb (Nat.eqb (nth i ikey 0)) (seq 0 (S n)) = true).
    { apply existsb_eq. apply in_seq. pose proof (H i (or_introl eq_refl)) as L. pose proof (nth_error_nth' ikey 0 L) as E.
      destruct (code_pos _ _ E) as (k & Ek). rewrite Ek in *. pose proof (grouping_range G i k E) as R. unfold n. lia. }
    rewrite Q. f_equal. apply IH. intros j Hj. apply H. now right. }
  apply A. intros i Hi. apply in_seq in Hi. lia.
Qed.
Lemma ifg_len : length ifg = S n. Proof. unfold ifg, ifirstgroup. now rewrite map_length, seq_length. Qed.
Lemma nc_len : length nc = S n. Proof. unfold nc, ncountgroup. now rewrite map_length, seq_length. Qed.

(** a row is at the head of its group iff its key has not been seen *)
Lemma head_spec i g : nth_error ikey i = Some g -> 1 <= g <= n -> (i = hd 0 (group_rows ikey g) <-> ~ seen_before keys i).
Proof.
  intros H Hg. pose proof (group_ne g Hg) as NE. pose proof (proj2 (group_rows_in ikey g i) H) as I.
  assert (Li : i < length keys) by (rewrite <- dup_len; apply nth_error_Some; congruence).
  destruct (group_rows ikey g) as [|a l] eqn:E; [congruence|]. cbn [hd]. 
  assert (Ia : In a (group_rows ikey g)) by (rewrite E; now left). pose proof (proj1 (group_rows_in ikey g a) Ia) as Ha.
  assert (La : a < length keys) by (rewrite <- dup_len; apply nth_error_Some; congruence).
  assert (MIN : forall j, In j (a :: l) -> a <= j).
  { intros j [->|J]; [lia|]. apply In_nth_error in J. destruct J as (p & Hp).
    pose proof (group_rows_increasing ikey g 0 (S p) a j) as Q. rewrite E in Q. specialize (Q eq_refl Hp ltac:(lia)). lia. }
  split.
  - intros -> (j & L & Q). rewrite (same_key j a) in Q by lia. rewrite H in Q. apply group_rows_in in Q. rewrite E in Q. apply MIN in Q. lia.
  - intros N. destruct (Nat.eq_dec i a) as [|D]; [assumption|]. elim N. exists a. split.
    + specialize (MIN i I). lia.
    + apply same_key; [lia|lia|congruence].
Qed.
Lemma last_In (l : list nat) : l <> [] -> In (last l 0) l.
Proof. intros H. rewrite (app_removelast_last 0 H) at 2. apply in_or_app. right. now left. Qed.
Lemma last_spec i g : nth_error ikey i = Some g -> 1 <= g <= n -> (i = last (group_rows ikey g) 0 <-> ~ seen_after keys i).
Proof.
  intros H Hg. pose proof (group_ne g Hg) as NE. pose proof (proj2 (group_rows_in ikey g i) H) as I.
  assert (Li : i < length keys) by (rewrite <- dup_len; apply nth_error_Some; congruence).
  set (a := last (group_rows ikey g) 0). assert (Ia : In a (group_rows ikey g)) by now apply last_In.
  pose proof (proj1 (group_rows_in ikey g a) Ia) as Ha.
  assert (La : a < length keys) by (rewrite <- dup_len; apply nth_error_Some; congruence).
  assert (MAX : forall j, In j (group_rows ikey g) -> j <= a).
  { intros j J. pose proof (app_removelast_last 0 NE) as E. fold a in E. rewrite E in J. apply in_app_or in J. destruct J as [J|[<-|[]]]; [|lia].
    apply In_nth_error in J. destruct J as (p & Hp).
    assert (Lp : p < length (removelast (group_rows ikey g))) by (apply nth_error_Some; congruence).
    pose proof (group_rows_increasing ikey g p (length (removelast (group_rows ikey g))) j a) as Q. rewrite E in Q at 1 2.
    rewrite nth_error_app1 in Q by exact Lp. specialize (Q Hp). rewrite nth_error_app2, Nat.sub_diag in Q by lia. specialize (Q eq_refl Lp). lia. }
  split.
  - intros -> (j & L & Q). rewrite (same_key j a) in Q by lia. rewrite Ha in Q. apply group_rows_in in Q. apply MAX in Q. lia.
  - intros N. destruct (Nat.eq_dec i a) as [|D]; [assumption|]. elim N. exists a. split.
    + specialize (MAX i I). lia.
    + apply same_key; [lia|lia|congruence].
Qed.

Lemma code_of i : i < length keys -> exists g, nth_error ikey i = Some g /\ 1 <= g <= n.
Proof.
  intros H. destruct (nth_error keys i) as [b|] eqn:E; [|apply nth_error_None in E; lia].
  destruct (key_code i b E) as (k & H1 & H2). exists (S k). split; [exact H1|]. pose proof (grouping_range G i k H1). unfold n. lia.
Qed.
Lemma skipn_ifg k : k <= S n -> skipn k ifg = map (fun g => nth g ifg 0) (seq k (S n - k)).
Proof.
  intros H. rewrite slice_map; [|rewrite ifg_len; lia]. unfold slice. rewrite <- ifg_len, <- skipn_length. now rewrite firstn_all.
Qed.
Lemma in_first i g : nth_error ikey i = Some g -> 1 <= g <= n -> In i (map (fun p => nth p ig 0) (skipn 1 ifg)) <-> i = hd 0 (group_rows ikey g).
Proof.
  intros H Hg. rewrite skipn_ifg, map_map by lia. rewrite in_map_iff. split.
  - intros (g' & E & I). apply in_seq in I. rewrite first_at in E by lia. 
    assert (In i (group_rows ikey g')).
    { rewrite <- E. pose proof (group_ne g' ltac:(lia)). destruct (group_rows ikey g'); [congruence|now left]. }
    apply group_rows_in in H0. rewrite H in H0. injection H0 as ->. now symmetry.
  - intros ->. exists g. split; [now apply first_at|]. apply in_seq. lia.
Qed.
(** the decision the booleans make *)
Lemma seen_before_dec i : i < length keys -> seen_before keys i \/ ~ seen_before keys i.
Proof. intros Hi. destruct (code_of i Hi) as (g & Hg & R). rewrite <- (head_spec i g Hg R). destruct (Nat.eq_dec i (hd 0 (group_rows ikey g))) as [E|E]; [now right|left].
  pose proof (proj2 (group_rows_in ikey g i) Hg) as I. destruct (group_rows ikey g) as [|a l] eqn:Q; [destruct I|]. cbn in E.
  assert (Ha : nth_error ikey a = Some g) by (apply group_rows_in; rewrite Q; now left). exists a. split.
  - destruct I as [<-|I]; [congruence|]. apply In_nth_error in I. destruct I as (p & Hp).
    pose proof (group_rows_increasing ikey g 0 (S p) a i) as W. rewrite Q in W. specialize (W eq_refl Hp ltac:(lia)). lia.
  - apply same_key; [rewrite <- dup_len; apply nth_error_Some; congruence|exact Hi|congruence].
Qed.
Lemma dup_first : exists r, duplicated KeepFirst ig ifg nc = Some r /\ length r = length keys /\
  forall i, i < length keys -> exists b, nth_error r i = Some b /\ (b = true <-> seen_before keys i).
Proof.
  eexists. split; [reflexivity|]. split; [rewrite clear_length, repeat_length; apply ig_len|]. intros i Hi.
  destruct (code_of i Hi) as (g & Hg & R).
  destruct (clear_true (map (fun p => nth p ig 0) (skipn 1 ifg)) (length ig) i ltac:(rewrite ig_len; exact Hi)) as (b & E & Q). exists b. split; [exact E|].
  rewrite Q, (in_first i g Hg R), (head_spec i g Hg R). destruct (seen_before_dec i Hi); tauto.
Qed.

Lemma singleton_spec i g : nth_error ikey i = Some g -> 1 <= g <= n -> length (group_rows ikey g) = 1 <-> ~ seen_before keys i /\ ~ seen_after keys i.
Proof.
  intros H Hg. rewrite <- (head_spec i g H Hg), <- (last_spec i g H Hg). pose proof (proj2 (group_rows_in ikey g i) H) as I. split.
  - intros L. destruct (group_rows ikey g) as [|a [|b l]]; [destruct I| |discriminate]. destruct I as [->|[]]. auto.
  - intros (E1 & E2). pose proof (group_rows_nodup ikey g) as ND. destruct (group_rows ikey g) as [|a [|b l]]; [destruct I|reflexivity|].
    cbn [hd] in E1. subst i. exfalso. change (last (a :: b :: l) 0) with (last (b :: l) 0) in E2. apply NoDup_cons_iff in ND. apply (proj1 ND). rewrite E2. apply last_In. discriminate.
Qed.
Lemma dup_none : exists r, duplicated KeepNone ig ifg nc = Some r /\ length r = length keys /\
  forall i, i < length keys -> exists b, nth_error r i = Some b /\ (b = false <-> ~ seen_before keys i /\ ~ seen_after keys i).
Proof.
  eexists. split; [reflexivity|]. split; [rewrite clear_length, repeat_length; apply ig_len|]. intros i Hi.
  destruct (code_of i Hi) as (g & Hg & R).
  match goal with |- context [clear ?l (repeat true _)] => set (idx := l) end.
  destruct (clear_true idx (length ig) i ltac:(rewrite ig_len; exact Hi)) as (b & E & Q). exists b. split; [exact E|].
  assert (W : In i idx <-> length (group_rows ikey g) = 1).
  { unfold idx. assert (S1 : nc = map (fun g => nth g nc 0) (seq 0 (S n))) by (unfold nc, ncountgroup; apply map_ext_in; intros x Hx; apply in_seq in Hx; now rewrite nth_map_seq0 by lia).
    pose proof (skipn_ifg 0 ltac:(lia)) as S2. cbn [skipn] in S2. rewrite Nat.sub_0_r in S2. rewrite S1, S2, map_map, compress_map2.
    rewrite map_map, in_map_iff. split.
    - intros (g' & E' & I). apply filter_In in I. destruct I as (I & C). apply in_seq in I. apply Nat.eqb_eq in C. rewrite nc_at in C by lia.
      destruct (Nat.eq_dec g' 0) as [->|D]; [rewrite group0 in C; discriminate|]. rewrite first_at in E' by lia.
      assert (I2 : In i (group_rows ikey g')).
      { rewrite <- E'. destruct (group_rows ikey g'); [discriminate|now left]. }
      apply group_rows_in in I2. rewrite Hg in I2. injection I2 as ->. exact C.
    - intros C. exists g. split.
      + rewrite first_at by lia. pose proof (proj2 (group_rows_in ikey g i) Hg) as I. destruct (group_rows ikey g) as [|a [|? ?]]; [destruct I| |cbn in C; lia]. destruct I as [->|[]]. reflexivity.
      + apply filter_In. split; [apply in_seq; lia|]. apply Nat.eqb_eq. rewrite nc_at by lia. exact C. }
  rewrite <- (singleton_spec i g Hg R), <- W. destruct b; [split; [discriminate|intros Z; elim (proj1 Q eq_refl Z)]|].
  split; [intros _|reflexivity]. destruct (in_dec Nat.eq_dec i idx) as [|N]; [assumption|]. apply Q in N. discriminate.
Qed.

Lemma lastindex_eq : keys <> [] -> last ifg 0 + last nc 0 - 1 = length keys - 1.
Proof.
  intros NE. rewrite <- ig_len. f_equal.
  assert (L : forall (l : list nat) k, length l = S k -> last l 0 = nth k l 0).
  { intros l k. revert l. induction k as [|k IH]; intros [|a l] H; try discriminate.
    - destruct l; [reflexivity|discriminate].
    - cbn in H. injection H as H. cbn [nth]. rewrite <- IH by exact H. destruct l; [discriminate|reflexivity]. }
  rewrite (L ifg n ifg_len), (L nc n nc_len), nc_at by lia. unfold ifg, ifirstgroup, ig, igroup. rewrite nth_map_seq0 by lia.
  rewrite seq_S, map_app, concat_app, app_length. cbn. now rewrite app_nil_r.
Qed.
(** keep = 'last': right except in the last group *)
Lemma dup_last : keys <> [] -> exists r, duplicated KeepLast ig ifg nc = Some r /\ length r = length keys /\
  forall i b, nth_error keys i = Some b ->
    exists v, nth_error r i = Some v /\
      (Some b <> nth_error us (length us - 1) \/ i = length keys - 1 -> (v = true <-> seen_after keys i)) /\
      (Some b = nth_error us (length us - 1) -> i <> length keys - 1 -> v = true).
Proof.
  intros NE. unfold duplicated. pose proof ig_len as GL. destruct ig as [|x ig'] eqn:EIG; [destruct keys; [congruence|discriminate]|]. rewrite <- EIG. rewrite <- EIG in GL.
  eexists. split; [reflexivity|]. split; [rewrite upd_length, clear_length, repeat_length; apply ig_len|]. intros i b Hb.
  assert (Hi : i < length keys) by (apply nth_error_Some; congruence).
  destruct (code_of i Hi) as (g & Hg & R). rewrite lastindex_eq by exact NE.
  match goal with |- context [clear ?l (repeat true _)] => set (idx := l) end.
  destruct (clear_true idx (length ig) i ltac:(lia)) as (c & E & Q).
  assert (W : In i idx <-> i = last (group_rows ikey g) 0 /\ g < n).
  { unfold idx. destruct (le_lt_dec 1 n) as [L1|L1]; [|lia]. rewrite (skipn_ifg 2) by lia. rewrite !map_map, in_map_iff. split.
    - intros (g' & E' & I). apply in_seq in I. replace g' with (S (g' - 1)) in E' by lia. rewrite last_at in E' by lia.
      assert (I2 : In i (group_rows ikey (g' - 1))) by (rewrite <- E'; apply last_In, group_ne; lia).
      apply group_rows_in in I2. rewrite Hg in I2. injection I2 as ->. split; [now symmetry|lia].
    - intros (-> & L). exists (S g). split; [apply last_at; lia|]. apply in_seq. lia. }
  assert (KG : Some b = nth_error us (length us - 1) <-> g = n).
  { destruct (key_code i b Hb) as (k & H1 & H2). rewrite Hg in H1. injection H1 as ->. rewrite <- H2. split.
    - intros E'. apply (proj1 (NoDup_nth_error us) (g_distinct _ _ _ G)) in E'; [unfold n; lia|]. apply nth_error_Some. congruence.
    - intros E'. f_equal. unfold n in E'. lia. }
  exists (if i =? length keys - 1 then false else c). split; [|split].
  - rewrite nth_error_upd by (rewrite clear_length, repeat_length; lia). rewrite E. now destruct (i =? _).
  - intros C. assert (LS := last_spec i g Hg R).
    destruct (i =? length keys - 1) eqn:EI.
    + apply Nat.eqb_eq in EI. split; [discriminate|]. intros (j & L & _). lia.
    + apply Nat.eqb_neq in EI. destruct C as [C|C]; [|congruence].
      assert (Lg : g < n) by (destruct (Nat.eq_dec g n) as [Z|Z]; [apply KG in Z; congruence|lia]).
      assert (DEC : seen_after keys i \/ ~ seen_after keys i).
      { rewrite <- LS. destruct (Nat.eq_dec i (last (group_rows ikey g) 0)) as [D|D]; [now right|left].
        exists (last (group_rows ikey g) 0). pose proof (last_In _ (group_ne g R)) as I. pose proof (proj1 (group_rows_in _ _ _) I) as Ha.
        assert (La : last (group_rows ikey g) 0 < length keys) by (rewrite <- dup_len; apply nth_error_Some; congruence).
        split; [|apply same_key; [exact La|exact Hi|congruence]]. split; [|exact La].
        pose proof (last_spec _ g Ha R) as (LS1 & _). specialize (LS1 eq_refl).
        destruct (le_lt_dec (last (group_rows ikey g) 0) i) as [L|L]; [|exact L]. exfalso. apply LS1. exists i. split; [lia|]. apply same_key; [exact Hi|exact La|congruence]. }
      rewrite Q, W, LS. destruct DEC; tauto.
  - intros C EI. apply Nat.eqb_neq in EI. rewrite EI. apply Q. rewrite W. apply KG in C. lia.
Qed.
End Dup.
