From Coq Require Import List Arith Bool ZArith Lia Permutation.
From Verif Require Import FlattenModel FlattenProofs GroupModel GroupingModel GroupingSpec DsModel DsSpec DsProofs3 AggModel AggSpec AggProofs2 Acc2Model Acc2Spec Acc2Proofs ShapeModel ShapeSpec.
Import ListNotations.

Section P.
Context {V : Type}.
Variable inv : V.
Variable str : V -> name.

Lemma pivot_name_text (ccd : list (name * list V)) i : pivot_name inv str ccd i = text str (row inv ccd i).
Proof.
  destruct ccd as [|p r]; [reflexivity|]. unfold pivot_name, text, row. cbn [map].
  set (x := str (nth i (snd p) inv)). clearbody x. revert x. induction r as [|q r IH]; intros x; cbn [fold_left map join]; [reflexivity|].
  rewrite IH. destruct r as [|q' r]; cbn [map join]; [reflexivity|]. now rewrite <- app_assoc.
Qed.
Lemma fetch_ok (d : list (name * list V)) N ns : rect d N -> (forall n, In n ns -> In n (map fst d)) ->
  exists l, fetch d ns = Some l /\ map fst l = ns /\ (forall n c, In (n, c) l -> length c = N) /\ forall r, row inv l r = key_at inv d ns r.
Proof.
  intros [ND LEN]. induction ns as [|n ns IH]; intros H; cbn [fetch].
  - exists []. repeat split; auto. intros n c [].
  - destruct (dget_has n d (H n (or_introl eq_refl))) as [c E]. destruct IH as (l & El & Nl & Ll & Rl); [intros m I; apply H; now right|].
    rewrite E, El. exists ((n, c) :: l). split; [reflexivity|]. split; [cbn; now rewrite Nl|]. split.
    + intros m c' [I|I]; [injection I as <- <-|now apply (Ll m)]. apply (LEN n). now apply dget_some_in.
    + intros r. unfold row, key_at in *. cbn [map]. rewrite E. f_equal. apply Rl.
Qed.
Lemma fetch_missing (d : list (name * list V)) ns n : In n ns -> ~ In n (map fst d) -> fetch d ns = None.
Proof.
  induction ns as [|m ns IH]; intros H0 H; [destruct H0|]. destruct H0 as [->|I]; cbn [fetch].
  - now rewrite (proj2 (dget_none n d) H).
  - rewrite IH by assumption. now destruct (dget m d).
Qed.
Lemma in_dset {X} k k' (v v' : X) d : In (k, v) (dset k' v' d) -> (k = k' /\ v = v') \/ In (k, v) d.
Proof.
  induction d as [|[k0 v0] d IH]; cbn [dset].
  - intros [I|[]]. injection I as -> ->. now left.
  - destruct (name_dec k0 k') as [->|N]; intros [I|I]; [injection I as -> ->; now left|right; now right|right; now left|]. destruct (IH I) as [?|?]; [now left|right; now right].
Qed.
Lemma at_first_length v idx : length (at_first inv v idx) = length idx.
Proof. apply map_length. Qed.

Lemma group_rows_in ikey b r : In r (group_rows ikey b) <-> r < length ikey /\ nth r ikey 0 = b.
Proof. unfold group_rows. rewrite filter_In, in_seq, Nat.eqb_eq. lia. Qed.
Lemma group_rows_sorted ikey b : forall i j x y, i < j -> nth_error (group_rows ikey b) i = Some x -> nth_error (group_rows ikey b) j = Some y -> x <> y.
Proof.
  intros i j x y L H1 H2 E. assert (ND : NoDup (group_rows ikey b)) by (apply NoDup_filter, seq_NoDup).
  rewrite NoDup_nth_error in ND. assert (i < length (group_rows ikey b)) by (apply nth_error_Some; congruence). specialize (ND i j H). rewrite H1, H2, E in ND. specialize (ND eq_refl). lia.
Qed.
Lemma two_in_group ikey b : 1 < length (group_rows ikey b) <-> exists r r', r <> r' /\ In r (group_rows ikey b) /\ In r' (group_rows ikey b).
Proof.
  assert (ND : NoDup (group_rows ikey b)) by (apply NoDup_filter, seq_NoDup). split.
  - destruct (group_rows ikey b) as [|x [|y l]]; cbn; try lia. intros _. exists x, y. apply NoDup_cons_iff in ND. destruct ND as [NI _]. split; [intros ->; apply NI; now left|]. auto.
  - intros (r & r' & D & I & I'). destruct (group_rows ikey b) as [|x [|y l]]; cbn; try lia; [destruct I|]. destruct I as [->|[]], I' as [->|[]]. congruence.
Qed.

(** a table as the columns that [set_col] adds one by one *)
Lemma pivot_dataset_ok idx R (ccd crd : list (name * list V)) C v :
  key_table inv ccd C -> crd <> [] -> (forall p, In p crd -> length (snd p) = R) -> length idx = S R * S C ->
  pivot_dataset inv str idx (R + 1) ccd crd v
  = Some (dset_all (map (fun j => (text str (row inv ccd j), map (fun i => nth (S j * S R + i) (at_first inv v idx) inv) (seq 0 R))) (seq 0 C)) crd).
Proof.
  intros KT NE LEN LI. unfold pivot_dataset.
  assert (OC : match ccd with (_, c) :: _ => length c | [] => 0 end = C).
  { destruct KT as (K1 & _ & K3 & _). destruct ccd as [|[k c] ccd]; [congruence|]. apply (K3 (k, c)). now left. }
  rewrite OC. set (arr := at_first inv v idx). assert (LA : length arr = S R * S C) by (unfold arr; now rewrite at_first_length).
  assert (G : forall n j (ds : list (name * list V)), j + n <= C -> ds <> [] -> (forall p, In p ds -> length (snd p) = R) ->
    snd (fold_left (fun s i => let '(start, newds) := s in (start + (R + 1), set_col (pivot_name inv str ccd i) (firstn (R + 1 - 1) (skipn start arr)) newds)) (seq j n) (S j * S R, Some ds))
    = Some (dset_all (map (fun j => (text str (row inv ccd j), map (fun i => nth (S j * S R + i) arr inv) (seq 0 R))) (seq j n)) ds)).
  { induction n as [|n IH]; intros j ds B NN LL; cbn [seq fold_left map]; [reflexivity|].
    assert (S1 : firstn (R + 1 - 1) (skipn (S j * S R) arr) = map (fun i => nth (S j * S R + i) arr inv) (seq 0 R)).
    { replace (R + 1 - 1) with R by lia. clear -B LA. assert (Q : S j * S R + R <= length arr) by nia. revert Q. generalize (S j * S R) as s. generalize arr as a. clear. intros a s. revert R.
      assert (H : forall R s a, s + R <= length a -> firstn R (skipn s a) = map (fun i => nth (s + i) a inv) (seq 0 R)).
      { induction R as [|R IH]; intros s0 a0 Q; [reflexivity|]. cbn [seq map]. rewrite Nat.add_0_r.
        destruct (skipn s0 a0) as [|x l] eqn:E; [apply (f_equal (@length V)) in E; rewrite skipn_length in E; cbn in E; lia|].
        assert (E1 : nth s0 a0 inv = x) by (rewrite <- (firstn_skipn s0 a0), E, app_nth2; rewrite firstn_length_le by lia; [now rewrite Nat.sub_diag|lia]).
        assert (E2 : skipn (S s0) a0 = l).
        { clear IH Q. revert s0 x l E E1. induction a0 as [|y a0 IHa]; intros s0 x l E _; [destruct s0; discriminate|]. destruct s0; cbn in E |- *; [now injection E|]. rewrite <- (IHa s0 x l E); [reflexivity|]. rewrite <- (firstn_skipn s0 a0), E, app_nth2; rewrite firstn_length; [|lia]. apply (f_equal (@length V)) in E. rewrite skipn_length in E. cbn in E. replace (s0 - Nat.min s0 (length a0)) with 0 by lia. reflexivity. }
        cbn [firstn]. rewrite E1. f_equal. rewrite <- E2. rewrite (IH (S s0) a0) by lia. rewrite <- seq_shift, map_map. apply map_ext. intros i. f_equal. lia. }
      intros R Q. now apply H. }
    rewrite S1, pivot_name_text. destruct ds as [|[k0 v0] ds]; [congruence|]. unfold set_col.
    assert (L0 : length v0 = R) by (apply (LL (k0, v0)); now left). rewrite L0, map_length, seq_length, Nat.eqb_refl.
    replace (S j * S R + (R + 1)) with (S (S j) * S R) by nia. rewrite (IH (S j)); [reflexivity|lia| |].
    - destruct (dset _ _ _) eqn:E; [|discriminate]. apply (f_equal (map fst)) in E. rewrite dset_names in E. cbn [map fst] in E. destruct (mem _ _); discriminate.
    - intros p I. destruct p as [k c]. destruct (in_dset _ _ _ _ _ I) as [[-> ->]|I']; [cbn [snd]; now rewrite map_length, seq_length|]. now apply (LL (k, c)). }
  specialize (G C 0 crd (le_n _) NE LEN). replace (1 * S R) with (R + 1) in G by lia. exact G.
Qed.

(** ** the bins *)
Section Bins.
Variables (R C : nat) (rk ck : list nat) (flt : option (list bool)).
Variable L : length ck = length rk.
Variable F : filter_ok (length rk) flt.
Variable RC : codes_in R rk.
Variable CC : codes_in C ck.
Notation ikey := (combine2keys R rk ck flt).
Lemma bins_length : length ikey = length rk.
Proof using L F.
  unfold combine2keys. destruct flt as [f|] eqn:E.
  - rewrite map_length, combine_length, map_length, combine_length, L, (F f eq_refl). lia.
  - rewrite map_length, combine_length. lia.
Qed.
Lemma bins_nth r : r < length rk -> nth r ikey 0 = if passes flt r then nth r ck 0 * S R + nth r rk 0 else 0.
Proof using L F.
  intros H. exact (ikey2_nth (V := nat) (mkA (mkX rk R None (new_keychain [] false false)) (mkX ck 0 None (new_keychain [] false false)) [] flt false) r L F H).
Qed.
Lemma bins_place r : r < length rk -> nth r ikey 0 = snd (place rk ck flt None r) * S R + fst (place rk ck flt None r).
Proof using L F. intros H. rewrite bins_nth by assumption. unfold place. cbn [passes]. rewrite andb_true_r. now destruct (passes flt r). Qed.
Lemma place_le r : fst (place rk ck flt None r) <= R /\ snd (place rk ck flt None r) <= C.
Proof using RC CC. clear L F. unfold place. destruct (_ && _); cbn [fst snd]; [|lia]. split; now apply codes_nth. Qed.
Lemma bins_inj r r' : r < length rk -> r' < length rk -> nth r ikey 0 = nth r' ikey 0 <-> place rk ck flt None r = place rk ck flt None r'.
Proof using L F RC CC.
  intros H H'. rewrite !bins_place by assumption. pose proof (place_le r). pose proof (place_le r').
  destruct (place rk ck flt None r) as [a b], (place rk ck flt None r') as [a' b']. cbn [fst snd] in *. rewrite bin_place by lia. split; [intros [-> ->]; reflexivity|intros E; now injection E].
Qed.
Lemma dup_iff : existsb (fun b => 1 <? length (group_rows ikey b)) (seq 0 (S R * S C)) = true <->
  exists r r', r < length rk /\ r' < length rk /\ r <> r' /\ place rk ck flt None r = place rk ck flt None r'.
Proof using L F RC CC.
  rewrite existsb_exists. split.
  - intros (b & _ & H). apply Nat.ltb_lt, two_in_group in H. destruct H as (r & r' & D & I & I'). apply group_rows_in in I, I'. rewrite bins_length in I, I'. destruct I as [A B], I' as [A' B'].
    exists r, r'. repeat (split; [assumption|]). apply bins_inj; [assumption..|]. now rewrite B, B'.
  - intros (r & r' & A & A' & D & E). exists (nth r ikey 0). split.
    + apply in_seq. rewrite bins_place by assumption. pose proof (place_le r). nia.
    + apply Nat.ltb_lt, two_in_group. exists r, r'. split; [assumption|]. rewrite !group_rows_in, bins_length. apply (bins_inj r r' A A') in E. auto.
Qed.
(** the value at a bin, when no bin has two rows *)
Lemma first_cell v i j : i < R -> j < C -> (forall r r', r < length rk -> r' < length rk -> place rk ck flt None r = place rk ck flt None r' -> r = r') ->
  (forall r, r < length rk -> place rk ck flt None r = (S i, S j) -> nth (S j * S R + i) (at_first inv v (ifirst ikey (S R * S C))) inv = nth r v inv) /\
  ((forall r, r < length rk -> place rk ck flt None r <> (S i, S j)) -> nth (S j * S R + i) (at_first inv v (ifirst ikey (S R * S C))) inv = inv).
Proof using L F RC CC.
  intros Hi Hj U. assert (E : nth (S j * S R + i) (at_first inv v (ifirst ikey (S R * S C))) inv = match hd_error (group_rows ikey (S j * S R + S i)) with Some r => nth r v inv | None => inv end).
  { unfold at_first, ifirst. rewrite map_map. assert (B : S j * S R + i < S R * S C) by nia. rewrite (nth_map _ _ _ _ 0) by (rewrite seq_length; exact B). rewrite seq_nth by exact B.
    replace (1 + (S j * S R + i)) with (S j * S R + S i) by lia. reflexivity. }
  rewrite E. assert (IN : forall r, In r (group_rows ikey (S j * S R + S i)) <-> r < length rk /\ place rk ck flt None r = (S i, S j)).
  { intros r. rewrite group_rows_in, bins_length. split; intros [A B]; (split; [exact A|]).
    - rewrite bins_place in B by exact A. pose proof (place_le r). destruct (place rk ck flt None r) as [a b]. cbn [fst snd] in *. apply bin_place in B; [|lia..]. destruct B as [-> ->]. reflexivity.
    - rewrite bins_place by exact A. rewrite B. reflexivity. }
  split.
  - intros r A B. destruct (group_rows ikey (S j * S R + S i)) as [|x l]; [destruct (proj2 (IN r) (conj A B))|]. cbn [hd_error]. f_equal. apply U; [apply IN; now left|exact A|]. rewrite B. apply IN. now left.
  - intros H. destruct (group_rows ikey (S j * S R + S i)) as [|x l]; [reflexivity|]. exfalso. destruct (proj1 (IN x) (or_introl eq_refl)) as [A B]. exact (H x A B).
Qed.
End Bins.

(** ** pivot *)
Section Pivot.
Variable missing : list V -> bool.
Variable cat : list (name * list V) -> grp (V := V).
Variable CO : cat_ok inv missing cat.
Variables (d : list (name * list V)) (N : nat) (labels columns : list name) (flt : option (list bool)).
Variable RE : rect d N.
Variable SL : some_of d labels.
Variable SC : some_of d columns.
Variable FO : filter_ok N flt.
Variables dl dc : list (name * list V).
Variable EL : fetch d labels = Some dl.
Variable EC : fetch d columns = Some dc.
Notation gr := (cat dl).
Notation gc := (cat dc).

Lemma fetched ns (l : list (name * list V)) : some_of d ns -> fetch d ns = Some l -> l <> [] /\ rect l N /\ map fst l = ns /\ forall r, row inv l r = key_at inv d ns r.
Proof using RE.
  intros (H1 & H2 & H3) E. destruct (fetch_ok d N ns RE H3) as (l' & E' & NM & LEN & R). rewrite E in E'. injection E' as <-.
  split; [intros ->; cbn in NM; congruence|]. split; [split; [now rewrite NM|exact LEN]|]. auto.
Qed.
Lemma cat_codes ns (l : list (name * list V)) (r : nat) : some_of d ns -> fetch d ns = Some l -> codes_in (g_n (cat l)) (g_code (cat l)) /\ length (g_code (cat l)) = N.
Proof using RE CO.
  intros H E. destruct (fetched ns l H E) as (NE & RL & _). destruct (CO l N NE RL) as (_ & _ & L & K). split; [|exact L].
  apply Forall_forall. intros c I. destruct (In_nth _ _ 0 I) as (q & Hq & <-). rewrite L in Hq. specialize (K q Hq). destruct (missing _); [lia|]. destruct K as (k & K1 & K2 & _). lia.
Qed.
(** the key that a code stands for *)
Definition meant (g : grp (V := V)) (c : nat) : option (list V) := match c with 0 => None | S k => Some (row inv (g_dict g) k) end.
Lemma cat_meant ns (l : list (name * list V)) (r : nat) : some_of d ns -> fetch d ns = Some l -> r < N -> meant (cat l) (nth r (g_code (cat l)) 0) = present missing (key_at inv d ns r).
Proof using RE CO.
  intros H E Hr. destruct (fetched ns l H E) as (NE & RL & _ & RW). destruct (CO l N NE RL) as (_ & _ & L & K). specialize (K r Hr). unfold present. rewrite RW in K.
  destruct (missing _); [now rewrite K|]. destruct K as (k & K1 & -> & K3). cbn [meant]. now rewrite K3.
Qed.
Lemma meant_inj ns (l : list (name * list V)) c c' : some_of d ns -> fetch d ns = Some l -> c <= g_n (cat l) -> c' <= g_n (cat l) -> meant (cat l) c = meant (cat l) c' -> c = c'.
Proof using RE CO.
  intros H E B B'. destruct (fetched ns l H E) as (NE & RL & _). destruct (CO l N NE RL) as (_ & (_ & _ & _ & U) & _).
  destruct c as [|c], c' as [|c']; cbn [meant]; intros X; try discriminate; [reflexivity|]. f_equal. apply U; [lia..|]. now injection X.
Qed.
Lemma target_place r : r < N -> target inv missing d labels columns flt r = (meant gr (fst (place (g_code gr) (g_code gc) flt None r)), meant gc (snd (place (g_code gr) (g_code gc) flt None r))).
Proof using RE CO SL SC EL EC FO str.
  intros Hr. unfold target, place. cbn [passes]. rewrite andb_true_r. unfold passes. destruct flt as [f|]; [destruct (nth r f false)|]; cbn [fst snd]; try reflexivity;
  now rewrite (cat_meant labels dl r SL EL Hr), (cat_meant columns dc r SC EC Hr).
Qed.
Lemma target_inj r r' : r < N -> r' < N -> target inv missing d labels columns flt r = target inv missing d labels columns flt r' <->
  place (g_code gr) (g_code gc) flt None r = place (g_code gr) (g_code gc) flt None r'.
Proof using RE CO SL SC EL EC FO str.
  intros H H'. rewrite !target_place by assumption. destruct (cat_codes labels dl 0 SL EL) as [C1 L1]. destruct (cat_codes columns dc 0 SC EC) as [C2 L2].
  split; [|intros ->; reflexivity]. intros E. injection E as E1 E2.
  pose proof (place_le (g_n gr) (g_n gc) (g_code gr) (g_code gc) flt C1 C2 r). pose proof (place_le (g_n gr) (g_n gc) (g_code gr) (g_code gc) flt C1 C2 r').
  apply (meant_inj labels dl) in E1; [|tauto..]. apply (meant_inj columns dc) in E2; [|tauto..]. now apply injective_projections.
Qed.
Notation ikey := (combine2keys (g_n gr) (g_code gr) (g_code gc) flt).
Notation dup := (existsb (fun b => 1 <? length (group_rows ikey b)) (seq 0 (S (g_n gr) * S (g_n gc)))).
Lemma dup_targets : dup = true <-> exists r r', r < N /\ r' < N /\ r <> r' /\ target inv missing d labels columns flt r = target inv missing d labels columns flt r'.
Proof using RE CO SL SC EL EC FO str.
  destruct (cat_codes labels dl 0 SL EL) as [C1 L1]. destruct (cat_codes columns dc 0 SC EC) as [C2 L2].
  rewrite (dup_iff (g_n gr) (g_n gc) (g_code gr) (g_code gc) flt) by (rewrite ?L1, ?L2; auto). rewrite L1.
  split; intros (r & r' & A & A' & D & E); exists r, r'; repeat (split; [assumption|]); now apply target_inj.
Qed.

Lemma pivot_table_ok v c : dup = false -> dget v d = Some c ->
  NoDup (labels ++ map (text str) (keys_of inv gc)) ->
  exists t, pivot_dataset inv str (ifirst ikey (S (g_n gr) * S (g_n gc))) (g_n gr + 1) (g_dict gc) (g_dict gr) c = Some t /\
    pivot_table inv str missing d N labels columns flt (keys_of inv gr) (keys_of inv gc) v t.
Proof using RE CO SL SC EL EC FO str.
  intros DF EV ND.
  destruct (fetched labels dl SL EL) as (NE1 & RL1 & NM1 & RW1). destruct (CO dl N NE1 RL1) as (GN1 & KT1 & L1 & K1).
  destruct (fetched columns dc SC EC) as (NE2 & RL2 & NM2 & RW2). destruct (CO dc N NE2 RL2) as (GN2 & KT2 & L2 & K2).
  destruct (cat_codes labels dl 0 SL EL) as [C1 _]. destruct (cat_codes columns dc 0 SC EC) as [C2 _].
  set (R := g_n gr) in *. set (C := g_n gc) in *.
  eexists. split.
  { apply (pivot_dataset_ok (ifirst ikey (S R * S C)) R (g_dict gc) (g_dict gr) C c KT2).
    - apply KT1.
    - apply KT1.
    - unfold ifirst. now rewrite map_length, seq_length. }
  set (arr := at_first inv c (ifirst ikey (S R * S C))).
  set (new := map _ (seq 0 C)).
  assert (NW : map fst new = map (text str) (keys_of inv gc)) by (unfold new, keys_of; rewrite !map_map; reflexivity).
  assert (DA : dset_all new (g_dict gr) = g_dict gr ++ new).
  { apply dset_all_id. rewrite GN1, NM1, NW. exact ND. }
  rewrite DA.
  assert (NF : map fst (g_dict gr ++ new) = labels ++ map (text str) (keys_of inv gc)) by (rewrite map_app, GN1, NM1, NW; reflexivity).
  assert (LK : length (keys_of inv gr) = R) by (unfold keys_of; now rewrite map_length, seq_length).
  assert (U : forall r r', r < N -> r' < N -> place (g_code gr) (g_code gc) flt None r = place (g_code gr) (g_code gc) flt None r' -> r = r').
  { intros r r' H H' E. destruct (Nat.eq_dec r r') as [|D]; [assumption|]. exfalso. assert (T : dup = true) by (apply dup_targets; exists r, r'; repeat (split; [assumption|]); now apply target_inj). fold R C in T. congruence. }
  split; [exact NF|]. split; [|split; [|split]].
  - intros n c0 I. rewrite LK. apply in_app_or in I. destruct I as [I|I]; [exact (proj1 (proj2 (proj2 KT1)) (n, c0) I)|]. unfold new in I. apply in_map_iff in I. destruct I as (j & E & _). injection E as _ <-. now rewrite map_length, seq_length.
  - intros i k E. unfold keys_of in E. rewrite nth_error_map in E. destruct (nth_error (seq 0 (g_n gr)) i) as [q|] eqn:Q; [|discriminate]. injection E as <-.
    assert (q = i) by (assert (i < length (seq 0 (g_n gr))) by (apply nth_error_Some; congruence); rewrite seq_length in *; apply (nth_error_nth _ _ 0) in Q; rewrite seq_nth in Q by assumption; symmetry; exact Q). subst q.
    unfold key_at, row. rewrite <- NM1, <- GN1, map_map. apply map_ext_in. intros [n u] I.
    cbn [fst snd]. assert (GD : dget n (g_dict gr ++ new) = Some u) by (apply dget_nodup; [rewrite NF; exact ND|apply in_or_app; now left]). now rewrite GD.
  - intros r kr kc Hr T. rewrite target_place in T by exact Hr. pose proof (place_le R C (g_code gr) (g_code gc) flt C1 C2 r) as [B1 B2].
    destruct (place (g_code gr) (g_code gc) flt None r) as [a b]. cbn [fst snd] in *. injection T as T1 T2.
    destruct a as [|a]; [discriminate|]. destruct b as [|b]; [discriminate|]. injection T1 as <-. injection T2 as <-. split; apply in_map; apply in_seq; fold R C; lia.
  - intros i kr kc Ei Ic. assert (Hi : i < R) by (rewrite <- LK; apply nth_error_Some; congruence).
    assert (KR : kr = row inv (g_dict gr) i).
    { apply (nth_error_nth _ _ []) in Ei. unfold keys_of in Ei. rewrite (nth_map _ _ _ _ 0) in Ei by (rewrite seq_length; exact Hi). rewrite seq_nth in Ei by exact Hi. now symmetry. }
    apply in_map_iff in Ic. destruct Ic as (j & KC & Hj). apply in_seq in Hj. fold C in Hj.
    assert (CELL : cell_of (g_dict gr ++ new) (text str kc) i = Some (nth (S j * S R + i) arr inv)).
    { unfold cell_of. rewrite (dget_nodup _ (text str kc) (map (fun i => nth (S j * S R + i) arr inv) (seq 0 R))).
      - rewrite nth_error_map. rewrite (nth_error_nth' _ 0) by (rewrite seq_length; exact Hi). rewrite seq_nth by exact Hi. reflexivity.
      - rewrite NF. exact ND.
      - apply in_or_app. right. unfold new. apply in_map_iff. exists j. rewrite KC. split; [reflexivity|]. apply in_seq. lia. }
    assert (TP : forall r, r < N -> target inv missing d labels columns flt r = (Some kr, Some kc) <-> place (g_code gr) (g_code gc) flt None r = (S i, S j)).
    { intros r Hr. rewrite target_place by exact Hr. pose proof (place_le R C (g_code gr) (g_code gc) flt C1 C2 r) as [B1 B2].
      destruct (place (g_code gr) (g_code gc) flt None r) as [a b]. cbn [fst snd] in *. split.
      - intros T. injection T as T1 T2.
        assert (a = S i) by (apply (meant_inj labels dl); [exact SL|exact EL|exact B1|fold R; lia|cbn [meant]; congruence]).
        assert (b = S j) by (apply (meant_inj columns dc); [exact SC|exact EC|exact B2|fold C; lia|cbn [meant]; congruence]). congruence.
      - intros T. injection T as -> ->. cbn [meant]. congruence. }
    rewrite CELL. destruct (first_cell R C (g_code gr) (g_code gc) flt ltac:(congruence) ltac:(rewrite L1; exact FO) C1 C2 c i j Hi ltac:(lia)) as [FC1 FC2].
    { rewrite L1. exact U. }
    rewrite L1 in FC1, FC2. split.
    + intros r Hr T. apply TP in T; [|exact Hr]. change (Some (nth (S j * S R + i) arr inv)) with (Some (nth (S j * S R + i) (at_first inv c (ifirst (combine2keys R (g_code gr) (g_code gc) flt) (S R * S C))) inv)). rewrite (FC1 r Hr T). unfold cell_of. rewrite EV. symmetry. apply nth_error_nth'.
      destruct RE as [_ LEN]. rewrite (LEN v c) by now apply dget_some_in. exact Hr.
    + intros T. change (Some (nth (S j * S R + i) arr inv)) with (Some (nth (S j * S R + i) (at_first inv c (ifirst (combine2keys R (g_code gr) (g_code gc) flt) (S R * S C))) inv)). rewrite FC2; [reflexivity|]. intros r Hr X. apply (T r Hr). now apply TP.
Qed.
Lemma pivot_values_ok : dup = false -> NoDup (labels ++ map (text str) (keys_of inv gc)) ->
  forall vs ms, (forall v, In v vs -> In v (map fst d)) ->
  (forall v t, dget v ms = Some t -> pivot_table inv str missing d N labels columns flt (keys_of inv gr) (keys_of inv gc) v t) ->
  exists res, pivot_values inv str d (ifirst ikey (S (g_n gr) * S (g_n gc))) (g_n gr + 1) (g_dict gc) (g_dict gr) vs ms = inl res /\
    (forall v, In v (map fst res) <-> In v vs \/ In v (map fst ms)) /\
    forall v t, dget v res = Some t -> pivot_table inv str missing d N labels columns flt (keys_of inv gr) (keys_of inv gc) v t.
Proof using RE CO SL SC EL EC FO str.
  intros DF ND. induction vs as [|v vs IH]; intros ms HV HM; cbn [pivot_values].
  - exists ms. split; [reflexivity|]. split; [|exact HM]. intros v. split; [now right|intros [[]|H]; exact H].
  - destruct (dget_has v d (HV v (or_introl eq_refl))) as [c E]. rewrite E. destruct (pivot_table_ok v c DF E ND) as (t & Et & PT). rewrite Et.
    destruct (IH (dset v t ms)) as (res & E1 & E2 & E3); [intros w I; apply HV; now right| |].
    + intros w t' G. rewrite dget_dset in G. destruct (name_dec v w) as [<-|]; [injection G as <-; exact PT|now apply HM].
    + exists res. split; [exact E1|]. split; [|exact E3]. intros w. rewrite E2, dset_names. destruct (mem v (map fst ms)) eqn:M.
      * apply mem_in in M. split; [intros [I|I]; [left; now right|now right]|intros [[<-|I]|I]; [now right|now left|now right]].
      * rewrite in_app_iff. cbn [In]. split; [intros [I|[I|[I|[]]]]; auto|intros [[<-|I]|I]; auto].
Qed.
Lemma pivot_ok vals : let vs := match vals with Some l => l | None => filter (fun n => negb (mem n (labels ++ columns))) (map fst d) end in
  vs <> [] -> (forall v, In v vs -> In v (map fst d)) ->
  NoDup (labels ++ map (text str) (keys_of inv gc)) ->
  (forall r r', r < N -> r' < N -> r <> r' -> target inv missing d labels columns flt r <> target inv missing d labels columns flt r') ->
  exists res, pivot inv str cat d labels columns vals flt = inl res /\ (forall v, In v (map fst res) <-> In v vs) /\
    forall v t, dget v res = Some t -> pivot_table inv str missing d N labels columns flt (keys_of inv gr) (keys_of inv gc) v t.
Proof using RE CO SL SC EL EC FO str.
  intros vs NV HV ND U. unfold pivot. fold vs. assert (NL : labels <> []) by apply SL. assert (NC : columns <> []) by apply SC. destruct labels as [|l0 ls] eqn:ELs; [congruence|]. destruct columns as [|c0 cs] eqn:ECs; [congruence|].
  destruct vs as [|v0 vr] eqn:EVs; [congruence|]. rewrite <- EVs, <- ELs, <- ECs in *. rewrite EL, EC.
  assert (DF : dup = false).
  { destruct dup eqn:D; [|reflexivity]. exfalso. apply dup_targets in D. destruct D as (r & r' & A & A' & X & E). exact (U r r' A A' X E). }
  rewrite DF. destruct (pivot_values_ok DF ND vs [] HV) as (res & E1 & E2 & E3); [intros v t X; discriminate|].
  exists res. split; [exact E1|]. split; [|exact E3]. intros v. rewrite E2. cbn [map In]. tauto.
Qed.
Lemma pivot_dup vals r r' : match vals with Some l => l | None => filter (fun n => negb (mem n (labels ++ columns))) (map fst d) end <> [] ->
  r < N -> r' < N -> r <> r' -> target inv missing d labels columns flt r = target inv missing d labels columns flt r' ->
  pivot inv str cat d labels columns vals flt = inr EValue.
Proof using RE CO SL SC EL EC FO str.
  intros NV A A' X E. unfold pivot. assert (NL : labels <> []) by apply SL. assert (NC : columns <> []) by apply SC. set (vs := match vals with Some _ => _ | None => _ end) in *. clearbody vs.
  destruct labels as [|l0 ls] eqn:ELs; [congruence|]. destruct columns as [|c0 cs] eqn:ECs; [congruence|].
  destruct vs as [|v0 vr] eqn:EVs; [congruence|]. rewrite <- ELs, <- ECs in *. rewrite EL, EC.
  assert (DF : dup = true) by (apply dup_targets; exists r, r'; auto). now rewrite DF.
Qed.
End Pivot.
End P.
