(** Proofs about drop_duplicates. *)
From Coq Require Import List Arith Bool ZArith Lia.
From Verif Require Import FlattenModel FlattenProofs MergeModel MergeFacts GroupModel GroupFacts DsModel DsSpec DsProofs DsProofs3 DsProofs4 DsProofs5 TabModel TabCmpModel TabSpec TabProofs2 TabProofs5.
Import ListNotations.

Lemma nth_slice {X} (d : X) : forall m (l : list X) len k, k < len -> nth k (firstn len (skipn m l)) d = nth (m + k) l d.
Proof.
  induction m as [|m IH]; intros l len k H.
  - cbn [skipn]. revert len k H. induction l as [|x l IH]; intros [|len] [|k] H; cbn; try lia; try reflexivity. apply IH. lia.
  - destruct l as [|x l]; [|apply IH; assumption]. rewrite skipn_nil, firstn_nil. destruct k; [now destruct m|reflexivity].
Qed.
Lemma last_nth (l : list nat) : last l 0 = nth (length l - 1) l 0.
Proof. induction l as [|x [|y l] IH]; [reflexivity|reflexivity|]. change (last (x :: y :: l) 0) with (last (y :: l) 0). rewrite IH. cbn [length]. rewrite !Nat.sub_succ, !Nat.sub_0_r. reflexivity. Qed.
Lemma in_order_seq rs n : in_order rs -> (forall i, In i rs -> i < n) -> length rs = n -> rs = seq 0 n.
Proof.
  intros O R L.
  assert (Lo : forall q x, nth_error rs q = Some x -> q <= x).
  { induction q as [|q IH]; intros x H; [lia|]. destruct (nth_error rs q) as [y|] eqn:E.
    - specialize (IH y eq_refl). pose proof (O q (S q) y x E H). lia.
    - apply nth_error_None in E. assert (S q < length rs) by (apply nth_error_Some; congruence). lia. }
  assert (Hi : forall k q x, nth_error rs q = Some x -> q + k = n - 1 -> x + k <= n - 1).
  { induction k as [|k IH]; intros q x H E.
    - apply nth_error_In, R in H. lia.
    - assert (Q : exists y, nth_error rs (S q) = Some y). { destruct (nth_error rs (S q)) eqn:Z; [eauto|]. apply nth_error_None in Z. lia. }
      destruct Q as [y Hy]. specialize (IH (S q) y Hy). pose proof (O q (S q) x y H Hy). lia. }
  apply (nth_ext _ _ 0 0); [now rewrite seq_length|]. intros q Hq. rewrite L in Hq. rewrite seq_nth by assumption. cbn.
  assert (E : nth_error rs q = Some (nth q rs 0)) by (apply nth_error_nth'; lia).
  pose proof (Lo q _ E). pose proof (Hi (n - 1 - q) q _ E). lia.
Qed.

Section Dup.
Context {B V : Type}.
Variable keys : list B.
Variable us : list B.
Variable ikey : list nat.
Hypothesis G : grouping_of (map Some keys) us ikey.
Hypothesis U : forall u, In u us -> In u keys.
Hypothesis FO : by_first_occurrence us keys.
Let n := length us.
Let grp g := group_rows ikey g.

Lemma group_first_eq : group_first ikey n = map (fun g => hd 0 (grp g)) (seq 1 n).
Proof. unfold group_first. apply map_ext_in. intros g Hg. apply in_seq in Hg. apply (first_at keys us ikey G U). fold n. lia. Qed.
Lemma group_last_eq : group_last ikey n = map (fun g => last (grp g) 0) (seq 1 n).
Proof.
  unfold group_last. apply map_ext_in. intros g Hg. apply in_seq in Hg. rewrite last_nth. unfold grp.
  rewrite (nc_at us ikey) by (fold n; lia).
  pose proof (pack_slice ikey n g ltac:(lia)) as P. rewrite (nc_at us ikey) in P by (fold n; lia).
  assert (NE : group_rows ikey g <> []) by (apply (group_ne keys us ikey G U); fold n; lia).
  assert (Ln : length (group_rows ikey g) > 0) by (destruct (group_rows ikey g); [easy|cbn; lia]).
  transitivity (nth (length (group_rows ikey g) - 1) (slice (igroup ikey n) (nth g (ifirstgroup ikey n) 0) (length (group_rows ikey g))) 0); [|now rewrite P].
  unfold slice. rewrite nth_slice by lia. f_equal. lia.
Qed.
Lemma hd_in g : 1 <= g <= n -> nth_error ikey (hd 0 (grp g)) = Some g.
Proof. intros Hg. apply group_rows_in. pose proof (group_ne keys us ikey G U g Hg) as N. unfold grp. destruct (group_rows ikey g); [easy|now left]. Qed.
Lemma last_in g : 1 <= g <= n -> nth_error ikey (last (grp g) 0) = Some g.
Proof. intros Hg. apply group_rows_in. apply last_In. now apply (group_ne keys us ikey G U). Qed.
Lemma ikey_len i g : nth_error ikey i = Some g -> i < length keys.
Proof. intros H. rewrite <- (dup_len keys us ikey G). apply nth_error_Some. congruence. Qed.
Lemma key_of_code i g : nth_error ikey i = Some (S g) -> nth_error keys i = nth_error us g.
Proof. intros H. destruct (code_key keys us ikey G i g H) as (b & E1 & E2). congruence. Qed.

Lemma firsts_ok : firsts keys (group_first ikey n).
Proof.
  rewrite group_first_eq. split.
  - intros a b x y Ha Hb L. rewrite nth_error_map in Ha, Hb.
    destruct (nth_error (seq 1 n) a) as [ga|] eqn:Ea; [|discriminate]. destruct (nth_error (seq 1 n) b) as [gb|] eqn:Eb; [|discriminate].
    assert (a < n /\ b < n). { split;
      [assert (a < length (seq 1 n)) by (apply nth_error_Some; congruence); rewrite seq_length in *; lia | assert (b < length (seq 1 n)) by (apply nth_error_Some; congruence); rewrite seq_length in *; lia]. }
    assert (ga = S a) by (apply (nth_error_nth _ _ 0) in Ea; rewrite seq_nth in Ea by lia; lia).
    assert (gb = S b) by (apply (nth_error_nth _ _ 0) in Eb; rewrite seq_nth in Eb by lia; lia). subst ga gb.
    cbn in Ha, Hb. assert (x = hd 0 (grp (S a))) by congruence. assert (y = hd 0 (grp (S b))) by congruence.
    assert (Hy : nth_error ikey y = Some (S b)) by (subst y; apply hd_in; lia).
    assert (Hx : nth_error ikey x = Some (S a)) by (subst x; apply hd_in; lia).
    destruct (FO a b y L ltac:(fold n; lia)) as (j & Lj & Ej); [now apply key_of_code|].
    destruct (Nat.lt_ge_cases x y) as [|Ge]; [assumption|]. exfalso.
    assert (NS : ~ seen_before keys x) by (apply (head_spec keys us ikey G U x (S a) Hx); [fold n; lia|assumption]).
    apply NS. exists j. split; [lia|]. rewrite Ej. symmetry. now apply key_of_code.
  - intros i. rewrite in_map_iff. split.
    + intros (g & <- & Hg). apply in_seq in Hg. assert (Hg' : 1 <= g <= n) by lia. pose proof (hd_in g Hg') as H. split; [now apply ikey_len in H|].
      apply (head_spec keys us ikey G U _ g H Hg'). reflexivity.
    + intros [Hi NS]. destruct (code_of keys us ikey G i Hi) as (g & Eg & Hg). fold n in Hg. exists g. split; [|apply in_seq; lia].
      symmetry. now apply (head_spec keys us ikey G U i g Eg).
Qed.
Lemma lasts_ok : (forall i, In i (group_last ikey n) <-> i < length keys /\ ~ seen_after keys i) /\
  forall q i j, nth_error (group_last ikey n) q = Some i -> nth_error (group_first ikey n) q = Some j -> nth_error keys i = nth_error keys j.
Proof.
  rewrite group_last_eq, group_first_eq. split.
  - intros i. rewrite in_map_iff. split.
    + intros (g & <- & Hg). apply in_seq in Hg. assert (Hg' : 1 <= g <= n) by lia. pose proof (last_in g Hg') as H. split; [now apply ikey_len in H|].
      apply (last_spec keys us ikey G U _ g H Hg'). reflexivity.
    + intros [Hi NS]. destruct (code_of keys us ikey G i Hi) as (g & Eg & Hg). fold n in Hg. exists g. split; [|apply in_seq; lia].
      symmetry. now apply (last_spec keys us ikey G U i g Eg).
  - intros q i j Hi Hj. rewrite nth_error_map in Hi, Hj. destruct (nth_error (seq 1 n) q) as [g|] eqn:E; [|discriminate]. cbn in Hi, Hj.
    apply nth_error_In, in_seq in E. assert (Hg : 1 <= g <= n) by lia. assert (i = last (grp g) 0) by congruence. assert (j = hd 0 (grp g)) by congruence. subst i j.
    apply (same_key keys us ikey G).
    + eapply ikey_len, last_in, Hg. + eapply ikey_len, hd_in, Hg. + rewrite last_in, hd_in by assumption. reflexivity.
Qed.
Definition once := map (fun g => nth g (ncountgroup ikey n) 0 =? 1) (seq 1 n).
Lemma onces_ok : in_order (compress once (group_first ikey n)) /\
  forall i, In i (compress once (group_first ikey n)) <-> i < length keys /\ ~ seen_before keys i /\ ~ seen_after keys i.
Proof.
  destruct firsts_ok as [O In1].
  assert (E : compress once (group_first ikey n) = map (fun g => hd 0 (grp g)) (filter (fun g => length (grp g) =? 1) (seq 1 n))).
  { rewrite group_first_eq. unfold once. assert (Q : forall (f : nat -> bool) (h : nat -> nat) l, compress (map f l) (map h l) = map h (filter f l)).
    { induction l as [|x l IH]; [reflexivity|]. cbn. destruct (f x); cbn; now rewrite IH. }
    rewrite Q. f_equal. apply filter_ext_in. intros g Hg. apply in_seq in Hg. rewrite (nc_at us ikey) by (fold n; lia). reflexivity. }
  split.
  - assert (Q : forall m (l : list nat), in_order l -> in_order (compress m l)).
    { clear. intros m l O. destruct (Nat.le_gt_cases 0 0) as [_|]; [|lia].
      assert (P : forall m (l : list nat) q x, nth_error (compress m l) q = Some x -> exists i, q <= i /\ nth_error l i = Some x).
      { induction m0 as [|b m0 IH]; intros [|y l0] q x H; cbn in H; try (destruct q; discriminate).
        destruct b.
        - destruct q as [|q]; [exists 0; split; [lia|exact H]|]. cbn in H. destruct (IH _ _ _ H) as (i & L & E). exists (S i). split; [lia|exact E].
        - destruct (IH _ _ _ H) as (i & L & E). exists (S i). split; [lia|exact E]. }
      revert l O. induction m as [|b m IH]; intros [|y l] O a c x z Ha Hc L; cbn in Ha, Hc; try (destruct a; discriminate).
      assert (O' : in_order l) by (intros a' b' u v Hu Hv L'; apply (O (S a') (S b') u v Hu Hv); lia).
      destruct b; [|exact (IH l O' a c x z Ha Hc L)].
      destruct c as [|c]; [lia|]. cbn in Hc. destruct a as [|a].
      - cbn in Ha. destruct (P _ _ _ _ Hc) as (i & _ & Ei). apply (O 0 (S i) x z Ha Ei). lia.
      - cbn in Ha. apply (IH l O' a c x z Ha Hc). lia. }
    now apply Q.
  - intros i. rewrite E, in_map_iff. split.
    + intros (g & <- & Hg). apply filter_In in Hg. destruct Hg as [Hg L1]. apply in_seq in Hg. assert (Hg' : 1 <= g <= n) by lia. pose proof (hd_in g Hg') as H. split; [now apply ikey_len in H|].
      apply (singleton_spec keys us ikey G U _ g H Hg'). now apply Nat.eqb_eq.
    + intros [Hi NS]. destruct (code_of keys us ikey G i Hi) as (g & Eg & Hg). fold n in Hg. exists g. split.
      * symmetry. now apply (head_spec keys us ikey G U i g Eg).
      * apply filter_In. split; [apply in_seq; lia|]. apply Nat.eqb_eq. now apply (singleton_spec keys us ikey G U i g Eg).
Qed.

(** the rows of the result *)
Definition result_rows (keep : keep_arg) : list nat :=
  match keep with KeepFirst => group_first ikey n | KeepLast => group_last ikey n | KeepNone => compress once (group_first ikey n) end.
Lemma kept_ok keep : kept keep keys (result_rows keep).
Proof.
  destruct keep; cbn [kept result_rows].
  - apply firsts_ok.
  - destruct lasts_ok as [A C]. split; [assumption|]. exists (group_first ikey n). split; [apply firsts_ok|]. split; [|assumption]. unfold group_first, group_last. now rewrite !map_length.
  - apply onces_ok.
Qed.
Lemma kept_range keep rs : kept keep keys rs -> forall i, In i rs -> i < length keys.
Proof.
  destruct keep; cbn.
  - intros [_ H] i Hi. now apply H.
  - intros [H _] i Hi. now apply H.
  - intros [_ H] i Hi. now apply H.
Qed.
Lemma kept_all keep rs : kept keep keys rs -> length rs = length keys -> rs = seq 0 (length keys).
Proof.
  intros K L. pose proof (kept_range keep rs K) as R. destruct keep; cbn in K.
  - destruct K. now apply in_order_seq.
  - destruct K as (_ & fs & (O & F) & Lf & S). assert (Ef : fs = seq 0 (length keys)) by (apply in_order_seq; [assumption|intros i Hi; now apply F|congruence]).
    rewrite <- Ef. apply (nth_ext _ _ 0 0); [congruence|]. intros q Hq.
    assert (E1 : nth_error rs q = Some (nth q rs 0)) by now apply nth_error_nth'.
    assert (E2 : nth_error fs q = Some (nth q fs 0)) by (apply nth_error_nth'; lia).
    pose proof (S q _ _ E1 E2) as E3. set (i := nth q rs 0) in *. set (j := nth q fs 0) in *.
    assert (Hi : i < length keys) by (apply R; eapply nth_error_In, E1). assert (Hj : j < length keys) by (apply F; eapply nth_error_In, E2).
    destruct (Nat.lt_trichotomy i j) as [H|[H|H]]; [exfalso|assumption|exfalso].
    + assert (Hin : In j fs) by (eapply nth_error_In, E2). apply F in Hin. apply (proj2 Hin). exists i. auto.
    + assert (Hin : In i fs) by (rewrite Ef; apply in_seq; lia). apply F in Hin. apply (proj2 Hin). exists j. auto.
  - destruct K as [O F]. apply in_order_seq; auto.
Qed.

Variable dflt : V.
Lemma take_rows_nth rs (c : list V) q : (forall i, In i rs -> i < length c) -> nth_error (take_rows dflt rs c) q = match nth_error rs q with Some i => nth_error c i | None => None end.
Proof.
  intros R. unfold take_rows. rewrite nth_error_map. destruct (nth_error rs q) as [i|] eqn:E; [|reflexivity]. cbn. symmetry. apply nth_error_nth'. apply R. eapply nth_error_In, E.
Qed.
Definition others (cols : list (name * list V)) (subset : list name) : list name := filter (fun k => negb (DsModel.mem k subset)) (names cols).
Lemma gb_names cols subset kr vr : (forall k, In k subset -> In k (names cols)) -> names (gb_table dflt cols subset kr vr) = subset ++ others cols subset.
Proof.
  intros Sub. unfold gb_table, names, others. rewrite map_app. f_equal.
  - induction subset as [|k s IH]; [reflexivity|]. cbn [flat_map]. destruct (dget k cols) as [c|] eqn:E.
    + cbn. f_equal. apply IH. intros m Hm. apply Sub. now right.
    + exfalso. apply dget_none in E. apply E, Sub. now left.
  - rewrite map_map. cbn [fst]. induction cols as [|[k c] cols IH]; [reflexivity|].
    clear IH Sub. generalize ((k, c) :: cols). intros l. induction l as [|[m x] l IH]; [reflexivity|]. cbn [filter map names fst]. destruct (negb _); cbn [map fst]; now rewrite IH.
Qed.
Lemma gb_dget cols subset kr vr k : (forall k, In k subset -> In k (names cols)) -> In k (subset ++ others cols subset) ->
  exists c, dget k cols = Some c /\ dget k (gb_table dflt cols subset kr vr) = Some (take_rows dflt (if DsModel.mem k subset then kr else vr) c).
Proof.
  intros Sub Hk. assert (Hc : In k (names cols)). { apply in_app_iff in Hk. destruct Hk as [H|H]; [auto|]. apply filter_In in H. tauto. }
  assert (exists c, dget k cols = Some c) as [c Ec]. { destruct (dget k cols) as [c|] eqn:E; [eauto|]. apply dget_none in E. contradiction. }
  exists c. split; [assumption|]. unfold gb_table. rewrite dget_app. destruct (DsModel.mem k subset) eqn:M.
  - apply mem_in in M. assert (Q : dget k (flat_map (fun k => match dget k cols with Some c => [(k, take_rows dflt kr c)] | None => [] end) subset) = Some (take_rows dflt kr c)).
    { clear Hk. induction subset as [|m s IH]; [easy|]. cbn [flat_map]. rewrite dget_app. destruct (name_dec m k) as [->|N].
      - rewrite Ec. cbn [dget]. destruct (name_dec k k); easy.
      - destruct M as [->|M]; [easy|]. assert (Em : dget k (match dget m cols with Some c => [(m, take_rows dflt kr c)] | None => [] end) = None).
        { destruct (dget m cols); cbn [dget]; [|reflexivity]. destruct (name_dec m k); easy. }
        rewrite Em. apply IH; auto. intros; apply Sub; now right. }
    now rewrite Q.
  - assert (Q : dget k (flat_map (fun k => match dget k cols with Some c => [(k, take_rows dflt kr c)] | None => [] end) subset) = None).
    { apply dget_none. intros H. apply in_map_iff in H. destruct H as ([m x] & <- & H). apply in_flat_map in H. destruct H as (m' & Hm & H). cbn in M.
      destruct (dget m' cols); [|easy]. destruct H as [H|[]]. injection H as -> _. apply mem_in in Hm. congruence. }
    rewrite Q. rewrite (dget_map_val (fun p => take_rows dflt vr (snd p))). rewrite (dget_filter (fun k => negb (DsModel.mem k subset))) by now rewrite M. now rewrite Ec.
Qed.
Lemma compress_take m rs (c : list V) : compress m (take_rows dflt rs c) = take_rows dflt (compress m rs) c.
Proof. unfold take_rows. apply compress_map. Qed.

Lemma dedup_taken cols subset keep : NoDup (names cols) -> (forall k c, In (k, c) cols -> length c = length keys) ->
  (forall k, In k subset -> In k (names cols)) -> (forall k, In k subset -> key_column keys cols k) ->
  taken (dedup dflt cols subset keep ikey n) cols (result_rows keep) (subset ++ others cols subset) /\
  (forall k c, dget k (dedup dflt cols subset keep ikey n) = Some c -> length c = length (result_rows keep)).
Proof.
  intros ND Len Sub KC. pose proof (kept_range keep _ (kept_ok keep)) as R.
  assert (KL : forall k c, dget k cols = Some c -> length c = length keys) by (intros k c H; apply dget_some_in in H; eauto).
  assert (LF : length (group_last ikey n) = length (group_first ikey n)) by (unfold group_first, group_last; now rewrite !map_length).
  assert (RF : forall i, In i (group_first ikey n) -> i < length keys) by (intros i Hi; apply firsts_ok in Hi; tauto).
  unfold taken. destruct keep; cbn [dedup result_rows] in *.
  - split; [split; [now apply gb_names|]|].
    + intros k q Hk. destruct (gb_dget cols subset (group_first ikey n) (group_first ikey n) k Sub Hk) as (c & Ec & Eg). unfold cell_of. rewrite Eg, Ec.
      replace (if DsModel.mem k subset then group_first ikey n else group_first ikey n) with (group_first ikey n) by now destruct (DsModel.mem k subset).
      apply take_rows_nth. intros i Hi. rewrite (KL k c Ec). auto.
    + intros k c H. assert (Hk : In k (subset ++ others cols subset)) by (rewrite <- (gb_names cols subset (group_first ikey n) (group_first ikey n) Sub); apply dget_some_in in H; now apply (in_map fst) in H).
      destruct (gb_dget cols subset (group_first ikey n) (group_first ikey n) k Sub Hk) as (c' & _ & Eg). rewrite Eg in H. injection H as <-. unfold take_rows. rewrite map_length. now destruct (DsModel.mem k subset).
  - split; [split; [now apply gb_names|]|].
    + intros k q Hk. destruct (gb_dget cols subset (group_first ikey n) (group_last ikey n) k Sub Hk) as (c & Ec & Eg). unfold cell_of. rewrite Eg, Ec.
      destruct (DsModel.mem k subset) eqn:M.
      * rewrite take_rows_nth by (intros i Hi; rewrite (KL k c Ec); auto).
        destruct (nth_error (group_last ikey n) q) as [i|] eqn:Ei.
        -- assert (exists j, nth_error (group_first ikey n) q = Some j) as [j Ej].
           { destruct (nth_error (group_first ikey n) q) eqn:Z; [eauto|]. apply nth_error_None in Z. assert (q < length (group_last ikey n)) by (apply nth_error_Some; congruence). lia. }
           rewrite Ej. apply mem_in in M. specialize (KC k M j i (RF j (nth_error_In _ _ Ej)) (R i (nth_error_In _ _ Ei))).
           unfold tcell in KC. rewrite Ec in KC. apply KC. symmetry. eapply (proj2 lasts_ok); eassumption.
        -- apply nth_error_None in Ei. rewrite (proj2 (nth_error_None (group_first ikey n) q)) by lia. reflexivity.
      * apply take_rows_nth. intros i Hi. rewrite (KL k c Ec). auto.
    + intros k c H. assert (Hk : In k (subset ++ others cols subset)) by (rewrite <- (gb_names cols subset (group_first ikey n) (group_last ikey n) Sub); apply dget_some_in in H; now apply (in_map fst) in H).
      destruct (gb_dget cols subset (group_first ikey n) (group_last ikey n) k Sub Hk) as (c' & _ & Eg). rewrite Eg in H. injection H as <-. unfold take_rows. rewrite map_length. destruct (DsModel.mem k subset); congruence.
  - fold once. assert (DG : forall k, dget k (map (fun p => (fst p, compress once (snd p))) (gb_table dflt cols subset (group_first ikey n) (group_first ikey n))) =
        match dget k (gb_table dflt cols subset (group_first ikey n) (group_first ikey n)) with Some c => Some (compress once c) | None => None end).
    { intros k. apply (dget_map_val (fun p => compress once (snd p))). }
    split; [split|].
    + rewrite map_map. cbn [fst]. now apply gb_names.
    + intros k q Hk. destruct (gb_dget cols subset (group_first ikey n) (group_first ikey n) k Sub Hk) as (c & Ec & Eg). unfold cell_of. rewrite DG, Eg, Ec.
      replace (if DsModel.mem k subset then group_first ikey n else group_first ikey n) with (group_first ikey n) by now destruct (DsModel.mem k subset).
      rewrite compress_take. apply take_rows_nth. intros i Hi. rewrite (KL k c Ec). auto.
    + intros k c H. rewrite DG in H. destruct (dget k (gb_table _ _ _ _ _)) as [c0|] eqn:E0; [|discriminate]. injection H as <-.
      assert (Hk : In k (subset ++ others cols subset)) by (rewrite <- (gb_names cols subset (group_first ikey n) (group_first ikey n) Sub); apply dget_some_in in E0; now apply (in_map fst) in E0).
      destruct (gb_dget cols subset (group_first ikey n) (group_first ikey n) k Sub Hk) as (c' & _ & Eg). rewrite Eg in E0. injection E0 as <-.
      replace (if DsModel.mem k subset then group_first ikey n else group_first ikey n) with (group_first ikey n) by now destruct (DsModel.mem k subset).
      rewrite compress_take. unfold take_rows. now rewrite map_length.
Qed.

Lemma cell_all (cols : list (name * list V)) k q : (forall c, dget k cols = Some c -> length c = length keys) ->
  cell_of cols k q = match nth_error (seq 0 (length keys)) q with Some i => cell_of cols k i | None => None end.
Proof.
  intros L. destruct (Nat.lt_ge_cases q (length keys)) as [H|H].
  - rewrite (nth_error_nth' _ 0) by (rewrite seq_length; assumption). rewrite seq_nth by assumption. reflexivity.
  - rewrite (proj2 (nth_error_None (seq 0 (length keys)) q)) by (rewrite seq_length; assumption). unfold cell_of. destruct (dget k cols) as [c|] eqn:E; [|reflexivity]. apply nth_error_None. rewrite (L c eq_refl). assumption.
Qed.
Lemma drop_spec (a : frame V) subset keep inplace : square a -> f_rows a = Some (length keys) -> keys <> [] ->
  let s := match subset with Some s => s | None => names (f_cols a) end in
  s <> [] -> NoDup s -> (forall k, In k s -> In k (names (f_cols a))) -> (forall k, In k s -> key_column keys (f_cols a) k) ->
  exists rs, kept keep keys rs /\
   let r := drop_duplicates dflt a subset keep inplace ikey (length us) in
   (inplace = false -> fst r = a) /\
   (inplace = true -> taken (f_cols (fst r)) (f_cols a) rs (names (f_cols a)) /\ f_rows (fst r) = Some (length rs) /\ f_labels (fst r) = f_labels a) /\
   (inplace = false -> taken (f_cols (snd r)) (f_cols a) rs (s ++ others (f_cols a) s)) /\ f_rows (snd r) = Some (length rs).
Proof.
  intros [ND Sq] RA NE s Sne NDs Sub KC. exists (result_rows keep). pose proof (kept_ok keep) as K. split; [assumption|].
  unfold drop_duplicates, nrow. rewrite RA. destruct (Nat.eqb_spec (length keys) 0) as [Z|_]; [destruct keys; easy|]. fold n. fold s.
  assert (Len : forall k c, In (k, c) (f_cols a) -> length c = length keys) by (intros k c H; apply Sq in H; congruence).
  destruct (dedup_taken (f_cols a) s keep ND Len Sub KC) as [(TN & TC) TL].
  set (cols := dedup dflt (f_cols a) s keep ikey n) in *.
  assert (RR : match cols with (_, c) :: _ => Some (length c) | [] => None end = Some (length (result_rows keep))).
  { destruct cols as [|[k c] r] eqn:E; [cbn in TN; destruct s; easy|]. f_equal. apply (TL k). cbn [dget]. destruct (name_dec k k); easy. }
  rewrite RR. 
  assert (Part : forall k, In k (names (f_cols a)) -> In k (s ++ others (f_cols a) s)).
  { intros k Hk. apply in_app_iff. destruct (DsModel.mem k s) eqn:M; [left; now apply mem_in|right]. apply filter_In. split; [assumption|now rewrite M]. }
  destruct inplace; cbn [andb].
  - destruct (onat_eqb (Some (length (result_rows keep))) (Some (length keys))) eqn:E; cbn [negb fst snd f_cols f_rows f_labels].
    + apply onat_eqb_eq in E. assert (EL : length (result_rows keep) = length keys) by congruence. split; [discriminate|]. split; [|split; [discriminate|reflexivity]]. intros _.
      split; [|split; [congruence|reflexivity]]. split; [reflexivity|]. intros k q Hk. rewrite (kept_all keep _ K EL). apply cell_all.
      intros c Hc. apply dget_some_in in Hc. eauto.
    + split; [discriminate|]. split; [|split; [discriminate|reflexivity]]. intros _. split; [|split; reflexivity].
      split; [rewrite map_map; reflexivity|]. intros k q Hk. rewrite <- TC by now apply Part. unfold cell_of.
      rewrite (dget_map_val (fun p => match dget (fst p) cols with Some c => c | None => snd p end)). cbn [fst snd].
      assert (exists c, dget k (f_cols a) = Some c) as [c Ec]. { destruct (dget k (f_cols a)) eqn:Z; [eauto|]. apply dget_none in Z. contradiction. }
      rewrite Ec. assert (exists c', dget k cols = Some c') as [c' Ec']. { destruct (dget k cols) eqn:Z; [eauto|]. apply dget_none in Z. exfalso. apply Z. fold (names cols). unfold names. rewrite TN. now apply Part. }
      now rewrite Ec'.
  - cbn [fst snd f_cols f_rows]. split; [reflexivity|]. split; [discriminate|]. split; [|reflexivity]. intros _. split; assumption.
Qed.
End Dup.
