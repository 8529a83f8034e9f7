(** Proofs about partition names made from file names. *)
From Coq Require Import DecimalNat List Arith Bool Lia.
From Verif Require Import FlattenModel FlattenProofs DsModel DsProofs3 DsProofs4 PdsModel.
Import ListNotations.

Lemma auto_nodup n : NoDup (auto_pnames n).
Proof.
  unfold auto_pnames. apply NoDup_map_inj; [|apply seq_NoDup]. intros a b H. injection H as H. apply digits_inj in H. now apply Unsigned.to_uint_inj in H.
Qed.
Lemma auto_length n : length (auto_pnames n) = n.
Proof. unfold auto_pnames. now rewrite map_length, seq_length. Qed.
Lemma nodup_length_nodup (l : list name) : length (nodup name_dec l) = length l -> NoDup l.
Proof.
  intros H. apply (@NoDup_incl_NoDup _ (nodup name_dec l)); [apply NoDup_nodup|lia|]. intros x I. now apply nodup_In in I.
Qed.

(** the outcomes *)
Lemma pnames_cases files : let r := filenames_to_pnames files in
  r = auto_pnames (length files) \/
  (exists f n, files = [f] /\ single_pname (rev f) = Some n /\ r = [n]) \/
  (2 <= length files /\ exists a b, let rows := map (fun f => pad (width_of (map (@rev nat) files)) (rev f)) files in
     r = map (cut_name a b) rows /\ length (nodup name_dec r) = length files).
Proof.
  destruct files as [|f [|g files]]; [now left| |].
  - cbn zeta. unfold filenames_to_pnames. destruct (single_pname (rev f)) as [n|] eqn:E; [right; left; eauto|now left].
  - set (fs := f :: g :: files). cbn zeta. change (filenames_to_pnames fs) with (match several_pnames fs with Some l => l | None => auto_pnames (length fs) end).
    destruct (several_pnames fs) as [l|] eqn:E; [|now left]. right. right. split; [cbn; lia|]. unfold several_pnames in E. cbn zeta in E. rewrite map_map in E.
    match type of E with (if ?c then _ else _) = _ => destruct c end; [|discriminate].
    match type of E with (if ?c then _ else _) = _ => destruct c eqn:Q end; [|discriminate]. apply Nat.eqb_eq in Q. injection E as <-. eexists _, _. split; [reflexivity|exact Q].
Qed.
Lemma pnames_length files : length (filenames_to_pnames files) = length files.
Proof.
  destruct (pnames_cases files) as [->|[(f & n & -> & _ & ->)|(L & a & b & -> & _)]]; [apply auto_length|reflexivity|]. now rewrite !map_length.
Qed.
Lemma pnames_nodup files : NoDup (filenames_to_pnames files).
Proof.
  destruct (pnames_cases files) as [->|[(f & n & -> & _ & ->)|(L & a & b & E & Q)]]; [apply auto_nodup|repeat constructor; auto|].
  apply nodup_length_nodup. now rewrite Q, pnames_length.
Qed.

(** ** names are parts of the file names *)
Lemma strip0_pre s : exists k, s = strip0 s ++ repeat 0 k.
Proof.
  induction s as [|c s (k & IH)]; [exists 0; reflexivity|]. cbn. destruct (strip0 s) as [|d r].
  - cbn in IH. subst s. destruct (Nat.eqb_spec c 0) as [->|]; [exists (S k); reflexivity|exists k; reflexivity].
  - exists k. cbn. now rewrite IH at 1.
Qed.
Lemma strip0_nonzero s : ~ In 0 s -> strip0 s = s.
Proof.
  intros H. destruct (strip0_pre s) as (k & E). destruct k as [|k]; [rewrite app_nil_r in E; congruence|]. elim H. rewrite E. apply in_or_app. right. now left.
Qed.
Lemma firstn_le {X} n : forall (l : list X), exists r, l = firstn n l ++ r.
Proof. intros l. exists (skipn n l). symmetry. apply firstn_skipn. Qed.
Lemma strip0_app_zeros s k : strip0 (s ++ repeat 0 k) = strip0 s.
Proof.
  induction s as [|c s IH].
  - cbn. induction k as [|k IHk]; [reflexivity|]. cbn. now rewrite IHk.
  - cbn. now rewrite IH.
Qed.
Lemma firstn_repeat {X} (x : X) n k : firstn n (repeat x k) = repeat x (Nat.min n k).
Proof. revert k. induction n as [|n IH]; intros [|k]; cbn; auto. now rewrite IH. Qed.
Lemma skipn_repeat {X} (x : X) n k : skipn n (repeat x k) = repeat x (k - n).
Proof. revert k. induction n as [|n IH]; intros [|k]; cbn; auto. Qed.
Lemma cut_part w a b f : ~ In 0 f -> exists u v, f = u ++ cut_name a b (pad w (rev f)) ++ v.
Proof.
  intros NZ. unfold cut_name, pad. rewrite skipn_app, skipn_repeat, firstn_app, firstn_repeat, strip0_app_zeros.
  set (m := firstn (b - a) (skipn a (rev f))).
  assert (PART : rev f = firstn a (rev f) ++ m ++ skipn (b - a) (skipn a (rev f))) by (unfold m; rewrite !firstn_skipn; reflexivity).
  assert (Z : ~ In 0 m).
  { intros I. apply NZ. apply in_rev. rewrite PART. apply in_or_app. right. apply in_or_app. now left. }
  rewrite (strip0_nonzero m Z). exists (rev (skipn (b - a) (skipn a (rev f)))), (rev (firstn a (rev f))).
  rewrite <- !rev_app_distr, <- app_assoc, <- PART. now rewrite rev_involutive.
Qed.

(** ** the numbers of a series of files *)
Lemma expand_start_ok row a : forall start, a <= start -> (forall j, a <= j < start -> numeric (nth j row 0) = true) ->
  (forall s, a = S s -> numeric (nth s row 0) = false) -> expand_start row start = a.
Proof.
  induction start as [|s IH]; intros L D N; [now replace a with 0 by lia|]. cbn. destruct (Nat.eq_dec a (S s)) as [->|NE].
  - now rewrite (N s eq_refl).
  - rewrite (D s) by lia. apply IH; [lia| |exact N]. intros j Hj. apply D. lia.
Qed.
Lemma expand_end_ok row b : forall n end_, end_ <= b -> b <= end_ + n -> (forall j, end_ <= j < b -> numeric (nth j row 0) = true) ->
  (b < end_ + n -> numeric (nth b row 0) = false) -> expand_end row n end_ = b.
Proof.
  induction n as [|n IH]; intros end_ L1 L2 D N; cbn; [lia|]. destruct (Nat.eq_dec end_ b) as [->|NE]; [now rewrite N by lia|].
  rewrite (D end_) by lia. apply IH; try lia; [intros j Hj; apply D; lia|]. intros H. apply N. lia.
Qed.
(** where the loops stop *)
Lemma for_break_spec f : forall n lo d, (exists i, lo <= i < lo + n /\ f i = true /\ (forall k, lo <= k < i -> f k = false) /\ for_break f n lo d = i) \/
  ((forall i, lo <= i < lo + n -> f i = false) /\ for_break f n lo d = match n with 0 => d | S k => lo + k end).
Proof.
  induction n as [|n IH]; intros lo d; [right; split; [lia|reflexivity]|]. cbn. destruct (f lo) eqn:E; [left; exists lo; split; [lia|]; split; [exact E|]; split; [lia|reflexivity]|].
  destruct (IH (S lo) lo) as [(i & L & F & B & R)|(A & R)].
  - left. exists i. split; [lia|]. split; [exact F|]. split; [|exact R]. intros k Hk. destruct (Nat.eq_dec k lo) as [->|]; [exact E|]. apply B. lia.
  - right. split.
    + intros i Hi. destruct (Nat.eq_dec i lo) as [->|]; [exact E|]. apply A. lia.
    + rewrite R. destruct n; lia.
Qed.
Lemma list_max_const {X} (g : X -> nat) w (l : list X) : forall acc, acc <= w -> l <> [] -> (forall x, In x l -> g x = w) -> fold_left Nat.max (map g l) acc = w.
Proof.
  induction l as [|x l IH]; intros acc A N H; [congruence|]. cbn. rewrite (H x) by now left. replace (Nat.max acc w) with w by lia.
  destruct l as [|y l]; [reflexivity|]. apply IH; [lia|discriminate|]. intros z Hz. apply H. now right.
Qed.

(** every file is [pre] number [suf]; the numbers have the same width and are not all equal *)
Lemma series_ok pre suf (nums : list name) w : 2 <= length nums -> NoDup nums -> 0 < w ->
  (forall d, In d nums -> length d = w /\ forall c, In c d -> is_digit c = true) ->
  (forall p c, pre = p ++ [c] -> numeric c = false) -> (forall s c, suf = c :: s -> numeric c = false) ->
  filenames_to_pnames (map (fun d => pre ++ d ++ suf) nums) = nums.
Proof.
  intros L2 ND W DIG PRE SUF.
  set (files := map (fun d => pre ++ d ++ suf) nums). set (s0 := length suf). set (W0 := s0 + w + length pre).
  assert (RV : map (@rev nat) files = map (fun d => rev suf ++ rev d ++ rev pre) nums).
  { unfold files. rewrite map_map. apply map_ext. intros d. now rewrite !rev_app_distr, app_assoc. }
  assert (NN : nums <> []) by (destruct nums; [cbn in L2; lia|discriminate]).
  assert (WD : width_of (map (@rev nat) files) = W0).
  { unfold width_of. rewrite RV, map_map. apply list_max_const; [unfold W0; lia|exact NN|]. intros d Hd. destruct (DIG d Hd) as (E & _). rewrite !app_length, !rev_length. unfold W0, s0. lia. }
  set (rows := map (fun d => rev suf ++ rev d ++ rev pre) nums).
  assert (PADDED : map (pad W0) (map (@rev nat) files) = rows).
  { rewrite RV. unfold rows. rewrite map_map. apply map_ext_in. intros d Hd. destruct (DIG d Hd) as (E & _). unfold pad. rewrite !app_length, !rev_length.
    replace (W0 - _) with 0 by (unfold W0, s0; lia). cbn. now rewrite app_nil_r. }
  assert (AT : forall d j, In d nums -> nth j (rev suf ++ rev d ++ rev pre) 0 = if j <? s0 then nth j (rev suf) 0 else if j <? s0 + w then nth (j - s0) (rev d) 0 else nth (j - s0 - w) (rev pre) 0).
  { intros d j Hd. destruct (DIG d Hd) as (E & _). destruct (Nat.ltb_spec j s0); [rewrite app_nth1 by (rewrite rev_length; fold s0; lia); reflexivity|].
    rewrite app_nth2 by (rewrite rev_length; fold s0; lia). rewrite rev_length. fold s0. destruct (Nat.ltb_spec j (s0 + w)).
    - rewrite app_nth1 by (rewrite rev_length; lia). reflexivity.
    - rewrite app_nth2 by (rewrite rev_length; lia). rewrite rev_length, E. reflexivity. }
  assert (DG : forall d j, In d nums -> s0 <= j < s0 + w -> numeric (nth j (rev suf ++ rev d ++ rev pre) 0) = true).
  { intros d j Hd Hj. rewrite AT by exact Hd. destruct (Nat.ltb_spec j s0); [lia|]. destruct (Nat.ltb_spec j (s0 + w)); [|lia]. destruct (DIG d Hd) as (E & D).
    assert (I : In (nth (j - s0) (rev d) 0) d) by (apply in_rev; apply nth_In; rewrite rev_length; lia). specialize (D _ I). unfold is_digit in D. unfold numeric. apply andb_true_iff in D. destruct D as (D1 & D2). apply Nat.leb_le in D2. rewrite D1. apply Nat.leb_le. lia. }
  destruct nums as [|d0 nums']; [congruence|]. set (row0 := rev suf ++ rev d0 ++ rev pre).
  assert (HD : hd [] rows = row0) by reflexivity.
  assert (I0 : In d0 (d0 :: nums')) by now left.
  assert (MASK : forall j, match_mask rows j = true -> s0 <= j < s0 + w).
  { intros j H. unfold match_mask in H. apply existsb_exists in H. destruct H as (r & I & N). apply in_map_iff in I. destruct I as (d & <- & I). rewrite HD in N. unfold row0 in N.
    rewrite (AT d0 j I0), (AT d j) in N by now right. destruct (Nat.ltb_spec j s0); [rewrite Nat.eqb_refl in N; discriminate|]. destruct (Nat.ltb_spec j (s0 + w)); [lia|rewrite Nat.eqb_refl in N; discriminate]. }
  assert (SOME : exists j, match_mask rows j = true).
  { destruct nums' as [|d1 nums']; [cbn in L2; lia|]. assert (I1 : In d1 (d0 :: d1 :: nums')) by (right; now left).
    assert (D01 : d0 <> d1) by (inversion ND; subst; intros ->; match goal with H : ~ In _ _ |- _ => apply H; now left end).
    assert (X : exists j, j < w /\ nth j (rev d0) 0 <> nth j (rev d1) 0).
    { destruct (DIG d0 I0) as (E0 & _), (DIG d1 I1) as (E1 & _).
      destruct (existsb (fun j => negb (nth j (rev d0) 0 =? nth j (rev d1) 0)) (seq 0 w)) eqn:EX.
      - apply existsb_exists in EX. destruct EX as (j & I & N). apply in_seq in I. exists j. split; [lia|]. intros E. rewrite E, Nat.eqb_refl in N. discriminate.
      - exfalso. apply D01. rewrite <- (rev_involutive d0), <- (rev_involutive d1). f_equal. apply (nth_ext _ _ 0 0); rewrite !rev_length; [congruence|]. intros j Hj.
        destruct (Nat.eq_dec (nth j (rev d0) 0) (nth j (rev d1) 0)) as [|NE]; [assumption|]. exfalso. assert (existsb (fun j => negb (nth j (rev d0) 0 =? nth j (rev d1) 0)) (seq 0 w) = true); [|congruence].
        apply existsb_exists. exists j. split; [apply in_seq; lia|]. apply negb_true_iff, Nat.eqb_neq. exact NE. }
    destruct X as (j & Hj & N). exists (s0 + j). unfold match_mask. apply existsb_exists. exists (rev suf ++ rev d1 ++ rev pre). split; [now left|]. rewrite HD. unfold row0. rewrite (AT d0), (AT d1) by auto.
    destruct (Nat.ltb_spec (s0 + j) s0); [lia|]. destruct (Nat.ltb_spec (s0 + j) (s0 + w)); [|lia]. replace (s0 + j - s0) with j by lia. apply negb_true_iff, Nat.eqb_neq. exact N. }
  assert (FL : length files = length (d0 :: nums')) by (unfold files; now rewrite map_length).
  assert (FE : filenames_to_pnames files = match several_pnames files with Some l => l | None => auto_pnames (length files) end).
  { destruct files as [|f1 [|f2 fs]]; [cbn in FL; lia|cbn in FL, L2; lia|reflexivity]. }
  rewrite FE. unfold several_pnames. cbn zeta. rewrite WD, PADDED, HD.
  set (start := for_break (match_mask rows) W0 0 0).
  assert (ST : match_mask rows start = true /\ s0 <= start < s0 + w).
  { unfold start. destruct (for_break_spec (match_mask rows) W0 0 0) as [(i & L & F & _ & ->)|(A & _)]; [split; [exact F|now apply MASK]|].
    destruct SOME as (j & Hj). pose proof (MASK j Hj). rewrite A in Hj by (unfold W0; lia). discriminate. }
  destruct ST as (ST1 & ST2). set (e := for_break (fun i => negb (match_mask rows i)) (W0 - (start + 1)) (start + 1) start).
  assert (EN : start <= e <= s0 + w).
  { unfold e. destruct (for_break_spec (fun i => negb (match_mask rows i)) (W0 - (start + 1)) (start + 1) start) as [(i & L & F & B & R)|(A & R)].
    - rewrite R. split; [lia|]. destruct (Nat.le_gt_cases i (s0 + w)) as [|G]; [assumption|]. exfalso.
      specialize (B (s0 + w) ltac:(lia)). apply negb_false_iff in B. apply MASK in B. lia.
    - rewrite R. destruct (W0 - (start + 1)) as [|k] eqn:K; [lia|]. split; [lia|]. assert (match_mask rows (start + 1 + k) = true) by (specialize (A (start + 1 + k) ltac:(lia)); now apply negb_false_iff in A). apply MASK in H. lia. }
  assert (XS : expand_start row0 start = s0).
  { apply expand_start_ok; [lia|intros j Hj; apply DG; auto; lia|]. intros s Es. unfold row0. rewrite AT by exact I0. destruct (Nat.ltb_spec s s0); [|lia].
    destruct suf as [|c suf']; [cbn in s0; unfold s0 in Es; discriminate|]. apply (SUF suf' c eq_refl) || idtac.
    replace (nth s (rev (c :: suf')) 0) with c; [exact (SUF suf' c eq_refl)|]. cbn [rev]. unfold s0 in Es. cbn in Es. injection Es as <-. rewrite app_nth2 by (rewrite rev_length; lia). rewrite rev_length, Nat.sub_diag. reflexivity. }
  assert (XE : expand_end row0 (W0 - e) e = s0 + w).
  { apply expand_end_ok; [lia|unfold W0; lia|intros j Hj; apply DG; auto; lia|]. intros H. unfold row0. rewrite AT by exact I0. destruct (Nat.ltb_spec (s0 + w) s0); [lia|]. destruct (Nat.ltb_spec (s0 + w) (s0 + w)); [lia|].
    replace (s0 + w - s0 - w) with 0 by lia. destruct (exists_last (l := pre)) as (p & c & ->); [intros ->; cbn in W0; unfold W0 in H; lia|]. rewrite rev_app_distr. exact (PRE p c eq_refl). }
  rewrite XS, XE. unfold row0. destruct (Nat.ltb_spec s0 (s0 + w)); [|lia]. rewrite (DG d0 s0 I0) by lia. rewrite (DG d0 (s0 + w - 1) I0) by lia. cbn [andb].
  assert (CUT : map (cut_name s0 (s0 + w)) rows = d0 :: nums').
  { unfold rows. rewrite map_map. rewrite <- (map_id (d0 :: nums')) at 2. apply map_ext_in. intros d Hd. destruct (DIG d Hd) as (E & D). unfold cut_name. replace (s0 + w - s0) with w by lia.
    rewrite skipn_app. rewrite skipn_all2 by (rewrite rev_length; fold s0; lia). rewrite rev_length. fold s0. rewrite Nat.sub_diag. cbn [skipn app]. rewrite firstn_app, rev_length, E, Nat.sub_diag. cbn [firstn]. rewrite app_nil_r, firstn_all2 by (rewrite rev_length; lia).
    rewrite strip0_nonzero; [apply rev_involutive|]. intros I. apply in_rev in I. specialize (D 0 I). discriminate. }
  rewrite CUT. rewrite nodup_fixed_point by exact ND. match goal with |- context [?a =? ?b] => replace (a =? b) with true end; [reflexivity|]. symmetry. apply Nat.eqb_eq. symmetry. exact FL.
Qed.

(** one file: the last run of digits, if some character comes before it *)
Lemma single_ok u c d v : is_digit c = false -> d <> [] -> (forall x, In x d -> is_digit x = true) -> (forall x, In x v -> is_digit x = false) ->
  filenames_to_pnames [u ++ c :: d ++ v] = [d].
Proof.
  intros NC ND DD NV. unfold filenames_to_pnames.
  assert (E : single_pname (rev (u ++ c :: d ++ v)) = Some d); [|now rewrite E].
  assert (RV : rev (u ++ c :: d ++ v) = rev v ++ rev d ++ c :: rev u).
  { rewrite rev_app_distr. cbn. rewrite rev_app_distr. now rewrite <- !app_assoc. }
  rewrite RV. unfold single_pname.
  set (first := fix first (l : name) (i : nat) := match l with [] => None | c :: r => if is_digit c then Some i else first r (S i) end).
  set (stop := fix stop (l : name) (i : nat) := match l with [] => None | c :: r => if is_digit c then stop r (S i) else Some i end).
  assert (F : forall a b i, (forall x, In x a -> is_digit x = false) -> (exists x b', b = x :: b' /\ is_digit x = true) -> first (a ++ b) i = Some (i + length a)).
  { induction a as [|x a IH]; intros b i H (y & b' & -> & Y); [cbn; rewrite Y; f_equal; lia|]. cbn. rewrite (H x) by now left. rewrite IH; [f_equal; lia|intros z Hz; apply H; now right|eauto]. }
  assert (T : forall a b i, (forall x, In x a -> is_digit x = true) -> (exists x b', b = x :: b' /\ is_digit x = false) -> stop (a ++ b) i = Some (i + length a)).
  { induction a as [|x a IH]; intros b i H (y & b' & -> & Y); [cbn; rewrite Y; f_equal; lia|]. cbn. rewrite (H x) by now left. rewrite IH; [f_equal; lia|intros z Hz; apply H; now right|eauto]. }
  rewrite F; [|intros x Hx; apply NV; now apply in_rev|].
  2:{ destruct (rev d) as [|x r] eqn:RD; [elim ND; rewrite <- (rev_involutive d), RD; reflexivity|]. exists x. eexists. split; [reflexivity|]. apply DD, in_rev. rewrite RD. now left. }
  cbn [Nat.add]. rewrite skipn_app, skipn_all, Nat.sub_diag. cbn [skipn app].
  rewrite T; [|intros x Hx; apply DD; now apply in_rev|eauto].
  replace (length (rev v) + length (rev d) - length (rev v)) with (length (rev d)) by lia. rewrite firstn_app, firstn_all, Nat.sub_diag. cbn [firstn]. rewrite app_nil_r. f_equal. apply rev_involutive.
Qed.
