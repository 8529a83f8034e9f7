(** Proofs about the string kernels, second part: removetrailing, replace, substr, char
    and the in-place kernels. *)
From Coq Require Import List Arith ZArith Bool Lia ZifyBool ZifyNat.
From Verif Require Import Sched SchedFacts StrModel StrSpec StrProofs.
Import ListNotations.
Open Scope Z_scope.

Lemma lift_rows_rel (kernel : nat -> list (store Z)) w wout ts (R : text -> text -> Prop) (m0 m : mem Z) :
  column w ts -> row_local wout kernel (length ts) ->
  (forall i, (i < length ts)%nat -> exists u, R (nth i ts []) u /\ fits wout u /\
     segment (run_stores (kernel i) m0) (i * wout) wout = pad wout u) ->
  outcome (launch kernel (enc w ts) w) m0 m ->
  exists us, Forall2 R ts us /\ Forall (fits wout) us /\ rows m wout (length ts) = map (pad wout) us.
Proof.
  intros Hcol Hloc Hrow (ws & Hil & ->). unfold launch in Hil. rewrite enc_rows in Hil by exact Hcol.
  assert (G : forall i, (i < length ts)%nat -> exists u, R (nth i ts []) u /\ fits wout u /\
              segment (run_stores ws m0) (i * wout) wout = pad wout u).
  { intros i Hi. rewrite (row_par_segment wout kernel (length ts) ws m0 i Hloc Hil Hi). now apply Hrow. }
  clear - G. unfold rows. generalize (run_stores ws m0) as m, G. clear G. intros m G.
  assert (H : forall lo, (forall i, (i < length ts)%nat -> exists u, R (nth i ts []) u /\ fits wout u /\
              segment m ((lo + i) * wout) wout = pad wout u) ->
          exists us, Forall2 R ts us /\ Forall (fits wout) us /\
             map (fun i => segment m (i * wout) wout) (seq lo (length ts)) = map (pad wout) us).
  { clear G. induction ts as [|t ts' IH]; intros lo G.
    - exists []. repeat split; constructor.
    - destruct (G 0%nat ltac:(cbn; lia)) as (u & HR & Hfit & Hs). cbn [nth] in HR. rewrite Nat.add_0_r in Hs.
      destruct (IH (S lo)) as (us & HRs & Hfits & Hss).
      { intros i Hi. destruct (G (S i) ltac:(cbn; lia)) as (u' & H1 & H2 & H3). exists u'.
        split; [exact H1|]. split; [exact H2|]. now replace (S lo + i)%nat with (lo + S i)%nat by lia. }
      exists (u :: us). repeat split; try constructor; auto. cbn. now rewrite Hs, Hss. }
  apply (H 0%nat). exact G.
Qed.

(** stores whose value is a function of the position *)
Lemma run_stores_fun {V} (rowpos : nat) (f : nat -> V) l m j :
  run_stores (map (fun pos => ((rowpos + pos)%nat, f pos)) l) m (rowpos + j)%nat =
  if existsb (Nat.eqb j) l then f j else m (rowpos + j)%nat.
Proof.
  revert m. induction l as [|x l IH]; intros m; [reflexivity|].
  cbn [map]. rewrite run_stores_cons, IH. cbn [existsb]. unfold do_store. cbn [fst snd].
  destruct (Nat.eqb_spec j x) as [->|Hne]; cbn [orb].
  - rewrite Nat.eqb_refl. now destruct (existsb (Nat.eqb x) l).
  - destruct (existsb (Nat.eqb j) l); [reflexivity|].
    now destruct (Nat.eqb_spec (rowpos + j) (rowpos + x)); [lia|].
Qed.

Lemma existsb_seq j q : existsb (Nat.eqb j) (rev (seq 0 q)) = (j <? q)%nat.
Proof.
  destruct (Nat.ltb_spec j q) as [H|H].
  - apply existsb_exists. exists j. split; [|apply Nat.eqb_refl]. rewrite <- in_rev. apply in_seq. lia.
  - destruct (existsb (Nat.eqb j) (rev (seq 0 q))) eqn:E; [|reflexivity]. exfalso.
    apply existsb_exists in E as (x & Hx & Ex). rewrite <- in_rev in Hx. apply in_seq in Hx. apply Nat.eqb_eq in Ex. lia.
Qed.

Section RemoveTrailing.
Variables (junk rc : Z) (src : list Z) (rowpos : nat).
Let row j := rd junk src (rowpos + j)%nat.
Let trailing j := (row j =? 0) || (row j =? rc).

Lemma rt_scan_spec k :
  let '(ss, q) := rt_scan junk src rowpos rc k in
  exists e, (e <= k)%nat /\ (forall j, (e <= j < k)%nat -> trailing j = true) /\
    ((e = 0 /\ q = 0)%nat \/ (0 < e /\ q = e - 1)%nat /\ trailing (e - 1) = false) /\
    (forall m j, run_stores ss m (rowpos + j)%nat =
       if (q <=? j)%nat && (j <? k)%nat then (if (j <? e)%nat then row j else 0) else m (rowpos + j)%nat) /\
    (forall s, In s ss -> (rowpos <= fst s < rowpos + k)%nat).
Proof.
  induction k as [|k IH]; cbn [rt_scan].
  - exists 0%nat. split; [lia|]. split; [intros; lia|]. split; [left; lia|]. split.
    + intros m j. cbn [run_stores fold_left]. destruct (Nat.leb_spec 0 j), (Nat.ltb_spec j 0); cbn [andb]; auto; lia.
    + intros s [].
  - fold (row k). fold (trailing k). destruct (trailing k) eqn:Et; cbn [negb].
    + destruct (rt_scan junk src rowpos rc k) as [ss q].
      destruct IH as (e & He & Htr & Hq & Hrun & Hloc). exists e.
      split; [lia|]. split.
      { intros j Hj. destruct (Nat.eq_dec j k) as [->|]; [exact Et|]. apply Htr; lia. }
      split; [exact Hq|]. split.
      * intros m j. rewrite run_stores_cons, Hrun. unfold do_store. cbn [fst snd].
        assert (Hqe : (q <= e)%nat) by lia.
        destruct (Nat.leb_spec q j), (Nat.ltb_spec j k), (Nat.ltb_spec j (S k)), (Nat.ltb_spec j e),
          (Nat.eqb_spec (rowpos + j) (rowpos + k)); cbn [andb]; auto; lia.
      * intros s [<-|Hs]; [cbn; lia|]. apply Hloc in Hs. lia.
    + exists (S k). split; [lia|]. split; [intros; lia|]. split.
      { right. replace (S k - 1)%nat with k by lia. repeat split; auto; lia. }
      split.
      * intros m j. rewrite run_stores_cons. cbn [run_stores fold_left]. unfold do_store. cbn [fst snd].
        destruct (Nat.leb_spec k j), (Nat.ltb_spec j (S k)), (Nat.eqb_spec (rowpos + j) (rowpos + k)); cbn [andb]; auto; try lia.
        now replace j with k by lia.
      * intros s [<-|[]]. cbn. lia.
Qed.
End RemoveTrailing.

Lemma removetrailing_row junk rc w ts i m0 :
  column w ts -> (i < length ts)%nat -> rc <> 0 ->
  (forall s, In s (k_removetrailing junk rc (enc w ts) w i) -> (i * w <= fst s < i * w + w)%nat) /\
  exists u, strips_trailing rc (nth i ts []) u /\ fits w u /\
    segment (run_stores (k_removetrailing junk rc (enc w ts) w i) m0) (i * w) w = pad w u.
Proof.
  intros [Hw Hf] Hi Hrc. pose proof (fits_nth w ts i Hf Hi) as Hfit.
  assert (Hrow : forall j, (j < w)%nat -> rd junk (enc w ts) (i * w + j)%nat =
             if (j <? length (nth i ts []))%nat then nth j (nth i ts []) junk else 0).
  { intros j Hj. rewrite enc_rd by auto. now apply pad_nth. }
  set (t := nth i ts []) in *. destruct Hfit as [Hnul Hlen].
  unfold k_removetrailing. pose proof (rt_scan_spec junk rc (enc w ts) (i * w) w) as R.
  destruct (rt_scan junk (enc w ts) (i * w) rc w) as [ss q].
  destruct R as (e & He & Htr & Hq & Hrun & Hloc).
  assert (Hqe : (q <= e)%nat) by lia.
  split.
  { intros s Hs. apply in_app_or in Hs as [Hs|Hs]; [now apply Hloc in Hs|].
    apply in_map_iff in Hs as (j & <- & Hj). rewrite <- in_rev in Hj. apply in_seq in Hj. cbn. lia. }
  assert (Het : (e <= length t)%nat).
  { destruct Hq as [[-> _]|[[He0 _] Hnt]]; [lia|].
    destruct (le_lt_dec e (length t)); [assumption|]. exfalso.
    rewrite Hrow in Hnt by lia. destruct (Nat.ltb_spec (e - 1) (length t)); [lia|]. discriminate. }
  exists (firstn e t). split; [split|split].
  - exists (length t - e)%nat. rewrite <- (firstn_skipn e t) at 1. f_equal.
    apply (list_eq_nth junk); [rewrite skipn_length, repeat_length; lia|].
    intros j Hj. rewrite skipn_length in Hj. rewrite nth_skipn, nth_repeat_lt by lia.
    specialize (Htr (e + j)%nat ltac:(lia)). rewrite Hrow in Htr by lia.
    destruct (Nat.ltb_spec (e + j) (length t)); [|lia].
    pose proof (no_nul_nth junk t (e + j) Hnul H). lia.
  - intros v E. destruct Hq as [[-> _]|[[He0 _] Hnt]].
    + cbn in E. now destruct v.
    + rewrite Hrow in Hnt by lia. destruct (Nat.ltb_spec (e - 1) (length t)); [|lia].
      assert (E1 : nth (e - 1) (firstn e t) junk = nth (e - 1) t junk).
      { rewrite <- (firstn_skipn e t) at 2. rewrite app_nth1; [reflexivity|]. rewrite firstn_length_le; lia. }
      assert (HL : length (v ++ [rc]) = e) by (rewrite <- E; apply firstn_length_le; lia).
      rewrite app_length in HL. cbn in HL.
      rewrite E in E1. rewrite app_nth2 in E1 by lia. replace (e - 1 - length v)%nat with 0%nat in E1 by lia. cbn in E1.
      rewrite <- E1 in Hnt. lia.
  - split; [|rewrite firstn_length_le; lia]. intros Hin. apply Hnul. rewrite <- (firstn_skipn e t). apply in_or_app. now left.
  - apply (segment_eq _ _ _ _ junk).
    { apply pad_length. split; [|rewrite firstn_length_le; lia]. intros Hin. apply Hnul. rewrite <- (firstn_skipn e t). apply in_or_app. now left. }
    intros j Hj. rewrite run_stores_app, (run_stores_fun (i * w) (fun pos => rd junk (enc w ts) (i * w + pos)%nat)), existsb_seq, Hrun.
    rewrite pad_nth; [|split; [|rewrite firstn_length_le; lia]; intros Hin; apply Hnul; rewrite <- (firstn_skipn e t); apply in_or_app; now left|exact Hj].
    rewrite firstn_length_le by lia.
    assert (E1 : (j < e)%nat -> nth j (firstn e t) junk = nth j t junk).
    { intros Hje. rewrite <- (firstn_skipn e t) at 2. rewrite app_nth1; [reflexivity|]. rewrite firstn_length_le; lia. }
    destruct (Nat.ltb_spec j q), (Nat.leb_spec q j), (Nat.ltb_spec j w), (Nat.ltb_spec j e); cbn [andb]; try lia.
    + rewrite E1, Hrow by lia. destruct (Nat.ltb_spec j (length t)); [reflexivity | lia].
    + rewrite E1, Hrow by lia. destruct (Nat.ltb_spec j (length t)); [reflexivity | lia].
Qed.

Lemma removetrailing_correct junk rc w ts m0 m :
  column w ts -> rc <> 0 ->
  outcome (launch (k_removetrailing junk rc (enc w ts) w) (enc w ts) w) m0 m ->
  exists us, Forall2 (strips_trailing rc) ts us /\ Forall (fits w) us /\ rows m w (length ts) = map (pad w) us.
Proof.
  intros Hcol Hrc. apply lift_rows_rel; auto.
  - intros i Hi. exact (proj1 (removetrailing_row junk rc w ts i m0 Hcol Hi Hrc)).
  - intros i Hi. exact (proj2 (removetrailing_row junk rc w ts i m0 Hcol Hi Hrc)).
Qed.

Lemma list_max0_ge l x : In x l -> (x <= list_max0 l)%nat.
Proof. induction l as [|y l IH]; intros []; cbn; [lia|]. specialize (IH H). unfold list_max0 in IH. lia. Qed.

Lemma segment_cons {V} (m : mem V) lo n : segment m lo (S n) = m lo :: segment m (S lo) n.
Proof.
  unfold segment. cbn [seq map]. rewrite Nat.add_0_r. f_equal. rewrite <- seq_shift, map_map.
  apply map_ext. intros j. f_equal. lia.
Qed.

(** * replace *)
Section Replace.
Variables (junk : Z) (w : nat) (ts : list text) (old : text).
Hypothesis Hcol : column w ts.
Hypothesis Hold : no_nul old.
Hypothesis Hold0 : old <> [].
Let src := enc w ts.
Let loc := locations old src w.
Let ol := length old.

Lemma old_pos : (0 < length old)%nat.
Proof. destruct old; [congruence | cbn; lia]. Qed.

Lemma find_loop_bounds rowpos s fuel x :
  In x (find_loop src w rowpos old s fuel) -> snd x = true /\ (rowpos + s <= fst x)%nat /\ (fst x + ol <= rowpos + w)%nat.
Proof.
  revert s. induction fuel as [|fuel IH]; intros s H; cbn [find_loop] in H; [contradiction|].
  destruct (Nat.leb_spec (s + length old) w); [|contradiction].
  destruct (str_equal (skipn (rowpos + s) src) old).
  - destruct H as [<-|H]; [cbn [fst snd]; split; [reflexivity|]; unfold ol; lia|]. apply IH in H as (H1 & H2 & H3).
    split; [exact H1|]. lia.
  - apply IH in H as (H1 & H2 & H3). split; [exact H1|]. lia.
Qed.

Lemma run_stores_true ws p : (forall x, In x ws -> snd x = true) ->
  run_stores ws (fun _ => false) p = true <-> In p (map fst ws).
Proof.
  assert (G : forall m, (forall x, In x ws -> snd x = true) -> run_stores ws m p = true <-> (In p (map fst ws) \/ m p = true)).
  { induction ws as [|x ws IH]; intros m H.
    - cbn. tauto.
    - rewrite run_stores_cons, IH by (intros; apply H; now right). cbn [map In]. unfold do_store.
      specialize (H x (or_introl eq_refl)). destruct (Nat.eqb_spec p (fst x)) as [->|Hne].
      + rewrite H. tauto.
      + split; [tauto|]. intros [[E|E]|E]; auto; congruence. }
  intros H. rewrite G by exact H. split; [intros [?|?]; [assumption | discriminate] | now left].
Qed.

Lemma loc_row i p : (i < length ts)%nat -> (p < w)%nat ->
  loc (i * w + p)%nat = true <-> In (i * w + p)%nat (map fst (find_loop src w (i * w) old 0 (S w))).
Proof.
  intros Hi Hp. unfold loc, locations, launch. assert (En : (length src / w)%nat = length ts) by (now apply enc_rows). rewrite En.
  set (kernel := k_find old src w).
  assert (HL : row_local w kernel (length ts)).
  { intros i' Hi' s Hs. apply find_loop_bounds in Hs. pose proof old_pos. unfold ol in *. lia. }
  rewrite (row_par w kernel (length ts) _ _ i p HL (interleave_serial _) Hi Hp).
  apply run_stores_true. intros x Hx. now apply find_loop_bounds in Hx.
Qed.

(** number of matches at or after column [s] *)
Definition cnt i s := length (filter (fun b : bool => b) (segment loc (i * w + s) (w - s))).

Lemma cnt_step i s : (s < w)%nat -> cnt i s = ((if loc (i * w + s)%nat then 1 else 0) + cnt i (S s))%nat.
Proof.
  intros H. unfold cnt. replace (w - s)%nat with (S (w - S s)) by lia. rewrite segment_cons.
  replace (S (i * w + s)) with (i * w + S s)%nat by lia. cbn [filter].
  now destruct (loc (i * w + s)%nat).
Qed.

Lemma cnt_end i : cnt i w = 0%nat.
Proof. unfold cnt. now rewrite Nat.sub_diag. Qed.

Lemma cnt_skip i s d : (s + d <= w)%nat -> (forall k, (s <= k < s + d)%nat -> loc (i * w + k)%nat = false) ->
  cnt i s = cnt i (s + d).
Proof.
  revert s. induction d as [|d IH]; intros s Hs H; [now rewrite Nat.add_0_r|].
  rewrite cnt_step, H by lia. cbn [plus]. rewrite (IH (S s)); [f_equal; lia | lia | intros; apply H; lia].
Qed.

Lemma occurs_skip p t s : occurs_at p t s <-> (s <= length t)%nat /\ exists b, skipn s t = p ++ b.
Proof.
  split.
  - intros (a & b & -> & <-). split; [rewrite !app_length; lia|]. exists b. rewrite skipn_app, skipn_all, Nat.sub_diag. reflexivity.
  - intros (Hs & b & E). exists (firstn s t), b. split; [|apply firstn_length_le; lia].
    rewrite <- E. now rewrite firstn_skipn.
Qed.

Variable new : text.
Hypothesis Hnew : no_nul new.
Let newarr := np_str new.

Lemma new_is_empty : ((length newarr =? 1)%nat && (rd junk newarr 0 =? 0)) = match new with [] => true | _ => false end.
Proof.
  unfold newarr. destruct new as [|c r]; [reflexivity|]. unfold np_str, rd. cbn [nth].
  assert (c <> 0) by (intros ->; apply Hnew; now left).
  destruct (Z.eqb_spec c 0); [congruence|]. apply andb_false_r.
Qed.

Lemma new_is_empty_yes : new = [] -> ((length newarr =? 1)%nat && (rd junk newarr 0 =? 0)) = true.
Proof. intros E. rewrite new_is_empty. now rewrite E. Qed.
Lemma new_is_empty_no : new <> [] -> ((length newarr =? 1)%nat && (rd junk newarr 0 =? 0)) = false.
Proof. intros E. rewrite new_is_empty. destruct new; [congruence | reflexivity]. Qed.
Lemma newarr_length : new <> [] -> length newarr = length new.
Proof. intros E. unfold newarr. destruct new; [congruence | reflexivity]. Qed.

Lemma new_stores dest_pos : (new <> []) ->
  map (fun k => ((dest_pos + k)%nat, rd junk newarr k)) (seq 0 (length newarr)) =
  map (fun k => ((dest_pos + k)%nat, nth k new junk)) (seq 0 (length new)).
Proof. unfold newarr. destruct new; [congruence | reflexivity]. Qed.

(** [stores_list d v ss]: the stores [ss] write exactly the list [v] at [d], [d+1], ... *)
Definition writes_at (d : nat) (v : list Z) (ss : list (store Z)) : Prop :=
  (forall m k, (k < length v)%nat -> run_stores ss m (d + k)%nat = nth k v junk) /\
  (forall s, In s ss -> (d <= fst s < d + length v)%nat).

Lemma writes_at_app d v1 v2 ss1 ss2 :
  writes_at d v1 ss1 -> writes_at (d + length v1) v2 ss2 -> writes_at d (v1 ++ v2) (ss1 ++ ss2).
Proof.
  intros [A1 B1] [A2 B2]. split.
  - intros m k Hk. rewrite app_length in Hk. rewrite run_stores_app.
    destruct (le_lt_dec (length v1) k) as [Hge|Hlt].
    + rewrite app_nth2 by lia. specialize (A2 (run_stores ss1 m) (k - length v1)%nat ltac:(lia)).
      now replace (d + length v1 + (k - length v1))%nat with (d + k)%nat in A2 by lia.
    + rewrite app_nth1 by lia. rewrite run_stores_untouched; [now apply A1|].
      intros s Hs E. specialize (B2 s Hs). lia.
  - intros s Hs. rewrite app_length. apply in_app_or in Hs as [Hs|Hs]; [specialize (B1 s Hs) | specialize (B2 s Hs)]; lia.
Qed.

Lemma writes_at_nil d : writes_at d [] [].
Proof. split; [intros m k H; cbn in H; lia | intros s []]. Qed.

Lemma writes_at_one d c : writes_at d [c] [(d, c)].
Proof.
  split.
  - intros m k H. cbn in H. replace k with 0%nat by lia. rewrite Nat.add_0_r. cbn. unfold do_store. cbn. now rewrite Nat.eqb_refl.
  - intros s [<-|[]]. cbn. lia.
Qed.

Lemma writes_at_new d : writes_at d new (map (fun k => ((d + k)%nat, nth k new junk)) (seq 0 (length new))).
Proof.
  split.
  - intros m k Hk. rewrite (run_stores_map_seq (fun k => nth k new junk)).
    destruct (Nat.leb_spec d (d + k)), (Nat.ltb_spec (d + k) (d + length new)); cbn [andb]; try lia.
    f_equal. lia.
  - intros s Hs. apply in_map_iff in Hs as (k & <- & Hk). apply in_seq in Hk. cbn. lia.
Qed.

Definition diff : Z := Z.of_nat (length new) - Z.of_nat (length old).

Lemma repl_main i : (i < length ts)%nat ->
  let t := nth i ts [] in
  forall f s d, (s <= w)%nat -> (w < s + f)%nat ->
  (forall p, (s <= p < w)%nat -> loc (i * w + p)%nat = true <-> In (i * w + p)%nat (map fst (find_loop src w (i * w) old s f))) ->
  exists u, replaced old new (skipn s t) u /\ no_nul u /\
    writes_at d (u ++ repeat 0 (w - Nat.max s (length t))) (repl_loop junk src w ol newarr loc (i * w) s d f) /\
    Z.of_nat (length u) = Z.of_nat (length t - s) + Z.of_nat (cnt i s) * diff /\
    (cnt i s = 0%nat -> u = skipn s t).
Proof.
  intros Hi t. pose proof (fits_nth w ts i (proj2 Hcol) Hi) as [Hnul Hlen]. fold t in Hnul, Hlen.
  pose proof old_pos as Hop.
  induction f as [|f IH]; intros s d Hs Hf Hinv; [lia|].
  cbn [repl_loop]. destruct (Nat.ltb_spec s w) as [Hsw|Hsw].
  2:{ (* end of the row *)
      assert (s = w) by lia. subst s. exists [].
      rewrite skipn_all2 by lia. replace (w - Nat.max w (length t))%nat with 0%nat by lia.
      rewrite cnt_end. cbn [repeat app length].
      split; [constructor|]. split; [intros []|]. split; [apply writes_at_nil|]. split; [lia|]. reflexivity. }
  cbn [find_loop] in Hinv. fold ol in Hinv.
  destruct (loc (i * w + s)%nat) eqn:Eloc.
  - (* a match starts here *)
    assert (Hm : (s + ol <= w)%nat /\ str_equal (skipn (i * w + s) src) old = true).
    { pose proof (proj1 (Hinv s ltac:(lia)) Eloc) as Hin.
      destruct (Nat.leb_spec (s + ol) w) as [Hle|]; [|contradiction].
      split; [lia|]. destruct (str_equal (skipn (i * w + s) src) old) eqn:E; [reflexivity|].
      exfalso. apply in_map_iff in Hin as (x & Ex & Hx). apply find_loop_bounds in Hx. lia. }
    destruct Hm as [Hle Hm]. rewrite Hm in Hinv. destruct (Nat.leb_spec (s + ol) w) as [_|]; [|lia].
    apply (match_at w ts i s old Hcol Hi Hold Hop Hle) in Hm. fold t in Hm.
    apply occurs_skip in Hm as (Hst & b & Eb).
    assert (Hb : skipn (s + ol) t = b).
    { rewrite <- skipn_skipn', Eb. unfold ol in *. now rewrite skipn_app, skipn_all, Nat.sub_diag. }
    assert (Hlo : (s + ol <= length t)%nat).
    { apply (f_equal (@length Z)) in Eb. rewrite skipn_length, app_length in Eb. unfold ol in *. lia. }
    assert (Hgap : forall k, (S s <= k < S s + (ol - 1))%nat -> loc (i * w + k)%nat = false).
    { intros k Hk. destruct (loc (i * w + k)%nat) eqn:E; [|reflexivity]. exfalso.
      apply Hinv in E; [|lia]. cbn [map fst In] in E. destruct E as [E|E]; [lia|].
      apply in_map_iff in E as (x & Ex & Hx). apply find_loop_bounds in Hx. lia. }
    assert (Hcnt : cnt i s = S (cnt i (s + ol))).
    { rewrite cnt_step, Eloc by lia. cbn [plus]. f_equal.
      rewrite (cnt_skip i (S s) (ol - 1)); [f_equal; unfold ol in *; lia | unfold ol in *; lia | exact Hgap]. }
    assert (Hinv' : forall p, (s + ol <= p < w)%nat -> loc (i * w + p)%nat = true <->
               In (i * w + p)%nat (map fst (find_loop src w (i * w) old (s + ol) f))).
    { intros p Hp. rewrite Hinv by lia. cbn [map fst In]. split; [intros [E|E]; [unfold ol in *; lia | exact E] | now right]. }
    assert (Hcase : new = [] \/ new <> []) by (destruct new; [now left | now right]).
    assert (Hrep : (w - Nat.max s (length t) = w - Nat.max (s + ol) (length t))%nat) by lia.
    destruct Hcase as [En|En].
    + rewrite new_is_empty_yes by exact En. destruct (IH (s + ol)%nat d ltac:(lia) ltac:(unfold ol in *; lia) Hinv') as (u & Hr & Hn & Hwr & Hl & _).
      exists u. rewrite Eb. split.
      { replace u with (new ++ u) by (now rewrite En). apply rep_hit. now rewrite <- Hb. }
      split; [exact Hn|]. split; [now rewrite Hrep|]. split.
      { rewrite Hl, Hcnt. unfold diff. rewrite En. cbn [length]. unfold ol in *. lia. }
      { rewrite Hcnt. discriminate. }
    + rewrite new_is_empty_no by exact En. rewrite new_stores by exact En.
      rewrite (newarr_length En).
      destruct (IH (s + ol)%nat (d + length new)%nat ltac:(lia) ltac:(unfold ol in *; lia) Hinv') as (u & Hr & Hn & Hwr & Hl & _).
      exists (new ++ u). rewrite Eb. split.
      { apply rep_hit. now rewrite <- Hb. }
      split. { intros Hin. apply in_app_or in Hin as [Hin|Hin]; [now apply Hnew | now apply Hn]. }
      split.
      { rewrite <- app_assoc. apply writes_at_app; [apply writes_at_new|]. now rewrite Hrep. }
      split.
      { rewrite app_length, Nat2Z.inj_add, Hl, Hcnt. unfold diff. unfold ol in *. lia. }
      { rewrite Hcnt. discriminate. }
  - (* copy one character *)
    assert (Hnm : (s + ol <= w)%nat -> str_equal (skipn (i * w + s) src) old = false).
    { intros Hle. destruct (str_equal (skipn (i * w + s) src) old) eqn:E; [|reflexivity]. exfalso.
      destruct (Nat.leb_spec (s + ol) w); [|lia].
      assert (loc (i * w + s)%nat = true); [|congruence]. apply Hinv; [lia|]. now left. }
    assert (Hcnt : cnt i s = cnt i (s + 1)) by (rewrite cnt_step, Eloc by lia; cbn [plus]; now replace (S s) with (s + 1)%nat by lia).
    assert (Hinv' : forall p, (s + 1 <= p < w)%nat -> loc (i * w + p)%nat = true <->
               In (i * w + p)%nat (map fst (find_loop src w (i * w) old (s + 1) f))).
    { intros p Hp. rewrite Hinv by lia. destruct (Nat.leb_spec (s + ol) w) as [Hle|Hgt].
      - rewrite Hnm by lia. reflexivity.
      - split; [contradiction|]. intros Hin. apply in_map_iff in Hin as (x & Ex & Hx). apply find_loop_bounds in Hx. lia. }
    destruct (IH (s + 1)%nat (d + 1)%nat ltac:(lia) ltac:(lia) Hinv') as (u & Hr & Hn & Hwr & Hl & Hz).
    rewrite Hcnt.
    unfold src. rewrite enc_rd by (auto; apply Hcol). fold t. rewrite pad_nth by (try split; auto).
    destruct (Nat.ltb_spec s (length t)) as [Hst|Hst].
    + exists (nth s t junk :: u). rewrite (skipn_cons_nth t s junk) by lia.
      replace (S s) with (s + 1)%nat by lia. split.
      { apply rep_skip; [|exact Hr]. intros b Eb.
        replace (s + 1)%nat with (S s) in Eb by lia. rewrite <- (skipn_cons_nth t s junk) in Eb by lia.
        assert (Ho : occurs_at old t s) by (apply occurs_skip; split; [lia | now exists b]).
        pose proof (occurs_at_bound _ _ _ Ho) as Hb.
        assert (Hle : (s + ol <= w)%nat) by (unfold ol in *; lia).
        apply (match_at w ts i s old Hcol Hi Hold Hop Hle) in Ho. fold src in Ho. rewrite Hnm in Ho by lia. discriminate. }
      split. { intros [E|E]; [now apply (no_nul_nth junk t s Hnul) in E | now apply Hn]. }
      split.
      { cbn [app]. replace (w - Nat.max s (length t))%nat with (w - Nat.max (s + 1) (length t))%nat by lia.
        apply (writes_at_app d [nth s t junk] _ [(d, nth s t junk)]); [apply writes_at_one | exact Hwr]. }
      split. { cbn [length]. lia. }
      { intros E. now rewrite Hz. }
    + assert (Hsk : skipn (s + 1) t = []) by (apply skipn_all2; lia).
      rewrite Hsk in Hr, Hz.
      assert (Hu : u = []).
      { inversion Hr as [E1 E2|t1 u1 Hr1 E1 E2|]; [reflexivity|].
        exfalso. apply (f_equal (@length Z)) in E1. rewrite app_length in E1. cbn in E1. lia. }
      subst u. exists []. rewrite (skipn_all2 t) by lia. split; [constructor|]. split; [intros []|]. split.
      { replace (w - Nat.max s (length t))%nat with (S (w - Nat.max (s + 1) (length t)))%nat by lia.
        cbn [app repeat]. apply (writes_at_app d [0] _ [(d, 0)]); [apply writes_at_one | exact Hwr]. }
      split. { cbn [length] in *. lia. } { reflexivity. }
Qed.

Lemma row_fits i : (i < length ts)%nat ->
  Z.of_nat w + Z.of_nat (cnt i 0) * diff <= Z.of_nat (replace_width old newarr loc w (length ts)).
Proof.
  intros Hi. unfold replace_width, diff.
  assert (Hc : cnt i 0 = n_locs loc w i) by (unfold cnt, n_locs; now rewrite Nat.add_0_r, Nat.sub_0_r).
  rewrite Hc. set (counts := map (n_locs loc w) (seq 0 (length ts))).
  assert (Hmax : (n_locs loc w i <= list_max0 counts)%nat).
  { apply list_max0_ge. apply in_map. apply in_seq. lia. }
  pose proof old_pos.
  assert (Hna : length newarr = length new \/ (new = [] /\ length newarr = 1%nat)) by (unfold newarr; destruct new; cbn; auto).
  destruct (Z.ltb_spec 0 (Z.of_nat (length newarr) - Z.of_nat (length old))) as [Hp|Hp].
  - destruct Hna as [E|[E1 E2]]; [|lia]. rewrite E in *.
    rewrite Nat2Z.inj_add, Nat2Z.inj_mul, Z2Nat.id by lia. nia.
  - assert (Hd : Z.of_nat (length new) - Z.of_nat (length old) <= 0) by (destruct Hna as [E|[-> E2]]; [lia | cbn; lia]).
    assert (Z.of_nat (n_locs loc w i) * (Z.of_nat (length new) - Z.of_nat (length old)) <= 0) by nia.
    destruct (Z.ltb_spec (Z.of_nat (length newarr) - Z.of_nat (length old)) 0); [|lia].
    generalize (Z.to_nat (- (Z.of_nat (length newarr) - Z.of_nat (length old))) * list_min0 counts)%nat. intros x. lia.
Qed.

Lemma replace_row i : (i < length ts)%nat ->
  let dw := replace_width old newarr loc w (length ts) in
  exists u, replaced old new (nth i ts []) u /\ fits dw u /\
    (forall s, In s (k_replace junk dw old newarr loc src w i) -> (i * dw <= fst s < i * dw + dw)%nat) /\
    segment (run_stores (k_replace junk dw old newarr loc src w i) (fun _ => 0)) (i * dw) dw = pad dw u /\
    (n_locs loc w i = 0%nat -> u = nth i ts []).
Proof.
  intros Hi dw. pose proof (fits_nth w ts i (proj2 Hcol) Hi) as [Hnul Hlen].
  destruct (repl_main i Hi (S w) 0 (i * dw)%nat ltac:(lia) ltac:(lia)) as (u & Hr & Hn & [Hwr Hin] & Hl & Hz).
  { intros p Hp. apply loc_row; [exact Hi | lia]. }
  cbn [skipn Nat.max] in *. rewrite Nat.sub_0_r in *.
  pose proof (row_fits i Hi) as Hfit. fold dw in Hfit.
  assert (Hv : (length (u ++ repeat 0%Z (w - length (nth i ts []))) <= dw)%nat) by (rewrite app_length, repeat_length; lia).
  exists u. split; [exact Hr|]. rewrite app_length, repeat_length in Hv.
  split; [split; [exact Hn | lia]|].
  split.
  { intros s Hs. unfold k_replace in Hs. fold ol in Hs. apply Hin in Hs. rewrite app_length, repeat_length in Hs. lia. }
  split.
  { apply (segment_eq _ _ _ _ junk); [apply pad_length; split; [exact Hn | lia]|].
    intros j Hj. rewrite pad_nth by (try split; auto; lia). unfold k_replace. fold ol.
    destruct (le_lt_dec (length (u ++ repeat 0%Z (w - length (nth i ts [])))) j) as [Hge|Hlt].
    - rewrite app_length, repeat_length in Hge.
      rewrite run_stores_untouched.
      + destruct (Nat.ltb_spec j (length u)); [lia | reflexivity].
      + intros s Hs E. apply Hin in Hs. rewrite app_length, repeat_length in Hs. lia.
    - rewrite Hwr by exact Hlt. rewrite app_length, repeat_length in Hlt.
      destruct (Nat.ltb_spec j (length u)).
      + now rewrite app_nth1 by lia.
      + rewrite app_nth2 by lia. apply nth_repeat_lt. lia. }
  { intros E. apply Hz. unfold cnt. rewrite Nat.add_0_r, Nat.sub_0_r. exact E. }
Qed.

Lemma replace_correct m :
  outcome (replace_its junk old newarr src w) (fun _ => 0) m ->
  let dw := replace_width old newarr loc w (length ts) in
  exists us, Forall2 (replaced old new) ts us /\ Forall (fits dw) us /\ rows m dw (length ts) = map (pad dw) us.
Proof.
  intros Hout dw. unfold replace_its in Hout. fold loc in Hout.
  assert (En : (length src / w)%nat = length ts) by (now apply enc_rows). rewrite En in Hout. fold dw in Hout.
  eapply lift_rows_rel; [exact Hcol | | | exact Hout].
  - intros i Hi s Hs. destruct (replace_row i Hi) as (u & _ & _ & H & _). exact (H s Hs).
  - intros i Hi. destruct (replace_row i Hi) as (u & H1 & H2 & _ & H4 & _). exists u. auto.
Qed.

Lemma replace_none : any_loc old src w = false -> Forall2 (replaced old new) ts ts.
Proof.
  intros Hno. unfold any_loc in Hno. fold loc in Hno.
  assert (Hall : forall p, (p < length src)%nat -> loc p = false).
  { intros p Hp. destruct (loc p) eqn:E; [|reflexivity]. exfalso.
    assert (existsb (fun b : bool => b) (segment loc 0 (length src)) = true); [|congruence].
    apply existsb_exists. exists true. split; [|reflexivity]. rewrite <- E. unfold segment. apply in_map_iff.
    exists p. split; [reflexivity|]. apply in_seq. lia. }
  assert (G : forall i, (i < length ts)%nat -> replaced old new (nth i ts []) (nth i ts [])).
  { intros i Hi. destruct (replace_row i Hi) as (u & H1 & _ & _ & _ & H5). rewrite <- H5 at 2; [exact H1|].
    unfold n_locs. assert (Hs : segment loc (i * w)%nat w = repeat false w).
    { apply (segment_eq _ _ _ _ false); [apply repeat_length|]. intros j Hj. rewrite nth_repeat_lt by lia.
      apply Hall. unfold src. rewrite enc_length by apply Hcol.
      assert (S i * w <= length ts * w)%nat by (apply Nat.mul_le_mono_r; lia). cbn in *. lia. }
    rewrite Hs. clear. induction w; cbn; auto. }
  clear - G. induction ts as [|t ts' IH]; [constructor|].
  constructor; [exact (G 0%nat ltac:(cbn; lia))|]. apply IH. intros i Hi. exact (G (S i) ltac:(cbn; lia)).
Qed.
End Replace.

(** * substr *)
Lemma slice_bounds start stop t :
  let '(i, j) := substr_bounds start stop (Z.of_nat (length t)) in
  py_slice start stop t = firstn (Z.to_nat (j - i)) (skipn (Z.to_nat i) t) /\ 0 <= i /\ j <= Z.of_nat (length t).
Proof.
  unfold substr_bounds, py_slice, clip. set (len := Z.of_nat (length t)).
  split; [|lia].
  destruct (Z.ltb_spec start 0), (Z.ltb_spec stop 0).
  - replace (Z.to_nat (Z.max 0 (start + len))) with (Z.to_nat (Z.max (start + len) 0)) by lia.
    destruct (Z.leb_spec (stop + len) 0).
    + replace (Z.to_nat (Z.max 0 (stop + len) - Z.max 0 (start + len))) with 0%nat by lia.
      now replace (Z.to_nat (Z.min (stop + len) len - Z.max (start + len) 0)) with 0%nat by lia.
    + f_equal. lia.
  - replace (Z.to_nat (Z.max 0 (start + len))) with (Z.to_nat (Z.max (start + len) 0)) by lia. f_equal. lia.
  - destruct (Z.leb_spec start len).
    + replace (Z.min start len) with (Z.max start 0) by lia.
      destruct (Z.leb_spec (stop + len) 0).
      * replace (Z.to_nat (Z.max 0 (stop + len) - Z.max start 0)) with 0%nat by lia.
        now replace (Z.to_nat (Z.min (stop + len) len - Z.max start 0)) with 0%nat by lia.
      * f_equal. lia.
    + replace (Z.to_nat (Z.max 0 (stop + len) - Z.min start len)) with 0%nat by lia.
      now replace (Z.to_nat (Z.min (stop + len) len - Z.max start 0)) with 0%nat by lia.
  - destruct (Z.leb_spec start len).
    + now replace (Z.min start len) with (Z.max start 0) by lia.
    + replace (Z.to_nat (Z.min stop len - Z.min start len)) with 0%nat by lia.
      now replace (Z.to_nat (Z.min stop len - Z.max start 0)) with 0%nat by lia.
Qed.

Lemma py_slice_length start stop t :
  let '(i, j) := substr_bounds start stop (Z.of_nat (length t)) in length (py_slice start stop t) = Z.to_nat (j - i).
Proof.
  pose proof (slice_bounds start stop t) as S. destruct (substr_bounds start stop (Z.of_nat (length t))) as [i j].
  destruct S as (-> & Hi & Hj). rewrite firstn_length, skipn_length. lia.
Qed.

Lemma py_slice_in start stop t c : In c (py_slice start stop t) -> In c t.
Proof.
  unfold py_slice. intros H. 
  assert (H1 : forall n (l : list Z), In c (firstn n l) -> In c l).
  { intros n l Hin. rewrite <- (firstn_skipn n l). apply in_or_app. now left. }
  assert (H2 : forall n (l : list Z), In c (skipn n l) -> In c l).
  { intros n l Hin. rewrite <- (firstn_skipn n l). apply in_or_app. now right. }
  eauto.
Qed.

Lemma py_slice_fits w start stop t : fits w t -> fits w (py_slice start stop t).
Proof.
  intros [H1 H2]. split.
  - intros H. apply H1. now apply py_slice_in in H.
  - unfold py_slice. rewrite firstn_length, skipn_length. lia.
Qed.

Lemma firstn_nth_lt {A} (l : list A) n j d : (j < n)%nat -> nth j (firstn n l) d = nth j l d.
Proof.
  revert n j. induction l as [|x l IH]; intros [|n] [|j] H; cbn; auto; try lia. apply IH. lia.
Qed.

Section Substr.
Variables (junk : Z) (w : nat) (ts : list text) (start stop : nat -> Z).
Hypothesis Hcol : column w ts.
Let strlen (i : nat) : Z := Z.of_nat (length (nth i ts [])).
Let slices : list text := map (fun i => py_slice (start i) (stop i) (nth i ts [])) (seq 0 (length ts)).

Lemma substr_row i : (i < length ts)%nat ->
  (forall s, In s (k_substr junk start stop strlen (enc w ts) w i) -> (i * w <= fst s < i * w + w)%nat) /\
  segment (run_stores (k_substr junk start stop strlen (enc w ts) w i) (fun _ => 0)) (i * w) w =
  pad w (py_slice (start i) (stop i) (nth i ts [])).
Proof.
  intros Hi. pose proof (fits_nth w ts i (proj2 Hcol) Hi) as Hfit. unfold k_substr. subst strlen. cbn beta.
  pose proof (slice_bounds (start i) (stop i) (nth i ts [])) as S.
  pose proof (py_slice_length (start i) (stop i) (nth i ts [])) as L.
  pose proof (py_slice_fits w (start i) (stop i) _ Hfit) as F.
  destruct (substr_bounds (start i) (stop i) (Z.of_nat (length (nth i ts [])))) as [a b].
  set (t := nth i ts []) in *. set (u := py_slice (start i) (stop i) t) in *.
  destruct S as (Eu & Ha & Hb). destruct Hfit as [Hnul Hlen].
  split.
  { intros s Hs. apply in_map_iff in Hs as (j & <- & Hj). apply in_seq in Hj. cbn. lia. }
  apply (segment_eq _ _ _ _ junk); [now apply pad_length|].
  intros j Hj. rewrite (run_stores_map_seq (fun out_pos => rd junk (enc w ts) (w * i + (Z.to_nat a + out_pos)))).
  rewrite pad_nth by auto. rewrite L.
  destruct (Nat.leb_spec (i * w) (i * w + j)); [|lia]. cbn [andb].
  destruct (Nat.ltb_spec (i * w + j) (i * w + Z.to_nat (b - a))), (Nat.ltb_spec j (Z.to_nat (b - a))); try lia; try reflexivity.
  rewrite (Nat.mul_comm w i). rewrite row_rd by (auto; fold t; lia). fold t.
  rewrite Eu, firstn_nth_lt, nth_skipn by lia. f_equal. lia.
Qed.

Lemma pad_truncate mc u : (length u <= mc <= w)%nat -> firstn mc (pad w u) = pad mc u.
Proof.
  intros H. unfold pad. rewrite firstn_app. rewrite firstn_all2 by lia. f_equal.
  replace (w - length u)%nat with ((mc - length u) + (w - mc))%nat by lia.
  rewrite repeat_app, firstn_app, repeat_length, Nat.sub_diag. cbn [firstn]. rewrite app_nil_r.
  rewrite firstn_all2; [reflexivity|]. rewrite repeat_length. lia.
Qed.

Lemma substr_max_slices : substr_max start stop strlen (length ts) = list_max0 (map (@length Z) slices).
Proof.
  unfold substr_max. subst slices. rewrite map_map. f_equal. apply map_ext_in. intros i Hi.
  subst strlen. cbn beta. pose proof (py_slice_length (start i) (stop i) (nth i ts [])) as L.
  destruct (substr_bounds (start i) (stop i) (Z.of_nat (length (nth i ts [])))) as [a b]. now symmetry.
Qed.

Lemma list_max0_le l b : (forall x, In x l -> (x <= b)%nat) -> (list_max0 l <= b)%nat.
Proof. induction l as [|y l IH]; intros H; cbn; [lia|]. pose proof (H y (or_introl eq_refl)). specialize (IH (fun x Hx => H x (or_intror Hx))). unfold list_max0 in IH. lia. Qed.

Lemma substr_correct m :
  outcome (launch (k_substr junk start stop strlen (enc w ts) w) (enc w ts) w) (fun _ => 0) m ->
  let mc := substr_max start stop strlen (length ts) in
  substr_view mc (rows m w (length ts)) = map (pad (Nat.max 1 mc)) slices /\ Forall (fits (Nat.max 1 mc)) slices.
Proof.
  intros (ws & Hil & ->) mc. unfold launch in Hil. rewrite enc_rows in Hil by exact Hcol.
  assert (HL : row_local w (k_substr junk start stop strlen (enc w ts) w) (length ts)).
  { intros i Hi. now apply substr_row. }
  assert (Hr : rows (run_stores ws (fun _ => 0)) w (length ts) = map (pad w) slices).
  { subst slices. rewrite map_map. apply rows_map. intros i Hi.
    rewrite (row_par_segment w _ (length ts) ws _ i HL Hil Hi). now apply substr_row. }
  rewrite Hr.
  assert (Hle : forall u, In u slices -> (length u <= mc)%nat).
  { intros u Hu. subst mc. rewrite substr_max_slices. apply list_max0_ge. now apply in_map. }
  assert (Hfit : forall u, In u slices -> fits w u).
  { intros u Hu. subst slices. apply in_map_iff in Hu as (i & <- & Hi). apply in_seq in Hi. apply py_slice_fits.
    apply fits_nth; [apply Hcol | lia]. }
  assert (Hmw : (mc <= w)%nat).
  { subst mc. rewrite substr_max_slices. apply list_max0_le. intros x Hx. apply in_map_iff in Hx as (u & <- & Hu). now apply Hfit. }
  split.
  - unfold substr_view. destruct (Nat.eqb_spec mc 0) as [E|E].
    + rewrite map_map. apply map_ext_in. intros u Hu. specialize (Hle u Hu).
      assert (u = []) by (destruct u; [reflexivity | cbn in Hle; lia]). subst u. now rewrite E.
    + replace (Nat.max 1 mc) with mc by lia. rewrite map_map. apply map_ext_in. intros u Hu.
      apply pad_truncate. split; [now apply Hle | exact Hmw].
  - apply Forall_forall. intros u Hu. split; [now apply Hfit|]. specialize (Hle u Hu). lia.
Qed.

(** char *)
Lemma char_correct position m0 m :
  char_raises position strlen w (length ts) = false ->
  outcome (launch (k_char junk position strlen (enc w ts) w) (enc w ts) w) m0 m ->
  forall i, (i < length ts)%nat ->
    m i = nth (Z.to_nat (char_pos (position i) (strlen i))) (pad w (nth i ts [])) 0 /\
    0 <= char_pos (position i) (strlen i) < Z.of_nat w.
Proof.
  intros Hno (ws & Hil & ->) i Hi. unfold launch in Hil. rewrite enc_rows in Hil by exact Hcol.
  assert (Hgood : char_bad position strlen w i = false).
  { destruct (char_bad position strlen w i) eqn:E; [|reflexivity]. exfalso.
    unfold char_raises in Hno. assert (existsb (char_bad position strlen w) (seq 0 (length ts)) = true); [|congruence].
    apply existsb_exists. exists i. split; [apply in_seq; lia | exact E]. }
  assert (HL : row_local 1 (k_char junk position strlen (enc w ts) w) (length ts)).
  { intros i' Hi' s Hs. unfold k_char in Hs. destruct (char_bad position strlen w i'); destruct Hs as [<-|[]]; cbn; lia. }
  pose proof (row_par 1 _ (length ts) ws m0 i 0 HL Hil Hi ltac:(lia)) as R.
  replace (i * 1 + 0)%nat with i in R by lia. rewrite R. unfold k_char. rewrite Hgood.
  cbn. unfold do_store. cbn. rewrite Nat.eqb_refl. unfold char_bad in Hgood.
  assert (Hb : 0 <= char_pos (position i) (strlen i) < Z.of_nat w) by lia.
  split; [|exact Hb]. rewrite (Nat.mul_comm w i). rewrite enc_rd by (auto; try apply Hcol; lia).
  apply nth_indep. rewrite pad_length by (apply fits_nth; auto; apply Hcol). lia.
Qed.
End Substr.

(** * in-place kernels *)
Lemma upper_inplace_row_spec w i m p :
  upper_inplace_row w i m p = if (i * w <=? p)%nat && (p <? i * w + w)%nat then upper_char (m p) else m p.
Proof.
  unfold upper_inplace_row.
  assert (G : forall n, fold_left (upper_inplace_char w i) (seq 0 n) m p =
              if (i * w <=? p)%nat && (p <? i * w + n)%nat then upper_char (m p) else m p).
  { induction n as [|n IH].
    - cbn [seq fold_left]. destruct (Nat.leb_spec (i * w) p), (Nat.ltb_spec p (i * w + 0)); cbn [andb]; auto; lia.
    - rewrite seq_S, fold_left_app. cbn [fold_left plus].
      set (m' := fold_left (upper_inplace_char w i) (seq 0 n) m) in *. unfold upper_inplace_char. cbv zeta.
      destruct (Nat.eq_dec p (i * w + n)) as [->|Hne].
      + assert (E : m' (i * w + n)%nat = m (i * w + n)%nat).
        { rewrite IH. destruct (Nat.leb_spec (i * w) (i * w + n)), (Nat.ltb_spec (i * w + n) (i * w + n)); cbn [andb]; auto; lia. }
        rewrite E. destruct (Nat.leb_spec (i * w) (i * w + n)), (Nat.ltb_spec (i * w + n) (i * w + S n)); cbn [andb]; try lia.
        unfold upper_char. destruct ((97 <=? m (i * w + n)%nat) && (m (i * w + n)%nat <=? 122)); [|exact E].
        unfold do_store. cbn. now rewrite Nat.eqb_refl.
      + transitivity (m' p).
        * destruct ((97 <=? m' (i * w + n)%nat) && (m' (i * w + n)%nat <=? 122)); [|reflexivity].
          unfold do_store. cbn [fst snd]. now destruct (Nat.eqb_spec p (i * w + n)); [lia|].
        * rewrite IH. destruct (Nat.leb_spec (i * w) p), (Nat.ltb_spec p (i * w + n)), (Nat.ltb_spec p (i * w + S n)); cbn [andb]; auto; lia. }
  apply G.
Qed.

Lemma upper_inplace_correct w n m p : (p < n * w)%nat -> upper_inplace w n m p = upper_char (m p).
Proof.
  intros Hp. unfold upper_inplace, run_order.
  assert (G : forall n, fold_left (fun s i => upper_inplace_row w i s) (seq 0 n) m p = if (p <? n * w)%nat then upper_char (m p) else m p).
  { clear n Hp. induction n as [|n IH]; [reflexivity|].
    rewrite seq_S, fold_left_app. cbn [fold_left plus]. rewrite upper_inplace_row_spec, IH.
    destruct (Nat.leb_spec (n * w) p), (Nat.ltb_spec p (n * w + w)), (Nat.ltb_spec p (n * w)), (Nat.ltb_spec p (S n * w)); cbn [andb]; cbn in *; auto; lia. }
  rewrite G. now destruct (Nat.ltb_spec p (n * w)); [|lia].
Qed.

Lemma mem_len_loop_spec m rowpos w t : fits w t -> (forall j, (j < w)%nat -> m (rowpos + j)%nat = nth j (pad w t) 0) ->
  mem_len_loop m rowpos 0 w = length t.
Proof.
  intros [Hnul Hlen] Hm.
  assert (G : forall fuel s, (s + fuel = w)%nat -> (s <= length t)%nat -> mem_len_loop m rowpos s fuel = length t).
  { induction fuel as [|fuel IH]; intros s Hs Hle; cbn [mem_len_loop]; [lia|].
    rewrite Hm by lia. rewrite pad_nth by (try split; auto; lia).
    destruct (Nat.ltb_spec s (length t)).
    - pose proof (no_nul_nth 0 t s Hnul H). destruct (Z.eqb_spec (nth s t 0) 0); [contradiction|]. apply IH; lia.
    - rewrite Z.eqb_refl. lia. }
  apply G; lia.
Qed.

Lemma swap_loop_spec fuel start end_ m p : (end_ < start + 2 * fuel)%nat ->
  swap_loop m start end_ fuel p =
  if (start <=? p)%nat && (p <=? end_)%nat then m (start + (end_ - p))%nat else m p.
Proof.
  revert start end_ m. induction fuel as [|fuel IH]; intros start end_ m Hf; cbn [swap_loop].
  - destruct (Nat.leb_spec start p), (Nat.leb_spec p end_); cbn [andb]; auto; lia.
  - destruct (Nat.ltb_spec start end_).
    + rewrite IH by lia. unfold do_store. cbn [fst snd].
      destruct (Nat.leb_spec (S start) p), (Nat.leb_spec p (end_ - 1)), (Nat.leb_spec start p), (Nat.leb_spec p end_); cbn [andb]; try lia.
      * destruct (Nat.eqb_spec (S start + (end_ - 1 - p)) start); [lia|].
        destruct (Nat.eqb_spec (S start + (end_ - 1 - p)) end_); [lia|]. f_equal. lia.
      * assert (p = end_) by lia. subst p. destruct (Nat.eqb_spec end_ start); [lia|]. rewrite Nat.eqb_refl. f_equal. lia.
      * destruct (Nat.eqb_spec p start); [lia|]. destruct (Nat.eqb_spec p end_); [lia|]. reflexivity.
      * assert (p = start) by lia. subst p. rewrite Nat.eqb_refl. f_equal. lia.
      * destruct (Nat.eqb_spec p start); [lia|]. destruct (Nat.eqb_spec p end_); [lia|]. reflexivity.
    + destruct (Nat.leb_spec start p), (Nat.leb_spec p end_); cbn [andb]; auto. f_equal. lia.
Qed.

Lemma reverse_inplace_row_spec w i m t : fits w t -> segment m (i * w) w = pad w t ->
  segment (reverse_inplace_row w i m) (i * w) w = pad w (rev t) /\
  (forall p, (p < i * w \/ i * w + w <= p)%nat -> reverse_inplace_row w i m p = m p).
Proof.
  intros Hfit Hseg. assert (Hm : forall j, (j < w)%nat -> m (i * w + j)%nat = nth j (pad w t) 0).
  { intros j Hj. rewrite <- Hseg. now rewrite segment_nth. }
  assert (Hrf : fits w (rev t)).
  { destruct Hfit as [A B]. split; [unfold no_nul; now rewrite <- in_rev | now rewrite rev_length]. }
  unfold reverse_inplace_row. rewrite (mem_len_loop_spec m (i * w) w t Hfit Hm). destruct Hfit as [Hnul Hlen].
  destruct (length t) as [|l] eqn:EL.
  - assert (t = []) by (destruct t; [reflexivity | discriminate]). subst t. split; [exact Hseg | reflexivity].
  - split.
    + apply (segment_eq _ _ _ _ 0); [now apply pad_length|]. intros j Hj. rewrite swap_loop_spec by lia.
      rewrite pad_nth by auto. rewrite rev_length, EL.
      destruct (Nat.leb_spec (i * w) (i * w + j)), (Nat.leb_spec (i * w + j) (i * w + l)), (Nat.ltb_spec j (S l)); cbn [andb]; try lia.
      * replace (i * w + (i * w + l - (i * w + j)))%nat with (i * w + (l - j))%nat by lia.
        rewrite Hm by lia. rewrite pad_nth by (try split; auto; lia). rewrite EL. destruct (Nat.ltb_spec (l - j) (S l)); [|lia].
        rewrite rev_nth by lia. rewrite EL. f_equal.
      * rewrite Hm by lia. rewrite pad_nth by (try split; auto; lia). rewrite EL. now destruct (Nat.ltb_spec j (S l)); [lia|].
    + intros p Hp. rewrite swap_loop_spec by lia.
      destruct (Nat.leb_spec (i * w) p), (Nat.leb_spec p (i * w + l)); cbn [andb]; auto. lia.
Qed.

Lemma reverse_inplace_correct w ts m : column w ts -> rows m w (length ts) = map (pad w) ts ->
  rows (reverse_inplace w (length ts) m) w (length ts) = map (fun t => pad w (rev t)) ts.
Proof.
  intros [Hw Hf] Hrows.
  assert (Hseg : forall i, (i < length ts)%nat -> segment m (i * w) w = pad w (nth i ts [])).
  { intros i Hi. assert (E : nth i (rows m w (length ts)) [] = nth i (map (pad w) ts) []) by now rewrite Hrows.
    unfold rows in E. rewrite nth_map_seq in E by exact Hi. rewrite E.
    rewrite (nth_indep _ [] (pad w [])) by (now rewrite map_length). apply map_nth. }
  unfold reverse_inplace, run_order.
  assert (G : forall n, (n <= length ts)%nat -> forall i, (i < length ts)%nat ->
     segment (fold_left (fun s i => reverse_inplace_row w i s) (seq 0 n) m) (i * w) w =
     if (i <? n)%nat then pad w (rev (nth i ts [])) else pad w (nth i ts [])).
  { induction n as [|n IH]; intros Hn i Hi.
    - cbn [seq fold_left]. destruct (Nat.ltb_spec i 0); [lia|]. now apply Hseg.
    - rewrite seq_S, fold_left_app. cbn [fold_left plus]. set (m' := fold_left (fun s i => reverse_inplace_row w i s) (seq 0 n) m) in *.
      destruct (reverse_inplace_row_spec w n m' (nth n ts [])) as [A B].
      { now apply fits_nth. }
      { rewrite IH by lia. now destruct (Nat.ltb_spec n n); [lia|]. }
      destruct (Nat.eq_dec i n) as [->|Hne].
      + rewrite A. now destruct (Nat.ltb_spec n (S n)); [|lia].
      + transitivity (segment m' (i * w) w).
        * unfold segment. apply map_ext_in. intros j Hj. apply in_seq in Hj. apply B.
          destruct (lt_dec i n) as [Hl|Hg].
          -- left. assert (S i * w <= n * w)%nat by (apply Nat.mul_le_mono_r; lia). cbn in *. lia.
          -- right. assert (S n * w <= i * w)%nat by (apply Nat.mul_le_mono_r; lia). cbn in *. lia.
        * rewrite IH by lia. destruct (Nat.ltb_spec i n), (Nat.ltb_spec i (S n)); auto; lia. }
  rewrite (rows_map _ _ _ (fun i => pad w (rev (nth i ts [])))).
  - apply (map_seq_nth (fun t => pad w (rev t))).
  - intros i Hi. rewrite G by lia. now destruct (Nat.ltb_spec i (length ts)); [|lia].
Qed.
