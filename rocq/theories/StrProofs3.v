(** Corollaries and concrete runs for the string properties. *)
From Coq Require Import List Arith ZArith Bool Lia ZifyBool ZifyNat.
From Verif Require Import Sched SchedFacts StrModel StrSpec StrProofs StrProofs2.
Import ListNotations.
Open Scope Z_scope.

Lemma ex_col_ok_proof : column 5 [[97; 98; 99; 97]; []; [65; 98]].
Proof.
  split; [lia|]. repeat (apply Forall_cons; [split; [intros H; cbn in H; intuition lia | cbn; lia]|]). constructor.
Qed.

Lemma case_chars : forall c,
  (is_lower c -> is_upper (upper_char c) /\ lower_char (upper_char c) = c) /\
  (~ is_lower c -> upper_char c = c) /\
  (is_upper c -> is_lower (lower_char c) /\ upper_char (lower_char c) = c) /\
  (~ is_upper c -> lower_char c = c) /\
  upper_char (upper_char c) = upper_char c /\ lower_char (lower_char c) = lower_char c /\
  upper_char (lower_char c) = upper_char c /\ (c = 0 <-> upper_char c = 0) /\ (c = 0 <-> lower_char c = 0).
Proof.
  intros c. unfold is_lower, is_upper, upper_char, lower_char.
  repeat match goal with |- context [(?a <=? ?b)] => destruct (Z.leb_spec a b); cbn [andb] end; lia.
Qed.

Lemma outcome_serial {V} (its : list (list (store V))) m0 : outcome its m0 (run_stores (serial its) m0).
Proof. exists (serial its). split; [apply interleave_serial | reflexivity]. Qed.

Ltac run_serial := eexists; split; [apply outcome_serial | vm_compute; reflexivity].

Lemma upper_ex : exists m, outcome (launch (k_upper 0 (enc 5 [[97; 98; 99; 97]; []; [65; 98]]) 5) (enc 5 [[97; 98; 99; 97]; []; [65; 98]]) 5) (fun _ => 7) m /\
  rows m 5 3 = [[65; 66; 67; 65; 0]; [0; 0; 0; 0; 0]; [65; 66; 0; 0; 0]].
Proof. run_serial. Qed.
Lemma reverse_ex : exists m, outcome (launch (k_reverse 0 (enc 5 [[97; 98; 99; 97]; []; [65; 98]]) 5) (enc 5 [[97; 98; 99; 97]; []; [65; 98]]) 5) (fun _ => 7) m /\
  rows m 5 3 = [[97; 99; 98; 97; 0]; [0; 0; 0; 0; 0]; [98; 65; 0; 0; 0]].
Proof. run_serial. Qed.
Lemma index_ex : exists m, outcome (launch (k_index [98] (enc 5 [[97; 98; 99; 97]; []; [65; 98]]) 5) (enc 5 [[97; 98; 99; 97]; []; [65; 98]]) 5) (fun _ => 7) m /\
  cells m 3 = [1; -1; 1].
Proof. run_serial. Qed.
Lemma endswith_ex : exists m, outcome (launch (k_endswith 0 [98] (enc 5 [[97; 98; 99; 97]; []; [65; 98]]) 5) (enc 5 [[97; 98; 99; 97]; []; [65; 98]]) 5) (fun _ => true) m /\
  cells m 3 = [false; false; true].
Proof. run_serial. Qed.
Lemma removetrailing_ex : exists m, outcome (launch (k_removetrailing 0 97 (enc 5 [[97; 98; 99; 97]; []; [65; 98]]) 5) (enc 5 [[97; 98; 99; 97]; []; [65; 98]]) 5) (fun _ => 7) m /\
  rows m 5 3 = [[97; 98; 99; 0; 0]; [0; 0; 0; 0; 0]; [65; 98; 0; 0; 0]].
Proof. run_serial. Qed.
Lemma replace_ex : exists m, outcome (replace_its 0 [97] (np_str [120; 121]) (enc 5 [[97; 98; 99; 97]; []; [65; 98]]) 5) (fun _ => 0) m /\
  rows m 7 3 = [[120; 121; 98; 99; 120; 121; 0]; [0; 0; 0; 0; 0; 0; 0]; [65; 98; 0; 0; 0; 0; 0]].
Proof. run_serial. Qed.
Lemma substr_ex : exists m,
  outcome (launch (k_substr 0 (fun _ => -2) (fun _ => 9) (fun i => Z.of_nat (length (nth i [[97; 98; 99; 97]; []; [65; 98]] []))) (enc 5 [[97; 98; 99; 97]; []; [65; 98]]) 5)
                  (enc 5 [[97; 98; 99; 97]; []; [65; 98]]) 5) (fun _ => 0) m /\
  substr_view 2 (rows m 5 3) = [[99; 97]; [0; 0]; [65; 98]].
Proof. run_serial. Qed.

(** flat array = its rows *)
Lemma segment_app {V} (m : mem V) lo a b : segment m lo (a + b) = segment m lo a ++ segment m (lo + a) b.
Proof.
  induction a as [|a IH] in lo |- *.
  - cbn [plus]. now rewrite Nat.add_0_r.
  - cbn [plus]. rewrite !segment_cons, IH. cbn [app]. now replace (lo + S a)%nat with (S lo + a)%nat by lia.
Qed.

Lemma segment_rows {V} (m : mem V) w n : segment m 0 (n * w) = concat (rows m w n).
Proof.
  induction n as [|n IH]; [reflexivity|].
  unfold rows. rewrite seq_S, map_app, concat_app. fold (rows m w n). cbn [map concat plus]. rewrite app_nil_r.
  rewrite <- IH. replace (S n * w)%nat with (n * w + w)%nat by (cbn; lia). now rewrite segment_app.
Qed.

Lemma enc_map_pad w (ts : list text) (f : text -> text) : enc w (map f ts) = concat (map (fun t => pad w (f t)) ts).
Proof. unfold enc. now rewrite map_map. Qed.

Lemma reverse_twice junk junk' w ts m0 m m0' m' :
  column w ts ->
  outcome (launch (k_reverse junk (enc w ts) w) (enc w ts) w) m0 m ->
  let src' := segment m 0 (length (enc w ts)) in
  outcome (launch (k_reverse junk' src' w) src' w) m0' m' ->
  segment m' 0 (length (enc w ts)) = enc w ts.
Proof.
  intros Hcol H1 src'. pose proof (reverse_correct junk w ts m0 m Hcol H1) as R1.
  assert (Hcol' : column w (map (@rev Z) ts)).
  { destruct Hcol as [Hw Hf]. split; [exact Hw|]. rewrite Forall_forall in *. intros u Hu.
    apply in_map_iff in Hu as (t & <- & Ht). destruct (Hf t Ht) as [A B]. split; [unfold no_nul; now rewrite <- in_rev | now rewrite rev_length]. }
  assert (E : src' = enc w (map (@rev Z) ts)).
  { subst src'. rewrite enc_length by apply Hcol. rewrite segment_rows, R1. now rewrite enc_map_pad. }
  rewrite E. intros H2. pose proof (reverse_correct junk' w _ m0' m' Hcol' H2) as R2.
  rewrite map_length in R2. rewrite enc_length by apply Hcol. rewrite segment_rows. etransitivity; [apply f_equal; exact R2|]. rewrite map_map.
  unfold enc. f_equal. apply map_ext. intros t. now rewrite rev_involutive.
Qed.

Lemma replaced_det old new t u u' : old <> [] -> replaced old new t u -> replaced old new t u' -> u = u'.
Proof.
  intros Hold H. revert u'. induction H as [|t u H IH|c t u Hno H IH]; intros u' H'.
  - inversion H' as [|t1 u1 H1 E1|]; [reflexivity|]. exfalso. destruct old; [congruence | discriminate].
  - inversion H' as [E1 E2|t1 u1 H1 E1 E2|c t1 u1 Hn1 H1 E1 E2].
    + exfalso. destruct old; [congruence | discriminate].
    + apply app_inv_head in E1. subst t1. f_equal. now apply IH.
    + exfalso. apply (Hn1 t). exact E1.
  - inversion H' as [|t1 u1 H1 E1 E2|c1 t1 u1 Hn1 H1 E1 E2].
    + exfalso. apply (Hno t1). now symmetry.
    + f_equal. now apply IH.
Qed.

Lemma char_correct' junk w ts : column w ts ->
  let strlen i := Z.of_nat (length (nth i ts [])) in
  forall position m0 m,
  char_raises position strlen w (length ts) = false ->
  outcome (launch (k_char junk position strlen (enc w ts) w) (enc w ts) w) m0 m ->
  forall i, (i < length ts)%nat ->
    m i = nth (Z.to_nat (char_pos (position i) (strlen i))) (pad w (nth i ts [])) 0 /\
    0 <= char_pos (position i) (strlen i) < Z.of_nat w.
Proof. intros Hcol strlen position m0 m. now apply char_correct. Qed.

Lemma disjoint_rows {V : Type} (w n : nat) (it : nat -> list (store V)) m0 ws ws' :
  (forall i, (i < n)%nat -> forall s, In s (it i) -> (i * w <= fst s < i * w + w)%nat) ->
  interleave (map it (seq 0 n)) ws -> interleave (map it (seq 0 n)) ws' ->
  segment (run_stores ws m0) 0 (n * w) = segment (run_stores ws' m0) 0 (n * w).
Proof.
  intros HL H1 H2. rewrite !segment_rows. f_equal. unfold rows. apply map_ext_in. intros i Hi. apply in_seq in Hi.
  rewrite (row_par_segment w it n ws m0 i HL H1) by lia. now rewrite (row_par_segment w it n ws' m0 i HL H2) by lia.
Qed.

Lemma rows_of_flat {V} (m m' : mem V) w n : segment m 0 (n * w) = segment m' 0 (n * w) -> rows m w n = rows m' w n.
Proof.
  intros H. unfold rows. apply map_ext_in. intros i Hi. apply in_seq in Hi.
  unfold segment. apply map_ext_in. intros j Hj. apply in_seq in Hj.
  assert (Hb : (i * w + j < n * w)%nat).
  { assert (S i * w <= n * w)%nat by (apply Nat.mul_le_mono_r; lia). cbn in *. lia. }
  assert (E : nth (i * w + j) (segment m 0 (n * w)) (m 0%nat) = nth (i * w + j) (segment m' 0 (n * w)) (m 0%nat)) by now rewrite H.
  now rewrite !segment_nth in E by exact Hb.
Qed.

Lemma strips_det c t u u' : strips_trailing c t u -> strips_trailing c t u' -> u = u'.
Proof.
  assert (G : forall k u u', (forall v, u <> v ++ [c]) -> (forall v, u' <> v ++ [c]) -> u = u' ++ repeat c k -> u = u').
  { intros k. destruct k as [|k]; intros x y Hx Hy E; [now rewrite app_nil_r in E|]. exfalso.
    apply (Hx (y ++ repeat c k)). rewrite E. rewrite <- app_assoc. f_equal.
    change (repeat c (S k)) with (repeat c 1 ++ repeat c k). rewrite <- repeat_app. rewrite Nat.add_comm, repeat_app. reflexivity. }
  intros [(k & E) H1] [(k' & E') H2]. subst t.
  destruct (le_lt_dec k k') as [Hle|Hlt].
  - replace k' with (k' - k + k)%nat in E' by lia. rewrite repeat_app, app_assoc in E'. apply app_inv_tail in E'.
    eapply G; eauto.
  - replace k with (k - k' + k')%nat in E' by lia. rewrite repeat_app, app_assoc in E'. apply app_inv_tail in E'.
    symmetry. eapply G; eauto.
Qed.

Lemma string_rows_schedule junk rc w ts m0 m m0' m' :
  column w ts -> rc <> 0 ->
  (outcome (launch (k_upper junk (enc w ts) w) (enc w ts) w) m0 m ->
   outcome (launch (k_upper junk (enc w ts) w) (enc w ts) w) m0' m' -> rows m w (length ts) = rows m' w (length ts)) /\
  (outcome (launch (k_lower junk (enc w ts) w) (enc w ts) w) m0 m ->
   outcome (launch (k_lower junk (enc w ts) w) (enc w ts) w) m0' m' -> rows m w (length ts) = rows m' w (length ts)) /\
  (outcome (launch (k_reverse junk (enc w ts) w) (enc w ts) w) m0 m ->
   outcome (launch (k_reverse junk (enc w ts) w) (enc w ts) w) m0' m' -> rows m w (length ts) = rows m' w (length ts)) /\
  (outcome (launch (k_removetrailing junk rc (enc w ts) w) (enc w ts) w) m0 m ->
   outcome (launch (k_removetrailing junk rc (enc w ts) w) (enc w ts) w) m0' m' -> rows m w (length ts) = rows m' w (length ts)).
Proof.
  intros Hcol Hrc. pose proof Hcol as [Hw Hf].
  assert (Hmod : (length (enc w ts) mod w = 0)%nat) by (rewrite enc_length by exact Hf; apply Nat.mod_mul; lia).
  split; [|split; [|split]]; intros H1 H2.
  - apply rows_of_flat. rewrite <- (enc_length w ts Hf).
    now rewrite (upper_correct junk _ w m0 m), (upper_correct junk _ w m0' m').
  - apply rows_of_flat. rewrite <- (enc_length w ts Hf).
    now rewrite (lower_correct junk _ w m0 m), (lower_correct junk _ w m0' m').
  - now rewrite (reverse_correct junk w ts m0 m), (reverse_correct junk w ts m0' m').
  - apply removetrailing_correct in H1 as (us & F1 & _ & R1); auto.
    apply removetrailing_correct in H2 as (us' & F2 & _ & R2); auto.
    rewrite R1, R2. f_equal. clear - F1 F2. revert us' F2. induction F1 as [|t u ts us Hs F IH]; intros us' F2.
    + now inversion F2.
    + inversion F2 as [|t' u' ts' us'' Hs' F']; subst. f_equal; [eapply strips_det; eauto | now apply IH].
Qed.

(** substr_char_stop *)
Lemma py_slice_0 (k : nat) t : (k <= length t)%nat -> py_slice 0 (Z.of_nat k) t = firstn k t.
Proof.
  intros H. unfold py_slice, clip. destruct (Z.ltb_spec 0 0); [lia|]. destruct (Z.ltb_spec (Z.of_nat k) 0); [lia|].
  replace (Z.min 0 (Z.of_nat (length t))) with 0 by lia. cbn [Z.to_nat skipn]. f_equal. lia.
Qed.

Lemma py_slice_all x t : Z.of_nat (length t) <= x -> py_slice 0 x t = t.
Proof.
  intros H. unfold py_slice, clip. destruct (Z.ltb_spec 0 0); [lia|]. destruct (Z.ltb_spec x 0); [lia|].
  replace (Z.min 0 (Z.of_nat (length t))) with 0 by lia. cbn [Z.to_nat skipn]. apply firstn_all2. lia.
Qed.

Lemma char_stop_partial w t stop inclusive idx :
  fits w t -> stop <> [] -> is_first_occurrence stop t idx ->
  inclusive = false \/ length stop = 1%nat ->
  stops_at inclusive stop t (py_slice 0 (char_stop inclusive w idx) t).
Proof.
  intros [Hnul Hlen] Hne [[-> Hno]|(j & -> & (a & b & Et & Ha) & Hmin)] Hc.
  - right. split; [exact Hno|]. unfold char_stop. change (-1 =? -1) with true. cbv iota. apply py_slice_all. destruct inclusive; lia.
  - left. exists a, b. split; [exact Et|]. split; [intros j' Hj'; rewrite Ha; now apply Hmin|].
    unfold char_stop. destruct (Z.eqb_spec (Z.of_nat j) (-1)); [lia|].
    assert (HL : length t = (length a + length stop + length b)%nat) by (rewrite Et, !app_length; lia).
    destruct inclusive.
    + destruct Hc as [|Hs]; [discriminate|].
      replace (Z.of_nat j + 1) with (Z.of_nat (j + 1)) by lia. rewrite py_slice_0 by lia.
      rewrite Et, app_assoc. rewrite firstn_app, app_length. replace (j + 1 - (length a + length stop))%nat with 0%nat by lia.
      cbn [firstn]. rewrite app_nil_r. apply firstn_all2. rewrite app_length. lia.
    + rewrite py_slice_0 by lia. rewrite Et, firstn_app. replace (j - length a)%nat with 0%nat by lia.
      cbn [firstn]. rewrite app_nil_r. apply firstn_all2. lia.
Qed.

Lemma char_stop_refuted : exists w t stop idx,
  fits w t /\ stop <> [] /\ no_nul stop /\ is_first_occurrence stop t idx /\
  ~ stops_at true stop t (py_slice 0 (char_stop true w idx) t).
Proof.
  (* 'A__B' with stop '__' *)
  exists 4%nat, [65; 95; 95; 66], [95; 95], 1.
  assert (Hocc : forall j, occurs_at [95; 95] [65; 95; 95; 66] j -> j = 1%nat).
  { intros j (a & b & E & Ha). pose proof (f_equal (@length Z) E) as HL. rewrite !app_length in HL. cbn in HL.
    destruct a as [|x [|y [|z a]]]; cbn in E, Ha, HL; [injection E; intros; lia | lia | injection E; intros; lia | lia]. }
  split; [split; [intros H; cbn in H; intuition lia | cbn; lia]|].
  split; [discriminate|]. split; [intros H; cbn in H; intuition lia|].
  split.
  - right. exists 1%nat. split; [reflexivity|]. split; [exists [65], [66]; now split|]. intros j Hj. apply Hocc in Hj. lia.
  - intros [(a & b & E & _ & Eu)|[Hno _]].
    + assert (Ha : length a = 1%nat) by (apply Hocc; now exists a, b).
      apply (f_equal (@length Z)) in Eu. rewrite app_length in Eu. vm_compute in Eu. destruct a as [|x [|y a]]; cbn in *; try lia.
    + apply (Hno 1%nat). exists [65], [66]. now split.
Qed.
