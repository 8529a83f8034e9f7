(** Proofs about the string kernels. *)
From Coq Require Import List Arith ZArith Bool Lia ZifyBool ZifyNat.
From Verif Require Import Sched SchedFacts StrModel StrSpec.
Import ListNotations.
Open Scope Z_scope.

Ltac Zify.zify_post_hook ::= Z.div_mod_to_equations.

(** * Encoding facts *)
Lemma pad_length w t : fits w t -> length (pad w t) = w.
Proof. intros [_ H]. unfold pad. rewrite app_length, repeat_length. lia. Qed.

Lemma enc_cons w t ts : enc w (t :: ts) = pad w t ++ enc w ts.
Proof. reflexivity. Qed.

Lemma enc_length w ts : Forall (fits w) ts -> length (enc w ts) = (length ts * w)%nat.
Proof.
  induction 1 as [|t ts Ht Hts IH]; [reflexivity|].
  rewrite enc_cons, app_length, IH, pad_length by exact Ht. cbn. lia.
Qed.

Lemma enc_rows w ts : column w ts -> (length (enc w ts) / w = length ts)%nat.
Proof. intros [Hw H]. rewrite enc_length by exact H. apply Nat.div_mul. lia. Qed.

Lemma enc_skipn_row w ts i : Forall (fits w) ts -> skipn (i * w) (enc w ts) = enc w (skipn i ts).
Proof.
  intros H. revert i. induction H as [|t ts Ht Hts IH]; intros i.
  - cbn. rewrite !skipn_nil. reflexivity.
  - destruct i as [|i]; [reflexivity|].
    rewrite enc_cons. cbn [skipn]. rewrite <- IH.
    rewrite skipn_app, pad_length by exact Ht.
    rewrite skipn_all2 by (rewrite pad_length by exact Ht; lia). cbn [app].
    f_equal. lia.
Qed.

Lemma skipn_cons_nth {A} (l : list A) i d : (i < length l)%nat -> skipn i l = nth i l d :: skipn (S i) l.
Proof.
  revert i. induction l as [|x l IH]; intros i H; cbn in H; [lia|].
  destruct i; [reflexivity|]. cbn [skipn nth]. rewrite (IH i) by lia. reflexivity.
Qed.

Lemma skipn_skipn' {A} (a b : nat) (l : list A) : skipn a (skipn b l) = skipn (b + a) l.
Proof.
  revert l. induction b as [|b IH]; intros l; [reflexivity|].
  destruct l as [|x l]; [now rewrite !skipn_nil|]. cbn. apply IH.
Qed.

Lemma enc_skipn w ts i j : Forall (fits w) ts -> (i < length ts)%nat -> (j <= w)%nat ->
  skipn (i * w + j) (enc w ts) = skipn j (pad w (nth i ts [])) ++ enc w (skipn (S i) ts).
Proof.
  intros H Hi Hj. rewrite <- skipn_skipn', enc_skipn_row by exact H.
  rewrite (skipn_cons_nth ts i []) by exact Hi. rewrite enc_cons, skipn_app.
  rewrite pad_length by (rewrite Forall_forall in H; apply H, nth_In, Hi).
  replace (j - w)%nat with 0%nat by lia. reflexivity.
Qed.

Lemma nth_skipn {A} (l : list A) i j d : nth j (skipn i l) d = nth (i + j) l d.
Proof.
  revert l. induction i as [|i IH]; intros l; [reflexivity|].
  destruct l as [|x l]; cbn; [now destruct j | apply IH].
Qed.

Lemma enc_rd junk w ts i j : Forall (fits w) ts -> (i < length ts)%nat -> (j < w)%nat ->
  rd junk (enc w ts) (i * w + j) = nth j (pad w (nth i ts [])) junk.
Proof.
  intros H Hi Hj. unfold rd.
  replace (i * w + j)%nat with (i * w + j + 0)%nat by lia.
  rewrite <- nth_skipn, enc_skipn by (auto; lia).
  rewrite app_nth1.
  - rewrite nth_skipn. f_equal. lia.
  - rewrite skipn_length, pad_length by (rewrite Forall_forall in H; apply H, nth_In, Hi). lia.
Qed.

Lemma fits_nth w ts i : Forall (fits w) ts -> (i < length ts)%nat -> fits w (nth i ts []).
Proof. intros H Hi. rewrite Forall_forall in H. apply H, nth_In, Hi. Qed.

Lemma nth_repeat_lt {A} (x d : A) n j : (j < n)%nat -> nth j (repeat x n) d = x.
Proof. revert j. induction n as [|n IH]; intros [|j] H; cbn; try lia; auto. apply IH. lia. Qed.

(** character [j] of a padded row *)
Lemma pad_nth junk w t j : fits w t -> (j < w)%nat ->
  nth j (pad w t) junk = if (j <? length t)%nat then nth j t junk else 0.
Proof.
  intros [_ Hl] Hj. unfold pad. destruct (Nat.ltb_spec j (length t)).
  - now rewrite app_nth1 by lia.
  - rewrite app_nth2 by lia. rewrite nth_repeat_lt by lia. reflexivity.
Qed.

Lemma no_nul_nth junk t j : no_nul t -> (j < length t)%nat -> nth j t junk <> 0.
Proof. intros H Hj E. apply H. rewrite <- E. now apply nth_In. Qed.

(** * Generic lifting from one row to the whole column, for every schedule *)
Lemma rows_map {V} (m : mem V) w n (f : nat -> list V) :
  (forall i, (i < n)%nat -> segment m (i * w) w = f i) -> rows m w n = map f (seq 0 n).
Proof. intros H. unfold rows. apply map_ext_in. intros i Hi. apply in_seq in Hi. apply H. lia. Qed.

Lemma map_seq_nth {A B} (f : A -> B) (l : list A) d :
  map (fun i => f (nth i l d)) (seq 0 (length l)) = map f l.
Proof.
  induction l as [|x l IH]; [reflexivity|].
  cbn [length seq map nth]. f_equal. rewrite <- seq_shift, map_map. exact IH.
Qed.

Section Lift.
Context {V : Type}.
Variables (kernel : nat -> list (store V)) (w wout : nat) (ts : list text).
Hypothesis Hcol : column w ts.
Hypothesis Hloc : row_local wout kernel (length ts).

Lemma lift_rows (f : text -> list V) (m0 m : mem V) :
  (forall i, (i < length ts)%nat ->
     segment (run_stores (kernel i) m0) (i * wout) wout = f (nth i ts [])) ->
  outcome (launch kernel (enc w ts) w) m0 m ->
  rows m wout (length ts) = map f ts.
Proof.
  intros Hrow (ws & Hil & ->). unfold launch in Hil. rewrite enc_rows in Hil by exact Hcol.
  rewrite (rows_map _ _ _ (fun i => f (nth i ts []))).
  - apply map_seq_nth.
  - intros i Hi. rewrite (row_par_segment wout kernel (length ts) ws m0 i Hloc Hil Hi). now apply Hrow.
Qed.
End Lift.

Lemma lift_cells {V} (kernel : nat -> list (store V)) w ts (P : text -> V -> Prop) (m0 m : mem V) :
  column w ts ->
  (forall i s, In s (kernel i) -> fst s = i) ->
  (forall i, (i < length ts)%nat -> P (nth i ts []) (run_stores (kernel i) m0 i)) ->
  outcome (launch kernel (enc w ts) w) m0 m ->
  Forall2 P ts (cells m (length ts)).
Proof.
  intros Hcol Hloc Hrow (ws & Hil & ->). unfold launch in Hil. rewrite enc_rows in Hil by exact Hcol.
  assert (HL : row_local 1 kernel (length ts)).
  { intros i Hi s Hs. rewrite (Hloc i s Hs). lia. }
  assert (Hc : forall i, (i < length ts)%nat -> P (nth i ts []) (run_stores ws m0 i)).
  { intros i Hi. specialize (row_par 1 kernel (length ts) ws m0 i 0 HL Hil Hi ltac:(lia)).
    replace (i * 1 + 0)%nat with i by lia. intros ->. now apply Hrow. }
  clear - Hc. unfold cells, segment. cbn [plus].
  assert (G : forall lo, (forall i, (i < length ts)%nat -> P (nth i ts []) (run_stores ws m0 (lo + i)%nat)) ->
              Forall2 P ts (map (fun j => run_stores ws m0 j) (seq lo (length ts)))).
  { clear Hc. induction ts as [|t ts' IH]; intros lo H; cbn; constructor.
    - specialize (H 0%nat ltac:(cbn; lia)). cbn in H. now rewrite Nat.add_0_r in H.
    - apply IH. intros i Hi. specialize (H (S i) ltac:(cbn; lia)). cbn in H.
      now replace (S lo + i)%nat with (lo + S i)%nat by lia. }
  apply (G 0%nat). exact Hc.
Qed.

(** * upper / lower *)
Section Case.
Variable junk : Z.

Lemma k_upper_as src w i : k_upper junk src w i = map (fun j => ((i * w + j)%nat, upper_char (rd junk src (i * w + j)))) (seq 0 w).
Proof.
  unfold k_upper. apply map_ext. intros j. unfold upper_char.
  now destruct ((97 <=? rd junk src (i * w + j)) && (rd junk src (i * w + j) <=? 122)).
Qed.
Lemma k_lower_as src w i : k_lower junk src w i = map (fun j => ((i * w + j)%nat, lower_char (rd junk src (i * w + j)))) (seq 0 w).
Proof.
  unfold k_lower. apply map_ext. intros j. unfold lower_char.
  now destruct ((65 <=? rd junk src (i * w + j)) && (rd junk src (i * w + j) <=? 90)).
Qed.

Lemma map_store_local {V} (f : nat -> V) w n :
  row_local w (fun i => map (fun j => ((i * w + j)%nat, f (i * w + j)%nat)) (seq 0 w)) n.
Proof.
  intros i Hi s Hs. apply in_map_iff in Hs as (j & <- & Hj). apply in_seq in Hj. cbn. lia.
Qed.

Lemma pointwise_kernel (f : Z -> Z) (kernel : nat -> list (store Z)) src w m0 m :
  (0 < w)%nat -> (length src mod w = 0)%nat ->
  (forall i, kernel i = map (fun j => ((i * w + j)%nat, f (rd junk src (i * w + j)))) (seq 0 w)) ->
  outcome (launch kernel src w) m0 m ->
  segment m 0 (length src) = map f src.
Proof.
  intros Hw Hmod Hk (ws & Hil & ->). unfold launch in Hil.
  set (n := (length src / w)%nat) in *.
  assert (Hn : length src = (n * w)%nat).
  { subst n. rewrite (Nat.div_mod (length src) w) at 1 by lia. lia. }
  assert (HL : row_local w kernel n).
  { intros i Hi s Hs. rewrite Hk in Hs. revert i Hi s Hs.
    exact (map_store_local (fun k => f (rd junk src k)) w n). }
  apply (segment_eq _ _ _ _ (f junk)); [apply map_length|].
  intros p Hp. cbn [plus]. rewrite map_nth. fold (rd junk src p).
  set (i := (p / w)%nat). set (j := (p mod w)%nat).
  assert (Hpij : p = (i * w + j)%nat) by (subst i j; rewrite (Nat.div_mod p w) at 1 by lia; lia).
  assert (Hj : (j < w)%nat) by (subst j; apply Nat.mod_upper_bound; lia).
  assert (Hi : (i < n)%nat).
  { destruct (lt_dec i n) as [|Hge]; [assumption|].
    exfalso. assert (n * w <= i * w)%nat by (apply Nat.mul_le_mono_r; lia). lia. }
  rewrite Hpij. rewrite (row_par w kernel n ws m0 i j HL Hil Hi Hj).
  rewrite Hk, (run_stores_map_seq (fun j => f (rd junk src (i * w + j)))).
  destruct (Nat.leb_spec (i * w) (i * w + j)); [|lia].
  destruct (Nat.ltb_spec (i * w + j) (i * w + w)); [|lia]. cbn [andb].
  do 2 f_equal. lia.
Qed.

Lemma upper_correct src w m0 m :
  (0 < w)%nat -> (length src mod w = 0)%nat ->
  outcome (launch (k_upper junk src w) src w) m0 m ->
  segment m 0 (length src) = map upper_char src.
Proof. intros Hw Hm. apply (pointwise_kernel _ _ _ w); auto. intros i. apply k_upper_as. Qed.

Lemma lower_correct src w m0 m :
  (0 < w)%nat -> (length src mod w = 0)%nat ->
  outcome (launch (k_lower junk src w) src w) m0 m ->
  segment m 0 (length src) = map lower_char src.
Proof. intros Hw Hm. apply (pointwise_kernel _ _ _ w); auto. intros i. apply k_lower_as. Qed.
End Case.

(** * length of the visible text *)
Lemma len_loop_spec junk w ts i :
  column w ts -> (i < length ts)%nat ->
  len_loop junk (enc w ts) (i * w) 0 w = length (nth i ts []).
Proof.
  intros [Hw Hf] Hi. pose proof (fits_nth w ts i Hf Hi) as Hfit. set (t := nth i ts []) in *.
  destruct Hfit as [Hnul Hlen].
  assert (G : forall fuel s, (s + fuel = w)%nat -> (s <= length t)%nat ->
              len_loop junk (enc w ts) (i * w) s fuel = length t).
  { induction fuel as [|fuel IH]; intros s Hs Hle; cbn [len_loop]; [lia|].
    rewrite enc_rd by (auto; lia). fold t. rewrite pad_nth by (try split; auto; lia).
    destruct (Nat.ltb_spec s (length t)).
    - pose proof (no_nul_nth junk t s Hnul H). destruct (Z.eqb_spec (nth s t junk) 0); [contradiction|].
      apply IH; lia.
    - rewrite Z.eqb_refl. lia. }
  apply G; lia.
Qed.

Lemma strlen_correct junk w ts m0 m :
  column w ts ->
  outcome (launch (k_strlen junk (enc w ts) w) (enc w ts) w) m0 m ->
  cells m (length ts) = map (fun t => Z.of_nat (length t)) ts.
Proof.
  intros Hcol Hout.
  assert (F : Forall2 (fun t r => r = Z.of_nat (length t)) ts (cells m (length ts))).
  { eapply lift_cells; eauto.
    - intros i s [<-|[]]. reflexivity.
    - intros i Hi. cbn. unfold do_store. cbn. rewrite Nat.eqb_refl. now rewrite len_loop_spec. }
  clear Hout. remember (cells m (length ts)) as r. clear Heqr Hcol.
  induction F as [|t r ts rs -> _ IH]; [reflexivity|]. cbn. now rewrite IH.
Qed.

(** * reverse *)
Lemma rev_loop_local junk src rowpos L s0 s : In s (rev_loop junk src rowpos L s0) -> (rowpos <= fst s < rowpos + L)%nat.
Proof.
  revert s0. induction L as [|L IH]; intros s0 H; cbn in H; [contradiction|].
  destruct H as [<-|H]; [cbn; lia|]. apply IH in H. lia.
Qed.

Lemma rev_loop_run junk src rowpos L s0 m p :
  run_stores (rev_loop junk src rowpos L s0) m p =
  if (rowpos <=? p)%nat && (p <? rowpos + L)%nat
  then rd junk src (rowpos + (s0 + (L - 1 - (p - rowpos))))%nat else m p.
Proof.
  revert s0 m. induction L as [|L IH]; intros s0 m.
  - cbn [rev_loop run_stores fold_left]. destruct (Nat.leb_spec rowpos p), (Nat.ltb_spec p (rowpos + 0)); cbn [andb]; auto; lia.
  - cbn [rev_loop]. rewrite run_stores_cons, IH. unfold do_store. cbn [fst snd].
    destruct (Nat.leb_spec rowpos p), (Nat.ltb_spec p (rowpos + L)), (Nat.ltb_spec p (rowpos + S L));
      cbn [andb]; try lia.
    all: destruct (Nat.eqb_spec p (rowpos + L)); try lia; try reflexivity; f_equal; lia.
Qed.

Lemma zero_run (rowpos L k : nat) (m : mem Z) p :
  run_stores (map (fun s => ((rowpos + s)%nat, 0)) (seq L k)) m p =
  if (rowpos + L <=? p)%nat && (p <? rowpos + L + k)%nat then 0 else m p.
Proof.
  revert L m. induction k as [|k IH]; intros L m.
  - cbn [seq map run_stores fold_left]. destruct (Nat.leb_spec (rowpos + L) p), (Nat.ltb_spec p (rowpos + L + 0)); cbn [andb]; auto; lia.
  - cbn [seq map]. rewrite run_stores_cons, IH. unfold do_store. cbn [fst snd].
    destruct (Nat.leb_spec (rowpos + S L) p), (Nat.ltb_spec p (rowpos + S L + k)),
      (Nat.leb_spec (rowpos + L) p), (Nat.ltb_spec p (rowpos + L + S k)), (Nat.eqb_spec p (rowpos + L));
      cbn [andb]; auto; lia.
Qed.

Lemma reverse_correct junk w ts m0 m :
  column w ts ->
  outcome (launch (k_reverse junk (enc w ts) w) (enc w ts) w) m0 m ->
  rows m w (length ts) = map (fun t => pad w (rev t)) ts.
Proof.
  intros Hcol Hout. destruct Hcol as [Hw Hf] eqn:Ecol. clear Ecol.
  eapply (lift_rows (k_reverse junk (enc w ts) w) w w ts (conj Hw Hf)); [ | | exact Hout].
  - intros i Hi s Hs. unfold k_reverse in Hs.
    rewrite len_loop_spec in Hs by (auto; now split). pose proof (fits_nth w ts i Hf Hi) as [_ HL].
    apply in_app_or in Hs as [Hs|Hs].
    + apply rev_loop_local in Hs. lia.
    + apply in_map_iff in Hs as (j & <- & Hj). apply in_seq in Hj. cbn. lia.
  - intros i Hi. unfold k_reverse. rewrite len_loop_spec by (auto; now split).
    pose proof (fits_nth w ts i Hf Hi) as Hfit. set (t := nth i ts []) in *. destruct Hfit as [Hnul HL].
    assert (Hrf : fits w (rev t)).
    { split; [unfold no_nul; now rewrite <- in_rev | now rewrite rev_length]. }
    apply (segment_eq _ _ _ _ junk); [now apply pad_length|].
    intros j Hj. rewrite run_stores_app, zero_run, rev_loop_run.
    rewrite pad_nth by auto. rewrite rev_length.
    destruct (Nat.leb_spec (i * w + length t) (i * w + j)), (Nat.ltb_spec (i * w + j) (i * w + length t + (w - length t))),
      (Nat.leb_spec (i * w) (i * w + j)), (Nat.ltb_spec (i * w + j) (i * w + length t)), (Nat.ltb_spec j (length t)); cbn [andb]; try lia.
    rewrite enc_rd by (auto; lia). fold t. rewrite pad_nth by (try split; auto; lia).
    destruct (Nat.ltb_spec (0 + (length t - 1 - (i * w + j - i * w))) (length t)); [|lia].
    rewrite rev_nth by lia. f_equal. lia.
Qed.

(** * search *)
Lemma str_equal_prefix s p : (length p <= length s)%nat -> str_equal s p = true <-> exists b, s = p ++ b.
Proof.
  revert s. induction p as [|c p IH]; intros s H.
  - split; [intros _; now exists s|]. now destruct s.
  - destruct s as [|d s]; cbn in H; [lia|]. cbn [str_equal].
    destruct (Z.eqb_spec d c) as [->|Hne]; cbn [negb].
    + rewrite (IH s) by lia. split; intros (b & E).
      * exists b. now rewrite E.
      * exists b. now injection E.
    + split; [discriminate|]. intros (b & E). injection E as E _. congruence.
Qed.

Lemma app_prefix_inv {A} (a b c d : list A) : a ++ b = c ++ d -> (length c <= length a)%nat -> exists e, a = c ++ e.
Proof.
  revert a. induction c as [|x c IH]; intros a E H; [now exists a|].
  destruct a as [|y a]; cbn in H; [lia|]. cbn in E. injection E as -> E.
  destruct (IH a E ltac:(lia)) as (e & ->). now exists e.
Qed.

(** A NUL-free non-empty pattern matches at column [j] of the stored row exactly when it
    occurs there in the text. *)
Lemma match_at w ts i j p :
  column w ts -> (i < length ts)%nat -> no_nul p -> (0 < length p)%nat -> (j + length p <= w)%nat ->
  str_equal (skipn (i * w + j) (enc w ts)) p = true <-> occurs_at p (nth i ts []) j.
Proof.
  intros [Hw Hf] Hi Hp Hp0 Hj. pose proof (fits_nth w ts i Hf Hi) as Hfit.
  rewrite enc_skipn by (auto; lia). set (t := nth i ts []) in *.
  assert (HL : length (skipn j (pad w t)) = (w - j)%nat) by (now rewrite skipn_length, pad_length).
  rewrite str_equal_prefix by (rewrite app_length; lia).
  destruct Hfit as [Hnul Hlen].
  split.
  - intros (b & E).
    destruct (app_prefix_inv _ _ _ _ E ltac:(lia)) as (e & Ee). clear E.
    assert (Hjl : (j + length p <= length t)%nat).
    { (* otherwise the last character of p would be a NUL of the padding *)
      destruct (le_lt_dec (j + length p) (length t)) as [|Hgt]; [assumption|]. exfalso.
      apply Hp. 
      assert (E1 : nth (length p - 1) p 1 = nth (j + (length p - 1)) (pad w t) 1).
      { rewrite <- nth_skipn, Ee. now rewrite app_nth1 by lia. }
      rewrite pad_nth in E1 by (try split; auto; lia).
      destruct (Nat.ltb_spec (j + (length p - 1)) (length t)); [lia|].
      rewrite <- E1. apply nth_In. lia. }
    exists (firstn j t), (skipn (j + length p) t). split; [|apply firstn_length_le; lia].
    assert (E2 : skipn j t ++ repeat 0 (w - length t) = p ++ e).
    { rewrite <- Ee. unfold pad. rewrite skipn_app. now replace (j - length t)%nat with 0%nat by lia. }
    destruct (app_prefix_inv _ _ _ _ E2) as (f & Ef); [rewrite skipn_length; lia|].
    rewrite <- (firstn_skipn j t) at 1. f_equal. rewrite <- skipn_skipn', Ef.
    rewrite skipn_app, skipn_all, Nat.sub_diag. reflexivity.
  - intros (a & b & Et & Ha).
    exists (b ++ repeat 0 (w - length t) ++ enc w (skipn (S i) ts)).
    unfold pad. rewrite Et at 1. subst j. rewrite <- !app_assoc.
    rewrite skipn_app, skipn_all, Nat.sub_diag. cbn [skipn app]. now rewrite <- !app_assoc.
Qed.

Lemma occurs_at_bound p t j : occurs_at p t j -> (j + length p <= length t)%nat.
Proof. intros (a & b & -> & <-). rewrite !app_length. lia. Qed.

Lemma match_loop_spec w ts i p :
  column w ts -> (i < length ts)%nat -> no_nul p -> (0 < length p)%nat ->
  match match_loop (enc w ts) (i * w) p 0 (w + 1 - length p) with
  | Some j => occurs_at p (nth i ts []) j /\ forall j', occurs_at p (nth i ts []) j' -> (j <= j')%nat
  | None => forall j, ~ occurs_at p (nth i ts []) j
  end.
Proof.
  intros Hcol Hi Hp Hp0. pose proof (fits_nth w ts i (proj2 Hcol) Hi) as [_ Hlen].
  set (t := nth i ts []) in *.
  assert (G : forall fuel j, (j + fuel = w + 1 - length p)%nat ->
     (forall j', (j' < j)%nat -> ~ occurs_at p t j') ->
     match match_loop (enc w ts) (i * w) p j fuel with
     | Some j => occurs_at p t j /\ forall j', occurs_at p t j' -> (j <= j')%nat
     | None => forall j, ~ occurs_at p t j
     end).
  { induction fuel as [|fuel IH]; intros j Hj Hno; cbn [match_loop].
    - intros j' Ho. pose proof (occurs_at_bound _ _ _ Ho).
      apply (Hno j'); [lia | exact Ho].
    - destruct (str_equal (skipn (i * w + j) (enc w ts)) p) eqn:E.
      + apply (match_at w ts i j p Hcol Hi Hp Hp0) in E; [|lia]. split; [exact E|].
        intros j' Ho. destruct (le_lt_dec j j'); [assumption|]. exfalso. now apply (Hno j').
      + apply IH; [lia|]. intros j' Hj' Ho. destruct (Nat.eq_dec j' j) as [->|Hne].
        * apply (match_at w ts i j p Hcol Hi Hp Hp0) in Ho; [|lia]. congruence.
        * apply (Hno j'); [lia | exact Ho]. }
  apply G; [lia | intros; lia].
Qed.

Lemma index_correct w ts p m0 m :
  column w ts -> no_nul p -> p <> [] ->
  outcome (launch (k_index p (enc w ts) w) (enc w ts) w) m0 m ->
  Forall2 (is_first_occurrence p) ts (cells m (length ts)).
Proof.
  intros Hcol Hp Hne. assert (Hp0 : (0 < length p)%nat) by (destruct p; [congruence | cbn; lia]).
  eapply lift_cells; eauto.
  - intros i s Hs. unfold k_index in Hs. destruct Hs as [<-|Hs]; [reflexivity|].
    destruct match_loop; [|contradiction]. destruct Hs as [<-|[]]. reflexivity.
  - intros i Hi. unfold k_index. pose proof (match_loop_spec w ts i p Hcol Hi Hp Hp0) as M.
    destruct match_loop as [j|].
    + right. exists j. split; [|exact M]. cbn. unfold do_store. cbn. now rewrite Nat.eqb_refl.
    + left. split; [|exact M]. cbn. unfold do_store. cbn. now rewrite Nat.eqb_refl.
Qed.

Lemma contains_correct w ts p m0 m :
  column w ts -> no_nul p -> p <> [] ->
  outcome (launch (k_contains p (enc w ts) w) (enc w ts) w) m0 m ->
  Forall2 (fun t r => r = true <-> exists a b, t = a ++ p ++ b) ts (cells m (length ts)).
Proof.
  intros Hcol Hp Hne. assert (Hp0 : (0 < length p)%nat) by (destruct p; [congruence | cbn; lia]).
  eapply lift_cells; eauto.
  - intros i s Hs. unfold k_contains in Hs. destruct Hs as [<-|Hs]; [reflexivity|].
    destruct match_loop; [|contradiction]. destruct Hs as [<-|[]]. reflexivity.
  - intros i Hi. unfold k_contains. pose proof (match_loop_spec w ts i p Hcol Hi Hp Hp0) as M.
    destruct match_loop as [j|]; cbn; unfold do_store; cbn; rewrite Nat.eqb_refl.
    + split; [|reflexivity]. intros _. destruct M as [(a & b & E & _) _]. now exists a, b.
    + split; [discriminate|]. intros (a & b & E). exfalso. apply (M (length a)). now exists a, b.
Qed.

Lemma any_of_correct junk w ts set m0 m :
  column w ts -> no_nul set ->
  outcome (launch (k_index_any_of junk set (enc w ts) w) (enc w ts) w) m0 m ->
  Forall2 (is_first_member set) ts (cells m (length ts)).
Proof.
  intros Hcol Hset. eapply lift_cells; eauto.
  - intros i s [<-|[]]. reflexivity.
  - intros i Hi. cbn. unfold do_store. cbn. rewrite Nat.eqb_refl.
    destruct Hcol as [Hw Hf]. pose proof (fits_nth w ts i Hf Hi) as Hfit. set (t := nth i ts []) in *.
    destruct Hfit as [Hnul Hlen].
    assert (G : forall fuel j, (j + fuel = w)%nat ->
              (forall k, (k < j)%nat -> (k < length t)%nat -> ~ In (nth k t junk) set) ->
              is_first_member set t (any_of_loop junk (enc w ts) (i * w) set j fuel)).
    { induction fuel as [|fuel IH]; intros j Hj Hno; cbn [any_of_loop].
      - left. split; [reflexivity|]. intros c Hc. apply (In_nth _ _ junk) in Hc as (k & Hk & <-). apply Hno; lia.
      - rewrite enc_rd by (auto; lia). fold t. rewrite pad_nth by (try split; auto; lia).
        destruct (existsb _ set) eqn:E.
        + apply existsb_exists in E as (s & Hs & Es). apply Z.eqb_eq in Es.
          destruct (Nat.ltb_spec j (length t)) as [Hjt|Hjt].
          * right. exists (firstn j t), (nth j t junk), (skipn (S j) t).
            split; [|split; [|split]].
            -- rewrite <- (skipn_cons_nth t j junk) by exact Hjt. now rewrite firstn_skipn.
            -- now rewrite firstn_length_le by lia.
            -- now rewrite Es.
            -- intros c' Hc'. apply (In_nth _ _ junk) in Hc' as (k & Hk & <-).
               rewrite firstn_length_le in Hk by lia.
               assert (E' : nth k (firstn j t) junk = nth k t junk).
               { rewrite <- (firstn_skipn j t) at 2. rewrite app_nth1; [reflexivity|]. now rewrite firstn_length_le by lia. }
               rewrite E'. apply Hno; lia.
          * exfalso. apply Hset. now rewrite Es.
        + apply IH; [lia|]. intros k Hk Hkt.
          destruct (Nat.eq_dec k j) as [->|Hne]; [|apply Hno; lia].
          destruct (Nat.ltb_spec j (length t)) as [_|]; [|lia].
          intros Hin. assert (existsb (fun s => nth j t junk =? s) set = true); [|congruence].
          apply existsb_exists. eexists. split; [exact Hin | apply Z.eqb_refl]. }
    apply G; [lia | intros; lia].
Qed.

(** * prefix / suffix *)
Lemma ends_len_spec junk w ts i : column w ts -> (i < length ts)%nat ->
  ends_len junk (enc w ts) (i * w) w = length (nth i ts []).
Proof.
  intros [Hw Hf] Hi. pose proof (fits_nth w ts i Hf Hi) as Hfit. set (t := nth i ts []) in *.
  destruct Hfit as [Hnul Hlen].
  assert (G : forall k, (length t <= k <= w)%nat -> ends_len junk (enc w ts) (i * w) k = length t).
  { induction k as [|k IH]; intros Hk; cbn [ends_len]; [lia|].
    rewrite enc_rd by (auto; lia). fold t. rewrite pad_nth by (try split; auto; lia).
    destruct (Nat.ltb_spec k (length t)).
    - pose proof (no_nul_nth junk t k Hnul H). destruct (Z.eqb_spec (nth k t junk) 0); [contradiction | lia].
    - rewrite Z.eqb_refl. apply IH. lia. }
  apply G. lia.
Qed.

Lemma row_rd junk w ts i j : column w ts -> (i < length ts)%nat -> (j < length (nth i ts []))%nat ->
  rd junk (enc w ts) (i * w + j) = nth j (nth i ts []) junk.
Proof.
  intros [Hw Hf] Hi Hj. pose proof (fits_nth w ts i Hf Hi) as Hfit. destruct Hfit as [Hnul Hlen] eqn:E.
  rewrite enc_rd by (auto; lia). rewrite pad_nth by (auto; lia).
  now destruct (Nat.ltb_spec j (length (nth i ts []))); [|lia].
Qed.

Lemma ends_cmp_spec junk w ts i p k k2 :
  column w ts -> (i < length ts)%nat -> (k2 <= k)%nat -> (k <= length (nth i ts []))%nat -> (k2 <= length p)%nat ->
  ends_cmp junk (enc w ts) (i * w) p k k2 = 0%nat <->
  (forall d, (d < k2)%nat -> nth (k - 1 - d) (nth i ts []) junk = nth (k2 - 1 - d) p junk).
Proof.
  intros Hcol Hi. revert k. induction k2 as [|k2 IH]; intros k H1 H2 H3; cbn [ends_cmp].
  - split; [intros _ d Hd; lia | reflexivity].
  - replace (i * w + k - 1)%nat with (i * w + (k - 1))%nat by lia.
    rewrite row_rd by (auto; lia). unfold rd.
    destruct (Z.eqb_spec (nth (k - 1) (nth i ts []) junk) (nth k2 p junk)) as [E|E]; cbn [negb].
    + rewrite IH by lia. split; intros H d Hd.
      * destruct d as [|d].
        -- replace (k - 1 - 0)%nat with (k - 1)%nat by lia. now replace (S k2 - 1 - 0)%nat with k2 by lia.
        -- specialize (H d ltac:(lia)). replace (k - 1 - S d)%nat with (k - 1 - 1 - d)%nat by lia.
           now replace (S k2 - 1 - S d)%nat with (k2 - 1 - d)%nat by lia.
      * specialize (H (S d) ltac:(lia)). replace (k - 1 - 1 - d)%nat with (k - 1 - S d)%nat by lia.
        now replace (k2 - 1 - d)%nat with (S k2 - 1 - S d)%nat by lia.
    + split; [discriminate|]. intros H. exfalso. apply E.
      specialize (H 0%nat ltac:(lia)). now replace (k - 1 - 0)%nat with (k - 1)%nat in H by lia;
      replace (S k2 - 1 - 0)%nat with k2 in H by lia.
Qed.

Lemma suffix_nth (junk : Z) (t p : list Z) : (length p <= length t)%nat ->
  (forall d, (d < length p)%nat -> nth (length t - 1 - d) t junk = nth (length p - 1 - d) p junk) <->
  exists a, t = a ++ p.
Proof.
  intros HL. split.
  - intros H. exists (firstn (length t - length p) t).
    rewrite <- (firstn_skipn (length t - length p) t) at 1. f_equal.
    apply (list_eq_nth junk); [rewrite skipn_length; lia|].
    intros j Hj. rewrite skipn_length in Hj. rewrite nth_skipn.
    specialize (H (length p - 1 - j)%nat ltac:(lia)).
    replace (length t - 1 - (length p - 1 - j))%nat with (length t - length p + j)%nat in H by lia.
    rewrite H. f_equal. lia.
  - intros (a & ->) d Hd. rewrite app_length.
    rewrite app_nth2 by lia. f_equal. lia.
Qed.

Lemma endswith_correct junk w ts p m0 m :
  column w ts ->
  outcome (launch (k_endswith junk p (enc w ts) w) (enc w ts) w) m0 m ->
  Forall2 (fun t r => r = true <-> exists a, t = a ++ p) ts (cells m (length ts)).
Proof.
  intros Hcol. eapply lift_cells; eauto.
  - intros i s Hs. unfold k_endswith in Hs. destruct Hs as [<-|Hs]; [reflexivity|].
    destruct (length p <=? w)%nat; [|contradiction].
    destruct (length p <=? _)%nat; [|contradiction].
    destruct (_ =? 0)%nat; [|contradiction]. destruct Hs as [<-|[]]. reflexivity.
  - intros i Hi. unfold k_endswith. rewrite ends_len_spec by auto.
    pose proof (fits_nth w ts i (proj2 Hcol) Hi) as [_ Hlen]. set (t := nth i ts []) in *.
    assert (Hshort : (length t < length p)%nat -> ~ exists a, t = a ++ p).
    { intros Hs (a & E). apply (f_equal (@length Z)) in E. rewrite app_length in E. lia. }
    destruct (Nat.leb_spec (length p) w).
    2:{ cbn; unfold do_store; cbn; rewrite Nat.eqb_refl. split; [discriminate|]. intros E. exfalso. revert E. apply Hshort. lia. }
    destruct (Nat.leb_spec (length p) (length t)).
    2:{ cbn; unfold do_store; cbn; rewrite Nat.eqb_refl. split; [discriminate|]. intros E. exfalso. revert E. apply Hshort. lia. }
    pose proof (ends_cmp_spec junk w ts i p (length t) (length p) Hcol Hi ltac:(lia) ltac:(fold t; lia) ltac:(lia)) as C.
    fold t in C. rewrite suffix_nth in C by lia. rewrite <- C.
    destruct (Nat.eqb_spec (ends_cmp junk (enc w ts) (i * w) p (length t) (length p)) 0);
      cbn; unfold do_store; cbn; rewrite Nat.eqb_refl; split; try tauto; try discriminate.
Qed.

Lemma starts_cmp_spec junk src rowpos p k fuel :
  (k + fuel = length p)%nat ->
  (starts_cmp junk src rowpos p k fuel <= length p)%nat /\
  (starts_cmp junk src rowpos p k fuel = length p <->
   forall d, (k <= d < length p)%nat -> rd junk src (rowpos + d) = nth d p junk).
Proof.
  revert k. induction fuel as [|fuel IH]; intros k Hk; cbn [starts_cmp].
  - split; [lia|]. split; [intros; lia | intros; lia].
  - change (rd junk p k) with (nth k p junk). destruct (Z.eqb_spec (rd junk src (rowpos + k)) (nth k p junk)) as [E|E]; cbn [negb].
    + destruct (IH (S k) ltac:(lia)) as [A B]. split; [exact A|]. rewrite B. split; intros H d Hd.
      * destruct (Nat.eq_dec d k) as [->|]; [exact E | apply H; lia].
      * apply H; lia.
    + split; [lia|]. split; [lia|]. intros H. exfalso. apply E. apply H. lia.
Qed.

Lemma startswith_correct junk w ts p m0 m :
  column w ts -> no_nul p ->
  outcome (launch (k_startswith junk p (enc w ts) w) (enc w ts) w) m0 m ->
  Forall2 (fun t r => r = true <-> exists b, t = p ++ b) ts (cells m (length ts)).
Proof.
  intros Hcol Hp. eapply lift_cells; eauto.
  - intros i s Hs. unfold k_startswith in Hs. destruct Hs as [<-|Hs]; [reflexivity|].
    destruct (length p <=? w)%nat; [|contradiction].
    destruct (_ =? _)%nat; [|contradiction]. destruct Hs as [<-|[]]. reflexivity.
  - intros i Hi. unfold k_startswith.
    pose proof (fits_nth w ts i (proj2 Hcol) Hi) as Hfit. set (t := nth i ts []) in *. destruct Hfit as [Hnul Hlen].
    destruct (Nat.leb_spec (length p) w).
    2:{ cbn; unfold do_store; cbn; rewrite Nat.eqb_refl. split; [discriminate|].
        intros (b & E). exfalso. apply (f_equal (@length Z)) in E. rewrite app_length in E. lia. }
    destruct (starts_cmp_spec junk (enc w ts) (i * w) p 0 (length p) ltac:(lia)) as [_ C].
    assert (Iff : (forall d, (0 <= d < length p)%nat -> rd junk (enc w ts) (i * w + d) = nth d p junk) <-> exists b, t = p ++ b).
    { destruct Hcol as [Hw Hf]. split.
      - intros H1. assert (HL : (length p <= length t)%nat).
        { destruct (le_lt_dec (length p) (length t)); [assumption|]. exfalso. apply Hp.
          specialize (H1 (length t) ltac:(lia)). rewrite enc_rd in H1 by (auto; lia). fold t in H1.
          rewrite pad_nth in H1 by (try split; auto; lia).
          destruct (Nat.ltb_spec (length t) (length t)); [lia|]. rewrite H1. apply nth_In. lia. }
        exists (skipn (length p) t). rewrite <- (firstn_skipn (length p) t) at 1. f_equal.
        apply (list_eq_nth junk); [rewrite firstn_length_le; lia|].
        intros j Hj. rewrite firstn_length_le in Hj by lia.
        rewrite <- (H1 j ltac:(lia)). rewrite enc_rd by (auto; lia). fold t. rewrite pad_nth by (try split; auto; lia).
        destruct (Nat.ltb_spec j (length t)); [|lia].
        rewrite <- (firstn_skipn (length p) t) at 2. rewrite app_nth1; [reflexivity|]. rewrite firstn_length_le; lia.
      - intros (b & E) d Hd. rewrite enc_rd by (auto; lia). fold t. rewrite pad_nth by (try split; auto; lia).
        assert (length t = length p + length b)%nat by (rewrite E; apply app_length).
        destruct (Nat.ltb_spec d (length t)); [|lia]. rewrite E. now rewrite app_nth1 by lia. }
    rewrite <- Iff, <- C.
    destruct (Nat.eqb_spec (starts_cmp junk (enc w ts) (i * w) p 0 (length p)) (length p));
      cbn; unfold do_store; cbn; rewrite Nat.eqb_refl; split; try tauto; try discriminate.
Qed.
