(** Facts about [Sched]: when iterations store to disjoint segments, every interleaving
    gives what the serial loop gives. *)
From Coq Require Import List Arith Lia Permutation.
From Verif Require Import Sched.
Import ListNotations.

Section Facts.
Context {V : Type}.
Implicit Types (m : mem V) (ws : list (store V)) (its : list (list (store V))).

Lemma run_stores_app ws1 ws2 m : run_stores (ws1 ++ ws2) m = run_stores ws2 (run_stores ws1 m).
Proof. unfold run_stores. apply fold_left_app. Qed.

Lemma run_stores_cons w ws m : run_stores (w :: ws) m = run_stores ws (do_store m w).
Proof. reflexivity. Qed.

(** Only the stores to position [p] matter for position [p]. *)
Definition at_pos (p : nat) (ws : list (store V)) : list (store V) :=
  filter (fun w => Nat.eqb p (fst w)) ws.

Lemma run_stores_ext ws m m' p : m p = m' p -> run_stores ws m p = run_stores ws m' p.
Proof.
  revert m m'. induction ws as [|w ws IH]; intros m m' H; cbn; [exact H|].
  apply IH. unfold do_store. destruct (Nat.eqb p (fst w)); auto.
Qed.

Lemma run_stores_at_pos ws m p : run_stores ws m p = run_stores (at_pos p ws) m p.
Proof.
  revert m. induction ws as [|w ws IH]; intros m; [reflexivity|].
  cbn [at_pos filter]. destruct (Nat.eqb p (fst w)) eqn:E.
  - rewrite !run_stores_cons. apply IH.
  - rewrite run_stores_cons. rewrite IH.
    apply run_stores_ext. unfold do_store. rewrite E. reflexivity.
Qed.

Lemma at_pos_app p ws1 ws2 : at_pos p (ws1 ++ ws2) = at_pos p ws1 ++ at_pos p ws2.
Proof. apply filter_app. Qed.

Lemma at_pos_nil p ws : (forall w, In w ws -> fst w <> p) -> at_pos p ws = [].
Proof.
  induction ws as [|w ws IH]; intros H; [reflexivity|].
  cbn. destruct (Nat.eqb_spec p (fst w)) as [E|E].
  - exfalso. apply (H w); [now left | now symmetry].
  - apply IH. intros w' Hw'. apply H. now right.
Qed.

Lemma run_stores_untouched ws m p : (forall w, In w ws -> fst w <> p) -> run_stores ws m p = m p.
Proof. intros H. rewrite run_stores_at_pos, at_pos_nil by exact H. reflexivity. Qed.

(** Last store wins. *)
Lemma run_stores_snoc ws m p v : run_stores (ws ++ [(p, v)]) m p = v.
Proof. rewrite run_stores_app. cbn. unfold do_store. cbn. now rewrite Nat.eqb_refl. Qed.

(** If position [p] is stored to by iteration [k] only, then under every interleaving the
    stores reaching [p] are exactly those of iteration [k], in order. *)
Lemma interleave_at_pos its ws p k :
  interleave its ws ->
  (forall i l, i <> k -> nth_error its i = Some l -> at_pos p l = []) ->
  at_pos p ws = at_pos p (nth k its []).
Proof.
  induction 1 as [its H | pre w l post ws H IH]; intros Hd.
  - cbn. assert (E : nth k its [] = []).
    { destruct (nth_in_or_default k its []) as [Hin|E]; [|exact E].
      rewrite Forall_forall in H. now apply H. }
    now rewrite E.
  - assert (Hd' : forall i l0, i <> k -> nth_error (pre ++ l :: post) i = Some l0 -> at_pos p l0 = []).
    { intros i l0 Hi Hn.
      destruct (Nat.eq_dec i (length pre)) as [->|Hne].
      - rewrite nth_error_app2, Nat.sub_diag in Hn by lia. cbn in Hn. injection Hn as <-.
        specialize (Hd (length pre) (w :: l) Hi).
        rewrite nth_error_app2, Nat.sub_diag in Hd by lia. specialize (Hd eq_refl).
        cbn in Hd. destruct (Nat.eqb p (fst w)); [discriminate | exact Hd].
      - apply (Hd i l0 Hi).
        destruct (lt_dec i (length pre)) as [Hlt|Hge].
        + now rewrite nth_error_app1 in * by lia.
        + rewrite nth_error_app2 in * by lia.
          destruct (i - length pre) as [|d] eqn:E; [lia|]. exact Hn. }
    specialize (IH Hd'). cbn [at_pos filter].
    destruct (Nat.eq_dec k (length pre)) as [->|Hne].
    + rewrite app_nth2, Nat.sub_diag in * by lia. cbn [nth] in *.
      cbn [at_pos filter]. fold (at_pos p ws) (at_pos p l).
      destruct (Nat.eqb p (fst w)); now rewrite IH.
    + assert (Hw : Nat.eqb p (fst w) = false).
      { specialize (Hd (length pre) (w :: l)).
        rewrite nth_error_app2, Nat.sub_diag in Hd by lia.
        assert (Hd0 : at_pos p (w :: l) = []) by (apply Hd; [lia | reflexivity]).
        cbn in Hd0. destruct (Nat.eqb p (fst w)); [discriminate | reflexivity]. }
      rewrite Hw. fold (at_pos p ws). rewrite IH. f_equal.
      destruct (lt_dec k (length pre)) as [Hlt|Hge].
      * now rewrite !app_nth1 by lia.
      * rewrite !app_nth2 by lia. destruct (k - length pre) as [|d] eqn:E; [lia|]. reflexivity.
Qed.

Lemma interleave_pos its ws m p k :
  interleave its ws ->
  (forall i l, i <> k -> nth_error its i = Some l -> forall w, In w l -> fst w <> p) ->
  run_stores ws m p = run_stores (nth k its []) m p.
Proof.
  intros H Hd. rewrite run_stores_at_pos, (run_stores_at_pos (nth k its [])).
  f_equal. apply (interleave_at_pos its ws p k H). intros i l Hi Hn. apply at_pos_nil. eauto.
Qed.

(** The serial loop is one of the interleavings. *)
Lemma interleave_serial its : interleave its (serial its).
Proof.
  unfold serial.
  induction its as [|l its IH]; [constructor; constructor|].
  cbn. induction l as [|w l IHl].
  - cbn. clear -IH. remember (concat its) as ws eqn:E. clear E.
    induction IH as [its H|pre w l post ws H IH].
    + constructor. constructor; auto.
    + change ([] :: pre ++ (w :: l) :: post) with (([] :: pre) ++ (w :: l) :: post).
      constructor. exact IH.
  - cbn. change ((w :: l) :: its) with ([] ++ (w :: l) :: its). constructor. exact IHl.
Qed.

(** Main lemma for row kernels: iteration [i] of [n] stores only inside the row
    [i*w, i*w+w). *)
Definition row_local (w : nat) (it : nat -> list (store V)) (n : nat) : Prop :=
  forall i, i < n -> forall s, In s (it i) -> i * w <= fst s < i * w + w.

Lemma row_disjoint i k w p : i <> k -> i * w <= p < i * w + w -> k * w <= p < k * w + w -> False.
Proof.
  intros Hne H1 H2. destruct (lt_dec i k) as [Hl|Hg].
  - assert (S i * w <= k * w) by (apply Nat.mul_le_mono_r; lia). cbn in *. lia.
  - assert (S k * w <= i * w) by (apply Nat.mul_le_mono_r; lia). cbn in *. lia.
Qed.

Lemma nth_map_seq {A} (f : nat -> A) n i d : i < n -> nth i (map f (seq 0 n)) d = f i.
Proof.
  intros H. rewrite (nth_indep _ d (f 0)) by (now rewrite map_length, seq_length).
  now rewrite map_nth, seq_nth by lia.
Qed.

Lemma nth_error_map_seq {A} (f : nat -> A) n i x :
  nth_error (map f (seq 0 n)) i = Some x -> i < n /\ x = f i.
Proof.
  intros H. assert (Hi : i < n).
  { assert (i < length (map f (seq 0 n))) by (apply nth_error_Some; congruence).
    now rewrite map_length, seq_length in *. }
  split; [exact Hi|].
  apply (nth_error_nth _ _ x) in H. now rewrite nth_map_seq in H.
Qed.

Lemma row_par w (it : nat -> list (store V)) n ws m i j :
  row_local w it n ->
  interleave (map it (seq 0 n)) ws ->
  i < n -> j < w ->
  run_stores ws m (i * w + j) = run_stores (it i) m (i * w + j).
Proof.
  intros HL HI Hi Hj.
  rewrite (interleave_pos _ ws m (i * w + j) i HI).
  - now rewrite nth_map_seq.
  - intros i' l Hne Hn s Hs E.
    apply nth_error_map_seq in Hn as [Hi' ->].
    specialize (HL i' Hi' s Hs). rewrite E in HL.
    apply (row_disjoint i' i w (i * w + j)); lia.
Qed.

Lemma row_par_segment w (it : nat -> list (store V)) n ws m i :
  row_local w it n ->
  interleave (map it (seq 0 n)) ws ->
  i < n ->
  segment (run_stores ws m) (i * w) w = segment (run_stores (it i) m) (i * w) w.
Proof.
  intros HL HI Hi. unfold segment. apply map_ext_in. intros j Hj.
  apply in_seq in Hj. apply (row_par w it n ws m i j); auto; lia.
Qed.

Lemma segment_length m lo n : length (segment m lo n) = n.
Proof. unfold segment. now rewrite map_length, seq_length. Qed.

Lemma segment_nth m lo n j d : j < n -> nth j (segment m lo n) d = m (lo + j).
Proof. intros H. unfold segment. now rewrite nth_map_seq. Qed.

Lemma list_eq_nth {A} (d : A) (l1 l2 : list A) :
  length l1 = length l2 -> (forall j, j < length l1 -> nth j l1 d = nth j l2 d) -> l1 = l2.
Proof. intros H1 H2. apply (nth_ext l1 l2 d d H1 H2). Qed.

Lemma segment_eq m lo n (l : list V) d :
  length l = n -> (forall j, j < n -> m (lo + j) = nth j l d) -> segment m lo n = l.
Proof.
  intros HL H. apply (list_eq_nth d); rewrite segment_length; [now symmetry|].
  intros j Hj. rewrite segment_nth by exact Hj. now apply H.
Qed.

(** [map] of a store per position. *)
Lemma run_stores_map_seq (f : nat -> V) lo n m p :
  run_stores (map (fun j => (lo + j, f j)) (seq 0 n)) m p =
  if andb (Nat.leb lo p) (Nat.ltb p (lo + n)) then f (p - lo) else m p.
Proof.
  induction n as [|n IH].
  - cbn [seq map run_stores fold_left]. destruct (Nat.leb_spec lo p), (Nat.ltb_spec p (lo + 0)); cbn [andb]; auto; lia.
  - rewrite seq_S, map_app, run_stores_app. cbn [map run_stores fold_left plus].
    unfold do_store. cbn [fst snd].
    destruct (Nat.eqb_spec p (lo + n)) as [->|Hne].
    + replace (lo + n - lo) with n by lia.
      destruct (Nat.leb_spec lo (lo + n)), (Nat.ltb_spec (lo + n) (lo + S n)); cbn; auto; lia.
    + rewrite IH.
      destruct (Nat.leb_spec lo p), (Nat.ltb_spec p (lo + n)), (Nat.ltb_spec p (lo + S n)); cbn; auto; lia.
Qed.

End Facts.
