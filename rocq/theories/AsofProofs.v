(** Proofs for C48-C53. *)
From Coq Require Import List Arith ZArith Bool Lia.
From Verif Require Import Sched SchedFacts GroupModel GroupFacts AsofModel AsofSpec.
Import ListNotations.
Open Scope Z_scope.

(** *** last / first position satisfying a test *)
Fixpoint lastp (f : nat -> bool) (n : nat) : option nat :=
  match n with O => None | S k => if f k then Some k else lastp f k end.
Lemma lastp_at f n q : (q < n)%nat -> f q = true -> (forall k, (q < k < n)%nat -> f k = false) -> lastp f n = Some q.
Proof.
  induction n as [|n IH]; intros L F H; [lia|]. cbn. destruct (Nat.eq_dec q n) as [->|Ne]; [now rewrite F|].
  rewrite H by lia. apply IH; [lia|exact F|]. intros k Hk. apply H. lia.
Qed.
Lemma lastp_none f n : (forall k, (k < n)%nat -> f k = false) -> lastp f n = None.
Proof. induction n as [|n IH]; intros H; [reflexivity|]. cbn. rewrite H by lia. apply IH. intros. apply H. lia. Qed.
Lemma lastp_inv f n : match lastp f n with
  | Some q => (q < n)%nat /\ f q = true /\ (forall k, (q < k < n)%nat -> f k = false)
  | None => forall k, (k < n)%nat -> f k = false end.
Proof.
  induction n as [|n IH]; cbn; [intros; lia|]. destruct (f n) eqn:E.
  - split; [lia|]. split; [exact E|]. intros; lia.
  - destruct (lastp f n) as [q|].
    + destruct IH as (H1 & H2 & H3). split; [lia|]. split; [exact H2|]. intros k Hk.
      destruct (Nat.eq_dec k n) as [->|]; [exact E|]. apply H3. lia.
    + intros k Hk. destruct (Nat.eq_dec k n) as [->|]; [exact E|]. apply IH. lia.
Qed.
Definition firstp (f : nat -> bool) (n : nat) : option nat := find f (seq 0 n).
Lemma find_seq_inv f n : forall s, match find f (seq s n) with
  | Some q => (s <= q < s + n)%nat /\ f q = true /\ (forall k, (s <= k < q)%nat -> f k = false)
  | None => forall k, (s <= k < s + n)%nat -> f k = false end.
Proof.
  induction n as [|n IH]; intros s; cbn; [intros; lia|]. destruct (f s) eqn:E.
  - split; [lia|]. split; [exact E|]. intros; lia.
  - specialize (IH (S s)). destruct (find f (seq (S s) n)) as [q|].
    + destruct IH as (H1 & H2 & H3). split; [lia|]. split; [exact H2|]. intros k Hk.
      destruct (Nat.eq_dec k s) as [->|]; [exact E|]. apply H3. lia.
    + intros k Hk. destruct (Nat.eq_dec k s) as [->|]; [exact E|]. apply IH. lia.
Qed.
Lemma firstp_inv f n : match firstp f n with
  | Some q => (q < n)%nat /\ f q = true /\ (forall k, (k < q)%nat -> f k = false)
  | None => forall k, (k < n)%nat -> f k = false end.
Proof.
  unfold firstp. pose proof (find_seq_inv f n 0) as H. destruct (find f (seq 0 n)) as [q|].
  - destruct H as (H1 & H2 & H3). split; [lia|]. split; [exact H2|]. intros. apply H3. lia.
  - intros. apply H. lia.
Qed.
Lemma firstp_at f n q : (q < n)%nat -> f q = true -> (forall k, (k < q)%nat -> f k = false) -> firstp f n = Some q.
Proof.
  intros L F H. pose proof (firstp_inv f n) as I. destruct (firstp f n) as [q'|].
  - destruct I as (I1 & I2 & I3). f_equal. destruct (Nat.lt_trichotomy q q') as [C|[C|C]]; [|auto|].
    + rewrite I3 in F by exact C. discriminate.
    + rewrite H in I2 by exact C. discriminate.
  - rewrite I in F by exact L. discriminate.
Qed.
Lemma firstp_none f n : (forall k, (k < n)%nat -> f k = false) -> firstp f n = None.
Proof.
  intros H. pose proof (firstp_inv f n) as I. destruct (firstp f n) as [q|]; [|reflexivity].
  destruct I as (I1 & I2 & _). rewrite H in I2 by exact I1. discriminate.
Qed.

Lemma nth_error_Some_nth {X} (l : list X) i x d : nth_error l i = Some x -> nth i l d = x.
Proof. intros H. now apply nth_error_nth. Qed.
Lemma seq_S_cons i n : (i < n)%nat -> seq i (n - i) = i :: seq (S i) (n - S i).
Proof. intros H. replace (n - i)%nat with (S (n - S i)) by lia. reflexivity. Qed.

Lemma run_stores_nodup {V} (ws : list (store V)) m a v : NoDup (map fst ws) -> In (a, v) ws -> run_stores ws m a = v.
Proof.
  revert m. induction ws as [|[b u] ws IH]; cbn; intros m N H; [contradiction|].
  apply NoDup_cons_iff in N. destruct N as [N1 N2]. destruct H as [[= -> ->]|H].
  - change (run_stores ws (do_store m (a, v)) a = v). rewrite run_stores_untouched.
    + unfold do_store. cbn. now rewrite Nat.eqb_refl.
    + intros [b' u'] Hw E. cbn in E. subst. apply N1. exact (in_map fst _ _ Hw).
  - change (run_stores ws (do_store m (b, u)) a = v). auto.
Qed.

Section Kernel.
Variable diff : Z -> Z -> Z.
Variables minv maxv : Z.
Variables hkey nkey : nat -> Z.
Variable tol : option Z.
Variable exact : bool.
Notation back_loop := (back_loop Z.leb Z.ltb diff hkey nkey tol exact).
Notation fwd_loop := (fwd_loop Z.leb Z.ltb diff hkey nkey tol exact).
Notation asof_back := (asof_back Z.leb Z.ltb diff minv hkey nkey tol exact).
Notation asof_fwd := (asof_fwd Z.leb Z.ltb diff maxv hkey nkey tol exact).
Notation cmp_lt := (cmp_lt Z.leb Z.ltb exact).
Notation cmp_gt := (cmp_gt Z.leb Z.ltb exact).
Notation within := (within Z.leb tol).

Lemma cmp_lt_trans x y z : cmp_lt x y = true -> y <= z -> cmp_lt x z = true.
Proof. unfold AsofModel.cmp_lt. destruct exact; lia. Qed.
Lemma cmp_lt_down x y z : x <= y -> cmp_lt y z = true -> cmp_lt x z = true.
Proof. unfold AsofModel.cmp_lt. destruct exact; lia. Qed.
Lemma cmp_gt_trans x y z : cmp_gt x y = true -> z <= y -> cmp_gt x z = true.
Proof. unfold AsofModel.cmp_gt. destruct exact; lia. Qed.
Lemma cmp_gt_up x y z : x <= y -> cmp_gt x z = true -> cmp_gt y z = true.
Proof. unfold AsofModel.cmp_gt. destruct exact; lia. Qed.

Section Loop.
Variables hidx nidx : list nat.
Notation H q := (hkey (nth q hidx O)).
Notation N p := (nkey (nth p nidx O)).
Notation lh := (length hidx).
Notation ln := (length nidx).
Definition ans_back (x : Z) : option nat :=
  match lastp (fun q => cmp_lt (H q) x) lh with
  | Some q => if within (diff x (H q)) then Some (nth q hidx O) else None
  | None => None end.
Definition ans_fwd (x : Z) : option nat :=
  match firstp (fun q => cmp_gt (H q) x) lh with
  | Some q => if within (diff (H q) x) then Some (nth q hidx O) else None
  | None => None end.
Definition sortedH : Prop := forall q q', (q <= q' < lh)%nat -> H q <= H q'.
Definition sortedN : Prop := forall p p', (p <= p' < ln)%nat -> N p <= N p'.

Lemma back_loop_ok : sortedH -> sortedN -> forall fuel i_n i_h ncur hcur,
  (i_h < lh)%nat -> (i_n <= ln)%nat -> ((ln - i_n) + (lh - i_h) < fuel)%nat ->
  (forall p, (i_n <= p < ln)%nat -> ncur <= N p) -> hcur <= H i_h ->
  ((0 < i_h)%nat -> forall p, (i_n <= p < ln)%nat -> cmp_lt (H i_h) (N p) = true) ->
  back_loop hidx nidx fuel i_n i_h ncur hcur =
    mkOut (map (fun p => (nth p nidx O, ans_back (N p))) (seq i_n (ln - i_n))) None None.
Proof.
  intros SH SN. induction fuel as [|fuel IH]; intros i_n i_h ncur hcur Lh Ln F Hn Hh Adv; [lia|].
  cbn [AsofModel.back_loop]. destruct (nth_error nidx i_n) as [nc|] eqn:En.
  2:{ apply nth_error_None in En. replace (ln - i_n)%nat with O by lia. reflexivity. }
  assert (Li : (i_n < ln)%nat) by (apply nth_error_Some; congruence).
  apply (nth_error_Some_nth _ _ _ O) in En.
  destruct (nth_error hidx i_h) as [hc|] eqn:Eh; [|apply nth_error_None in Eh; lia].
  apply (nth_error_Some_nth _ _ _ O) in Eh.
  rewrite <- En, <- Eh.
  assert (Q1 : (ncur <=? N i_n) = true) by (apply Z.leb_le, Hn; lia). rewrite Q1. cbn [negb].
  assert (Q2 : (hcur <=? H i_h) = true) by (apply Z.leb_le; exact Hh). rewrite Q2. cbn [negb].
  rewrite (seq_S_cons i_n ln Li). cbn [map].
  assert (Nx : forall p, (S i_n <= p < ln)%nat -> N i_n <= N p) by (intros; apply SN; lia).
  destruct (cmp_lt (H i_h) (N i_n)) eqn:C.
  - assert (Store : (forall q, (i_h < q < lh)%nat -> cmp_lt (H q) (N i_n) = false) ->
      push (nth i_n nidx O, if within (diff (N i_n) (H i_h)) then Some (nth i_h hidx O) else None)
        (back_loop hidx nidx fuel (S i_n) i_h (N i_n) (H i_h)) =
      mkOut ((nth i_n nidx O, ans_back (N i_n)) :: map (fun p => (nth p nidx O, ans_back (N p))) (seq (S i_n) (ln - S i_n))) None None).
    { intros Nq. rewrite IH; try lia; [|exact Nx|].
      - unfold push. cbn [o_stores o_hun o_nun]. do 3 f_equal. unfold ans_back.
        now rewrite (lastp_at (fun q => cmp_lt (H q) (N i_n)) lh i_h Lh C Nq).
      - intros _ p Hp. eapply cmp_lt_trans; [exact C|]. auto. }
    destruct (nth_error hidx (S i_h)) as [hc'|] eqn:Eh'.
    + assert (Lh' : (S i_h < lh)%nat) by (apply nth_error_Some; congruence).
      apply (nth_error_Some_nth _ _ _ O) in Eh'. rewrite <- Eh'.
      destruct (cmp_lt (H (S i_h)) (N i_n)) eqn:C'.
      * rewrite IH; try lia.
        -- rewrite (seq_S_cons i_n ln Li). reflexivity.
        -- intros p Hp. destruct (Nat.eq_dec p i_n) as [->|]; [lia|]. apply Nx. lia.
        -- apply SH. lia.
        -- intros _ p Hp. eapply cmp_lt_trans; [exact C'|]. apply SN. lia.
      * apply Store. intros q Hq. destruct (cmp_lt (H q) (N i_n)) eqn:Cq; [|reflexivity].
        assert (cmp_lt (H (S i_h)) (N i_n) = true); [|congruence]. eapply cmp_lt_down; [|exact Cq]. apply SH. lia.
    + apply nth_error_None in Eh'. apply Store. intros q Hq. lia.
  - destruct (Nat.ltb_spec i_h 1) as [Z0|Z1].
    + assert (i_h = O) by lia. subst i_h. rewrite IH; try lia; [|exact Nx].
      unfold push. cbn [o_stores o_hun o_nun]. do 3 f_equal. unfold ans_back.
      rewrite (lastp_none (fun q => cmp_lt (H q) (N i_n)) lh); [reflexivity|].
      intros q Hq. destruct (cmp_lt (H q) (N i_n)) eqn:Cq; [|reflexivity].
      assert (cmp_lt (H O) (N i_n) = true); [|congruence]. eapply cmp_lt_down; [|exact Cq]. apply SH. lia.
    + rewrite Adv in C by lia. discriminate.
Qed.
Lemma ans_back_empty x : lh = O -> ans_back x = None.
Proof. intros E. unfold ans_back. now rewrite E. Qed.
Lemma asof_back_ok : sortedH -> sortedN -> (forall p, (p < ln)%nat -> minv <= N p) -> (forall q, (q < lh)%nat -> minv <= H q) ->
  asof_back hidx nidx = mkOut (map (fun p => (nth p nidx O, ans_back (N p))) (seq 0 ln)) None None.
Proof.
  intros SH SN VN VH. unfold AsofModel.asof_back. destruct (Nat.eq_dec lh 0) as [Z0|Nz].
  - assert (Eh : hidx = []) by now apply length_zero_iff_nil.
    assert (A : forall x, ans_back x = None) by (intros; now apply ans_back_empty).
    assert (K : back_loop hidx nidx (S (ln + lh)) 0 0 minv minv = mkOut (map (fun r => (r, @None nat)) nidx) None None).
    { clear A VH SH SN VN. destruct nidx as [|n0 r]; rewrite Eh; reflexivity. }
    rewrite K.
    assert (G : forall f : nat -> option nat, (forall p, f p = None) -> forall l : list nat,
      map (fun r => (r, @None nat)) l = map (fun p => (nth p l O, f p)) (seq 0 (length l))).
    { intros f Hf. induction l as [|x l IHl]; [reflexivity|]. cbn. rewrite Hf. f_equal. rewrite IHl.
      rewrite <- seq_shift, map_map. apply map_ext. intros p. now rewrite !Hf. }
    rewrite <- (G (fun p => ans_back (N p))); [reflexivity|]. auto.
  - rewrite back_loop_ok; auto; try lia.
    + now rewrite Nat.sub_0_r.
    + intros p Hp. apply VN. lia.
    + apply VH. lia.
Qed.

(** an unflagged run over a non-empty haystack has seen sorted needles *)
Lemma back_loop_sorted : forall fuel i_n i_h ncur hcur,
  (i_h < lh)%nat -> (i_n <= ln)%nat -> ((ln - i_n) + (lh - i_h) < fuel)%nat ->
  ((0 < i_h)%nat -> cmp_lt (H i_h) ncur = true) ->
  o_hun (back_loop hidx nidx fuel i_n i_h ncur hcur) = None ->
  o_nun (back_loop hidx nidx fuel i_n i_h ncur hcur) = None ->
  ((i_n < ln)%nat -> ncur <= N i_n) /\ (forall p, (i_n <= p)%nat -> (S p < ln)%nat -> N p <= N (S p)).
Proof.
  induction fuel as [|fuel IH]; intros i_n i_h ncur hcur Lh Ln F Adv; [lia|].
  cbn [AsofModel.back_loop]. destruct (nth_error nidx i_n) as [nc|] eqn:En.
  2:{ apply nth_error_None in En. intros _ _. split; intros; lia. }
  assert (Li : (i_n < ln)%nat) by (apply nth_error_Some; congruence).
  apply (nth_error_Some_nth _ _ _ O) in En.
  destruct (nth_error hidx i_h) as [hc|] eqn:Eh; [|apply nth_error_None in Eh; lia].
  apply (nth_error_Some_nth _ _ _ O) in Eh.
  rewrite <- En, <- Eh.
  destruct (Z.leb_spec ncur (N i_n)) as [Q1|Q1]; cbn [negb]; [|cbn; discriminate].
  destruct (Z.leb_spec hcur (H i_h)) as [Q2|Q2]; cbn [negb]; [|cbn; discriminate].
  assert (Store : forall r, (push r (back_loop hidx nidx fuel (S i_n) i_h (N i_n) (H i_h))).(o_hun) = None ->
     (push r (back_loop hidx nidx fuel (S i_n) i_h (N i_n) (H i_h))).(o_nun) = None ->
     ((0 < i_h)%nat -> cmp_lt (H i_h) (N i_n) = true) ->
     ((i_n < ln)%nat -> ncur <= N i_n) /\ (forall p, (i_n <= p)%nat -> (S p < ln)%nat -> N p <= N (S p))).
  { intros r H1 H2 H3. cbn in H1, H2. destruct (IH (S i_n) i_h (N i_n) (H i_h)) as [I1 I2]; auto; try lia.
    split; [auto|]. intros p Hp Lp. destruct (Nat.eq_dec p i_n) as [->|]; [apply I1; exact Lp|apply I2; lia]. }
  destruct (cmp_lt (H i_h) (N i_n)) eqn:C.
  - destruct (nth_error hidx (S i_h)) as [hc'|] eqn:Eh'.
    + assert (Lh' : (S i_h < lh)%nat) by (apply nth_error_Some; congruence).
      apply (nth_error_Some_nth _ _ _ O) in Eh'. rewrite <- Eh'.
      destruct (cmp_lt (H (S i_h)) (N i_n)) eqn:C'.
      * intros H1 H2. destruct (IH i_n (S i_h) (N i_n) (H i_h)) as [I1 I2]; auto; lia.
      * intros H1 H2. eapply Store; eauto.
    + intros H1 H2. eapply Store; eauto.
  - destruct (Nat.ltb_spec i_h 1) as [Z0|Z1].
    + intros H1 H2. eapply Store; eauto. lia.
    + assert (cmp_lt (H i_h) (N i_n) = true) by (eapply cmp_lt_trans; [apply Adv; lia|exact Q1]). congruence.
Qed.

(** *** forward *)
Lemma fwd_loop_ok : sortedH -> sortedN -> forall fuel c_n c_h ncur hcur,
  (0 < c_h <= lh)%nat -> (c_n <= ln)%nat -> (c_n + c_h < fuel)%nat ->
  (forall p, (p < c_n)%nat -> N p <= ncur) -> H (c_h - 1) <= hcur ->
  ((c_h < lh)%nat -> forall p, (p < c_n)%nat -> cmp_gt (H (c_h - 1)) (N p) = true) ->
  fwd_loop hidx nidx fuel c_n c_h ncur hcur =
    mkOut (map (fun p => (nth p nidx O, ans_fwd (N p))) (rev (seq 0 c_n))) None None.
Proof.
  intros SH SN. induction fuel as [|fuel IH]; intros c_n c_h ncur hcur Lh Ln F Hn Hh Adv; [lia|].
  cbn [AsofModel.fwd_loop]. destruct c_n as [|i_n]; [reflexivity|]. destruct c_h as [|i_h]; [lia|].
  replace (S i_h - 1)%nat with i_h in * by lia.
  assert (Q1 : (N i_n <=? ncur) = true) by (apply Z.leb_le, Hn; lia). rewrite Q1. cbn [negb].
  assert (Q2 : (H i_h <=? hcur) = true) by (apply Z.leb_le; exact Hh). rewrite Q2. cbn [negb].
  rewrite seq_S, rev_app_distr. cbn [rev app Nat.add map].
  assert (Nx : forall p, (p < i_n)%nat -> N p <= N i_n) by (intros; apply SN; lia).
  destruct (cmp_gt (H i_h) (N i_n)) eqn:C.
  - assert (Store : (forall q, (q < i_h)%nat -> cmp_gt (H q) (N i_n) = false) ->
      push (nth i_n nidx O, if within (diff (H i_h) (N i_n)) then Some (nth i_h hidx O) else None)
        (fwd_loop hidx nidx fuel i_n (S i_h) (N i_n) (H i_h)) =
      mkOut ((nth i_n nidx O, ans_fwd (N i_n)) :: map (fun p => (nth p nidx O, ans_fwd (N p))) (rev (seq 0 i_n))) None None).
    { intros Nq. rewrite IH; try lia; [|exact Nx| |].
      - unfold push. cbn [o_stores o_hun o_nun]. do 3 f_equal. unfold ans_fwd.
        now rewrite (firstp_at (fun q => cmp_gt (H q) (N i_n)) lh i_h ltac:(lia) C Nq).
      - replace (S i_h - 1)%nat with i_h by lia. lia.
      - intros _ p Hp. replace (S i_h - 1)%nat with i_h by lia. eapply cmp_gt_trans; [exact C|]. auto. }
    destruct (Nat.ltb_spec 0 i_h) as [Lz|Lz]; cbn [andb].
    + destruct (cmp_gt (H (i_h - 1)) (N i_n)) eqn:C'.
      * rewrite IH; try lia.
        -- rewrite seq_S, rev_app_distr. reflexivity.
        -- intros p Hp. destruct (Nat.eq_dec p i_n) as [->|]; [lia|]. apply Nx. lia.
        -- apply SH. lia.
        -- intros _ p Hp. eapply cmp_gt_trans; [exact C'|]. apply SN. lia.
      * apply Store. intros q Hq. destruct (cmp_gt (H q) (N i_n)) eqn:Cq; [|reflexivity].
        assert (cmp_gt (H (i_h - 1)) (N i_n) = true); [|congruence]. eapply cmp_gt_up; [|exact Cq]. apply SH. lia.
    + apply Store. intros q Hq. lia.
  - destruct (Nat.eqb_spec (S i_h) lh) as [Z0|Z1].
    + rewrite IH; try lia; [|exact Nx|].
      * unfold push. cbn [o_stores o_hun o_nun]. do 3 f_equal. unfold ans_fwd.
        rewrite (firstp_none (fun q => cmp_gt (H q) (N i_n)) lh); [reflexivity|].
        intros q Hq. destruct (cmp_gt (H q) (N i_n)) eqn:Cq; [|reflexivity].
        assert (cmp_gt (H i_h) (N i_n) = true); [|congruence]. eapply cmp_gt_up; [|exact Cq]. apply SH. lia.
      * replace (S i_h - 1)%nat with i_h by lia. lia.
    + rewrite Adv in C by lia. discriminate.
Qed.
(** forward output as a set of stores; the row 0 of an empty haystack case keeps its pre-filled value *)
Lemma asof_fwd_ok : (0 < lh)%nat -> sortedH -> sortedN -> (forall p, (p < ln)%nat -> N p <= maxv) -> (forall q, (q < lh)%nat -> H q <= maxv) ->
  asof_fwd hidx nidx = mkOut (map (fun p => (nth p nidx O, ans_fwd (N p))) (rev (seq 0 ln))) None None.
Proof.
  intros P SH SN VN VH. unfold AsofModel.asof_fwd. rewrite fwd_loop_ok; auto; try lia. apply VH. lia.
Qed.
Lemma asof_fwd_empty : lh = O -> o_hun (asof_fwd hidx nidx) = None /\ o_nun (asof_fwd hidx nidx) = None /\
  forall s, In s (o_stores (asof_fwd hidx nidx)) -> snd s = None /\ In (fst s) nidx.
Proof.
  intros E. unfold AsofModel.asof_fwd. rewrite E. cbn [AsofModel.fwd_loop].
  destruct ln as [|k] eqn:L; [cbn; tauto|]. cbn. split; [reflexivity|]. split; [reflexivity|].
  intros s Hs. unfold fill_rest in Hs. rewrite E in Hs. cbn in Hs. apply in_map_iff in Hs. destruct Hs as (r & <- & Hr).
  split; [reflexivity|]. cbn. rewrite <- (firstn_skipn k nidx). apply in_or_app. now left.
Qed.
Lemma fwd_loop_sorted : forall fuel c_n c_h ncur hcur,
  (0 < c_h <= lh)%nat -> (c_n <= ln)%nat -> (c_n + c_h < fuel)%nat ->
  ((c_h < lh)%nat -> cmp_gt (H (c_h - 1)) ncur = true) ->
  o_hun (fwd_loop hidx nidx fuel c_n c_h ncur hcur) = None ->
  o_nun (fwd_loop hidx nidx fuel c_n c_h ncur hcur) = None ->
  ((0 < c_n)%nat -> N (c_n - 1) <= ncur) /\ (forall p, (S p < c_n)%nat -> N p <= N (S p)).
Proof.
  induction fuel as [|fuel IH]; intros c_n c_h ncur hcur Lh Ln F Adv; [lia|].
  cbn [AsofModel.fwd_loop]. destruct c_n as [|i_n]; [intros _ _; split; intros; lia|]. destruct c_h as [|i_h]; [lia|].
  replace (S i_h - 1)%nat with i_h in * by lia. replace (S i_n - 1)%nat with i_n by lia.
  destruct (Z.leb_spec (N i_n) ncur) as [Q1|Q1]; cbn [negb]; [|cbn; discriminate].
  destruct (Z.leb_spec (H i_h) hcur) as [Q2|Q2]; cbn [negb]; [|cbn; discriminate].
  assert (Store : forall r, (push r (fwd_loop hidx nidx fuel i_n (S i_h) (N i_n) (H i_h))).(o_hun) = None ->
     (push r (fwd_loop hidx nidx fuel i_n (S i_h) (N i_n) (H i_h))).(o_nun) = None ->
     ((S i_h < lh)%nat -> cmp_gt (H i_h) (N i_n) = true) ->
     ((0 < S i_n)%nat -> N i_n <= ncur) /\ (forall p, (S p < S i_n)%nat -> N p <= N (S p))).
  { intros r H1 H2 H3. cbn in H1, H2. destruct (IH i_n (S i_h) (N i_n) (H i_h)) as [I1 I2]; auto; try lia.
    { replace (S i_h - 1)%nat with i_h by lia. exact H3. }
    split; [auto|]. intros p Lp. destruct (Nat.eq_dec (S p) i_n) as [<-|]; [|apply I2; lia].
    replace (S p - 1)%nat with p in I1 by lia. apply I1. lia. }
  destruct (cmp_gt (H i_h) (N i_n)) eqn:C.
  - destruct (Nat.ltb_spec 0 i_h) as [Lz|Lz]; cbn [andb].
    + destruct (cmp_gt (H (i_h - 1)) (N i_n)) eqn:C'.
      * intros H1 H2. destruct (IH (S i_n) i_h (N i_n) (H i_h)) as [I1 I2]; auto; try lia.
      * intros H1 H2. eapply Store; eauto.
    + intros H1 H2. eapply Store; eauto.
  - destruct (Nat.eqb_spec (S i_h) lh) as [Z0|Z1].
    + intros H1 H2. eapply Store; eauto. lia.
    + assert (cmp_gt (H i_h) (N i_n) = true) by (eapply cmp_gt_trans; [apply Adv; lia|exact Q1]). congruence.
Qed.
End Loop.

(** *** the output array after one kernel run *)
(** the run [o] raises no flag, writes only rows of [nidx], and gives row [r] the answer [ans (nkey r)] *)
Definition answers (o : outc) (nidx : list nat) (ans : Z -> option nat) : Prop :=
  flagged o = false /\ (forall s, In s (o_stores o) -> In (fst s) nidx) /\ forall r, In r nidx -> run_stores (o_stores o) all_invalid r = ans (nkey r).

Lemma answers_map nidx ans l : NoDup nidx -> NoDup l -> (forall p, In p l <-> (p < length nidx)%nat) ->
  answers (mkOut (map (fun p => (nth p nidx O, ans (nkey (nth p nidx O)))) l) None None) nidx ans.
Proof.
  intros N Nl R. split; [reflexivity|]. cbn [o_stores]. split.
  - intros s Hs. apply in_map_iff in Hs. destruct Hs as (p & <- & Hp). cbn. apply nth_In, R, Hp.
  - intros r Hr. apply (In_nth _ _ O) in Hr. destruct Hr as (p & Lp & <-).
    apply run_stores_nodup.
    + rewrite map_map. cbn. clear Lp p.
      assert (R' : forall p, In p l -> (p < length nidx)%nat) by (intros; now apply R). clear R.
      induction Nl as [|p l Hp Nl IH]; cbn; [constructor|]. constructor.
      * intros Q. apply in_map_iff in Q. destruct Q as (p' & E & Hp'). apply Hp.
        assert (p' = p); [|now subst]. apply (proj1 (NoDup_nth nidx O) N); auto using in_eq, in_cons.
      * apply IH. intros. apply R'. now right.
    + apply in_map_iff. exists p. split; [reflexivity|]. now apply R.
Qed.
Lemma back_answers hidx nidx : NoDup nidx -> sortedH hidx -> sortedN nidx ->
  (forall r, In r nidx -> minv <= nkey r) -> (forall r, In r hidx -> minv <= hkey r) ->
  answers (asof_back hidx nidx) nidx (ans_back hidx).
Proof.
  intros N SH SN VN VH. rewrite asof_back_ok; auto.
  - apply answers_map; [exact N|apply seq_NoDup|]. intros p. rewrite in_seq. lia.
  - intros p Hp. apply VN, nth_In, Hp.
  - intros p Hp. apply VH, nth_In, Hp.
Qed.
Lemma fwd_answers hidx nidx : NoDup nidx -> sortedH hidx -> sortedN nidx ->
  (forall r, In r nidx -> nkey r <= maxv) -> (forall r, In r hidx -> hkey r <= maxv) ->
  answers (asof_fwd hidx nidx) nidx (ans_fwd hidx).
Proof.
  intros N SH SN VN VH. destruct (Nat.eq_dec (length hidx) 0) as [Z0|Nz].
  - destruct (asof_fwd_empty hidx nidx Z0) as (E1 & E2 & E3). split; [unfold flagged; now rewrite E1, E2|].
    split; [intros s Hs; now apply E3|]. intros r Hr. unfold ans_fwd, firstp. rewrite Z0. cbn [seq find].
    assert (G : forall ws (m : mem (option nat)), m r = None -> (forall s, In s ws -> snd s = None /\ In (fst s) nidx) -> run_stores ws m r = None).
    { induction ws as [|[a v] ws IH]; cbn; intros m Hm Hs; [exact Hm|].
      change (run_stores ws (do_store m (a, v)) r = None). apply IH; [|intros; apply Hs; now right].
      unfold do_store. cbn. destruct (Nat.eqb r a); [|exact Hm]. apply (Hs (a, v)). now left. }
    apply G; [reflexivity|exact E3].
  - rewrite asof_fwd_ok; auto; try lia.
    + apply answers_map; [exact N|apply NoDup_rev, seq_NoDup|]. intros p. rewrite <- in_rev, in_seq. lia.
    + intros p Hp. apply VN, nth_In, Hp.
    + intros p Hp. apply VH, nth_In, Hp.
Qed.
End Kernel.

(** *** from the functional answers to the specification, int64 keys *)
Lemma diff64_exact a b : - 2 ^ 63 <= a - b < 2 ^ 63 -> diff64 a b = a - b.
Proof. intros H. unfold diff64, wrap64, two64. rewrite Z.mod_small by lia. lia. Qed.

Definition increasing (l : list nat) : Prop :=
  forall i j a b, nth_error l i = Some a -> nth_error l j = Some b -> (i < j)%nat -> (a < b)%nat.
Lemma increasing_lt l i j : increasing l -> (i < length l)%nat -> (j < length l)%nat -> (i < j)%nat -> (nth i l O < nth j l O)%nat.
Proof. intros I Li Lj L. apply (I i j); auto; now apply nth_error_nth'. Qed.
Lemma increasing_nodup l : increasing l -> NoDup l.
Proof.
  intros I. apply NoDup_nth_error. intros i j Li E.
  assert (Lj : (j < length l)%nat) by (apply nth_error_Some; rewrite <- E; now apply nth_error_Some).
  destruct (nth_error l i) as [a|] eqn:Ea; [|apply nth_error_None in Ea; lia]. symmetry in E.
  destruct (Nat.lt_trichotomy i j) as [C|[C|C]]; [|exact C|].
  - specialize (I i j a a Ea E C). lia.
  - specialize (I j i a a E Ea C). lia.
Qed.
Lemma key_nth (l : list Z) r x : nth_error l r = Some x -> key_of l r = x.
Proof. apply nth_error_Some_nth. Qed.

Section Answer.
Variables (right : list Z) (tol : option Z) (exact : bool) (hidx : list nat) (cand : nat -> Prop).
Hypothesis Inc : increasing hidx.
Hypothesis Cand : forall j y, nth_error right j = Some y -> (cand j <-> In j hidx).
Hypothesis Rows : forall j, In j hidx -> (j < length right)%nat.
Notation H q := (key_of right (nth q hidx O)).

Lemma cand_row j y : cand j -> nth_error right j = Some y -> exists q, (q < length hidx)%nat /\ nth q hidx O = j /\ H q = y.
Proof.
  intros C E. apply (Cand j y E) in C. apply (In_nth _ _ O) in C. destruct C as (q & L & <-).
  exists q. split; [exact L|]. split; [reflexivity|]. now apply key_nth.
Qed.
Lemma row_cand q : (q < length hidx)%nat -> cand (nth q hidx O) /\ nth_error right (nth q hidx O) = Some (H q).
Proof.
  intros L. assert (Hi : In (nth q hidx O) hidx) by now apply nth_In.
  assert (E : nth_error right (nth q hidx O) = Some (H q)) by (apply nth_error_nth'; auto).
  split; [|exact E]. now apply (Cand _ _ E).
Qed.
Lemma pos_lt q q' : (q < length hidx)%nat -> (q' < length hidx)%nat -> (nth q hidx O < nth q' hidx O)%nat -> (q < q')%nat.
Proof.
  intros L L' C. destruct (Nat.lt_trichotomy q q') as [D|[D|D]]; [exact D|subst; lia|].
  pose proof (increasing_lt _ _ _ Inc L' L D). lia.
Qed.
Lemma cmp_lt_spec y x : cmp_lt Z.leb Z.ltb exact y x = true <-> precedes exact y x.
Proof. unfold cmp_lt, precedes. destruct exact; lia. Qed.
Lemma cmp_gt_spec y x : cmp_gt Z.leb Z.ltb exact y x = true <-> follows exact y x.
Proof. unfold cmp_gt, follows. destruct exact; lia. Qed.
Lemma within_spec d : within Z.leb tol d = true <-> tolerated tol d.
Proof. unfold within, tolerated. destruct tol; [lia|tauto]. Qed.
Lemma cmp_lt_false y x : cmp_lt Z.leb Z.ltb exact y x = false -> ~ precedes exact y x.
Proof. rewrite <- cmp_lt_spec. congruence. Qed.
Lemma cmp_gt_false y x : cmp_gt Z.leb Z.ltb exact y x = false -> ~ follows exact y x.
Proof. rewrite <- cmp_gt_spec. congruence. Qed.
Lemma within_false d : within Z.leb tol d = false -> ~ tolerated tol d.
Proof. rewrite <- within_spec. congruence. Qed.

Section OneX.
Variables (x : Z).
Hypothesis NW : tol = None \/ forall y, In y right -> - 2 ^ 63 <= x - y < 2 ^ 63.

Lemma within_back y : In y right -> within Z.leb tol (diff64 x y) = within Z.leb tol (x - y).
Proof. intros I. destruct NW as [->|NW']; [reflexivity|]. now rewrite diff64_exact by auto. Qed.
Lemma ans_back_match : backward_match cand right tol exact x
  (ans_back diff64 (key_of right) tol exact hidx x).
Proof.
  unfold ans_back. pose proof (lastp_inv (fun q => cmp_lt Z.leb Z.ltb exact (H q) x) (length hidx)) as I.
  destruct (lastp _ _) as [q|].
  - destruct I as (Lq & Cq & Later). destruct (row_cand q Lq) as [Cd Er].
    assert (LB : last_before cand right exact x (nth q hidx O) (H q)).
    { split; [exact Cd|]. split; [exact Er|]. split; [now apply cmp_lt_spec|].
      intros k z Ck Ek Lt. destruct (cand_row k z Ck Ek) as (q' & L' & <- & <-).
      apply cmp_lt_false, Later. split; [|exact L']. now apply pos_lt. }
    rewrite within_back by (apply nth_error_In in Er; exact Er).
    destruct (within Z.leb tol (x - H q)) eqn:W; cbn.
    + exists (H q). split; [exact LB|]. now apply within_spec.
    + right. exists (nth q hidx O), (H q). split; [exact LB|]. now apply within_false.
  - cbn. left. intros k z Ck Ek. destruct (cand_row k z Ck Ek) as (q' & L' & <- & <-). apply cmp_lt_false, I, L'.
Qed.
End OneX.
Section OneX'.
Variable x : Z.
Hypothesis NW' : tol = None \/ forall y, In y right -> - 2 ^ 63 <= y - x < 2 ^ 63.
Lemma within_fwd y : In y right -> within Z.leb tol (diff64 y x) = within Z.leb tol (y - x).
Proof. intros I. destruct NW' as [->|NW'']; [reflexivity|]. now rewrite diff64_exact by auto. Qed.
Lemma ans_fwd_match : forward_match cand right tol exact x
  (ans_fwd diff64 (key_of right) tol exact hidx x).
Proof.
  unfold ans_fwd. pose proof (firstp_inv (fun q => cmp_gt Z.leb Z.ltb exact (H q) x) (length hidx)) as I.
  destruct (firstp _ _) as [q|].
  - destruct I as (Lq & Cq & Before). destruct (row_cand q Lq) as [Cd Er].
    assert (LB : first_after cand right exact x (nth q hidx O) (H q)).
    { split; [exact Cd|]. split; [exact Er|]. split; [now apply cmp_gt_spec|].
      intros k z Ck Ek Lt. destruct (cand_row k z Ck Ek) as (q' & L' & <- & <-).
      apply cmp_gt_false, Before. now apply pos_lt. }
    rewrite within_fwd by (apply nth_error_In in Er; exact Er).
    destruct (within Z.leb tol (H q - x)) eqn:W; cbn.
    + exists (H q). split; [exact LB|]. now apply within_spec.
    + right. exists (nth q hidx O), (H q). split; [exact LB|]. now apply within_false.
  - cbn. left. intros k z Ck Ek. destruct (cand_row k z Ck Ek) as (q' & L' & <- & <-). apply cmp_gt_false, I, L'.
Qed.
End OneX'.
End Answer.

(** combination of the two matches *)
Lemma combine_match cand right left tol exact i x (b f : mem (option nat)) :
  nth_error left i = Some x -> (forall y, In y right -> - 2 ^ 63 < x - y < 2 ^ 63) ->
  backward_match cand right tol exact x (b i) -> forward_match cand right tol exact x (f i) ->
  nearest_match cand right tol exact x (combine_nearest Z.leb diff64 (key_of right) (key_of left) b f i).
Proof.
  intros Hx NW Hb Hf. exists (b i), (f i). split; [exact Hb|]. split; [exact Hf|].
  unfold combine_nearest. destruct (b i) as [j|] eqn:Eb; [|reflexivity].
  destruct (f i) as [k|] eqn:Ef; [|reflexivity].
  intros y z Ey Ez. rewrite (key_nth _ _ _ Hx), (key_nth _ _ _ Ey), (key_nth _ _ _ Ez).
  apply nth_error_In in Ey, Ez. pose proof (NW _ Ey). pose proof (NW _ Ez).
  rewrite !diff64_exact by lia.
  destruct (Z.leb_spec (x - y) (z - x)); split; intros; try reflexivity; lia.
Qed.

(** *** ungrouped *)
Lemma seq_increasing' n : increasing (seq 0 n).
Proof. intros i j a b. apply (seq_increasing n 0). Qed.
Lemma sorted_rows (cand : nat -> Prop) (l : list Z) idx : increasing idx -> (forall j, In j idx -> cand j /\ (j < length l)%nat) ->
  sorted_on cand l -> forall q q', (q <= q' < length idx)%nat -> key_of l (nth q idx O) <= key_of l (nth q' idx O).
Proof.
  intros Inc C S q q' Hq. destruct (Nat.eq_dec q q') as [->|Ne]; [lia|].
  assert (L : (nth q idx O < nth q' idx O)%nat) by (apply increasing_lt; auto; lia).
  destruct (C (nth q idx O)) as [C1 L1]; [apply nth_In; lia|]. destruct (C (nth q' idx O)) as [C2 L2]; [apply nth_In; lia|].
  eapply S; [exact C1|exact C2|exact L| |]; apply nth_error_nth'; assumption.
Qed.
Lemma int64_bounds l r : int64s l -> (r < length l)%nat -> min_valid64 <= key_of l r <= max_valid64.
Proof.
  intros F L. assert (I : In (key_of l r) l) by now apply nth_In. unfold int64s in F. rewrite Forall_forall in F.
  specialize (F _ I). unfold min_valid64, max_valid64. lia.
Qed.

Section Flat.
Variables (right left : list Z) (tol : option Z) (exact : bool).
Hypotheses (R64 : int64s right) (L64 : int64s left) (SR : sorted_on anyrow right) (SL : sorted_on anyrow left).
Lemma flat_back : answers (key_of left)
   (asof_back Z.leb Z.ltb diff64 min_valid64 (key_of right) (key_of left) tol exact (seq 0 (length right)) (seq 0 (length left)))
   (seq 0 (length left)) (ans_back diff64 (key_of right) tol exact (seq 0 (length right))).
Proof.
  apply back_answers.
  - apply seq_NoDup.
  - intros q q' Hq; revert q q' Hq; refine (sorted_rows anyrow _ _ _ _ _); [apply seq_increasing'|intros j Hj; apply in_seq in Hj; split; [exact I|lia]|exact SR].
  - intros q q' Hq; revert q q' Hq; refine (sorted_rows anyrow _ _ _ _ _); [apply seq_increasing'|intros j Hj; apply in_seq in Hj; split; [exact I|lia]|exact SL].
  - intros r Hr. apply in_seq in Hr. apply int64_bounds; [assumption|lia].
  - intros r Hr. apply in_seq in Hr. apply int64_bounds; [assumption|lia].
Qed.
Lemma flat_fwd : answers (key_of left)
   (asof_fwd Z.leb Z.ltb diff64 max_valid64 (key_of right) (key_of left) tol exact (seq 0 (length right)) (seq 0 (length left)))
   (seq 0 (length left)) (ans_fwd diff64 (key_of right) tol exact (seq 0 (length right))).
Proof.
  refine (fwd_answers _ 0 _ _ _ _ _ _ _ _ _ _ _ _).
  - apply seq_NoDup.
  - intros q q' Hq; revert q q' Hq; refine (sorted_rows anyrow _ _ _ _ _); [apply seq_increasing'|intros j Hj; apply in_seq in Hj; split; [exact I|lia]|exact SR].
  - intros q q' Hq; revert q q' Hq; refine (sorted_rows anyrow _ _ _ _ _); [apply seq_increasing'|intros j Hj; apply in_seq in Hj; split; [exact I|lia]|exact SL].
  - intros r Hr. apply in_seq in Hr. apply int64_bounds; [assumption|lia].
  - intros r Hr. apply in_seq in Hr. apply int64_bounds; [assumption|lia].
Qed.
Lemma out_nth (m : nat -> option nat) n i r : nth_error (map m (seq 0 n)) i = Some r -> (i < n)%nat /\ r = m i.
Proof. apply nth_error_map_seq. Qed.
Lemma cand_any j y : nth_error right j = Some y -> (anyrow j <-> In j (seq 0 (length right))).
Proof. intros E. rewrite in_seq. assert (j < length right)%nat by (apply nth_error_Some; congruence). split; [lia|intros _; exact I]. Qed.
Lemma rows_any j : In j (seq 0 (length right)) -> (j < length right)%nat.
Proof. rewrite in_seq. lia. Qed.
Lemma flat_back_match i x : (tol = None \/ no_wrap left right) -> nth_error left i = Some x ->
  backward_match anyrow right tol exact x
   (run_stores (o_stores (asof_back Z.leb Z.ltb diff64 min_valid64 (key_of right) (key_of left) tol exact (seq 0 (length right)) (seq 0 (length left)))) all_invalid i).
Proof.
  intros NW E. assert (L : (i < length left)%nat) by (apply nth_error_Some; congruence).
  destruct flat_back as (_ & _ & A). rewrite A by (apply in_seq; lia). rewrite (key_nth _ _ _ E).
  apply ans_back_match; [apply seq_increasing'|exact cand_any|exact rows_any|].
  destruct NW as [N|N]; [now left|right]. intros y Hy. apply N; [now apply nth_error_In in E|exact Hy].
Qed.
Lemma flat_fwd_match i x : (tol = None \/ no_wrap right left) -> nth_error left i = Some x ->
  forward_match anyrow right tol exact x
   (run_stores (o_stores (asof_fwd Z.leb Z.ltb diff64 max_valid64 (key_of right) (key_of left) tol exact (seq 0 (length right)) (seq 0 (length left)))) all_invalid i).
Proof.
  intros NW E. assert (L : (i < length left)%nat) by (apply nth_error_Some; congruence).
  destruct flat_fwd as (_ & _ & A). rewrite A by (apply in_seq; lia). rewrite (key_nth _ _ _ E).
  apply ans_fwd_match; [apply seq_increasing'|exact cand_any|exact rows_any|].
  destruct NW as [N|N]; [now left|right]. intros y Hy. apply N; [exact Hy|now apply nth_error_In in E].
Qed.
End Flat.

(** what it means that the call returns the right answers *)

Lemma asof_backward right left tol exact :
  int64s right -> int64s left -> sorted_on anyrow right -> sorted_on anyrow left -> (tol = None \/ no_wrap left right) ->
  exists out, asof64 right left tol exact Backward = Some out /\ every_row left out (backward_match anyrow right tol exact).
Proof.
  intros R64 L64 SR SL NW. unfold asof64, asof_flat.
  destruct (flat_back right left tol exact R64 L64 SR SL) as (F & _). rewrite F. eexists. split; [reflexivity|].
  split; [now rewrite map_length, seq_length|]. intros i x r Ex Er. apply out_nth in Er. destruct Er as [_ ->].
  now apply flat_back_match.
Qed.
Lemma asof_forward right left tol exact :
  int64s right -> int64s left -> sorted_on anyrow right -> sorted_on anyrow left -> (tol = None \/ no_wrap right left) ->
  exists out, asof64 right left tol exact Forward = Some out /\ every_row left out (forward_match anyrow right tol exact).
Proof.
  intros R64 L64 SR SL NW. unfold asof64, asof_flat.
  destruct (flat_fwd right left tol exact R64 L64 SR SL) as (F & _). rewrite F. eexists. split; [reflexivity|].
  split; [now rewrite map_length, seq_length|]. intros i x r Ex Er. apply out_nth in Er. destruct Er as [_ ->].
  now apply flat_fwd_match.
Qed.
Lemma asof_nearest right left tol exact :
  int64s right -> int64s left -> sorted_on anyrow right -> sorted_on anyrow left -> no_wrap left right -> no_wrap right left ->
  exists out, asof64 right left tol exact Nearest = Some out /\ every_row left out (nearest_match anyrow right tol exact).
Proof.
  intros R64 L64 SR SL NW NW'. unfold asof64, asof_flat.
  destruct (flat_back right left tol exact R64 L64 SR SL) as (F & _).
  destruct (flat_fwd right left tol exact R64 L64 SR SL) as (F' & _). rewrite F, F'. eexists. split; [reflexivity|].
  split; [now rewrite map_length, seq_length|]. intros i x r Ex Er. apply out_nth in Er. destruct Er as [_ ->].
  apply combine_match; [exact Ex| | |].
  - intros y Hy. assert (In x left) by now apply nth_error_In in Ex. specialize (NW x y ltac:(assumption) Hy). specialize (NW' y x Hy ltac:(assumption)). lia.
  - apply flat_back_match; auto.
  - apply flat_fwd_match; auto.
Qed.

(** *** unsorted left column *)
Lemma adjacent_sorted (l : list Z) : (forall p, (S p < length l)%nat -> key_of l p <= key_of l (S p)) -> sorted_on anyrow l.
Proof.
  intros A i j x y _ _ L Ex Ey. rewrite <- (key_nth _ _ _ Ex), <- (key_nth _ _ _ Ey).
  assert (Lj : (j < length l)%nat) by (apply nth_error_Some; congruence). clear Ex Ey.
  induction j as [|j IH]; [lia|]. specialize (A j Lj). destruct (Nat.eq_dec i j) as [->|]; [exact A|].
  etransitivity; [apply IH; lia|exact A].
Qed.
Lemma not_flagged o : flagged o = false -> o_hun o = None /\ o_nun o = None.
Proof. unfold flagged. destruct (o_hun o), (o_nun o); try discriminate. auto. Qed.
Lemma back_left_sorted right left tol exact diff minv : right <> [] ->
  flagged (asof_back Z.leb Z.ltb diff minv (key_of right) (key_of left) tol exact (seq 0 (length right)) (seq 0 (length left))) = false ->
  sorted_on anyrow left.
Proof.
  intros Ne F. apply not_flagged in F. destruct F as [F1 F2].
  assert (0 < length right)%nat by (destruct right; [congruence|cbn; lia]).
  unfold asof_back in F1, F2. apply back_loop_sorted in F1; rewrite ?seq_length in *; try lia; [|exact F2].
  destruct F1 as [_ S]. apply adjacent_sorted. intros p Lp. specialize (S p ltac:(lia)).
  specialize (S Lp). now rewrite !seq_nth in S by lia.
Qed.
Lemma fwd_left_sorted right left tol exact diff maxv : right <> [] ->
  flagged (asof_fwd Z.leb Z.ltb diff maxv (key_of right) (key_of left) tol exact (seq 0 (length right)) (seq 0 (length left))) = false ->
  sorted_on anyrow left.
Proof.
  intros Ne F. apply not_flagged in F. destruct F as [F1 F2].
  assert (0 < length right)%nat by (destruct right; [congruence|cbn; lia]).
  unfold asof_fwd in F1, F2. apply fwd_loop_sorted in F1; rewrite ?seq_length in *; try lia; [|exact F2].
  destruct F1 as [_ S]. apply adjacent_sorted. intros p Lp.
  specialize (S p Lp). now rewrite !seq_nth in S by lia.
Qed.
Lemma asof_left_sorted right left tol exact d out : right <> [] -> asof64 right left tol exact d = Some out -> sorted_on anyrow left.
Proof.
  intros Ne. unfold asof64, asof_flat. destruct d.
  - destruct (flagged _) eqn:F; [discriminate|]. intros _. eapply back_left_sorted; eauto.
  - destruct (flagged _) eqn:F; [discriminate|]. intros _. eapply fwd_left_sorted; eauto.
  - destruct (flagged _) eqn:F; [discriminate|]. cbn [orb]. destruct (flagged (asof_fwd _ _ _ _ _ _ _ _ _ _)); [discriminate|].
    intros _. eapply back_left_sorted; eauto.
Qed.
