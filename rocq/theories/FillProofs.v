From Coq Require Import List Arith Bool ZArith Lia.
From Verif Require Import Sched Threads ThreadsFacts GroupModel GroupFacts FillModel FillSpec.
Import ListNotations.

Section Fill.
Context {V : Type}.
Variable isinv : V -> bool.
Fixpoint fp (limit : nat) (last : V) (c : nat) (l : list V) : list V :=
  match l with
  | [] => []
  | x :: r =>
      if limit =? 0 then if isinv x then last :: fp limit last c r else x :: fp limit x c r
      else if isinv x then if 0 <? c then last :: fp limit last (c - 1) r else x :: fp limit last c r
      else x :: fp limit x limit r
  end.
Lemma fp_length limit last c l : length (fp limit last c l) = length l.
Proof. revert last c. induction l as [|x l IH]; intros last c; cbn [fp]; [reflexivity|]. destruct (limit =? 0), (isinv x), (0 <? c); cbn [length]; now rewrite IH. Qed.
(** after a valid element the past does not matter *)
Lemma fp_valid limit last c l i x : nth_error l i = Some x -> isinv x = false -> nth_error (fp limit last c l) i = Some x.
Proof.
  revert last c i. induction l as [|y l IH]; intros last c i H Hx; [destruct i; discriminate|]. destruct i as [|i].
  - injection H as ->. cbn [fp]. rewrite Hx. now destruct (limit =? 0).
  - cbn in H. cbn [fp]. destruct (limit =? 0), (isinv y), (0 <? c); cbn [nth_error]; now apply IH.
Qed.
Lemma fp_after limit last c l j y i : nth_error l j = Some y -> isinv y = false -> nth_error (fp limit last c l) (S j + i) = nth_error (fp limit y (if limit =? 0 then c else limit) (skipn (S j) l)) i.
Proof.
  revert last c j. induction l as [|z l IH]; intros last c j H Hy; [destruct j; discriminate|]. destruct j as [|j].
  - injection H as ->. cbn [fp]. rewrite Hy. destruct (limit =? 0) eqn:E; cbn; [reflexivity|]. reflexivity.
  - cbn in H. cbn [skipn]. change (S (S j) + i) with (S (S j + i)). cbn [fp].
    destruct (limit =? 0) eqn:E; [destruct (isinv z); cbn [nth_error]; now rewrite IH|].
    destruct (isinv z); [destruct (0 <? c)|]; cbn [nth_error]; now rewrite IH.
Qed.
(** in a run of invalid elements *)
Lemma fp_run limit last c l i x : nth_error l i = Some x -> (forall k, k <= i -> invalid_at isinv l k) ->
  nth_error (fp limit last c l) i = Some (if (limit =? 0) || (i <? c) then last else x).
Proof.
  revert c i. induction l as [|y l IH]; intros c i H R; [destruct i; discriminate|].
  assert (Hy : isinv y = true) by (apply (R 0); [lia|reflexivity]).
  destruct i as [|i].
  - injection H as ->. cbn [fp]. rewrite Hy. destruct (limit =? 0); [reflexivity|]. destruct (0 <? c); reflexivity.
  - cbn in H. assert (R' : forall k, k <= i -> invalid_at isinv l k) by (intros k Hk; apply (R (S k)); lia).
    cbn [fp]. rewrite Hy. destruct (limit =? 0) eqn:E; [cbn; now rewrite (IH c i H R')|].
    destruct (0 <? c) eqn:C; cbn [nth_error orb]; rewrite (IH _ i H R'); cbn [orb].
    + apply Nat.ltb_lt in C. replace (i <? c - 1) with (S i <? c); [reflexivity|]. destruct (Nat.ltb_spec (S i) c), (Nat.ltb_spec i (c - 1)); auto; lia.
    + apply Nat.ltb_ge in C. replace c with 0 by lia. reflexivity.
Qed.
Lemma nth_error_skipn {X} (l : list X) n i : nth_error (skipn n l) i = nth_error l (n + i).
Proof. revert l. induction n as [|n IH]; intros l; [reflexivity|]. destruct l; [now destruct i|]. cbn. apply IH. Qed.
Theorem fp_filled limit fv a : filled_forward isinv limit fv a (fp limit fv limit a).
Proof.
  split; [apply fp_length|]. intros i x Hx. split; [|split].
  - intros. now apply fp_valid.
  - intros j y Hj Hy Vy R. replace i with (S j + (i - S j)) by lia. rewrite (fp_after _ _ _ _ j y) by assumption.
    rewrite (fp_run _ _ _ _ _ x).
    + replace (S j + (i - S j) - j <=? limit) with (i - S j <? limit) by (destruct (Nat.ltb_spec (i - S j) limit), (Nat.leb_spec (S j + (i - S j) - j) limit); auto; lia).
      destruct (limit =? 0); reflexivity.
    + rewrite nth_error_skipn. rewrite <- Hx. f_equal. lia.
    + intros k Hk z Hz. rewrite nth_error_skipn in Hz. apply (R (S j + k)); [lia|exact Hz].
  - intros R. rewrite (fp_run _ _ _ _ _ x) by assumption. replace (i + 1 <=? limit) with (i <? limit); [reflexivity|].
    destruct (Nat.ltb_spec i limit), (Nat.leb_spec (i + 1) limit); auto; lia.
Qed.

(** ** the in-place loops *)
Lemma map_ext_do (m : mem V) p v l : ~ In p l -> map (do_store m (p, v)) l = map m l.
Proof. intros H. apply map_ext_in. intros q Hq. unfold do_store. cbn. destruct (Nat.eqb_spec q p); [congruence|reflexivity]. Qed.
Lemma fill_fold limit idxs : forall (m : mem V) last c, NoDup idxs ->
  let st := fold_left (fill_step isinv limit) idxs (m, last, c) in
  map (fst (fst st)) idxs = fp limit last c (map m idxs) /\ forall p, ~ In p idxs -> fst (fst st) p = m p.
Proof.
  induction idxs as [|p idxs IH]; intros m last c N; [split; [reflexivity|intros; reflexivity]|].
  inversion N as [|? ? N1 N2]; subst. cbn [fold_left map fp].
  assert (G : forall (m' : mem V) last' c' v, m' p = v -> (forall q, q <> p -> m' q = m q) ->
     let st := fold_left (fill_step isinv limit) idxs (m', last', c') in
     fst (fst st) p :: map (fst (fst st)) idxs = v :: fp limit last' c' (map m idxs) /\ forall q, ~ In q (p :: idxs) -> fst (fst st) q = m q).
  { intros m' last' c' v Hv Hm. destruct (IH m' last' c' N2) as [H1 H2]. cbv zeta. split.
    - rewrite H1, H2 by exact N1. rewrite Hv. replace (map m' idxs) with (map m idxs); [reflexivity|]. apply map_ext_in. intros q Hq. symmetry. apply Hm. congruence.
    - intros q Hq. rewrite H2 by (cbn in Hq; tauto). apply Hm. cbn in Hq. intuition congruence. }
  assert (S0 : forall v, do_store m (p, v) p = v) by (intros; unfold do_store; cbn; now rewrite Nat.eqb_refl).
  assert (S1 : forall v q, q <> p -> do_store m (p, v) q = m q) by (intros v q Hq; unfold do_store; cbn; destruct (Nat.eqb_spec q p); congruence).
  cbn [map]. destruct (fill_step isinv limit (m, last, c) p) as [[m' last'] c'] eqn:E. unfold fill_step in E. cbv beta iota in E.
  destruct (limit =? 0) eqn:EL.
  - destruct (isinv (m p)) eqn:EI; injection E as <- <- <-; apply G; auto.
  - destruct (isinv (m p)) eqn:EI.
    + destruct (0 <? c) eqn:EC; injection E as <- <- <-; apply G; auto.
    + injection E as <- <- <-. apply G; auto.
Qed.
Lemma cells_all (a : list V) d : map (cells a d) (seq 0 (length a)) = a.
Proof.
  unfold cells. induction a as [|x a IH]; [reflexivity|]. cbn [length seq map nth]. f_equal. rewrite <- seq_shift, map_map. exact IH.
Qed.
Lemma downto_rev n : downto n = rev (seq 0 n).
Proof.
  unfold downto. induction n as [|n IH]; [reflexivity|]. rewrite seq_S, rev_app_distr. cbn [rev app Nat.add]. rewrite <- IH.
  change (seq 0 n ++ [n]) with (seq 0 n ++ [0 + n]). rewrite <- seq_S. cbn [seq map]. f_equal; [lia|].
  rewrite <- seq_shift, map_map. apply map_ext_in. intros i Hi. apply in_seq in Hi. lia.
Qed.
Lemma upto_nodup n : NoDup (upto n).
Proof. apply seq_NoDup. Qed.
Lemma nth_error_rev {X} (l : list X) i : i < length l -> nth_error (rev l) i = nth_error l (length l - 1 - i).
Proof.
  intros H. destruct l as [|x0 l0]; [cbn in H; lia|]. set (l := x0 :: l0) in *. rewrite (nth_error_nth' _ x0) by (rewrite rev_length; exact H).
  rewrite rev_nth by exact H. rewrite (nth_error_nth' l x0) by lia. do 2 f_equal. lia.
Qed.
Lemma filled_rev limit fv a r : filled_forward isinv limit fv (rev a) (rev r) -> filled_backward isinv limit fv a r.
Proof.
  intros [L H]. rewrite !rev_length in L. split; [exact L|]. intros i x Hx.
  assert (Hi : i < length a) by (apply nth_error_Some; congruence).
  assert (E : forall k y, nth_error a k = Some y -> nth_error (rev a) (length a - 1 - k) = Some y).
  { intros k y Hk. assert (k < length a) by (apply nth_error_Some; congruence). rewrite nth_error_rev by lia. rewrite <- Hk. f_equal. lia. }
  assert (E' : forall k y, nth_error (rev a) k = Some y -> k < length a /\ nth_error a (length a - 1 - k) = Some y).
  { intros k y Hk. assert (Q : k < length a) by (rewrite <- rev_length; apply nth_error_Some; congruence). rewrite nth_error_rev in Hk by lia. auto. }
  destruct (H _ _ (E _ _ Hx)) as (H1 & H2 & H3).
  assert (R : nth_error (rev r) (length a - 1 - i) = nth_error r i) by (rewrite nth_error_rev by lia; f_equal; lia). rewrite R in *.
  split; [exact H1|]. split.
  - intros j y Hj Hy Vy Q. assert (j < length a) by (apply nth_error_Some; congruence).
    replace (j - i) with (length a - 1 - i - (length a - 1 - j)) by lia. apply (H2 (length a - 1 - j) y); [lia|now apply E|exact Vy|].
    intros k Hk z Hz. apply E' in Hz. destruct Hz as [Hk' Hz]. apply (Q (length a - 1 - k)); [lia|exact Hz].
  - intros Q. replace (length a - i) with (length a - 1 - i + 1) by lia. apply H3. intros k Hk z Hz. apply E' in Hz. destruct Hz as [Hk' Hz].
    apply (Q (length a - 1 - k)); [lia|exact Hz].
Qed.
Theorem fill_forward_ok inv a fv limit :
  fill_forward isinv inv a fv (Some (Z.of_nat limit)) <> None /\
  forall r, fill_forward isinv inv a fv (Some (Z.of_nat limit)) = Some r -> filled_forward isinv limit (match fv with Some v => v | None => inv end) a r.
Proof.
  unfold fill_forward, fill_with. destruct (Z.ltb_spec (Z.of_nat limit) 0) as [Hl|Hl]; [lia|]. rewrite Nat2Z.id. split; [discriminate|]. intros r [= <-].
  unfold contents, fill_loop. destruct (fill_fold limit (upto (length a)) (cells a inv) (match fv with Some v => v | None => inv end) limit (upto_nodup _)) as [H _].
  unfold upto in *. rewrite H, cells_all. apply fp_filled.
Qed.
Theorem fill_backward_ok inv a fv limit :
  fill_backward isinv inv a fv (Some (Z.of_nat limit)) <> None /\
  forall r, fill_backward isinv inv a fv (Some (Z.of_nat limit)) = Some r -> filled_backward isinv limit (match fv with Some v => v | None => inv end) a r.
Proof.
  unfold fill_backward, fill_with. destruct (Z.ltb_spec (Z.of_nat limit) 0) as [Hl|Hl]; [lia|]. rewrite Nat2Z.id. split; [discriminate|]. intros r [= <-].
  unfold contents, fill_loop. rewrite downto_rev.
  destruct (fill_fold limit (rev (seq 0 (length a))) (cells a inv) (match fv with Some v => v | None => inv end) limit) as [H _]; [apply NoDup_rev, seq_NoDup|].
  apply filled_rev. rewrite <- map_rev, H, map_rev, cells_all. apply fp_filled.
Qed.

(** ** grouped fill *)
Definition gread (data : option (mem V)) (m : mem V) : mem V := match data with Some d => d | None => m end.
Lemma gfill_run limit data rows : forall (m : mem V) last c o, NoDup rows ->
  map (run_prog (mkRegs last c o) (concat (map (gfill_row isinv limit data) rows)) m) rows = fp limit last c (map (gread data m) rows).
Proof.
  induction rows as [|p rows IH]; intros m last c o N; [reflexivity|]. inversion N as [|? ? N1 N2]; subst.
  set (v := gread data m p).
  set (r' := gfill_read isinv limit (mkRegs last c o) v).
  assert (E : run_prog (mkRegs last c o) (concat (map (gfill_row isinv limit data) (p :: rows))) m =
              run_prog r' (concat (map (gfill_row isinv limit data) rows)) (do_store m (p, out r'))).
  { cbn [map concat]. destruct data; reflexivity. }
  rewrite E. clear E. destruct r' as [last' c' o'] eqn:Er. cbn [out]. cbn [map].
  assert (P : Forall (inside (fun q => In q rows)) (concat (map (gfill_row isinv limit data) rows))).
  { apply Forall_concat, Forall_forall. intros is H. apply in_map_iff in H. destruct H as (q & <- & Hq). unfold gfill_row.
    constructor; [destruct data; [apply (inside_const _ (fun r => gfill_read isinv limit r (m0 q)))|now apply inside_load]|constructor; [now apply inside_store|constructor]]. }
  rewrite (run_outside _ _ _ _ p P N1). rewrite (IH _ last' c' o' N2).
  assert (G : map (gread data (do_store m (p, o'))) rows = map (gread data m) rows) by (destruct data; cbn; [reflexivity|now apply map_ext_do]).
  rewrite G. unfold do_store at 1. cbn [fst snd]. rewrite Nat.eqb_refl. cbn [fp]. fold v.
  unfold r', gfill_read in Er. cbn [last_valid counter] in Er. destruct (limit =? 0), (isinv v), (0 <? c); injection Er as <- <- <-; reflexivity.
Qed.
Lemma slice_map {X} (l : list X) lo k d : lo + k <= length l -> map (fun i => nth i l d) (seq lo k) = slice l lo k.
Proof.
  unfold slice. revert lo. induction k as [|k IH]; intros lo H; cbn; [reflexivity|]. rewrite IH by lia.
  assert (Q : skipn lo l = nth lo l d :: skipn (S lo) l).
  { clear -H. revert lo H. induction l as [|x l IH]; intros lo H; [cbn in H; lia|]. destruct lo; [reflexivity|]. cbn. apply IH. cbn in H. lia. }
  rewrite Q. reflexivity.
Qed.
Lemma group_end ikey n g : g <= n -> nth g (ifirstgroup ikey n) 0 + nth g (ncountgroup ikey n) 0 <= length (igroup ikey n).
Proof.
  intros H. unfold igroup, ifirstgroup, ncountgroup. rewrite !nth_map_seq0 by lia. rewrite (seq_split (S n) g) by lia. rewrite map_app, concat_app, app_length. cbn. rewrite app_length. lia.
Qed.
Lemma group_idx ikey n g : g <= n ->
  map (fun i => nth i (igroup ikey n) 0) (seq (nth g (ifirstgroup ikey n) 0) (nth g (ncountgroup ikey n) 0)) = group_rows ikey g.
Proof. intros H. rewrite slice_map by (now apply group_end). now apply pack_slice. Qed.
Lemma down_seq start last : start <= last -> map (fun i => last - 1 - i) (seq 0 (last - start)) = rev (seq start (last - start)).
Proof.
  intros H. remember (last - start) as k eqn:E. revert last E H. induction k as [|k IH]; intros last E H; [reflexivity|].
  rewrite (seq_S k start), rev_app_distr. cbn [rev app seq map]. f_equal; [lia|]. rewrite <- seq_shift, map_map. rewrite <- (IH (last - 1)) by lia. apply map_ext_in. intros i Hi. apply in_seq in Hi. lia.
Qed.
(** the rows a group's iteration works on, in order *)
Definition order (fwd : bool) (rows : list nat) : list nat := if fwd then rows else rev rows.
Lemma gfill_thread_eq limit fwd data fv ikey n g : g <= n ->
  gfill_thread isinv limit fwd data fv (igroup ikey n) (ifirstgroup ikey n) (ncountgroup ikey n) g =
  (mkRegs fv limit fv, concat (map (gfill_row isinv limit data) (order fwd (group_rows ikey g)))).
Proof.
  intros H. unfold gfill_thread. f_equal. f_equal. set (start := nth g (ifirstgroup ikey n) 0). set (cnt := nth g (ncountgroup ikey n) 0).
  rewrite <- (map_map (fun index => nth index (igroup ikey n) 0) (gfill_row isinv limit data)). f_equal. destruct fwd; unfold order.
  - replace (start + cnt - start) with cnt by lia. now apply group_idx.
  - rewrite down_seq by lia. rewrite map_rev. f_equal. replace (start + cnt - start) with cnt by lia. now apply group_idx.
Qed.
Lemma order_in fwd rows p : In p (order fwd rows) <-> In p rows.
Proof. destruct fwd; cbn; [tauto|]. symmetry. apply in_rev. Qed.
Lemma order_nodup fwd rows : NoDup rows -> NoDup (order fwd rows).
Proof. destruct fwd; cbn; [auto|]. apply NoDup_rev. Qed.
Lemma gfill_regions limit fwd data fv ikey n : disjoint_regions (gfill_threads isinv limit fwd data fv ikey n) (fun i p => In p (group_rows ikey (S i))).
Proof.
  unfold gfill_threads. split.
  - intros i t Hi. assert (Li : i < n) by (erewrite <- (seq_length n 1), <- (map_length _ (seq 1 n)); apply nth_error_Some; rewrite Hi; discriminate).
    rewrite nth_error_map in Hi. assert (E : nth_error (seq 1 n) i = Some (S i)) by (rewrite (nth_error_nth' _ 0) by (now rewrite seq_length); rewrite seq_nth by lia; reflexivity).
    rewrite E in Hi. cbn [option_map] in Hi. injection Hi as <-. rewrite gfill_thread_eq by lia. cbn [snd].
    apply Forall_concat, Forall_forall. intros is H. apply in_map_iff in H. destruct H as (q & <- & Hq). apply order_in in Hq. unfold gfill_row.
    constructor; [destruct data; [apply (inside_const _ (fun r => gfill_read isinv limit r (m q)))|now apply inside_load]|constructor; [now apply inside_store|constructor]].
  - intros i j p _ _ Hi Hj. apply group_rows_in in Hi, Hj. congruence.
Qed.
Lemma gfill_par limit fwd data fv ikey n (m m2 : mem V) g : par (gfill_threads isinv limit fwd data fv ikey n) m m2 -> 1 <= g <= n ->
  map m2 (order fwd (group_rows ikey g)) = fp limit fv limit (map (gread data m) (order fwd (group_rows ikey g))).
Proof.
  intros P Hg. destruct (par_regions _ _ _ _ P (gfill_regions limit fwd data fv ikey n)) as [H _].
  assert (E : nth_error (gfill_threads isinv limit fwd data fv ikey n) (g - 1) = Some (gfill_thread isinv limit fwd data fv (igroup ikey n) (ifirstgroup ikey n) (ncountgroup ikey n) g)).
  { unfold gfill_threads. rewrite nth_error_map. rewrite (nth_error_nth' _ 0) by (rewrite seq_length; lia). rewrite seq_nth by lia. cbn [option_map]. repeat f_equal; lia. }
  rewrite <- (gfill_run limit data _ m fv limit fv) by (apply order_nodup, group_rows_nodup).
  apply map_ext_in. intros p Hp. rewrite (H (g - 1) _ p E); [|apply order_in in Hp; replace (S (g - 1)) with g by lia; exact Hp].
  rewrite gfill_thread_eq by lia. reflexivity.
Qed.
Theorem gfill_forward_ok limit data fv ikey n (m m2 : mem V) g : par (gfill_threads isinv limit true data fv ikey n) m m2 -> 1 <= g <= n ->
  filled_forward isinv limit fv (map (gread data m) (group_rows ikey g)) (map m2 (group_rows ikey g)).
Proof. intros P Hg. assert (Q := gfill_par _ _ _ _ _ _ _ _ g P Hg). cbn [order] in Q. rewrite Q. apply fp_filled. Qed.
Theorem gfill_backward_ok limit data fv ikey n (m m2 : mem V) g : par (gfill_threads isinv limit false data fv ikey n) m m2 -> 1 <= g <= n ->
  filled_backward isinv limit fv (map (gread data m) (group_rows ikey g)) (map m2 (group_rows ikey g)).
Proof.
  intros P Hg. assert (Q := gfill_par _ _ _ _ _ _ _ _ g P Hg). cbn [order] in Q. apply filled_rev. rewrite <- !map_rev, Q. apply fp_filled.
Qed.
Theorem gfill_rest limit fwd data fv ikey n (m m2 : mem V) p : par (gfill_threads isinv limit fwd data fv ikey n) m m2 ->
  (forall g, 1 <= g <= n -> nth_error ikey p <> Some g) -> m2 p = m p.
Proof.
  intros P Hp. destruct (par_regions _ _ _ _ P (gfill_regions limit fwd data fv ikey n)) as [_ H]. apply H. intros i Hi Q. apply group_rows_in in Q.
  apply (Hp (S i)); [|exact Q]. unfold gfill_threads in Hi. rewrite map_length, seq_length in Hi. lia.
Qed.
End Fill.

(** ** running extremes *)
Section Cum.
Context {V : Type}.
Variable isinv : V -> bool.
Variable better : V -> V -> bool.
Variable good : V -> Prop.
Hypothesis irrefl : forall x, better x x = false.
(** strict weak order on the valid values of the dtype *)
Hypothesis trans : forall x y z, good x -> good y -> good z -> isinv x = false -> isinv y = false -> isinv z = false -> better x y = true -> better z y = false -> better z x = true -> False.

Lemma scan_skip_length run l : length (scan_skip isinv better run l) = length l.
Proof using. revert run. induction l as [|x l IH]; intros run; cbn; [reflexivity|]. now rewrite IH. Qed.
Lemma scan_all_length run l : length (scan_all isinv better run l) = length l.
Proof using. revert run. induction l as [|x l IH]; intros run; cbn; [reflexivity|]. now rewrite IH. Qed.
(** with a valid running value *)
Lemma scan_skip_at run l i x : good run -> Forall good l -> isinv run = false -> nth_error l i = Some x ->
  exists y, nth_error (scan_skip isinv better run l) i = Some y /\ good y /\ isinv y = false /\
    (y = run \/ exists k, k <= i /\ nth_error l k = Some y) /\
    (y = run \/ better y run = true) /\
    forall k z, k <= i -> nth_error l k = Some z -> isinv z = false -> better z y = true -> False.
Proof using irrefl trans.
  revert run i. induction l as [|v l IH]; intros run i Gr G Vr H; [destruct i; discriminate|]. inversion G as [|? ? G1 G2]; subst.
  cbn [scan_skip]. set (run' := if negb (isinv v) && better v run then v else run).
  assert (R : good run' /\ isinv run' = false /\ (run' = run \/ run' = v /\ better v run = true) /\ (isinv v = false -> better v run' = true -> False)).
  { unfold run'. destruct (isinv v) eqn:E; cbn; [repeat split; auto; discriminate|]. destruct (better v run) eqn:B; repeat split; auto; intros _ Q; [rewrite irrefl in Q|]; congruence. }
  destruct R as (R1 & R2 & R3 & R4). destruct i as [|i].
  - exists run'. cbn. injection H as ->. split; [reflexivity|]. split; [exact R1|]. split; [exact R2|]. split; [|split].
    + destruct R3 as [->|[-> _]]; [now left|right; exists 0; auto].
    + destruct R3 as [->|[-> Q]]; auto.
    + intros [|k] z Hk Hz Vz Q; [|lia]. injection Hz as ->. now apply R4.
  - cbn in H. destruct (IH run' i R1 G2 R2 H) as (y & Y1 & Y2 & Y3 & Y4 & Y5 & Y6). exists y. cbn [nth_error]. split; [exact Y1|]. split; [exact Y2|]. split; [exact Y3|]. split; [|split].
    + destruct Y4 as [->|(k & Hk & Hy)]; [|right; exists (S k); split; [lia|exact Hy]]. destruct R3 as [->|[-> _]]; [now left|right; exists 0; split; [lia|reflexivity]].
    + destruct Y5 as [->|B]; [destruct R3 as [->|[-> Q]]; auto|]. destruct R3 as [E|[E Q]]; rewrite E in *; [now right|]. right.
      destruct (better y run) eqn:B'; [reflexivity|]. exfalso. exact (trans v run y G1 Gr Y2 ltac:(congruence) Vr Y3 Q B' B).
    + intros [|k] z Hk Hz Vz Q.
      * injection Hz as ->. destruct Y5 as [->|B]; [now apply R4|]. destruct (better z run') eqn:B'; [now apply R4|].
        exact (trans y run' z Y2 R1 G1 Y3 R2 Vz B B' Q).
      * cbn in Hz. apply (Y6 k z); auto. lia.
Qed.
Lemma first_valid_spec l j : l <> [] -> exists k, first_valid isinv l j = j + k /\ k < length l /\
  (forall i x, i < k -> nth_error l i = Some x -> isinv x = true) /\
  ((exists x, nth_error l k = Some x /\ isinv x = false) \/ (k = length l - 1 /\ forall i x, nth_error l i = Some x -> isinv x = true)).
Proof using.
  revert j. induction l as [|x l IH]; intros j H; [congruence|]. cbn [first_valid]. destruct (isinv x) eqn:E.
  - destruct l as [|y l].
    + exists 0. cbn. split; [lia|]. split; [lia|]. split; [lia|]. right. split; [reflexivity|]. intros [|i] z Hz; [injection Hz as <-; exact E|destruct i; discriminate].
    + destruct (IH (S j)) as (k & H1 & H2 & H3 & H4); [discriminate|]. exists (S k). split; [lia|]. split; [cbn in *; lia|]. split.
      * intros [|i] z Hi Hz; [injection Hz as <-; exact E|]. apply (H3 i); [lia|exact Hz].
      * destruct H4 as [H4|[H4 H5]]; [left; exact H4|right]. split; [cbn in *; lia|]. intros [|i] z Hz; [injection Hz as <-; exact E|exact (H5 i z Hz)].
  - exists 0. split; [lia|]. split; [cbn; lia|]. split; [lia|]. left. exists x. auto.
Qed.
Lemma scan_skip_inv run l i x : isinv run = true -> nth_error l i = Some x -> (forall k y, nth_error l k = Some y -> isinv y = true) ->
  nth_error (scan_skip isinv better run l) i = Some run.
Proof using.
  intros Hr. revert i. induction l as [|v l IH]; intros i H A; [destruct i; discriminate|]. cbn [scan_skip]. assert (isinv v = true) as E by (apply (A 0); reflexivity). rewrite E. cbn [negb andb].
  destruct i as [|i]; [reflexivity|]. cbn. apply IH; [exact H|]. intros k y Hk. apply (A (S k)). exact Hk.
Qed.
Theorem cum_skip_ok a : Forall good a -> running_extreme isinv (fun z y => better z y = true) a (cum isinv better true a).
Proof using irrefl trans.
  intros G. destruct a as [|a0 l]; [split; [reflexivity|intros [|i] x; discriminate]|]. set (a := a0 :: l) in *. unfold cum. fold a.
  change (match a with [] => [] | a1 :: _ => _ end) with (firstn (first_valid isinv a 0) a ++ scan_skip isinv better (nth (first_valid isinv a 0) a a0) (skipn (first_valid isinv a 0) a)).
  destruct (first_valid_spec a 0) as (j & -> & Hj & Hb & Hc); [discriminate|]. cbn [Nat.add]. split.
  { rewrite app_length, scan_skip_length, firstn_length, skipn_length. lia. }
  intros i x Hx. assert (Li : i < length a) by (apply nth_error_Some; congruence).
  assert (Fl : length (firstn j a) = j) by (rewrite firstn_length; lia).
  assert (Nj : nth_error a j = Some (nth j a a0)) by (apply nth_error_nth'; exact Hj).
  destruct (lt_dec i j) as [L|L].
  - rewrite nth_error_app1 by lia. assert (E : nth_error (firstn j a) i = nth_error a i).
    { clear -L. revert j L. generalize a. induction i as [|i IH]; intros b j L; destruct j; try lia; destruct b; cbn; auto. apply IH. lia. }
    rewrite E. split; [auto|]. intros (k & y & Hk & Hy & Vy). rewrite (Hb k y) in Vy by (try lia; exact Hy). discriminate.
  - rewrite nth_error_app2 by lia. rewrite Fl. assert (Si : nth_error (skipn j a) (i - j) = Some x) by (rewrite nth_error_skipn, <- Hx; f_equal; lia).
    destruct Hc as [(v & Hv & Vv)|[E1 E2]].
    + assert (Ev : nth j a a0 = v) by congruence. rewrite Ev. rewrite Forall_forall in G.
      assert (Gv : good v) by (apply G; eapply nth_error_In; eauto).
      assert (Gs : Forall good (skipn j a)) by (apply Forall_forall; intros z Hz; apply G; rewrite <- (firstn_skipn j a); apply in_or_app; now right).
      destruct (scan_skip_at v (skipn j a) (i - j) x Gv Gs Vv Si) as (y & Y1 & Y2 & Y3 & Y4 & Y5 & Y6). split.
      * intros Q. assert (isinv v = true) by (apply (Q j); [lia|exact Hv]). congruence.
      * intros _. assert (K : exists k, k <= i /\ nth_error a k = Some y).
        { destruct Y4 as [->|(k & Hk & Hy)]; [exists j; split; [lia|exact Hv]|]. rewrite nth_error_skipn in Hy. exists (j + k). split; [lia|exact Hy]. }
        destruct K as (k & Hk & Hy). exists k, y. split; [exact Hk|]. split; [exact Hy|]. split; [exact Y3|]. split; [exact Y1|].
        intros k' z Hk' Hz Vz B. destruct (lt_dec k' j) as [L'|L']; [rewrite (Hb k' z L' Hz) in Vz; discriminate|].
        apply (Y6 (k' - j) z); [lia|rewrite nth_error_skipn; rewrite <- Hz; f_equal; lia|exact Vz|exact B].
    + assert (i = j) by lia. subst i. rewrite Nat.sub_diag in *. rewrite (scan_skip_inv (nth j a a0) _ 0 x).
      * split; [intros _; congruence|]. intros (k & y & Hk & Hy & Vy). rewrite (E2 k y Hy) in Vy. discriminate.
      * apply (E2 j). exact Nj.
      * exact Si.
      * intros k y Hy. rewrite nth_error_skipn in Hy. exact (E2 _ _ Hy).
Qed.

(** skipna=False; [sticky]: once the running value is invalid no valid value replaces it *)
Hypothesis sticky : forall x y, good x -> good y -> isinv x = false -> isinv y = true -> better x y = false.
Lemma scan_all_inv run l i : good run -> Forall good l -> isinv run = true -> i < length l -> exists v, nth_error (scan_all isinv better run l) i = Some v /\ isinv v = true.
Proof using sticky.
  revert run i. induction l as [|x l IH]; intros run i Gr G Hr Hi; [cbn in Hi; lia|]. inversion G as [|? ? G1 G2]; subst. cbn [scan_all].
  set (run' := if isinv x || better x run then x else run).
  assert (R : good run' /\ isinv run' = true).
  { unfold run'. destruct (isinv x) eqn:E; cbn; [auto|]. rewrite sticky; auto. }
  destruct R. destruct i as [|i]; [exists run'; auto|]. cbn in *. apply IH; auto. lia.
Qed.
Lemma scan_all_at run l i v : good run -> Forall good l -> isinv run = false -> nth_error (scan_all isinv better run l) i = Some v ->
  ((exists k x, k <= i /\ nth_error l k = Some x /\ isinv x = true) -> isinv v = true) /\
  ((forall k x, k <= i -> nth_error l k = Some x -> isinv x = false) -> nth_error (scan_skip isinv better run l) i = Some v).
Proof using sticky.
  revert run i. induction l as [|x l IH]; intros run i Gr G Vr H; [destruct i; discriminate|]. inversion G as [|? ? G1 G2]; subst. cbn [scan_all scan_skip] in *.
  destruct (isinv x) eqn:E; cbn [orb negb andb] in *.
  - assert (Iv : isinv v = true).
    { destruct i as [|i]; cbn in H; [congruence|]. destruct (scan_all_inv x l i G1 G2 E) as (v' & H1 & H2); [|congruence].
      rewrite <- (scan_all_length x l). apply nth_error_Some. congruence. }
    split; [auto|]. intros Q. specialize (Q 0 x). rewrite Q in E by (auto; lia). discriminate.
  - set (run' := if better x run then x else run) in *. assert (R : good run' /\ isinv run' = false) by (unfold run'; destruct (better x run); auto). destruct R as [R1 R2].
    destruct i as [|i].
    + cbn in H. injection H as <-. split; [|reflexivity]. intros ([|k] & y & Hk & Hy & Iy); [cbn in Hy; congruence|lia].
    + cbn in H. destruct (IH run' i R1 G2 R2 H) as [A B]. split.
      * intros ([|k] & y & Hk & Hy & Iy); [cbn in Hy; congruence|]. apply A. exists k, y. split; [lia|auto].
      * intros Q. cbn [nth_error]. apply B. intros k y Hk Hy. apply (Q (S k)); [lia|exact Hy].
Qed.
Theorem cum_all_ok a : Forall good a -> running_extreme_strict isinv (fun z y => better z y = true) a (cum isinv better false a).
Proof using irrefl trans sticky.
  intros G. destruct a as [|a0 l]; [split; [reflexivity|intros [|i] x; discriminate]|]. set (a := a0 :: l) in *. unfold cum. fold a.
  change (match a with [] => [] | a1 :: _ => _ end) with (scan_all isinv better a0 a). split; [apply scan_all_length|].
  intros i v Hv. assert (G0 : good a0) by (inversion G; auto). assert (Li : i < length a) by (rewrite <- (scan_all_length a0 a); apply nth_error_Some; congruence).
  destruct (isinv a0) eqn:E.
  - destruct (scan_all_inv a0 a i G0 G E Li) as (v' & H1 & H2). assert (v' = v) by congruence. subst v'. split; [auto|].
    intros Q. rewrite (Q 0 a0) in E by (try lia; reflexivity). discriminate.
  - destruct (scan_all_at a0 a i v G0 G E Hv) as [A B]. split; [exact A|]. intros Q. specialize (B Q).
    destruct (nth_error a i) as [x|] eqn:Ex; [|apply nth_error_None in Ex; lia].
    destruct (scan_skip_at a0 a i x G0 G E Ex) as (y & Y1 & Y2 & Y3 & Y4 & Y5 & Y6). assert (y = v) by congruence. subst y. split.
    + destruct Y4 as [->|Y4]; [exists 0; split; [lia|reflexivity]|exact Y4].
    + intros k z Hk Hz B'. apply (Y6 k z); auto. exact (Q k z Hk Hz).
Qed.
End Cum.
