From Coq Require Import List Arith Bool ZArith Lia.
From Verif Require Import Sched SchedFacts Threads ThreadsFacts GroupModel GroupFacts FillModel FillSpec FillProofs.
Import ListNotations.

(** ** work split *)
Lemma core_list_spec cores : forall dividend remainder low, remainder <= cores ->
  let bands := core_list cores dividend remainder low in
  length bands = cores /\
  (forall i lo hi, nth_error bands i = Some (lo, hi) ->
     lo = low + i * dividend + Nat.min i remainder /\ hi = lo + dividend + (if i <? remainder then 1 else 0)).
Proof.
  induction cores as [|c IH]; intros dividend remainder low H; [split; [reflexivity|intros [|i]; discriminate]|]. cbn [core_list].
  set (r' := if 0 <? remainder then remainder - 1 else remainder).
  set (h := low + dividend + (if 0 <? remainder then 1 else 0)).
  destruct (IH dividend r' h) as [L B]; [unfold r'; destruct (Nat.ltb_spec 0 remainder); lia|].
  split; [cbn; now rewrite L|]. intros [|i] lo hi Hi.
  - cbn in Hi. injection Hi as <- <-. split; [lia|]. unfold h. reflexivity.
  - cbn [nth_error] in Hi. apply B in Hi. destruct Hi as [-> ->]. unfold h, r'. destruct (Nat.ltb_spec 0 remainder) as [Q|Q].
    + split; [lia|]. destruct (Nat.ltb_spec i (remainder - 1)), (Nat.ltb_spec (S i) remainder); lia.
    + split; [lia|]. destruct (Nat.ltb_spec i remainder), (Nat.ltb_spec (S i) remainder); lia.
Qed.
(** bands are consecutive, start at 0, end at [rows], and differ in size by at most one *)
Lemma core_split cores rows : 0 < cores ->
  let bands := build_core_list cores rows in
  length bands = cores /\
  (forall i lo hi, nth_error bands i = Some (lo, hi) -> lo <= hi <= rows /\ (i = 0 -> lo = 0) /\ (S i = cores -> hi = rows) /\
     (rows / cores <= hi - lo <= S (rows / cores)) /\
     forall lo' hi', nth_error bands (S i) = Some (lo', hi') -> lo' = hi).
Proof.
  intros H. unfold build_core_list. assert (M := Nat.mod_upper_bound rows cores ltac:(lia)).
  destruct (core_list_spec cores (rows / cores) (rows mod cores) 0) as [L B]; [lia|]. split; [exact L|].
  intros i lo hi Hi. assert (Li : i < cores) by (rewrite <- L; apply nth_error_Some; congruence). destruct (B i lo hi Hi) as [E1 E2].
  assert (D := Nat.div_mod rows cores ltac:(lia)). set (q := rows / cores) in *. set (r := rows mod cores) in *.
  assert (Hh : hi = S i * q + Nat.min (S i) r) by (rewrite E2, E1; destruct (Nat.ltb_spec i r); lia).
  assert (Hr : S i * q + Nat.min (S i) r <= rows) by nia.
  split; [split; [destruct (i <? r); lia|lia]|]. split; [intros ->; lia|]. split; [intros <-; nia|].
  split; [destruct (i <? r); lia|]. intros lo' hi' Hi'. destruct (B _ _ _ Hi') as [E3 _]. lia.
Qed.
Lemma band_in cores rows g : 0 < cores -> g < rows -> exists i lo hi, nth_error (build_core_list cores rows) i = Some (lo, hi) /\ lo <= g < hi.
Proof.
  intros H Hg. destruct (core_split cores rows H) as [L B].
  assert (G : forall k, k <= cores -> (exists i lo hi, nth_error (build_core_list cores rows) i = Some (lo, hi) /\ lo <= g < hi) \/
     (forall lo hi, (k < cores -> nth_error (build_core_list cores rows) k = Some (lo, hi) -> lo <= g) /\ (k = cores -> rows <= g))).
  { induction k as [|k IH]; intros Hk.
    - right. intros lo hi. split; [|lia]. intros _ Q. destruct (B _ _ _ Q) as (_ & Q2 & _). rewrite Q2 by reflexivity. lia.
    - destruct IH as [IH|IH]; [lia|now left|]. destruct (nth_error (build_core_list cores rows) k) as [[lo hi]|] eqn:E.
      + destruct (IH lo hi) as [I1 _]. specialize (I1 ltac:(lia) eq_refl). destruct (lt_dec g hi) as [Q|Q]; [left; exists k, lo, hi; auto|]. right.
        destruct (B _ _ _ E) as (_ & _ & Q3 & _ & Q4). intros lo' hi'. split.
        * intros _ E'. rewrite (Q4 _ _ E'). lia.
        * intros Ek. rewrite <- Q3 by exact Ek. lia.
      + apply nth_error_None in E. lia. }
  destruct (G cores) as [Q|Q]; [lia|exact Q|]. destruct (Q 0 0) as [_ Q2]. specialize (Q2 eq_refl). lia.
Qed.
Lemma band_mono cores rows i j lo hi lo' hi' : 0 < cores -> i < j ->
  nth_error (build_core_list cores rows) i = Some (lo, hi) -> nth_error (build_core_list cores rows) j = Some (lo', hi') -> hi <= lo'.
Proof.
  intros H Lt. destruct (core_split cores rows H) as [L B]. revert lo' hi'. induction Lt as [|j Lt IH]; intros lo' hi' Hi Hj.
  - destruct (B _ _ _ Hi) as (_ & _ & _ & _ & Q). rewrite (Q _ _ Hj). lia.
  - destruct (nth_error (build_core_list cores rows) j) as [[l h]|] eqn:E.
    + specialize (IH l h Hi eq_refl). destruct (B _ _ _ E) as (Q1 & _ & _ & _ & Q). rewrite (Q _ _ Hj). lia.
    + apply nth_error_None in E. assert (S j < length (build_core_list cores rows)) by (apply nth_error_Some; congruence). lia.
Qed.

(** ** grouped reductions *)
Section Reduce.
Context {V : Type}.
Variables (init : V) (comb : V -> V -> V).
Lemma run_prog_app {L} (is1 is2 : list (instr L V)) l m : exists l', run_prog l (is1 ++ is2) m = run_prog l' is2 (run_prog l is1 m).
Proof using. revert l m. induction is1 as [|f is1 IH]; intros l m; cbn; [now exists l|]. destruct (f l m) as [l1 m1]. apply IH. Qed.
Lemma zero_cells {L} (l : L) lo k (m : mem V) p : run_prog l (map (fun i => store_to i (fun _ => init)) (seq lo k)) m p = if (lo <=? p) && (p <? lo + k) then init else m p.
Proof using.
  revert lo m. induction k as [|k IH]; intros lo m; cbn [seq map run_prog store_to].
  - destruct (Nat.leb_spec lo p), (Nat.ltb_spec p (lo + 0)); cbn; auto; lia.
  - rewrite IH. unfold do_store. cbn [fst snd]. destruct (Nat.eqb_spec p lo), (Nat.leb_spec (S lo) p), (Nat.leb_spec lo p), (Nat.ltb_spec p (S lo + k)), (Nat.ltb_spec p (lo + S k)); cbn; auto; lia.
Qed.
Definition red_prog (ikey : list nat) (data : mem V) (lo hi : nat) (idxs : list nat) : list (instr V V) :=
  concat (map (fun index => let grpIdx := nth index ikey 0 in
                 if (lo <=? grpIdx) && (grpIdx <? hi)
                 then [load grpIdx (fun _ v => v); store_to grpIdx (fun l => comb (data index) l)]
                 else []) idxs).
Lemma red_run ikey data lo hi idxs l (m : mem V) g : lo <= g < hi ->
  run_prog l (red_prog ikey data lo hi idxs) m g = fold_left (fun acc index => comb (data index) acc) (filter (fun i => nth i ikey 0 =? g) idxs) (m g).
Proof using.
  intros Hg. unfold red_prog. revert l m. induction idxs as [|x idxs IH]; intros l m; [reflexivity|]. cbn [map concat filter].
  destruct (Nat.eqb_spec (nth x ikey 0) g) as [E|E].
  - assert (Q : (lo <=? nth x ikey 0) && (nth x ikey 0 <? hi) = true) by (rewrite E; apply andb_true_iff; rewrite Nat.leb_le, Nat.ltb_lt; lia). rewrite Q. cbn [app run_prog load store_to fold_left].
    rewrite IH. f_equal. unfold do_store. cbn. rewrite E, Nat.eqb_refl. reflexivity.
  - destruct ((lo <=? nth x ikey 0) && (nth x ikey 0 <? hi)); cbn [app run_prog load store_to]; rewrite IH; [|reflexivity]. f_equal. unfold do_store. cbn.
    destruct (Nat.eqb_spec g (nth x ikey 0)); [congruence|reflexivity].
Qed.
Lemma red_inside ikey data lo hi : Forall (inside (fun p => lo <= p < hi)) (snd (red_thread init comb ikey data (lo, hi))).
Proof using.
  cbn [red_thread snd]. apply Forall_app. split.
  - apply Forall_forall. intros f Hf. apply in_map_iff in Hf. destruct Hf as (i & <- & Hi). apply in_seq in Hi. apply inside_store. lia.
  - apply Forall_concat, Forall_forall. intros is H. apply in_map_iff in H. destruct H as (q & <- & Hq). cbv zeta.
    destruct ((lo <=? nth q ikey 0) && (nth q ikey 0 <? hi)) eqn:E; [|constructor]. apply andb_true_iff in E. rewrite Nat.leb_le, Nat.ltb_lt in E.
    constructor; [apply inside_load; lia|constructor; [apply inside_store; lia|constructor]].
Qed.
Lemma red_regions cores rows ikey data : 0 < cores -> disjoint_regions (red_threads init comb cores rows ikey data)
  (fun i p => exists lo hi, nth_error (build_core_list cores rows) i = Some (lo, hi) /\ lo <= p < hi).
Proof using.
  intros H. split.
  - intros i t Hi. unfold red_threads in Hi. rewrite nth_error_map in Hi. destruct (nth_error (build_core_list cores rows) i) as [[lo hi]|] eqn:E; [|discriminate].
    cbn [option_map] in Hi. injection Hi as <-. assert (Q := red_inside ikey data lo hi). rewrite Forall_forall in Q |- *. intros f Hf. destruct (Q f Hf) as [F1 F2]. split.
    + intros l m m' A. destruct (F1 l m m') as [B1 B2]; [intros p Hp; apply A; exists lo, hi; auto|]. split; [exact B1|].
      intros p (lo' & hi' & [= <- <-] & Hp). now apply B2.
    + intros l m p Hp. apply F2. intros Q'. apply Hp. exists lo, hi. auto.
  - intros i j p _ _ (lo & hi & Hi & Hp) (lo' & hi' & Hj & Hp'). destruct (Nat.lt_trichotomy i j) as [L|[L|L]]; [exfalso| exact L|exfalso].
    + assert (Q := band_mono cores rows i j lo hi lo' hi' H L Hi Hj). lia.
    + assert (Q := band_mono cores rows j i lo' hi' lo hi H L Hj Hi). lia.
Qed.
Theorem reduce_ok cores rows ikey data (m m2 : mem V) g : 0 < cores -> g < rows -> par (red_threads init comb cores rows ikey data) m m2 ->
  m2 g = fold_left (fun acc index => comb (data index) acc) (group_rows ikey g) init.
Proof using.
  intros H Hg P. destruct (band_in cores rows g H Hg) as (i & lo & hi & Hi & Hb).
  destruct (par_regions _ _ _ _ P (red_regions cores rows ikey data H)) as [A _].
  rewrite (A i (red_thread init comb ikey data (lo, hi)) g); [|unfold red_threads; rewrite nth_error_map, Hi; reflexivity|exists lo, hi; auto].
  unfold run_thread. cbn [red_thread fst snd].
  destruct (run_prog_app (map (fun i0 => store_to i0 (fun _ : V => init)) (seq lo (hi - lo))) (red_prog ikey data lo hi (seq 0 (length ikey))) init m) as [l' E].
  unfold red_prog in E at 1. rewrite E. rewrite red_run by exact Hb. unfold group_rows. f_equal. rewrite zero_cells.
  destruct (Nat.leb_spec lo g), (Nat.ltb_spec g (lo + (hi - lo))); cbn; auto; lia.
Qed.
End Reduce.

(** sums *)
Lemma wrap64_add a b : wrap64 (wrap64 a + b) = wrap64 (a + b).
Proof.
  unfold wrap64. f_equal. replace ((a + 2 ^ 63) mod 2 ^ 64 - 2 ^ 63 + b + 2 ^ 63)%Z with ((a + 2 ^ 63) mod 2 ^ 64 + b)%Z by lia.
  rewrite Zplus_mod_idemp_l. f_equal. lia.
Qed.
Lemma sum_fold (data : nat -> Z) rows acc : fold_left (fun acc index => sum_int (data index) acc) rows (wrap64 acc) = wrap64 (acc + fold_right Z.add 0%Z (map data rows)).
Proof.
  revert acc. induction rows as [|r rows IH]; intros acc; cbn [fold_left map fold_right]; [now rewrite Z.add_0_r|].
  unfold sum_int at 2. rewrite wrap64_add, IH. f_equal. lia.
Qed.
Lemma wrap64_id z : (- 2 ^ 63 <= z < 2 ^ 63)%Z -> wrap64 z = z.
Proof. intros H. unfold wrap64. rewrite Z.mod_small; lia. Qed.

(** minimum *)
Definition is_min_valid (isinv : Z -> bool) (vals : list Z) (inv r : Z) : Prop :=
  (forall v, In v vals -> isinv v = true) /\ r = inv \/
  (In r vals /\ isinv r = false /\ forall v, In v vals -> isinv v = false -> (r <= v)%Z).
Lemma min_fold inv (data : nat -> Z) rows : forall acc seen,
  (forall v, In v (map data rows) -> (v <= inv)%Z) -> is_min_valid (fun v => Z.eqb v inv) seen inv acc -> (acc <= inv)%Z ->
  is_min_valid (fun v => Z.eqb v inv) (seen ++ map data rows) inv (fold_left (fun acc index => min_int inv (data index) acc) rows acc).
Proof.
  induction rows as [|r rows IH]; intros acc seen B H Ha; cbn [fold_left map]; [now rewrite app_nil_r|].
  change (data r :: map data rows) with ([data r] ++ map data rows). rewrite app_assoc. apply IH.
  - intros v Hv. apply B. now right.
  - assert (Bd : (data r <= inv)%Z) by (apply B; now left). unfold min_int. destruct H as [[H1 H2]|(H1 & H2 & H3)].
    + subst acc. rewrite Z.eqb_refl. cbn. destruct (Z.eqb_spec (data r) inv) as [E|E].
      * left. split; [|exact E]. intros v Hv. apply in_app_or in Hv. destruct Hv as [Hv|[<-|[]]]; [auto|]. now apply Z.eqb_eq.
      * right. split; [apply in_or_app; right; now left|]. split; [now apply Z.eqb_neq|]. intros v Hv Vv. apply in_app_or in Hv. destruct Hv as [Hv|[<-|[]]]; [|lia]. rewrite (H1 v Hv) in Vv. discriminate.
    + apply Z.eqb_neq in H2. destruct (Z.eqb_spec acc inv) as [E|E]; [contradiction|]. cbn. rewrite Z.geb_leb. destruct (Z.leb_spec acc (data r)) as [Q|Q]; cbn.
      * right. split; [apply in_or_app; now left|]. split; [now apply Z.eqb_neq|]. intros v Hv Vv. apply in_app_or in Hv. destruct Hv as [Hv|[<-|[]]]; [now apply H3|exact Q].
      * right. split; [apply in_or_app; right; now left|]. split; [apply Z.eqb_neq; lia|]. intros v Hv Vv. apply in_app_or in Hv. destruct Hv as [Hv|[<-|[]]]; [|lia]. specialize (H3 v Hv Vv). lia.
  - assert (Bd : (data r <= inv)%Z) by (apply B; now left). unfold min_int. destruct (_ || _); auto.
Qed.
(** no invalid value in the group *)
Lemma min_fold_valid inv (data : nat -> Z) rows : forall acc seen,
  (forall v, In v (map data rows) -> v <> inv) -> is_min_valid (fun v => Z.eqb v inv) seen inv acc ->
  is_min_valid (fun v => Z.eqb v inv) (seen ++ map data rows) inv (fold_left (fun acc index => min_int inv (data index) acc) rows acc).
Proof.
  induction rows as [|r rows IH]; intros acc seen B H; cbn [fold_left map]; [now rewrite app_nil_r|].
  change (data r :: map data rows) with ([data r] ++ map data rows). rewrite app_assoc. apply IH.
  - intros v Hv. apply B. now right.
  - assert (Bd : data r <> inv) by (apply B; now left). unfold min_int. destruct H as [[H1 H2]|(H1 & H2 & H3)].
    + subst acc. rewrite Z.eqb_refl. cbn. right. split; [apply in_or_app; right; now left|]. split; [now apply Z.eqb_neq|]. intros v Hv Vv. apply in_app_or in Hv. destruct Hv as [Hv|[<-|[]]]; [|lia]. rewrite (H1 v Hv) in Vv. discriminate.
    + apply Z.eqb_neq in H2. destruct (Z.eqb_spec acc inv) as [E|E]; [contradiction|]. cbn. rewrite Z.geb_leb. destruct (Z.leb_spec acc (data r)) as [Q|Q]; cbn.
      * right. split; [apply in_or_app; now left|]. split; [now apply Z.eqb_neq|]. intros v Hv Vv. apply in_app_or in Hv. destruct Hv as [Hv|[<-|[]]]; [now apply H3|exact Q].
      * right. split; [apply in_or_app; right; now left|]. split; [apply Z.eqb_neq; lia|]. intros v Hv Vv. apply in_app_or in Hv. destruct Hv as [Hv|[<-|[]]]; [|lia]. specialize (H3 v Hv Vv). lia.
Qed.

(** ** EMA *)
Section Ema.
Context {V T : Type}.
Variable next : V -> V -> T -> T -> V.
Variable zero : V.
(** the recurrence over one series of (value, time) *)
Fixpoint ema_from (last : V) (lastt : T) (l : list (V * T)) : list V :=
  match l with [] => [] | (v, t) :: r => let e := next v last t lastt in e :: ema_from e t r end.
Definition ema_series (l : list (V * T)) : list V := match l with [] => [] | (_, t) :: _ => ema_from zero t l end.
Lemma ema_run data time rows : forall (m : mem V) last lt, NoDup rows ->
  map (run_prog (last, lt) (concat (map (ema_row next data time) rows)) m) rows = ema_from last lt (map (fun r => (data r, time r)) rows).
Proof using.
  induction rows as [|p rows IH]; intros m last lt N; [reflexivity|]. inversion N as [|? ? N1 N2]; subst.
  cbn [map concat ema_row app run_prog store_to fst snd ema_from]. set (e := next (data p) last (time p) lt).
  assert (P : Forall (inside (fun q => In q rows)) (concat (map (ema_row next data time) rows))).
  { apply Forall_concat, Forall_forall. intros is H. apply in_map_iff in H. destruct H as (q & <- & Hq). unfold ema_row.
    constructor; [exact (inside_const _ (fun l => (next (data q) (fst l) (time q) (snd l), time q)))|constructor; [now apply inside_store|constructor]]. }
  f_equal; [|apply IH; exact N2]. rewrite (run_outside _ _ _ _ p P N1). unfold do_store. cbn. now rewrite Nat.eqb_refl.
Qed.
Lemma ema_thread_eq data time ikey n g : g <= n ->
  ema_thread next zero data time (igroup ikey n) (ifirstgroup ikey n) (ncountgroup ikey n) g =
  ((zero, time (nth (nth g (ifirstgroup ikey n) 0) (igroup ikey n) 0)), concat (map (ema_row next data time) (group_rows ikey g))).
Proof using. intros H. unfold ema_thread. f_equal. f_equal. rewrite <- (group_idx ikey n g H), map_map. reflexivity. Qed.
Lemma ema_regions data time ikey n : disjoint_regions (ema_threads next zero data time ikey n) (fun i p => In p (group_rows ikey (S i))).
Proof using.
  unfold ema_threads. split.
  - intros i t Hi. rewrite nth_error_map in Hi. destruct (nth_error (seq 1 n) i) as [g|] eqn:E; [|discriminate]. cbn [option_map] in Hi. injection Hi as <-.
    assert (Li : i < n) by (rewrite <- (seq_length n 1); apply nth_error_Some; congruence). rewrite (nth_error_nth' _ 0) in E by (now rewrite seq_length). rewrite seq_nth in E by lia. injection E as <-.
    change (1 + i) with (S i) in *.
    rewrite ema_thread_eq by lia. cbn [snd]. apply Forall_concat, Forall_forall. intros is H. apply in_map_iff in H. destruct H as (q & <- & Hq). unfold ema_row.
    constructor; [exact (inside_const _ (fun l => (next (data q) (fst l) (time q) (snd l), time q)))|constructor; [now apply inside_store|constructor]].
  - intros i j p _ _ Hi Hj. apply group_rows_in in Hi, Hj. congruence.
Qed.
Theorem ema_ok data time ikey n (m m2 : mem V) g : par (ema_threads next zero data time ikey n) m m2 -> 1 <= g <= n ->
  map m2 (group_rows ikey g) = ema_series (map (fun r => (data r, time r)) (group_rows ikey g)).
Proof using.
  intros P Hg. destruct (par_regions _ _ _ _ P (ema_regions data time ikey n)) as [H _].
  assert (E : nth_error (ema_threads next zero data time ikey n) (g - 1) = Some (ema_thread next zero data time (igroup ikey n) (ifirstgroup ikey n) (ncountgroup ikey n) g)).
  { unfold ema_threads. rewrite nth_error_map. rewrite (nth_error_nth' _ 0) by (rewrite seq_length; lia). rewrite seq_nth by lia. cbn [option_map]. repeat f_equal; lia. }
  transitivity (ema_from zero (time (nth (nth g (ifirstgroup ikey n) 0) (igroup ikey n) 0)) (map (fun r => (data r, time r)) (group_rows ikey g))).
  - rewrite <- (ema_run data time _ m) by apply group_rows_nodup. apply map_ext_in. intros p Hp. rewrite (H (g - 1) _ p E) by (replace (S (g - 1)) with g by lia; exact Hp).
    rewrite ema_thread_eq by lia. reflexivity.
  - unfold ema_series. destruct (group_rows ikey g) as [|r0 rs] eqn:Er; [reflexivity|]. cbn [map]. repeat f_equal.
    assert (Q := group_idx ikey n g ltac:(lia)). rewrite Er in Q. destruct (nth g (ncountgroup ikey n) 0) eqn:Ec; [discriminate|]. cbn [seq map] in Q. now injection Q.
Qed.
End Ema.
