(** C09 (grouped kernels), C16-C19, C72: filling, running extremes and grouped numba kernels. *)
From Coq Require Import List Arith Bool ZArith Lia.
From Verif Require Import Sched Threads ThreadsFacts GroupModel GroupFacts FillModel FillSpec FillProofs FillProofs2.
Import ListNotations.

(** ** C16 *)
Theorem C16_fill_forward : forall (V : Type) (isinv : V -> bool) (inv : V) (a : list V) (fill_val : option V) (limit : nat),
  exists r, fill_forward isinv inv a fill_val (Some (Z.of_nat limit)) = Some r /\
    filled_forward isinv limit (match fill_val with Some v => v | None => inv end) a r.
Proof.
  intros V isinv inv a fv limit. destruct (fill_forward_ok isinv inv a fv limit) as [H1 H2].
  destruct (fill_forward isinv inv a fv (Some (Z.of_nat limit))) as [r|]; [|congruence]. exists r. auto.
Qed.
Print Assumptions C16_fill_forward.
Theorem C16_fill_backward : forall (V : Type) (isinv : V -> bool) (inv : V) (a : list V) (fill_val : option V) (limit : nat),
  exists r, fill_backward isinv inv a fill_val (Some (Z.of_nat limit)) = Some r /\
    filled_backward isinv limit (match fill_val with Some v => v | None => inv end) a r.
Proof.
  intros V isinv inv a fv limit. destruct (fill_backward_ok isinv inv a fv limit) as [H1 H2].
  destruct (fill_backward isinv inv a fv (Some (Z.of_nat limit))) as [r|]; [|congruence]. exists r. auto.
Qed.
Print Assumptions C16_fill_backward.
(** no limit given means limit 0; a negative limit is refused *)
Theorem C16_limit_argument : forall (V : Type) (isinv : V -> bool) (inv : V) (a : list V) (fill_val : option V),
  fill_forward isinv inv a fill_val None = fill_forward isinv inv a fill_val (Some 0%Z) /\
  fill_backward isinv inv a fill_val None = fill_backward isinv inv a fill_val (Some 0%Z) /\
  forall z, (z < 0)%Z -> fill_forward isinv inv a fill_val (Some z) = None /\ fill_backward isinv inv a fill_val (Some z) = None.
Proof.
  intros V isinv inv a fv. split; [reflexivity|]. split; [reflexivity|]. intros z Hz. unfold fill_forward, fill_backward, fill_with. destruct (Z.ltb_spec z 0); [auto|lia].
Qed.
Print Assumptions C16_limit_argument.

(** ** C17: [rows of group g] in row order are [group_rows ikey g]; [ret0] is the uninitialised result *)
Theorem C17_grouped_fill_forward : forall (V : Type) (isinv : V -> bool) (limit : nat) (data : mem V) (fill_val : V) (ikey : list nat) (n : nat) (ret0 ret : mem V) (g : nat),
  par (gfill_threads isinv limit true (Some data) fill_val ikey n) ret0 ret -> 1 <= g <= n ->
  filled_forward isinv limit fill_val (map data (group_rows ikey g)) (map ret (group_rows ikey g)).
Proof. intros V isinv limit data fv ikey n m m2 g. exact (gfill_forward_ok isinv limit (Some data) fv ikey n m m2 g). Qed.
Print Assumptions C17_grouped_fill_forward.
Theorem C17_grouped_fill_backward : forall (V : Type) (isinv : V -> bool) (limit : nat) (data : mem V) (fill_val : V) (ikey : list nat) (n : nat) (ret0 ret : mem V) (g : nat),
  par (gfill_threads isinv limit false (Some data) fill_val ikey n) ret0 ret -> 1 <= g <= n ->
  filled_backward isinv limit fill_val (map data (group_rows ikey g)) (map ret (group_rows ikey g)).
Proof. intros V isinv limit data fv ikey n m m2 g. exact (gfill_backward_ok isinv limit (Some data) fv ikey n m m2 g). Qed.
Print Assumptions C17_grouped_fill_backward.
(** in place: the same, and rows in no group keep their value *)
Theorem C17_grouped_fill_inplace : forall (V : Type) (isinv : V -> bool) (limit : nat) (fwd : bool) (fill_val : V) (ikey : list nat) (n : nat) (data ret : mem V),
  par (gfill_threads isinv limit fwd None fill_val ikey n) data ret ->
  (forall g, 1 <= g <= n -> (if fwd then @filled_forward V else @filled_backward V) isinv limit fill_val (map data (group_rows ikey g)) (map ret (group_rows ikey g))) /\
  (forall row, (forall g, 1 <= g <= n -> nth_error ikey row <> Some g) -> ret row = data row).
Proof.
  intros V isinv limit fwd fv ikey n m m2 P. split.
  - intros g Hg. destruct fwd; [exact (gfill_forward_ok isinv limit None fv ikey n m m2 g P Hg)|exact (gfill_backward_ok isinv limit None fv ikey n m m2 g P Hg)].
  - intros row H. exact (gfill_rest isinv limit fwd None fv ikey n m m2 row P H).
Qed.
Print Assumptions C17_grouped_fill_inplace.
(** Not in place, a row in no group (a filtered row) keeps whatever the uninitialised result array
    contained: the result is not determined by the inputs. *)
Theorem C17_filtered_rows_determined_refuted : exists (ikey : list nat) (data ret0 ret0' ret ret' : mem (option Z)),
  par (gfill_threads isnan 0 true (Some data) None ikey 1) ret0 ret /\ par (gfill_threads isnan 0 true (Some data) None ikey 1) ret0' ret' /\ ret 1 <> ret' 1.
Proof.
  exists [1; 0], (fun _ => Some 5%Z), (fun _ => Some 1%Z), (fun _ => Some 2%Z).
  destruct (par_exists (gfill_threads isnan 0 true (Some (fun _ => Some 5%Z)) None [1; 0] 1) (fun _ => Some 1%Z)) as (r & P & E).
  destruct (par_exists (gfill_threads isnan 0 true (Some (fun _ => Some 5%Z)) None [1; 0] 1) (fun _ => Some 2%Z)) as (r' & P' & E').
  exists r, r'. split; [exact P|]. split; [exact P'|]. rewrite E, E'. vm_compute. discriminate.
Qed.
Print Assumptions C17_filtered_rows_determined_refuted.

(** ** C18 *)
Theorem C18_cummin_cummax_int : forall (inv : Z) (a : list Z),
  running_extreme (fun v => Z.eqb v inv) (fun z y => (z < y)%Z) a (cummin_int inv true a) /\
  running_extreme (fun v => Z.eqb v inv) (fun z y => (z > y)%Z) a (cummax_int inv true a).
Proof.
  intros inv a. assert (G : Forall (fun _ : Z => True) a) by (apply Forall_forall; auto). split.
  - destruct (cum_skip_ok (fun v => Z.eqb v inv) Z.ltb (fun _ => True) Z.ltb_irrefl) with (a := a) as [L H]; [intros; rewrite ?Z.ltb_lt, ?Z.ltb_ge in *; lia|exact G|].
    split; [exact L|]. intros i x Hx. destruct (H i x Hx) as [H1 H2]. split; [exact H1|]. intros Q. destruct (H2 Q) as (k & y & A & B & C & D & E).
    exists k, y. repeat split; auto. intros k' z Hk Hz Vz Q'. apply (E k' z Hk Hz Vz). now apply Z.ltb_lt.
  - destruct (cum_skip_ok (fun v => Z.eqb v inv) Z.gtb (fun _ => True)) with (a := a) as [L H]; [intros x; rewrite Z.gtb_ltb; apply Z.ltb_irrefl|intros; rewrite ?Z.gtb_ltb, ?Z.ltb_lt, ?Z.ltb_ge in *; lia|exact G|].
    split; [exact L|]. intros i x Hx. destruct (H i x Hx) as [H1 H2]. split; [exact H1|]. intros Q. destruct (H2 Q) as (k & y & A & B & C & D & E).
    exists k, y. repeat split; auto. intros k' z Hk Hz Vz Q'. apply (E k' z Hk Hz Vz). rewrite Z.gtb_ltb. apply Z.ltb_lt. lia.
Qed.
Print Assumptions C18_cummin_cummax_int.
Theorem C18_cummin_cummax_float : forall (a : list (option Z)),
  running_extreme isnan (fun z y => exists u v, z = Some u /\ y = Some v /\ (u < v)%Z) a (cummin_float true a) /\
  running_extreme isnan (fun z y => exists u v, z = Some u /\ y = Some v /\ (u > v)%Z) a (cummax_float true a).
Proof.
  intros a. assert (G : Forall (fun _ : option Z => True) a) by (apply Forall_forall; auto). split.
  - destruct (cum_skip_ok isnan (fcmp Z.ltb) (fun _ => True)) with (a := a) as [L H];
      [intros [x|]; [apply Z.ltb_irrefl|reflexivity]|intros [x|] [y|] [z|]; cbn; intros; try discriminate; rewrite ?Z.ltb_lt, ?Z.ltb_ge in *; lia|exact G|].
    split; [exact L|]. intros i x Hx. destruct (H i x Hx) as [H1 H2]. split; [exact H1|]. intros Q. destruct (H2 Q) as (k & y & A & B & C & D & E).
    exists k, y. repeat split; auto. intros k' z Hk Hz Vz (u & v & -> & -> & Q'). apply (E k' _ Hk Hz Vz). cbn. now apply Z.ltb_lt.
  - destruct (cum_skip_ok isnan (fcmp Z.gtb) (fun _ => True)) with (a := a) as [L H];
      [intros [x|]; [cbn; rewrite Z.gtb_ltb; apply Z.ltb_irrefl|reflexivity]|intros [x|] [y|] [z|]; cbn; intros; try discriminate; rewrite ?Z.gtb_ltb, ?Z.ltb_lt, ?Z.ltb_ge in *; lia|exact G|].
    split; [exact L|]. intros i x Hx. destruct (H i x Hx) as [H1 H2]. split; [exact H1|]. intros Q. destruct (H2 Q) as (k & y & A & B & C & D & E).
    exists k, y. repeat split; auto. intros k' z Hk Hz Vz (u & v & -> & -> & Q'). apply (E k' _ Hk Hz Vz). cbn. rewrite Z.gtb_ltb. apply Z.ltb_lt. lia.
Qed.
Print Assumptions C18_cummin_cummax_float.
(** skipna=False: floats, minimum of signed integers (the invalid value is the least one), maximum
    of unsigned integers (it is the greatest one) *)
Theorem C18_skipna_false_partial :
  (forall a : list (option Z),
    running_extreme_strict isnan (fun z y => exists u v, z = Some u /\ y = Some v /\ (u < v)%Z) a (cummin_float false a) /\
    running_extreme_strict isnan (fun z y => exists u v, z = Some u /\ y = Some v /\ (u > v)%Z) a (cummax_float false a)) /\
  (forall (inv : Z) (a : list Z), (forall v, In v a -> (inv <= v)%Z) ->
    running_extreme_strict (fun v => Z.eqb v inv) (fun z y => (z < y)%Z) a (cummin_int inv false a)) /\
  (forall (inv : Z) (a : list Z), (forall v, In v a -> (v <= inv)%Z) ->
    running_extreme_strict (fun v => Z.eqb v inv) (fun z y => (z > y)%Z) a (cummax_int inv false a)).
Proof.
  split; [|split].
  - intros a. assert (G : Forall (fun _ : option Z => True) a) by (apply Forall_forall; auto). split.
    + destruct (cum_all_ok isnan (fcmp Z.ltb) (fun _ => True)) with (a := a) as [L H];
        [intros [x|]; [apply Z.ltb_irrefl|reflexivity]|intros [x|] [y|] [z|]; cbn; intros; try discriminate; rewrite ?Z.ltb_lt, ?Z.ltb_ge in *; lia|intros [x|] [y|]; cbn; auto; discriminate|exact G|].
      split; [exact L|]. intros i v Hv. destruct (H i v Hv) as [H1 H2]. split; [exact H1|]. intros Q. destruct (H2 Q) as [A B]. split; [exact A|].
      intros k z Hk Hz (u & w & -> & -> & Q'). apply (B k _ Hk Hz). cbn. now apply Z.ltb_lt.
    + destruct (cum_all_ok isnan (fcmp Z.gtb) (fun _ => True)) with (a := a) as [L H];
        [intros [x|]; [cbn; rewrite Z.gtb_ltb; apply Z.ltb_irrefl|reflexivity]|intros [x|] [y|] [z|]; cbn; intros; try discriminate; rewrite ?Z.gtb_ltb, ?Z.ltb_lt, ?Z.ltb_ge in *; lia|intros [x|] [y|]; cbn; auto; discriminate|exact G|].
      split; [exact L|]. intros i v Hv. destruct (H i v Hv) as [H1 H2]. split; [exact H1|]. intros Q. destruct (H2 Q) as [A B]. split; [exact A|].
      intros k z Hk Hz (u & w & -> & -> & Q'). apply (B k _ Hk Hz). cbn. rewrite Z.gtb_ltb. apply Z.ltb_lt. lia.
  - intros inv a Ha. assert (G : Forall (fun v => (inv <= v)%Z) a) by (now apply Forall_forall).
    destruct (cum_all_ok (fun v => Z.eqb v inv) Z.ltb (fun v => (inv <= v)%Z) Z.ltb_irrefl) with (a := a) as [L H];
      [intros; rewrite ?Z.ltb_lt, ?Z.ltb_ge in *; lia|intros x y Hx Hy _ E; apply Z.eqb_eq in E; apply Z.ltb_ge; lia|exact G|].
    split; [exact L|]. intros i v Hv. destruct (H i v Hv) as [H1 H2]. split; [exact H1|]. intros Q. destruct (H2 Q) as [A B]. split; [exact A|].
    intros k z Hk Hz Q'. apply (B k _ Hk Hz). now apply Z.ltb_lt.
  - intros inv a Ha. assert (G : Forall (fun v => (v <= inv)%Z) a) by (now apply Forall_forall).
    destruct (cum_all_ok (fun v => Z.eqb v inv) Z.gtb (fun v => (v <= inv)%Z)) with (a := a) as [L H];
      [intros x; rewrite Z.gtb_ltb; apply Z.ltb_irrefl|intros; rewrite ?Z.gtb_ltb, ?Z.ltb_lt, ?Z.ltb_ge in *; lia|intros x y Hx Hy _ E; apply Z.eqb_eq in E; rewrite Z.gtb_ltb; apply Z.ltb_ge; lia|exact G|].
    split; [exact L|]. intros i v Hv. destruct (H i v Hv) as [H1 H2]. split; [exact H1|]. intros Q. destruct (H2 Q) as [A B]. split; [exact A|].
    intros k z Hk Hz Q'. apply (B k _ Hk Hz). rewrite Z.gtb_ltb. apply Z.ltb_lt. lia.
Qed.
Print Assumptions C18_skipna_false_partial.
(** but cummax(skipna=False) of int8 [1, inv, 2] is [1, inv, 2], and cummin of uint8 [2, inv, 1] is [2, inv, 1] *)
Theorem C18_skipna_false_refuted :
  (exists a, (forall v, In v a -> (-128 <= v)%Z) /\ ~ running_extreme_strict (fun v => Z.eqb v (-128)) (fun z y => (z > y)%Z) a (cummax_int (-128) false a)) /\
  (exists a, (forall v, In v a -> (v <= 255)%Z) /\ ~ running_extreme_strict (fun v => Z.eqb v 255) (fun z y => (z < y)%Z) a (cummin_int 255 false a)).
Proof.
  split.
  - exists [1; -128; 2]%Z. split; [intros v [<-|[<-|[<-|[]]]]; lia|]. intros [_ H]. destruct (H 2 2%Z eq_refl) as [H1 _].
    assert (Q : Z.eqb 2 (-128) = true) by (apply H1; exists 1, (-128)%Z; repeat split; auto). discriminate.
  - exists [2; 255; 1]%Z. split; [intros v [<-|[<-|[<-|[]]]]; lia|]. intros [_ H]. destruct (H 2 1%Z eq_refl) as [H1 _].
    assert (Q : Z.eqb 1 255 = true) by (apply H1; exists 1, 255%Z; repeat split; auto). discriminate.
Qed.
Print Assumptions C18_skipna_false_refuted.

(** ** C19: [ret0] uninitialised; bins 0..n, bin 0 being the filtered rows *)
Theorem C19_work_split : forall cores rows, 0 < cores ->
  length (build_core_list cores rows) = cores /\
  (forall bin, bin < rows -> exists i lo hi, nth_error (build_core_list cores rows) i = Some (lo, hi) /\ lo <= bin < hi) /\
  (forall bin i j lo hi lo' hi', nth_error (build_core_list cores rows) i = Some (lo, hi) -> nth_error (build_core_list cores rows) j = Some (lo', hi') ->
     lo <= bin < hi -> lo' <= bin < hi' -> i = j) /\
  (forall i lo hi, nth_error (build_core_list cores rows) i = Some (lo, hi) -> hi <= rows /\ rows / cores <= hi - lo <= S (rows / cores)).
Proof.
  intros cores rows H. split; [apply (core_split cores rows H)|]. split; [intros; now apply band_in|]. split.
  - intros bin i j lo hi lo' hi' Hi Hj B B'. destruct (Nat.lt_trichotomy i j) as [L|[L|L]]; [exfalso|exact L|exfalso].
    + assert (Q := band_mono cores rows i j lo hi lo' hi' H L Hi Hj). lia.
    + assert (Q := band_mono cores rows j i lo' hi' lo hi H L Hj Hi). lia.
  - intros i lo hi Hi. destruct (core_split cores rows H) as [_ B]. destruct (B i lo hi Hi) as (B1 & _ & _ & B2 & _). split; [lia|exact B2].
Qed.
Print Assumptions C19_work_split.
Theorem C19_grouped_sum : forall (ncores : nat) (ikey : list nat) (n : nat) (data ret0 ret : mem Z) (g : nat), 0 < ncores -> g <= n ->
  par (nb_reduce 0%Z sum_int ncores ikey n data) ret0 ret ->
  let s := fold_right Z.add 0%Z (map data (group_rows ikey g)) in
  ret g = wrap64 s /\ ((- 2 ^ 63 <= s < 2 ^ 63)%Z -> ret g = s).
Proof.
  intros ncores ikey n data m m2 g H Hg P s. unfold nb_reduce in P. assert (E := reduce_ok 0%Z sum_int (Nat.min ncores (S n)) (S n) ikey data m m2 g ltac:(lia) ltac:(lia) P).
  assert (W : m2 g = wrap64 s).
  { rewrite E. change 0%Z with (wrap64 0) at 1. rewrite sum_fold. reflexivity. }
  split; [exact W|]. intros B. rewrite W. now apply wrap64_id.
Qed.
Print Assumptions C19_grouped_sum.
(** the sum does not skip invalid integers: int8 column [1, inv], one group *)
Theorem C19_sum_of_valid_refuted : exists (ikey : list nat) (data ret0 ret : mem Z),
  par (nb_reduce 0%Z sum_int 12 ikey 1 data) ret0 ret /\ map data (group_rows ikey 1) = [1; -128]%Z /\ ret 1 = (-127)%Z.
Proof.
  exists [1; 1], (fun i => nth i [1; -128]%Z 0%Z), (fun _ => 7%Z).
  destruct (par_exists (nb_reduce 0%Z sum_int 12 [1; 1] 1 (fun i => nth i [1; -128]%Z 0%Z)) (fun _ => 7%Z)) as (r & P & E).
  exists r. split; [exact P|]. split; [vm_compute; reflexivity|]. rewrite E. vm_compute. reflexivity.
Qed.
Print Assumptions C19_sum_of_valid_refuted.
(** minimum: unsigned integers always, any integers when the column has no invalid value *)
Theorem C19_grouped_min_partial : forall (inv : Z) (ncores : nat) (ikey : list nat) (n : nat) (data ret0 ret : mem Z) (g : nat), 0 < ncores -> g <= n ->
  par (nb_reduce inv (min_int inv) ncores ikey n data) ret0 ret ->
  let vals := map data (group_rows ikey g) in
  (forall v, In v vals -> (v <= inv)%Z) \/ (forall v, In v vals -> v <> inv) ->
  ((forall v, In v vals -> v = inv) /\ ret g = inv) \/
  (In (ret g) vals /\ ret g <> inv /\ forall v, In v vals -> v <> inv -> (ret g <= v)%Z).
Proof.
  intros inv ncores ikey n data m m2 g H Hg P vals C. unfold nb_reduce in P. assert (E := reduce_ok inv (min_int inv) (Nat.min ncores (S n)) (S n) ikey data m m2 g ltac:(lia) ltac:(lia) P).
  assert (I : is_min_valid (fun v => Z.eqb v inv) [] inv inv) by (left; split; [intros v []|reflexivity]).
  assert (R : is_min_valid (fun v => Z.eqb v inv) vals inv (m2 g)).
  { rewrite E. destruct C as [C|C]; [exact (min_fold inv data _ inv [] C I (Z.le_refl _))|exact (min_fold_valid inv data _ inv [] C I)]. }
  destruct R as [[R1 R2]|(R1 & R2 & R3)]; [left|right].
  - split; [|exact R2]. intros v Hv. apply Z.eqb_eq. now apply R1.
  - split; [exact R1|]. split; [now apply Z.eqb_neq|]. intros v Hv Nv. apply R3; [exact Hv|now apply Z.eqb_neq].
Qed.
Print Assumptions C19_grouped_min_partial.
(** signed integers and floats with an invalid value in the middle: the minimum of [5, invalid, 7] is 7 *)
Theorem C19_min_refuted :
  (exists (ikey : list nat) (data ret0 ret : mem Z), par (nb_reduce (-128)%Z (min_int (-128)) 12 ikey 1 data) ret0 ret /\
     map data (group_rows ikey 1) = [5; -128; 7]%Z /\ ret 1 = 7%Z) /\
  (exists (ikey : list nat) (data ret0 ret : mem (option Z)), par (nb_reduce None min_float 12 ikey 1 data) ret0 ret /\
     map data (group_rows ikey 1) = [Some 5; None; Some 7]%Z /\ ret 1 = Some 7%Z).
Proof.
  split.
  - exists [1; 1; 1], (fun i => nth i [5; -128; 7]%Z 0%Z), (fun _ => 0%Z).
    destruct (par_exists (nb_reduce (-128)%Z (min_int (-128)) 12 [1; 1; 1] 1 (fun i => nth i [5; -128; 7]%Z 0%Z)) (fun _ => 0%Z)) as (r & P & E).
    exists r. split; [exact P|]. split; [vm_compute; reflexivity|]. rewrite E. vm_compute. reflexivity.
  - exists [1; 1; 1], (fun i => nth i [Some 5; None; Some 7]%Z None), (fun _ => None).
    destruct (par_exists (nb_reduce None min_float 12 [1; 1; 1] 1 (fun i => nth i [Some 5; None; Some 7]%Z None)) (fun _ => None)) as (r & P & E).
    exists r. split; [exact P|]. split; [vm_compute; reflexivity|]. rewrite E. vm_compute. reflexivity.
Qed.
Print Assumptions C19_min_refuted.

(** ** C72: the grouped EMA is the EMA of each group's own rows *)
Theorem C72_grouped_ema : forall (V T : Type) (next : V -> V -> T -> T -> V) (zero : V) (data : mem V) (time : nat -> T) (ikey : list nat) (n : nat) (ret0 ret : mem V) (g : nat),
  par (ema_threads next zero data time ikey n) ret0 ret -> 1 <= g <= n ->
  map ret (group_rows ikey g) = ema_series next zero (map (fun row => (data row, time row)) (group_rows ikey g)).
Proof. intros V T next zero data time ikey n m m2 g. exact (ema_ok next zero data time ikey n m m2 g). Qed.
Print Assumptions C72_grouped_ema.

(** ** C09: the outcome does not depend on the schedule *)
Theorem C09_grouped_kernels_deterministic :
  (forall (V : Type) (isinv : V -> bool) limit fwd data fill_val ikey n (m m1 m2 : mem V),
     par (gfill_threads isinv limit fwd data fill_val ikey n) m m1 -> par (gfill_threads isinv limit fwd data fill_val ikey n) m m2 -> forall p, m1 p = m2 p) /\
  (forall (V : Type) (init : V) comb ncores ikey n data (m m1 m2 : mem V), 0 < ncores ->
     par (nb_reduce init comb ncores ikey n data) m m1 -> par (nb_reduce init comb ncores ikey n data) m m2 -> forall p, m1 p = m2 p) /\
  (forall (V T : Type) (next : V -> V -> T -> T -> V) zero data time ikey n (m m1 m2 : mem V),
     par (ema_threads next zero data time ikey n) m m1 -> par (ema_threads next zero data time ikey n) m m2 -> forall p, m1 p = m2 p).
Proof.
  split; [|split].
  - intros V isinv limit fwd data fv ikey n m m1 m2 P1 P2. apply (par_deterministic _ _ _ _ _ P1 P2 (gfill_regions isinv limit fwd data fv ikey n)).
    intros i p. destruct (in_dec Nat.eq_dec p (group_rows ikey (S i))); tauto.
  - intros V init comb ncores ikey n data m m1 m2 H P1 P2. unfold nb_reduce in *.
    apply (par_deterministic _ _ _ _ _ P1 P2 (red_regions init comb (Nat.min ncores (S n)) (S n) ikey data ltac:(lia))).
    intros i p. destruct (nth_error (build_core_list (Nat.min ncores (S n)) (S n)) i) as [[lo hi]|] eqn:E.
    + destruct (le_dec lo p), (lt_dec p hi); [left; exists lo, hi; auto| | |]; right; intros (lo' & hi' & [= <- <-] & Q); lia.
    + right. intros (lo' & hi' & Q & _). discriminate.
  - intros V T next zero data time ikey n m m1 m2 P1 P2. apply (par_deterministic _ _ _ _ _ P1 P2 (ema_regions next zero data time ikey n)).
    intros i p. destruct (in_dec Nat.eq_dec p (group_rows ikey (S i))); tauto.
Qed.
Print Assumptions C09_grouped_kernels_deterministic.

(** ** concrete cases *)
Definition fa : list (option Z) := [None; Some 1; None; None; None; Some 5; None]%Z.
Example C16_case : fill_forward isnan None fa (Some (Some 9%Z)) (Some 2%Z) = Some [Some 9; Some 1; Some 1; Some 1; None; Some 5; Some 5]%Z /\
  fill_backward isnan None fa None None = Some [Some 1; Some 1; Some 5; Some 5; Some 5; Some 5; None]%Z.
Proof. split; vm_compute; reflexivity. Qed.
Example C17_case : exists ret, par (gfill_threads isnan 1 true (Some (fun i => nth i fa None)) (Some 9%Z) [1; 2; 2; 1; 2; 0; 1] 2) (fun _ => Some 77%Z) ret /\
  map ret (group_rows [1; 2; 2; 1; 2; 0; 1] 2) = [Some 1; Some 1; None]%Z /\ map ret (group_rows [1; 2; 2; 1; 2; 0; 1] 1) = [Some 9; None; None]%Z.
Proof.
  destruct (par_exists (gfill_threads isnan 1 true (Some (fun i => nth i fa None)) (Some 9%Z) [1; 2; 2; 1; 2; 0; 1] 2) (fun _ => Some 77%Z)) as (r & P & E).
  exists r. split; [exact P|]. rewrite E. split; vm_compute; reflexivity.
Qed.
Example C18_case : cummin_int (-128) true [-128; 4; 7; -128; 2; 3]%Z = [-128; 4; 4; 4; 2; 2]%Z /\ cummax_float true [None; Some 4; None; Some 7; Some 2]%Z = [None; Some 4; Some 4; Some 7; Some 7]%Z /\
  cummin_int (-128) false [5; 4; -128; 3]%Z = [5; 4; -128; -128]%Z.
Proof. repeat split; vm_compute; reflexivity. Qed.
Example C19_case : build_core_list 4 10 = [(0, 3); (3, 6); (6, 8); (8, 10)] /\
  exists ret, par (nb_reduce 0%Z sum_int 2 [1; 2; 0; 1; 3] 3 (fun i => nth i [10; 20; 30; 40; 50]%Z 0%Z)) (fun _ => 99%Z) ret /\ map ret [0; 1; 2; 3] = [30; 50; 20; 50]%Z.
Proof.
  split; [vm_compute; reflexivity|].
  destruct (par_exists (nb_reduce 0%Z sum_int 2 [1; 2; 0; 1; 3] 3 (fun i => nth i [10; 20; 30; 40; 50]%Z 0%Z)) (fun _ => 99%Z)) as (r & P & E).
  exists r. split; [exact P|]. rewrite E. vm_compute. reflexivity.
Qed.
Example C72_case : exists ret, par (ema_threads (fun v e t t' => v + e * (t - t'))%Z 0%Z (fun i => nth i [1; 2; 3; 4]%Z 0%Z) (fun i => nth i [0; 1; 3; 4]%Z 0%Z) [1; 2; 1; 1] 2) (fun _ => 99%Z) ret /\
  map ret [0; 1; 2; 3] = [1; 2; 6; 10]%Z.
Proof.
  destruct (par_exists (ema_threads (fun v e t t' => v + e * (t - t'))%Z 0%Z (fun i => nth i [1; 2; 3; 4]%Z 0%Z) (fun i => nth i [0; 1; 3; 4]%Z 0%Z) [1; 2; 1; 1] 2) (fun _ => 99%Z)) as (r & P & E).
  exists r. split; [exact P|]. rewrite E. vm_compute. reflexivity.
Qed.
