(** Proofs about nunique and bitcount. *)
From Coq Require Import List ZArith Bool Lia.
From Verif Require Import NuModel.
Import ListNotations.
Local Open Scope Z_scope.

Lemma insert_in x l e : In e (insert x l) <-> e = x \/ In e l.
Proof.
  induction l as [|y r IH]; cbn; [intuition|].
  destruct (elem_eq_dec x y) as [->|]; [cbn; intuition|].
  destruct (ltb x y); cbn; [intuition|]. rewrite IH. intuition.
Qed.
Lemma unique_in l e : In e (unique l) <-> In e l.
Proof. induction l as [|x l IH]; cbn; [reflexivity|]. rewrite insert_in, IH. intuition. Qed.

(** sorted without repetitions *)
Fixpoint asc (l : list elem) : Prop :=
  match l with [] => True | x :: r => (forall y, In y r -> ltb x y = true) /\ asc r end.
Definition same_kind (a b : elem) : Prop := match a, b with Text _, Text _ => True | Text _, _ | _, Text _ => False | _, _ => True end.

Lemma text_irrefl a : text_ltb a a = false.
Proof. induction a as [|x a IH]; cbn; [reflexivity|]. rewrite Z.ltb_irrefl, Z.eqb_refl, IH. reflexivity. Qed.
Lemma text_trans : forall a b c, text_ltb a b = true -> text_ltb b c = true -> text_ltb a c = true.
Proof.
  induction a as [|x a IH]; intros [|y b] [|z c]; cbn; try discriminate; auto.
  rewrite !orb_true_iff, !andb_true_iff, !Z.ltb_lt, !Z.eqb_eq. intros [H|[-> H]] [K|[-> K]]; try (left; lia). right. split; [reflexivity|]. now apply IH with b.
Qed.
Lemma text_total : forall a b, a <> b -> text_ltb a b = false -> text_ltb b a = true.
Proof.
  induction a as [|x a IH]; intros [|y b]; cbn; try discriminate; try congruence.
  intros N H. apply orb_false_iff in H. destruct H as [H K]. apply Z.ltb_ge in H. destruct (Z.eq_dec x y) as [->|D].
  - rewrite Z.eqb_refl in K. cbn in K. rewrite Z.ltb_irrefl, Z.eqb_refl. cbn. apply IH; congruence.
  - apply orb_true_iff. left. apply Z.ltb_lt. lia.
Qed.
Lemma ltb_irrefl a : ltb a a = false.
Proof. destruct a; cbn; [apply Z.ltb_irrefl|reflexivity|apply text_irrefl]. Qed.
Lemma ltb_trans a b c : ltb a b = true -> ltb b c = true -> ltb a c = true.
Proof. destruct a, b, c; cbn; try discriminate; auto; [rewrite !Z.ltb_lt; lia|apply text_trans]. Qed.
Lemma ltb_total a b : same_kind a b -> a <> b -> ltb a b = false -> ltb b a = true.
Proof.
  destruct a, b; cbn; try tauto; try congruence; intros _ N H.
  - apply Z.ltb_ge in H. apply Z.ltb_lt. assert (z <> z0) by congruence. lia.
  - apply text_total; congruence.
Qed.

Lemma insert_asc x l : asc l -> (forall y, In y l -> same_kind x y) -> asc (insert x l).
Proof.
  induction l as [|y r IH]; cbn; [auto|]. intros [A B] K. destruct (elem_eq_dec x y) as [->|N]; [cbn; auto|].
  destruct (ltb x y) eqn:L; cbn.
  - split; [|auto]. intros z [<-|J]; [exact L|]. apply ltb_trans with y; auto.
  - split; [|apply IH; auto]. intros z J. apply insert_in in J. destruct J as [->|J]; [|auto]. apply ltb_total; auto.
Qed.
Lemma dtype_kind dt a b : of_dtype dt a -> of_dtype dt b -> same_kind a b.
Proof. destruct dt, a, b; cbn; tauto. Qed.
Lemma unique_asc dt l : Forall (of_dtype dt) l -> asc (unique l).
Proof.
  induction 1 as [|x l H F IH]; cbn; [exact I|]. apply insert_asc; [exact IH|]. intros y J. apply (dtype_kind dt); [exact H|].
  rewrite unique_in in J. rewrite Forall_forall in F. auto.
Qed.
Lemma asc_nodup l : asc l -> NoDup l.
Proof. induction l as [|x r IH]; cbn; intros H; constructor; [|tauto]. intros J. destruct H as [H _]. pose proof (H x J). rewrite ltb_irrefl in *. discriminate. Qed.

Lemma last_in {X} (l : list X) d : l <> [] -> In (last l d) l.
Proof. induction l as [|x [|y r] IH]; [congruence|now left|]. intros _. right. apply IH. discriminate. Qed.
Lemma removelast_nodup {X} (l : list X) d : l <> [] -> NoDup l -> NoDup (removelast l) /\ (forall e, In e (removelast l) <-> In e l /\ e <> last l d) /\ length l = S (length (removelast l)).
Proof.
  intros N D. pose proof (app_removelast_last d N) as E. set (z := last l d) in *. set (r := removelast l) in *.
  rewrite E in D. assert (~ In z r /\ NoDup r) as [A B].
  { apply NoDup_remove in D. rewrite app_nil_r in D. tauto. }
  split; [exact B|]. split.
  - intros e. rewrite E, in_app_iff. cbn. split; [intros J; split; [now left|]; intros ->; tauto|]. intros [[J|[<-|[]]] K]; [exact J|congruence].
  - rewrite E, app_length. cbn. lia.
Qed.
Lemma asc_last l d z : asc l -> In z l -> (forall y, In y l -> y <> z -> ltb y z = true) -> last l d = z.
Proof.
  induction l as [|x [|y r] IH]; [intros _ []|intros _ [->|[]] _; reflexivity|]. intros [A B] J M. change (last (x :: y :: r) d) with (last (y :: r) d).
  apply IH; [exact B| |intros; apply M; [now right|assumption]].
  destruct J as [<-|J]; [|exact J]. exfalso. assert (N : y <> x). { intros ->. pose proof (A x (or_introl eq_refl)) as K. rewrite ltb_irrefl in K. discriminate. }
  pose proof (M y (or_intror (or_introl eq_refl)) N) as K. pose proof (A y (or_introl eq_refl)) as K'. pose proof (ltb_trans _ _ _ K K') as Q. rewrite ltb_irrefl in Q. discriminate.
Qed.

Section Count.
Variable l : list elem.
Variable dt : dtype.
Hypothesis F : Forall (of_dtype dt) l.
Lemma in_dt e : In e (unique l) -> of_dtype dt e.
Proof. rewrite unique_in. rewrite Forall_forall in F. apply F. Qed.
(** the invalid first *)
Lemma count_first z x r : unique l = x :: r -> (forall y, of_dtype dt y -> y <> z -> ltb z y = true) ->
  counts_distinct (fun e => e <> z) l (if elem_eq_dec x z then Z.of_nat (length (unique l)) - 1 else Z.of_nat (length (unique l))).
Proof.
  intros E M. pose proof (unique_asc dt l F) as A. pose proof (asc_nodup _ A) as N. destruct (elem_eq_dec x z) as [->|D].
  - exists r. rewrite E in N. inversion_clear N as [|? ? N1 N2]. split; [exact N2|]. split.
    + intros e. rewrite <- (unique_in l), E. cbn. split; [intros J; split; [now right|intros ->; tauto]|]. intros [[<-|J] K]; [congruence|exact J].
    + rewrite E. cbn [length]. lia.
  - exists (unique l). split; [exact N|]. split; [|reflexivity]. intros e. rewrite unique_in. split; [|tauto]. intros J. split; [exact J|]. intros ->.
    pose proof (M x (in_dt x ltac:(rewrite E; now left)) D) as K. rewrite <- unique_in, E in J. destruct J as [J|J]; [congruence|].
    rewrite E in A. destruct A as [A _]. pose proof (ltb_trans _ _ _ K (A z J)) as Q. rewrite ltb_irrefl in Q. discriminate.
Qed.
(** the invalid last *)
Lemma count_last z d : unique l <> [] -> (forall y, of_dtype dt y -> y <> z -> ltb y z = true) ->
  counts_distinct (fun e => e <> z) l (if elem_eq_dec (last (unique l) d) z then Z.of_nat (length (unique l)) - 1 else Z.of_nat (length (unique l))).
Proof.
  intros E M. pose proof (unique_asc dt l F) as A. pose proof (asc_nodup _ A) as N. destruct (elem_eq_dec (last (unique l) d) z) as [D|D].
  - destruct (removelast_nodup _ d E N) as (N2 & I2 & L2). exists (removelast (unique l)). split; [exact N2|]. rewrite D in I2. split; [|lia].
    intros e. rewrite I2, unique_in. reflexivity.
  - exists (unique l). split; [exact N|]. split; [|reflexivity]. intros e. rewrite unique_in. split; [|tauto]. intros J. split; [exact J|]. intros ->. apply D.
    apply asc_last; [exact A|now apply unique_in|]. intros y Y Ny. apply M; [now apply in_dt|exact Ny].
Qed.
End Count.

Lemma py_eq_dec a b : b <> NaN -> py_eq a b = if elem_eq_dec a b then true else false.
Proof. destruct a, b; intros N; try reflexivity; try congruence. Qed.
Lemma py_eq_self a : negb (py_eq a a) = if elem_eq_dec a NaN then true else false.
Proof. destruct a as [z| |t]; [| reflexivity |]; unfold py_eq; match goal with |- context [elem_eq_dec ?x ?x] => destruct (elem_eq_dec x x) as [Q|Q]; [reflexivity|congruence] end. Qed.

Lemma if_if {A B : Prop} {X} (d : {A} + {B}) (x y : X) : (if if d then true else false then x else y) = if d then x else y.
Proof. now destruct d. Qed.
Lemma counts_empty P : counts_distinct P [] 0.
Proof. exists []. split; [constructor|]. split; [cbn; tauto|reflexivity]. Qed.
Lemma counts_ext (P Q : elem -> Prop) l n : (forall e, In e l -> P e <-> Q e) -> counts_distinct P l n -> counts_distinct Q l n.
Proof. intros E (vs & A & B & C). exists vs. split; [exact A|]. split; [|exact C]. intros e. rewrite B. split; intros [H K]; split; auto; now apply E. Qed.
Lemma unique_nil l : unique l = [] -> l = [].
Proof. destruct l as [|x l]; [auto|]. intros H. pose proof (proj2 (unique_in (x :: l) x) (or_introl eq_refl)) as J. rewrite H in J. destruct J. Qed.

Theorem nunique_inv dt l : Forall (of_dtype dt) l -> counts_distinct (fun e => e <> invalid_of dt) l (nunique dt l).
Proof.
  intros F. unfold nunique. destruct (unique l) as [|x r] eqn:E; [apply unique_nil in E as ->; apply counts_empty|]. rewrite <- E.
  assert (N : unique l <> []) by congruence.
  destruct dt; cbn [invalid_of]; rewrite ?py_eq_self, ?py_eq_dec by discriminate; rewrite if_if.
  - apply (count_first l _ F (Num 0) x r E). intros [z| |]; cbn; try tauto. intros [-> | ->] K; [congruence|reflexivity].
  - apply (count_first l _ F (Num (- 2 ^ (bits - 1))) x r E). intros [z| |]; cbn; try tauto. intros Hz K. apply Z.ltb_lt. assert (z <> - 2 ^ (bits - 1)) by congruence. lia.
  - apply (count_last l _ F (Num (2 ^ bits - 1)) x N). intros [z| |]; cbn; try tauto. intros Hz K. apply Z.ltb_lt. assert (z <> 2 ^ bits - 1) by congruence. lia.
  - apply (count_last l _ F NaN x N). intros [z| |]; cbn; try tauto; congruence.
  - apply (count_first l _ F (Text []) x r E). intros [z| |[|c t]]; cbn; try tauto; congruence.
Qed.
Theorem nunique_ok dt l : dt <> TBool -> Forall (of_dtype dt) l -> counts_distinct (fun e => ~ missing dt e) l (nunique dt l).
Proof.
  intros D F. apply (counts_ext (fun e => e <> invalid_of dt)); [|now apply nunique_inv]. intros e _. destruct dt; cbn; try tauto; congruence.
Qed.
Lemma counts_unique P l n m : counts_distinct P l n -> counts_distinct P l m -> n = m.
Proof.
  intros (a & A & B & ->) (b & A' & B' & ->). f_equal.
  apply Nat.le_antisymm; (apply NoDup_incl_length; [assumption|]); intros e J; [apply B', B|apply B, B']; exact J.
Qed.

(** ** bitcount *)
Lemma bits_step w a : bits_set (S w) a = ((if Z.odd a then 1 else 0) + bits_set w (Z.div2 a))%nat.
Proof.
  unfold bits_set. cbn [seq filter]. replace (Z.testbit a (Z.of_nat 0)) with (Z.odd a) by (symmetry; apply Z.bit0_odd).
  assert (E : forall k n, length (filter (fun i => Z.testbit a (Z.of_nat i)) (seq (S k) n)) = length (filter (fun i => Z.testbit (Z.div2 a) (Z.of_nat i)) (seq k n))).
  { intros k n. revert k. induction n as [|n IH]; intros k; [reflexivity|]. cbn [seq filter]. rewrite Z.div2_spec, Z.shiftr_spec by lia.
    replace (Z.of_nat k + 1) with (Z.of_nat (S k)) by lia. destruct (Z.testbit a (Z.of_nat (S k))); cbn [length]; rewrite IH, ?Z.div2_spec; reflexivity. }
  destruct (Z.odd a); cbn [length]; rewrite E; reflexivity.
Qed.
Lemma bits_zero w : bits_set w 0 = 0%nat.
Proof. induction w as [|w IH]; [reflexivity|]. rewrite bits_step. exact IH. Qed.
Lemma count_rev (l : list bool) : length (filter (fun d => d) (rev l)) = length (filter (fun d => d) l).
Proof. induction l as [|x l IH]; [reflexivity|]. cbn. rewrite filter_app, app_length, IH. destruct x; cbn; lia. Qed.
Lemma bits_pos : forall p w, Zpos p < 2 ^ Z.of_nat w -> bits_set w (Zpos p) = length (filter (fun d => d) (digits p)).
Proof.
  induction p as [p IH|p IH|]; intros [|w] H; try (cbn in H; lia).
  - rewrite bits_step. cbn [Z.odd Z.div2 Pos.div2 digits filter length]. rewrite IH; [reflexivity|]. rewrite Nat2Z.inj_succ, Z.pow_succ_r in H by lia. lia.
  - rewrite bits_step. cbn [Z.odd Z.div2 Pos.div2 digits filter length]. rewrite IH; [reflexivity|]. rewrite Nat2Z.inj_succ, Z.pow_succ_r in H by lia. lia.
  - rewrite bits_step. cbn [Z.odd Z.div2 digits filter length]. rewrite bits_zero. reflexivity.
Qed.
Theorem bitcount_ok a w : 0 <= a < 2 ^ Z.of_nat w -> bitcount_scalar a = bits_set w a.
Proof. intros [H K]. unfold bitcount_scalar. destruct a as [|p|p]; [now rewrite bits_zero| |lia]. cbn [bin snd]. rewrite count_rev. symmetry. now apply bits_pos. Qed.
Theorem bitcount_neg p : bitcount_scalar (Zneg p) = bitcount_scalar (Zpos p).
Proof. reflexivity. Qed.
