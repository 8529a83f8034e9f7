(** Proofs about slices, shift, diff and self comparison. *)
From Coq Require Import List Arith Bool ZArith Lia.
From Verif Require Import GroupModel MergeModel MergeFacts DsModel ArrModel ArrSpec.
Import ListNotations.

Lemma nth_error_firstn {A} (l : list A) k i : nth_error (firstn k l) i = if i <? k then nth_error l i else None.
Proof.
  revert k i. induction l as [|x r IH]; intros [|k] [|i]; cbn [firstn nth_error]; try reflexivity.
  - now destruct (S i <? S k).
  - rewrite IH. reflexivity.
Qed.
Lemma nth_error_skip {A} (l : list A) k i : nth_error (skipn k l) i = nth_error l (k + i).
Proof.
  revert k. induction l as [|x r IH]; intros [|k]; cbn; try reflexivity.
  - now destruct i.
  - apply IH.
Qed.
Lemma nth_error_rep {A} (x : A) n i : nth_error (repeat x n) i = if i <? n then Some x else None.
Proof. revert i. induction n as [|n IH]; intros [|i]; cbn; try reflexivity. apply IH. Qed.
Lemma nth_error_ext' {A} (a b : list A) : (forall i, nth_error a i = nth_error b i) -> a = b.
Proof.
  revert b. induction a as [|x r IH]; intros [|y s] H; [reflexivity|specialize (H 0); discriminate|specialize (H 0); discriminate|].
  f_equal; [specialize (H 0); cbn in H; congruence|]. apply IH. intros i. exact (H (S i)).
Qed.
Lemma nth_error_none {A} (l : list A) i : length l <= i -> nth_error l i = None.
Proof. apply nth_error_None. Qed.

Lemma broadcast_same {A} (v : list A) k : length v = k -> broadcast k v = Some v.
Proof. intros E. unfold broadcast. now rewrite (proj2 (Nat.eqb_eq _ _) E). Qed.
Lemma broadcast_one {A} (x : A) k : broadcast k [x] = Some (repeat x k).
Proof. unfold broadcast. cbn. destruct k as [|[|k]]; reflexivity. Qed.

Lemma setslice_ok {A} lo hi (v a : list A) l h w :
  lo_bound (length a) lo = l -> Nat.max l (hi_bound (length a) hi) = h -> h <= length a ->
  broadcast (h - l) v = Some w -> length w = h - l ->
  exists r, setslice lo hi v a = Some r /\ length r = length a /\
    forall i, nth_error r i = if (l <=? i) && (i <? h) then nth_error w (i - l) else nth_error a i.
Proof.
  intros El Eh B W L. unfold setslice. rewrite El, Eh, W. eexists. split; [reflexivity|].
  assert (l <= h) by lia. split.
  - rewrite !app_length, firstn_length, skipn_length. lia.
  - intros i. assert (F : length (firstn l a) = l) by (rewrite firstn_length; lia).
    destruct (Nat.leb_spec l i) as [H1|H1]; cbn [andb].
    + rewrite nth_error_app2 by lia. rewrite F. destruct (Nat.ltb_spec i h) as [H2|H2].
      * rewrite nth_error_app1 by lia. reflexivity.
      * rewrite nth_error_app2 by lia. rewrite nth_error_skip. f_equal. lia.
    + rewrite nth_error_app1 by lia. rewrite nth_error_firstn. destruct (Nat.ltb_spec i l); [reflexivity|lia].
Qed.
Lemma getslice_nth {A} lo hi (a : list A) i :
  nth_error (getslice lo hi a) i =
  if i <? hi_bound (length a) hi - lo_bound (length a) lo then nth_error a (lo_bound (length a) lo + i) else None.
Proof. unfold getslice. now rewrite nth_error_firstn, nth_error_skip. Qed.
Lemma getslice_length {A} lo hi (a : list A) : hi_bound (length a) hi <= length a ->
  length (getslice lo hi a) = hi_bound (length a) hi - lo_bound (length a) lo.
Proof. intros H. unfold getslice. rewrite firstn_length, skipn_length. lia. Qed.
Lemma bound_le n p : py_bound n p <= n.
Proof. unfold py_bound. destruct (p <? 0)%Z eqn:E; [apply Z.ltb_lt in E; lia|lia]. Qed.
Lemma bound_pos n p : (0 <= p <= Z.of_nat n)%Z -> py_bound n p = Z.to_nat p.
Proof. intros H. unfold py_bound. destruct (Z.ltb_spec p 0); lia. Qed.
Lemma bound_over n p : (Z.of_nat n <= p)%Z -> py_bound n p = n.
Proof. intros H. unfold py_bound. destruct (Z.ltb_spec p 0); lia. Qed.
Lemma bound_neg n p : (p < 0)%Z -> py_bound n p = Z.to_nat (Z.of_nat n + p).
Proof. intros H. unfold py_bound. destruct (Z.ltb_spec p 0); lia. Qed.

Lemma bin2_ok {A B} (op : A -> A -> B) a b : length a = length b ->
  exists r, bin2 op a b = Some r /\ length r = length a /\
    forall i, nth_error r i = match nth_error a i, nth_error b i with Some x, Some y => Some (op x y) | _, _ => None end.
Proof.
  intros E. unfold bin2. rewrite (proj2 (Nat.eqb_eq _ _) E). eexists. split; [reflexivity|]. split.
  - rewrite map_length, combine_length. lia.
  - revert b E. induction a as [|x r IH]; intros [|y s] E; try discriminate; intros [|i]; cbn; try reflexivity.
    apply IH. now injection E.
Qed.

Section Arr.
Context {A : Type}.
Variable inv : A.

(** the two views of one array used by all three functions: what was, and [k] places before *)
Lemma before_pos (l : list A) p i : (0 < p)%Z ->
  before l p i = if i <? Z.to_nat p then None else nth_error l (i - Z.to_nat p).
Proof.
  intros P. unfold before. destruct (Nat.ltb_spec i (Z.to_nat p)); destruct (Z.leb_spec 0 (Z.of_nat i - p)); try lia; [reflexivity|].
  f_equal. lia.
Qed.
Lemma before_neg (l : list A) p i : (p < 0)%Z -> before l p i = nth_error l (i + Z.to_nat (- p)).
Proof. intros P. unfold before. destruct (Z.leb_spec 0 (Z.of_nat i - p)); [|lia]. f_equal. lia. Qed.
Lemma before_far (l : list A) p i : i < length l -> (Z.of_nat (length l) <= Z.abs p)%Z -> before l p i = None.
Proof.
  intros L P. unfold before. destruct (Z.leb_spec 0 (Z.of_nat i - p)); [|reflexivity]. apply nth_error_none. lia.
Qed.

Lemma shift_ok junk p (l : list A) : exists r, shift inv junk p l = Some r /\ length r = length l /\
  forall i, i < length l -> nth_error r i = Some (match before l p i with Some x => x | None => inv end).
Proof.
  unfold shift. destruct (Z.eqb_spec p 0) as [->|NZ].
  { exists l. split; [reflexivity|]. split; [reflexivity|]. intros i L. unfold before.
    destruct (Z.leb_spec 0 (Z.of_nat i - 0)); [|lia]. replace (Z.to_nat (Z.of_nat i - 0)) with i by lia.
    destruct (nth_error l i) eqn:E; [reflexivity|]. apply nth_error_None in E. lia. }
  destruct (Z.leb_spec (Z.of_nat (length l)) (Z.abs p)) as [Far|Near].
  { exists (repeat inv (length l)). split; [reflexivity|]. split; [apply repeat_length|]. intros i L.
    rewrite before_far by assumption. rewrite nth_error_rep. destruct (Nat.ltb_spec i (length l)); [reflexivity|lia]. }
  set (n := length l) in *. assert (RL : length (repeat junk n) = n) by apply repeat_length.
  destruct (Z.ltb_spec 0 p) as [P|P].
  - destruct (setslice_ok None (Some p) [inv] (repeat junk n) 0 (Z.to_nat p) (repeat inv (Z.to_nat p))) as (t & Et & Lt & Ht).
    + reflexivity.
    + rewrite RL. cbn [hi_bound]. rewrite bound_pos by lia. lia.
    + lia.
    + rewrite broadcast_one. f_equal. f_equal. lia.
    + rewrite repeat_length. lia.
    + unfold setslice_scalar. rewrite Et. cbn [bind]. rewrite RL in Lt.
      pose proof (getslice_length None (Some (- p)%Z) l (bound_le _ _)) as GL. cbn [hi_bound lo_bound] in GL.
      rewrite bound_neg in GL by lia. fold n in GL.
      destruct (setslice_ok (Some p) None (getslice None (Some (- p)%Z) l) t (Z.to_nat p) n (getslice None (Some (- p)%Z) l)) as (r & Er & Lr & Hr).
      * rewrite Lt. cbn [lo_bound]. rewrite bound_pos by lia. reflexivity.
      * rewrite Lt. cbn [hi_bound]. lia.
      * lia.
      * apply broadcast_same. rewrite GL. lia.
      * rewrite GL. lia.
      * exists r. split; [exact Er|]. split; [lia|]. intros i L. rewrite Hr, before_pos by lia.
        rewrite getslice_nth. cbn [hi_bound lo_bound]. rewrite bound_neg by lia. fold n.
        destruct (Nat.leb_spec (Z.to_nat p) i); destruct (Nat.ltb_spec i n); destruct (Nat.ltb_spec i (Z.to_nat p)); try lia; cbn [andb].
        -- destruct (Nat.ltb_spec (i - Z.to_nat p) (Z.to_nat (Z.of_nat n + - p) - 0)); [|lia]. cbn [Nat.add].
           destruct (nth_error l (i - Z.to_nat p)) eqn:E; [reflexivity|]. apply nth_error_None in E. unfold n in *. lia.
        -- rewrite Ht. cbn [Nat.leb andb]. destruct (Nat.ltb_spec i (Z.to_nat p)); [|lia]. rewrite nth_error_rep.
           destruct (Nat.ltb_spec (i - 0) (Z.to_nat p)); [reflexivity|lia].
  - pose proof (getslice_length (Some (- p)%Z) None l (le_n _)) as GL. cbn [hi_bound lo_bound] in GL.
    rewrite bound_pos in GL by lia. fold n in GL.
    destruct (setslice_ok None (Some p) (getslice (Some (- p)%Z) None l) (repeat junk n) 0 (Z.to_nat (Z.of_nat n + p)) (getslice (Some (- p)%Z) None l)) as (t & Et & Lt & Ht).
    + reflexivity.
    + rewrite RL. cbn [hi_bound]. rewrite bound_neg by lia. lia.
    + lia.
    + apply broadcast_same. lia.
    + lia.
    + rewrite Et. cbn [bind]. rewrite RL in Lt.
      destruct (setslice_ok (Some p) None [inv] t (Z.to_nat (Z.of_nat n + p)) n (repeat inv (Z.to_nat (- p)))) as (r & Er & Lr & Hr).
      * rewrite Lt. cbn [lo_bound]. rewrite bound_neg by lia. reflexivity.
      * rewrite Lt. cbn [hi_bound]. lia.
      * lia.
      * rewrite broadcast_one. f_equal. f_equal. lia.
      * rewrite repeat_length. lia.
      * exists r. split; [exact Er|]. split; [lia|]. intros i L. rewrite Hr, before_neg by lia.
        destruct (Nat.leb_spec (Z.to_nat (Z.of_nat n + p)) i); destruct (Nat.ltb_spec i n); try lia; cbn [andb].
        -- rewrite nth_error_rep. destruct (Nat.ltb_spec (i - Z.to_nat (Z.of_nat n + p)) (Z.to_nat (- p))); [|lia].
           rewrite (nth_error_none l) by (fold n; lia). reflexivity.
        -- rewrite Ht. cbn [Nat.leb andb]. destruct (Nat.ltb_spec i (Z.to_nat (Z.of_nat n + p))); [|lia].
           rewrite getslice_nth. cbn [hi_bound lo_bound]. rewrite bound_pos by lia. fold n.
           destruct (Nat.ltb_spec (i - 0) (n - Z.to_nat (- p))); [|lia]. replace (Z.to_nat (- p) + (i - 0)) with (i + Z.to_nat (- p)) by lia.
           destruct (nth_error l (i + Z.to_nat (- p))) eqn:E; [reflexivity|]. apply nth_error_None in E. fold n in E. lia.
Qed.

Lemma views_pos {B} (op : A -> A -> B) p (l : list A) : (0 < p)%Z ->
  exists r, bin2 op (getslice (Some p) None l) (getslice None (Some (- p)%Z) l) = Some r /\
    length r = length l - Z.to_nat p /\
    forall i, i < length l - Z.to_nat p ->
      nth_error r i = match nth_error l (Z.to_nat p + i), nth_error l i with Some x, Some y => Some (op x y) | _, _ => None end.
Proof.
  intros P. assert (LB : lo_bound (length l) (Some p) = Nat.min (length l) (Z.to_nat p)).
  { cbn [lo_bound]. unfold py_bound. destruct (Z.ltb_spec p 0); lia. }
  assert (HB : hi_bound (length l) (Some (- p)%Z) = length l - Z.to_nat p).
  { cbn [hi_bound]. rewrite bound_neg by lia. lia. }
  pose proof (getslice_length (Some p) None l (le_n _)) as L1. rewrite LB in L1. cbn [hi_bound] in L1.
  assert (L2 : length (getslice None (Some (- p)%Z) l) = length l - Z.to_nat p).
  { rewrite getslice_length; [rewrite HB; cbn [lo_bound]; lia|rewrite HB; lia]. }
  destruct (bin2_ok op (getslice (Some p) None l) (getslice None (Some (- p)%Z) l) ltac:(lia)) as (r & Er & Lr & Hr).
  exists r. split; [exact Er|]. split; [lia|]. intros i L. rewrite Hr, !getslice_nth, LB, HB. cbn [hi_bound lo_bound].
  destruct (Nat.ltb_spec i (length l - Nat.min (length l) (Z.to_nat p))); [|lia].
  destruct (Nat.ltb_spec i (length l - Z.to_nat p - 0)); [|lia]. cbn [Nat.add].
  replace (Nat.min (length l) (Z.to_nat p)) with (Z.to_nat p) by lia. reflexivity.
Qed.
Lemma views_neg {B} (op : A -> A -> B) p (l : list A) : (p < 0)%Z ->
  exists r, bin2 op (getslice None (Some p) l) (getslice (Some (- p)%Z) None l) = Some r /\
    length r = length l - Z.to_nat (- p) /\
    forall i, i < length l - Z.to_nat (- p) ->
      nth_error r i = match nth_error l i, nth_error l (Z.to_nat (- p) + i) with Some x, Some y => Some (op x y) | _, _ => None end.
Proof.
  intros P. assert (LB : lo_bound (length l) (Some (- p)%Z) = Nat.min (length l) (Z.to_nat (- p))).
  { cbn [lo_bound]. unfold py_bound. destruct (Z.ltb_spec (- p) 0); lia. }
  assert (HB : hi_bound (length l) (Some p) = length l - Z.to_nat (- p)).
  { cbn [hi_bound]. rewrite bound_neg by lia. lia. }
  pose proof (getslice_length (Some (- p)%Z) None l (le_n _)) as L1. rewrite LB in L1. cbn [hi_bound] in L1.
  assert (L2 : length (getslice None (Some p) l) = length l - Z.to_nat (- p)).
  { rewrite getslice_length; [rewrite HB; cbn [lo_bound]; lia|rewrite HB; lia]. }
  destruct (bin2_ok op (getslice None (Some p) l) (getslice (Some (- p)%Z) None l) ltac:(lia)) as (r & Er & Lr & Hr).
  exists r. split; [exact Er|]. split; [lia|]. intros i L. rewrite Hr, !getslice_nth, LB, HB. cbn [hi_bound lo_bound].
  destruct (Nat.ltb_spec i (length l - Nat.min (length l) (Z.to_nat (- p)))); [|lia].
  destruct (Nat.ltb_spec i (length l - Z.to_nat (- p) - 0)); [|lia]. cbn [Nat.add].
  replace (Nat.min (length l) (Z.to_nat (- p))) with (Z.to_nat (- p)) by lia. reflexivity.
Qed.

(** the part written with the elementwise result and the part filled with a constant *)
Definition two_parts {B} (op : A -> A -> B) (fill : B) (p : Z) (l : list A) (r : list B) : Prop :=
  length r = length l /\
  forall i x, nth_error l i = Some x ->
    nth_error r i = Some (match before l p i with Some y => op x y | None => fill end).

Lemma fill_then_write_pos {B} (op : A -> A -> B) fill (temp : list B) p (l : list A) : (0 < p)%Z -> length temp = length l ->
  exists r t1 out, bin2 op (getslice (Some p) None l) (getslice None (Some (- p)%Z) l) = Some r /\
    setslice_scalar None (Some p) fill temp = Some t1 /\ setslice (Some p) None r t1 = Some out /\ two_parts op fill p l out.
Proof.
  intros P TL. destruct (views_pos op p l P) as (r & Er & Lr & Hr). exists r.
  destruct (setslice_ok None (Some p) [fill] temp 0 (Nat.min (length l) (Z.to_nat p)) (repeat fill (Nat.min (length l) (Z.to_nat p)))) as (t & Et & Lt & Ht).
  - reflexivity.
  - rewrite TL. cbn [hi_bound]. unfold py_bound. destruct (Z.ltb_spec p 0); lia.
  - lia.
  - rewrite broadcast_one. f_equal. f_equal. lia.
  - rewrite repeat_length. lia.
  - exists t. destruct (setslice_ok (Some p) None r t (Nat.min (length l) (Z.to_nat p)) (length l) r) as (o & Eo & Lo & Ho).
    + rewrite Lt, TL. cbn [lo_bound]. unfold py_bound. destruct (Z.ltb_spec p 0); lia.
    + rewrite Lt, TL. cbn [hi_bound]. lia.
    + lia.
    + apply broadcast_same. lia.
    + lia.
    + exists o. split; [exact Er|]. split; [exact Et|]. split; [exact Eo|]. split; [lia|]. intros i x X.
      assert (i < length l) by (apply nth_error_Some; congruence). rewrite Ho, before_pos by lia.
      destruct (Nat.leb_spec (Nat.min (length l) (Z.to_nat p)) i); destruct (Nat.ltb_spec i (length l)); destruct (Nat.ltb_spec i (Z.to_nat p)); try lia; cbn [andb].
      * rewrite Hr by lia. replace (Z.to_nat p + (i - Nat.min (length l) (Z.to_nat p))) with i by lia. rewrite X.
        replace (i - Nat.min (length l) (Z.to_nat p)) with (i - Z.to_nat p) by lia.
        destruct (nth_error l (i - Z.to_nat p)) eqn:E; [reflexivity|]. apply nth_error_None in E. lia.
      * rewrite Ht. cbn [Nat.leb andb]. destruct (Nat.ltb_spec i (Nat.min (length l) (Z.to_nat p))); [|lia]. rewrite nth_error_rep.
        destruct (Nat.ltb_spec (i - 0) (Nat.min (length l) (Z.to_nat p))); [reflexivity|lia].
Qed.
Lemma fill_then_write_neg {B} (op : A -> A -> B) fill (temp : list B) p (l : list A) : (p < 0)%Z -> length temp = length l ->
  exists r t1 out, bin2 op (getslice None (Some p) l) (getslice (Some (- p)%Z) None l) = Some r /\
    setslice_scalar (Some p) None fill temp = Some t1 /\ setslice None (Some p) r t1 = Some out /\ two_parts op fill p l out.
Proof.
  intros P TL. destruct (views_neg op p l P) as (r & Er & Lr & Hr). exists r. set (k := length l - Z.to_nat (- p)) in *.
  destruct (setslice_ok (Some p) None [fill] temp k (length l) (repeat fill (length l - k))) as (t & Et & Lt & Ht).
  - rewrite TL. cbn [lo_bound]. rewrite bound_neg by lia. unfold k. lia.
  - rewrite TL. cbn [hi_bound]. unfold k. lia.
  - lia.
  - rewrite broadcast_one. reflexivity.
  - apply repeat_length.
  - exists t. destruct (setslice_ok None (Some p) r t 0 k r) as (o & Eo & Lo & Ho).
    + reflexivity.
    + rewrite Lt, TL. cbn [hi_bound]. rewrite bound_neg by lia. unfold k. lia.
    + unfold k. lia.
    + apply broadcast_same. lia.
    + lia.
    + exists o. split; [exact Er|]. split; [exact Et|]. split; [exact Eo|]. split; [lia|]. intros i x X.
      assert (i < length l) by (apply nth_error_Some; congruence). rewrite Ho, before_neg by lia. cbn [Nat.leb andb].
      destruct (Nat.ltb_spec i k).
      * rewrite Hr by lia. replace (i - 0) with i by lia. rewrite X. rewrite (Nat.add_comm (Z.to_nat (- p)) i).
        destruct (nth_error l (i + Z.to_nat (- p))) eqn:E; [reflexivity|]. apply nth_error_None in E. unfold k in *. lia.
      * rewrite Ht. destruct (Nat.leb_spec k i); destruct (Nat.ltb_spec i (length l)); try lia. cbn [andb]. rewrite nth_error_rep.
        destruct (Nat.ltb_spec (i - k) (length l - k)); [|lia]. rewrite nth_error_none by (unfold k in *; lia). reflexivity.
Qed.

Lemma diff_ok sub junk p (l : list A) : p <> 0%Z ->
  exists r, diff inv sub junk p l = Some r /\ two_parts sub inv p l r.
Proof.
  intros NZ. unfold diff. destruct (Z.leb_spec (Z.of_nat (length l)) (Z.abs p)) as [Far|Near].
  - exists (repeat inv (length l)). split; [reflexivity|]. split; [apply repeat_length|]. intros i x X.
    assert (i < length l) by (apply nth_error_Some; congruence). rewrite before_far by assumption.
    rewrite nth_error_rep. destruct (Nat.ltb_spec i (length l)); [reflexivity|lia].
  - assert (RL : length (repeat junk (length l)) = length l) by apply repeat_length.
    destruct (Z.ltb_spec 0 p) as [P|P].
    + destruct (fill_then_write_pos sub inv (repeat junk (length l)) p l P RL) as (r & t & o & E1 & E2 & E3 & H).
      exists o. rewrite E2. cbn [bind]. rewrite E1. cbn [bind]. split; [exact E3|exact H].
    + destruct (fill_then_write_neg sub inv (repeat junk (length l)) p l ltac:(lia) RL) as (r & t & o & E1 & E2 & E3 & H).
      exists o. rewrite E2. cbn [bind]. rewrite E1. cbn [bind]. split; [exact E3|exact H].
Qed.
Lemma diff_zero sub junk (l : list A) : diff inv sub junk 0 l = (if 2 <=? length l then None else Some (repeat inv (length l))).
Proof.
  unfold diff. destruct l as [|x [|y r]]; [reflexivity| |].
  - reflexivity.
  - cbn [length]. cbn [Z.abs]. destruct (Z.leb_spec (Z.of_nat (S (S (length r)))) 0); [lia|]. cbn [Z.ltb Z.compare].
    unfold setslice_scalar, setslice. cbn [lo_bound hi_bound py_bound Z.ltb Z.compare]. rewrite broadcast_one. cbn [bind].
    unfold getslice, bin2. cbn [lo_bound hi_bound]. cbn. reflexivity.
Qed.

(** writing the comparison first and the constant afterwards *)
Lemma compare_ok cmp (junk : bool) p (l : list A) : p <> 0%Z ->
  exists r, self_compare cmp junk p l = Some r /\ two_parts cmp false p l r.
Proof.
  intros NZ. unfold self_compare. destruct (Z.eqb_spec p 0); [contradiction|].
  assert (RL : length (repeat junk (length l)) = length l) by apply repeat_length. set (temp := repeat junk (length l)) in *.
  destruct (Z.ltb_spec 0 p) as [P|P].
  - destruct (views_pos cmp p l P) as (r & Er & Lr & Hr). rewrite Er. cbn [bind].
    destruct (setslice_ok (Some p) None r temp (Nat.min (length l) (Z.to_nat p)) (length l) r) as (t & Et & Lt & Ht).
    + rewrite RL. cbn [lo_bound]. unfold py_bound. destruct (Z.ltb_spec p 0); lia.
    + rewrite RL. cbn [hi_bound]. lia.
    + lia.
    + apply broadcast_same. lia.
    + lia.
    + rewrite Et. cbn [bind].
      destruct (setslice_ok None (Some p) [false] t 0 (Nat.min (length l) (Z.to_nat p)) (repeat false (Nat.min (length l) (Z.to_nat p)))) as (o & Eo & Lo & Ho).
      * reflexivity.
      * rewrite Lt, RL. cbn [hi_bound]. unfold py_bound. destruct (Z.ltb_spec p 0); lia.
      * lia.
      * rewrite broadcast_one. f_equal. f_equal. lia.
      * rewrite repeat_length. lia.
      * exists o. split; [exact Eo|]. split; [lia|]. intros i x X.
        assert (i < length l) by (apply nth_error_Some; congruence). rewrite Ho, before_pos by lia. cbn [Nat.leb andb].
        destruct (Nat.ltb_spec i (Nat.min (length l) (Z.to_nat p))); destruct (Nat.ltb_spec i (Z.to_nat p)); try lia.
        -- rewrite nth_error_rep. destruct (Nat.ltb_spec (i - 0) (Nat.min (length l) (Z.to_nat p))); [reflexivity|lia].
        -- rewrite Ht. destruct (Nat.leb_spec (Nat.min (length l) (Z.to_nat p)) i); destruct (Nat.ltb_spec i (length l)); try lia. cbn [andb].
           rewrite Hr by lia. replace (Z.to_nat p + (i - Nat.min (length l) (Z.to_nat p))) with i by lia. rewrite X.
           replace (i - Nat.min (length l) (Z.to_nat p)) with (i - Z.to_nat p) by lia.
           destruct (nth_error l (i - Z.to_nat p)) eqn:E; [reflexivity|]. apply nth_error_None in E. lia.
  - destruct (views_neg cmp p l ltac:(lia)) as (r & Er & Lr & Hr). rewrite Er. cbn [bind]. set (k := length l - Z.to_nat (- p)) in *.
    destruct (setslice_ok None (Some p) r temp 0 k r) as (t & Et & Lt & Ht).
    + reflexivity.
    + rewrite RL. cbn [hi_bound]. rewrite bound_neg by lia. unfold k. lia.
    + unfold k. lia.
    + apply broadcast_same. lia.
    + lia.
    + rewrite Et. cbn [bind].
      destruct (setslice_ok (Some p) None [false] t k (length l) (repeat false (length l - k))) as (o & Eo & Lo & Ho).
      * rewrite Lt, RL. cbn [lo_bound]. rewrite bound_neg by lia. unfold k. lia.
      * rewrite Lt, RL. cbn [hi_bound]. unfold k. lia.
      * lia.
      * apply broadcast_one.
      * apply repeat_length.
      * exists o. split; [exact Eo|]. split; [lia|]. intros i x X.
        assert (i < length l) by (apply nth_error_Some; congruence). rewrite Ho, before_neg by lia.
        destruct (Nat.leb_spec k i); destruct (Nat.ltb_spec i (length l)); try lia; cbn [andb].
        -- rewrite nth_error_rep. destruct (Nat.ltb_spec (i - k) (length l - k)); [|lia]. rewrite nth_error_none by (unfold k in *; lia). reflexivity.
        -- rewrite Ht. cbn [Nat.leb andb]. destruct (Nat.ltb_spec i k); [|lia]. rewrite Hr by lia. replace (i - 0) with i by lia. rewrite X.
           rewrite (Nat.add_comm (Z.to_nat (- p)) i).
           destruct (nth_error l (i + Z.to_nat (- p))) eqn:E; [reflexivity|]. apply nth_error_None in E. unfold k in *. lia.
Qed.
End Arr.
