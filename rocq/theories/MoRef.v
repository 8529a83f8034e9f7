(** Executable stand-ins for argsort and alignmk meeting their contracts, used in the concrete cases. *)
From Coq Require Import List Arith ZArith Bool Lia Permutation Sorted.
From Verif Require Import AsofSpec MoSpec MoModel MoProofs3 MergeColsModel MergeColsProofs2.
Import ListNotations.
Local Open Scope list_scope.
Local Open Scope nat_scope.

Section Sort.
Variable l : list Z.
Notation v i := (nth i l 0%Z).
(** insert [i], larger than all indices present, after its equals *)
Fixpoint put (i : nat) (p : list nat) : list nat :=
  match p with [] => [i] | j :: r => if (v i <? v j)%Z then i :: p else j :: put i r end.
Fixpoint sort_upto (n : nat) : list nat := match n with 0 => [] | Datatypes.S n => put n (sort_upto n) end.
Definition before (i j : nat) : Prop := (v i < v j)%Z \/ (v i = v j /\ i < j).
Lemma put_perm i p : Permutation (put i p) (i :: p).
Proof. induction p as [|j r IH]; [apply Permutation_refl|]. cbn [put]. destruct (_ <? _)%Z; [apply Permutation_refl|]. rewrite IH. apply perm_swap. Qed.
Lemma put_sorted i p : StronglySorted before p -> (forall j, In j p -> j < i) -> StronglySorted before (put i p).
Proof.
  induction p as [|j r IH]; intros S B; [repeat constructor|]. inversion S as [|? ? S1 S2]; subst. cbn [put]. destruct (Z.ltb_spec (v i) (v j)) as [T|T].
  - constructor; [exact S|]. constructor; [now left|]. rewrite Forall_forall in S2 |- *. intros k Hk. specialize (S2 k Hk). left. unfold before in S2. lia.
  - constructor; [apply IH; [exact S1|intros k Hk; apply B; now right]|]. rewrite Forall_forall in S2 |- *. intros k Hk.
    apply (Permutation_in _ (put_perm i r)) in Hk. destruct Hk as [<-|Hk]; [|now apply S2]. unfold before. assert (j < i) by (apply B; now left). lia.
Qed.
Lemma upto_perm n : Permutation (sort_upto n) (seq 0 n).
Proof. induction n as [|n IH]; [apply Permutation_refl|]. cbn [sort_upto]. rewrite put_perm, IH, seq_S. apply Permutation_cons_append. Qed.
Lemma upto_sorted n : StronglySorted before (sort_upto n).
Proof. induction n as [|n IH]; [constructor|]. apply put_sorted; [exact IH|]. intros j H. apply (Permutation_in _ (upto_perm n)) in H. apply in_seq in H. lia. Qed.
Lemma strongly_nth p : StronglySorted before p -> forall a b i j, a < b -> nth_error p a = Some i -> nth_error p b = Some j -> before i j.
Proof.
  induction p as [|x r IH]; intros S a b i j H H1 H2; [destruct a; discriminate|]. inversion S as [|? ? S1 S2]; subst. destruct b as [|b]; [lia|]. cbn [nth_error] in H2. destruct a as [|a].
  - injection H1 as <-. rewrite Forall_forall in S2. apply S2. now apply nth_error_In in H2.
  - cbn [nth_error] in H1. apply (IH S1 a b); [lia|assumption|assumption].
Qed.
End Sort.
Definition argsort_ref (l : list Z) : list nat := sort_upto l (List.length l).
Lemma argsort_ref_ok l : stable_order l (argsort_ref l).
Proof. split; [apply upto_perm|]. intros a b i j H H1 H2. exact (strongly_nth l _ (upto_sorted l _) a b i j H H1 H2). Qed.

Section Align.
Context {V : Type}.
Variable veqb : V -> V -> bool.
Hypothesis veqb_eq : forall a b, veqb a b = true <-> a = b.
Definition has_key (rby : list (list V)) (k : list V) (j : nat) : bool := match nth_error rby j with Some k' => tuple_eqb veqb k' k | None => false end.
Definition leb_of (exact : bool) (a b : Z) : bool := if exact then (a <=? b)%Z else (a <? b)%Z.
Definition align_ref (fwd exact : bool) (lby rby : list (list V)) (lon ron : list Z) : list (option nat) :=
  map (fun q : Z * list V =>
         let rows := seq 0 (List.length ron) in
         if fwd then find (fun j => has_key rby (snd q) j && leb_of exact (fst q) (nth j ron 0%Z)) rows
         else find (fun j => has_key rby (snd q) j && leb_of exact (nth j ron 0%Z) (fst q)) (rev rows)) (combine lon lby).
Lemma has_key_iff rby k j : has_key rby k j = true <-> nth_error rby j = Some k.
Proof using veqb_eq. unfold has_key. destruct (nth_error rby j) as [k'|]; [rewrite tuple_eqb_eq by exact veqb_eq; split; congruence|split; discriminate]. Qed.
Lemma leb_of_iff exact a b : leb_of exact a b = true <-> if exact then (a <= b)%Z else (a < b)%Z.
Proof. destruct exact; [apply Z.leb_le|apply Z.ltb_lt]. Qed.
Lemma find_split {X} (f : X -> bool) t x : find f t = Some x -> exists t1 t2, t = t1 ++ x :: t2 /\ f x = true /\ forall y, In y t1 -> f y = false.
Proof.
  induction t as [|y t IH]; [discriminate|]. cbn [find]. destruct (f y) eqn:E.
  - intros [= ->]. exists [], t. split; [reflexivity|]. split; [exact E|]. intros y [].
  - intros H. destruct (IH H) as (t1 & t2 & -> & A & B). exists (y :: t1), t2. split; [reflexivity|]. split; [exact A|]. intros z [<-|Hz]; auto.
Qed.
Lemma seq_split n t1 x t2 : seq 0 n = t1 ++ x :: t2 -> x < n /\ (forall y, In y t1 <-> y < x) /\ (forall y, In y t2 <-> x < y < n).
Proof.
  intros E. assert (L1 : List.length t1 = x).
  { assert (Q : nth_error (seq 0 n) (List.length t1) = Some x) by (rewrite E, nth_error_app2, Nat.sub_diag by lia; reflexivity). apply nth_error_seq0 in Q. lia. }
  assert (L : n = List.length t1 + Datatypes.S (List.length t2)) by (rewrite <- (seq_length n 0), E, app_length; reflexivity).
  assert (S : seq 0 n = seq 0 (List.length t1) ++ x :: seq (Datatypes.S x) (List.length t2)).
  { rewrite L, seq_app. cbn [seq Nat.add]. rewrite L1. reflexivity. }
  rewrite S in E. assert (T : seq 0 (List.length t1) = t1 /\ x :: seq (Datatypes.S x) (List.length t2) = x :: t2).
  { clear - E. assert (LL : List.length (seq 0 (List.length t1)) = List.length t1) by apply seq_length. revert E LL. generalize (seq 0 (List.length t1)). intros u. revert t1. induction u as [|a u IH]; intros [|b t1] E LL; try discriminate; [auto|].
    injection E as <- E. injection LL as LL. destruct (IH t1 E LL) as [-> ->]. auto. }
  destruct T as [T1 T2]. injection T2 as T2. split; [lia|]. rewrite <- T1, <- T2. split; intros y; rewrite in_seq, ?seq_length; lia.
Qed.
Lemma align_ref_ok : align_ok align_ref.
Proof using veqb_eq.
  intros fwd exact lby rby lon ron SL SR E1 E2. split; [unfold align_ref; rewrite map_length, combine_length; lia|].
  intros i x k r Hx Hk Hr. unfold align_ref in Hr. rewrite nth_error_map in Hr.
  assert (C : nth_error (combine lon lby) i = Some (x, k)).
  { clear - Hx Hk. revert lon lby Hx Hk. induction i as [|i IH]; intros [|a lon] [|b lby] Hx Hk; try discriminate; cbn in *; [congruence|now apply IH]. }
  rewrite C in Hr. cbn [option_map fst snd] in Hr. injection Hr as Hr.
  assert (V1 : forall j z, nth_error ron j = Some z -> j < List.length ron /\ nth j ron 0%Z = z) by (intros j z H; split; [apply nth_error_Some; congruence|now apply nth_error_nth]).
  destruct fwd.
  - destruct r as [j|]; cbn [forward_match].
    + apply find_split in Hr. destruct Hr as (t1 & t2 & Q & F & B). apply seq_split in Q. destruct Q as (J & Q1 & Q2). apply andb_true_iff in F. destruct F as [F1 F2].
      apply has_key_iff in F1. apply leb_of_iff in F2. exists (nth j ron 0%Z). split; [|exact I]. split; [exact F1|]. split; [now apply nth_error_nth'|]. split; [exact F2|].
      intros q z Cq Hq Lt P. assert (W := B q (proj2 (Q1 q) Lt)). apply V1 in Hq. destruct Hq as [_ Hq]. apply andb_false_iff in W. destruct W as [W|W].
      * apply has_key_iff in Cq. congruence. * apply not_true_iff_false in W. apply W. rewrite leb_of_iff, Hq. exact P.
    + left. intros q z Cq Hq P. apply V1 in Hq. destruct Hq as [Hq1 Hq]. apply find_none with (x := q) in Hr; [|apply in_seq; lia]. apply andb_false_iff in Hr. destruct Hr as [W|W].
      * apply has_key_iff in Cq. congruence. * apply not_true_iff_false in W. apply W. rewrite leb_of_iff, Hq. exact P.
  - destruct r as [j|]; cbn [backward_match].
    + apply find_split in Hr. destruct Hr as (t1 & t2 & Q & F & B). apply (f_equal (@rev nat)) in Q. rewrite rev_involutive, rev_app_distr in Q. cbn [rev] in Q. rewrite <- app_assoc in Q. cbn [app] in Q.
      apply seq_split in Q. destruct Q as (J & Q1 & Q2). apply andb_true_iff in F. destruct F as [F1 F2].
      apply has_key_iff in F1. apply leb_of_iff in F2. exists (nth j ron 0%Z). split; [|exact I]. split; [exact F1|]. split; [now apply nth_error_nth'|]. split; [exact F2|].
      intros q z Cq Hq Lt P. apply V1 in Hq. destruct Hq as [Hq1 Hq]. assert (W := B q (proj2 (in_rev _ _) (proj2 (Q2 q) (conj Lt Hq1)))). apply andb_false_iff in W. destruct W as [W|W].
      * apply has_key_iff in Cq. congruence. * apply not_true_iff_false in W. apply W. rewrite leb_of_iff, Hq. exact P.
    + left. intros q z Cq Hq P. apply V1 in Hq. destruct Hq as [Hq1 Hq]. apply find_none with (x := q) in Hr; [|apply in_rev; rewrite rev_involutive; apply in_seq; lia]. apply andb_false_iff in Hr. destruct Hr as [W|W].
      * apply has_key_iff in Cq. congruence. * apply not_true_iff_false in W. apply W. rewrite leb_of_iff, Hq. exact P.
Qed.
End Align.
