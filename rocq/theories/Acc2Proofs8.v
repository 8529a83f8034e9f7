From Coq Require Import List Arith Bool ZArith Permutation Lia.
From Verif Require Import FlattenModel DsModel GroupingModel GroupingSpec AggModel AggSpec AggProofs AggProofs2 AggProofs3 AggProofs4 Acc2Model Acc2Spec Acc2Proofs Acc2Proofs2 Acc2Proofs3 Acc2Proofs4 Acc2Proofs5 Acc2Proofs6.
Import ListNotations.

Section A.
Context {V : Type}.
Variable inv : V.
Lemma order_id (vlt : V -> V -> Prop) lexsort (s : bool) (t : table) n : (forall x y, vlt x y -> vlt y x -> False) -> lexsort_ok inv vlt lexsort -> key_table inv t n ->
  s = false \/ in_key_order inv vlt t n -> order lexsort s t n = seq 0 n.
Proof.
  intros AS LS KT H. pose proof (order_ok inv vlt lexsort LS s t n KT) as O. destruct s; [|exact O].
  destruct H as [H|H]; [discriminate|]. exact (in_order_id inv vlt AS t n _ KT H O).
Qed.
Variables (rk ck : list nat) (f1 f2 : option (list bool)) (x : list V) (sf : bool).
Variable CO : complete rk ck f1 f2 sf.
Lemma complete_row i : (sf = true \/ 0 < i) -> select inv rk ck f1 f2 x (fun p => fst p =? i) = select inv rk ck f1 f2 x (in_row sf i).
Proof.
  intros H. unfold select. f_equal. apply filter_ext_in. intros r Hr. apply in_seq in Hr. unfold in_row, shown. destruct sf; cbn [orb andb]; [reflexivity|].
  destruct H as [H|H]; [discriminate|]. unfold complete in CO. specialize (CO r). unfold place. destruct (passes f1 r && passes f2 r); cbn [fst snd].
  - destruct CO as [C1 C2]; [lia|reflexivity|]. apply Nat.eqb_neq in C1, C2. now rewrite C1, C2.
  - destruct i; [lia|reflexivity].
Qed.
Lemma complete_col j : (sf = true \/ 0 < j) -> select inv rk ck f1 f2 x (fun p => snd p =? j) = select inv rk ck f1 f2 x (in_col sf j).
Proof.
  intros H. unfold select. f_equal. apply filter_ext_in. intros r Hr. apply in_seq in Hr. unfold in_col, shown. destruct sf; cbn [orb andb]; [reflexivity|].
  destruct H as [H|H]; [discriminate|]. unfold complete in CO. specialize (CO r). unfold place. destruct (passes f1 r && passes f2 r); cbn [fst snd].
  - destruct CO as [C1 C2]; [lia|reflexivity|]. apply Nat.eqb_neq in C1, C2. now rewrite C1, C2.
  - destruct j; [lia|reflexivity].
Qed.
Lemma complete_all (g : option (list bool)) : (forall r, r < length rk -> passes g r = passes f1 r && passes f2 r) ->
  map (fun r => nth r x inv) (filter (passes g) (seq 0 (length rk))) = select inv rk ck f1 f2 x (shown sf).
Proof.
  intros G. unfold select. f_equal. apply filter_ext_in. intros r Hr. apply in_seq in Hr. rewrite G by lia. unfold shown. unfold complete in CO. unfold place.
  destruct sf; cbn [orb]; specialize (CO r); [apply CO; lia|]. destruct (passes f1 r && passes f2 r); cbn [fst snd]; [|reflexivity].
  destruct CO as [C1 C2]; [lia|reflexivity|]. apply Nat.eqb_neq in C1, C2. now rewrite C1, C2.
Qed.
End A.
