(** Proofs about how TimeSpans are shown. *)
From Coq Require Import List ZArith Bool Lia.
From Verif Require Import TdSpec TdModel.
Import ListNotations.
Local Open Scope Z_scope.

Lemma rne_bounds a b : 0 < b -> 2 * a - b <= 2 * b * rne a b <= 2 * a + b.
Proof.
  intros B. unfold rne. pose proof (Z.div_mod a b ltac:(lia)) as E. pose proof (Z.mod_pos_bound a b B) as R.
  set (q := a / b) in *. set (r := a mod b) in *. clearbody q r. subst a.
  destruct (Z.ltb_spec (2 * r) b); [nia|]. destruct (Z.ltb_spec b (2 * r)); [nia|]. destruct (Z.even q); nia.
Qed.
Lemma rne_ge a b c : 0 < b -> b * c <= a -> c <= rne a b.
Proof.
  intros B H. assert (c <= a / b) by (apply Z.div_le_lower_bound; lia). unfold rne.
  destruct (2 * (a mod b) <? b); [lia|]. destruct (b <? 2 * (a mod b)); [lia|]. destruct (Z.even (a / b)); lia.
Qed.
Lemma floor_ok n s : 0 <= n -> 0 <= s -> (exists j, 0 <= j <= 9 /\ (2 ^ j | n) /\ 29 <= s + j) ->
  rne (n * 2 ^ s) NANOS_PER_SECOND / 2 ^ s = n / NANOS_PER_SECOND.
Proof.
  intros N S (j & J & D & SJ). unfold NANOS_PER_SECOND. set (B := 1000000000). assert (PB : 0 < B) by (unfold B; lia).
  pose proof (Z.pow_pos_nonneg 2 s ltac:(lia) S) as Ps. pose proof (Z.pow_pos_nonneg 2 j ltac:(lia) (proj1 J)) as Pj.
  set (k := n / B). pose proof (Z.div_mod n B ltac:(lia)) as E. pose proof (Z.mod_pos_bound n B PB) as R. fold k in E.
  assert (G : n + 2 ^ j <= B * (k + 1)).
  { assert (DB : (2 ^ j | B * (k + 1))).
    { apply Z.divide_mul_l. assert (H9 : (2 ^ j | 2 ^ 9)) by (exists (2 ^ (9 - j)); rewrite <- Z.pow_add_r by lia; f_equal; lia).
      apply (Z.divide_trans _ _ _ H9). exists 1953125. reflexivity. }
    assert (DD : (2 ^ j | B * (k + 1) - n)) by (apply Z.divide_sub_r; assumption).
    assert (0 < B * (k + 1) - n) by lia. pose proof (Z.divide_pos_le _ _ H DD). lia. }
  assert (L : k * 2 ^ s <= rne (n * 2 ^ s) B) by (apply rne_ge; [exact PB|nia]).
  pose proof (rne_bounds (n * 2 ^ s) B PB) as [_ U]. set (m := rne (n * 2 ^ s) B) in *. clearbody m.
  assert (Q : 2 ^ 29 <= 2 ^ j * 2 ^ s) by (rewrite <- Z.pow_add_r by lia; apply Z.pow_le_mono_r; lia).
  change (2 ^ 29) with 536870912 in Q. assert (UB : B * m < B * ((k + 1) * 2 ^ s)).
  { assert (n * 2 ^ s + 2 ^ j * 2 ^ s <= B * (k + 1) * 2 ^ s) by nia. unfold B in *. lia. }
  assert (m < (k + 1) * 2 ^ s) by nia. symmetry. apply (Z.div_unique _ _ _ (m - k * 2 ^ s)); [left; lia|lia].
Qed.
Lemma gmtime_ok n : 0 <= n -> exact n -> gmtime_seconds n = n / NANOS_PER_SECOND.
Proof.
  intros N (j & J & D & U). unfold gmtime_seconds. cbv zeta. assert (L : Z.log2 n <= 52 + j).
  { destruct (Z.eq_dec n 0) as [->|]; [change (Z.log2 0) with 0; lia|]. assert (Z.log2 n < 53 + j); [|lia]. apply Z.log2_lt_pow2; lia. }
  apply floor_ok; [exact N| |exists j; repeat split; try lia; try assumption]; destruct (_ <=? _); lia.
Qed.
Lemma div_mod_days n : 0 <= n -> let t := n / 1000000000 in
  ((n / 86400000000000 * 24 + t / 3600 mod 24) * 60 + t / 60 mod 60) * 60 * 1000000000 + t mod 60 * 1000000000 + n mod 1000000000 = n.
Proof. intros N t. unfold t. Z.div_mod_to_equations. lia. Qed.
