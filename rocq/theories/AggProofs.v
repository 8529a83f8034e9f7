From Coq Require Import List Arith Bool ZArith Permutation Lia.
From Verif Require Import FlattenModel DsModel GroupingModel GroupingSpec DsProofs3 AggModel AggSpec.
Import ListNotations.

Section P.
Context {V : Type}.
Variable inv : V.
Variable vlt : V -> V -> Prop.
Variable lexsort : list (list V) -> list nat.
Variable LS : lexsort_ok inv vlt lexsort.
Variable binname : list V -> V.
Variable veqb : V -> V -> bool.
Variable VEQ : forall x y, veqb x y = true <-> x = y.

Lemma mbget_in (v : list V) i : i < length v -> mbget inv v (Z.of_nat i) = nth i v inv.
Proof.
  intros H. unfold mbget. destruct (Z.leb_spec 0 (Z.of_nat i)); [|lia]. destruct (Z.ltb_spec (Z.of_nat i) (Z.of_nat (length v))); [|lia].
  cbn [andb]. now rewrite Nat2Z.id.
Qed.
Lemma fancy_reorder v p : (forall k, In k p -> k < length v) -> fancy inv v p = reorder inv v p.
Proof. intros H. unfold fancy, reorder. apply map_ext_in. intros k Hk. apply mbget_in. auto. Qed.
Lemma reorder_id v n : length v = n -> reorder inv v (seq 0 n) = v.
Proof.
  intros <-. unfold reorder. induction v as [|x v IH] using rev_ind; [reflexivity|].
  rewrite app_length. cbn [length]. rewrite Nat.add_1_r, seq_S, map_app. cbn [map Nat.add]. f_equal.
  - rewrite <- IH at 2. apply map_ext_in. intros k Hk. apply in_seq in Hk. rewrite app_nth1 by lia. reflexivity.
  - rewrite app_nth2 by lia. now rewrite Nat.sub_diag.
Qed.
Lemma shown_id t n : (forall p, In p t -> length (snd p) = n) -> shown_keys inv t (seq 0 n) = t.
Proof.
  intros H. unfold shown_keys. rewrite <- (map_id t) at 2. apply map_ext_in. intros [k v] Hp. cbn [fst snd]. f_equal.
  apply reorder_id. apply (H _ Hp).
Qed.
Lemma trim_bin (t : table (V := V)) : trim_keys (with_bin binname t) = t.
Proof. unfold trim_keys, with_bin. rewrite map_map. cbn [fst snd]. rewrite <- (map_id t) at 2. apply map_ext. intros [k v]. reflexivity. Qed.
Lemma shown_names t p : map fst (shown_keys inv t p) = map fst t.
Proof. unfold shown_keys. rewrite map_map. reflexivity. Qed.
Lemma with_bin_names (t : table (V := V)) : map fst (with_bin binname t) = map fst t.
Proof. unfold with_bin. rewrite map_map. reflexivity. Qed.
Lemma reorder_length v p : length (reorder inv v p) = length p.
Proof. apply map_length. Qed.
Lemma reorder_nth v p r k : nth_error p r = Some k -> nth r (reorder inv v p) inv = nth k v inv.
Proof. intros H. unfold reorder. apply nth_error_nth. now rewrite (map_nth_error _ _ _ H). Qed.

(** the order in which this key object shows its keys *)
Definition order (s : bool) (t : table) (n : nat) : list nat := if s then lexsort (rev (map snd t)) else seq 0 n.
Lemma order_ok s t n : key_table inv t n -> key_order inv vlt s t n (order s t n).
Proof. intros [H1 [_ [H2 _]]]. unfold key_order, order. destruct s; [|reflexivity]. apply LS; assumption. Qed.
Lemma order_perm s t n : key_table inv t n -> Permutation (order s t n) (seq 0 n).
Proof. intros H. pose proof (order_ok s t n H) as O. unfold key_order in O. destruct s; [exact (proj1 O)|]. now rewrite O. Qed.
Lemma order_lt s t n k : key_table inv t n -> In k (order s t n) -> k < n.
Proof. intros H I. apply (Permutation_in _ (order_perm s t n H)) in I. apply in_seq in I. lia. Qed.
Lemma order_length s t n : key_table inv t n -> length (order s t n) = n.
Proof. intros H. rewrite (Permutation_length (order_perm s t n H)). apply seq_length. Qed.

Section K.
Variables (t : table (V := V)) (n : nat) (sd pre : bool).
Variable KT : key_table inv t n.
Notation s := (sd && negb pre).
Notation p := (order s t n).
Definition base_of (c : keychain (V := V)) : table := if k_sorted c then shown_keys inv t p else t.
Definition kinv (c : keychain (V := V)) : Prop :=
  k_disp c = sd /\ k_pre c = pre /\ k_n c = n /\
  (k_isort c = None \/ (s = true -> k_isort c = Some p)) /\
  (k_sorted c = true -> s = true /\ k_isort c = Some p) /\
  (k_filt c = true -> s = true -> k_sorted c = true) /\
  k_gb c = if k_filt c then with_bin binname (base_of c) else base_of c.
Lemma kt_len q : In q t -> length (snd q) = n.
Proof. destruct KT as [_ [_ [H _]]]. apply H. Qed.
Lemma kinv_new : kinv (new_keychain t sd pre).
Proof.
  unfold kinv, new_keychain, base_of. cbn. repeat split; auto; try discriminate.
  destruct KT as [N _]. pose proof kt_len as L. destruct t as [|[k v] r]; [congruence|]. apply (L (k, v)). now left.
Qed.
Lemma sgd c : kinv c -> sort_gb_data c = s.
Proof. intros [H1 [H2 _]]. unfold sort_gb_data. now rewrite H1, H2. Qed.
Lemma shown_fancy : map (fun q => (fst q, fancy inv (snd q) p)) t = shown_keys inv t p.
Proof.
  unfold shown_keys. apply map_ext_in. intros q Hq. f_equal. apply fancy_reorder. intros k Hk.
  rewrite (kt_len q Hq). eapply order_lt; eauto.
Qed.
(** with sorting: asking for the row numbers *)
Lemma isort_ok c : kinv c -> s = true -> kinv (fst (isortrows lexsort c)) /\ snd (isortrows lexsort c) = p /\
  k_isort (fst (isortrows lexsort c)) = Some p /\ k_sorted (fst (isortrows lexsort c)) = k_sorted c /\
  k_filt (fst (isortrows lexsort c)) = k_filt c /\ k_gb (fst (isortrows lexsort c)) = k_gb c.
Proof.
  intros (D & P & N & I & So & F & G) E. unfold isortrows. destruct I as [I|I]; [|specialize (I E)]; rewrite I.
  - cbn [fst snd k_isort k_sorted k_filt k_gb].
    assert (S0 : k_sorted c = false) by (destruct (k_sorted c) eqn:X; [|reflexivity]; destruct (So eq_refl); congruence).
    assert (F0 : k_filt c = false) by (destruct (k_filt c) eqn:X; [|reflexivity]; specialize (F eq_refl E); congruence).
    assert (M : make_isortrows lexsort c = p).
    { unfold make_isortrows. rewrite G, F0. unfold base_of. rewrite S0. unfold order. now rewrite E. }
    split; [|repeat split; auto; now rewrite M].
    unfold kinv, base_of in *. cbn [k_disp k_pre k_n k_isort k_sorted k_filt k_gb]. rewrite S0, F0 in *. repeat split; auto; try discriminate.
    right. intros _. now rewrite M.
  - cbn [fst snd]. split; [|auto]. unfold kinv. split; [auto|]. split; [auto|]. split; [auto|]. split; [auto|]. split; [|auto]. intros _. auto.
Qed.
(** without sorting the row numbers are not used *)
Lemma isort_any c : kinv c -> kinv (fst (isortrows lexsort c)).
Proof.
  intros K. destruct s eqn:E; [now apply isort_ok|]. destruct K as (D & P & N & I & So & F & G). unfold isortrows. destruct (k_isort c) as [i|] eqn:X; cbn [fst].
  - split; [auto|]. split; [auto|]. split; [auto|]. split; [rewrite X; exact I|]. split; [rewrite X; exact So|]. split; [exact F|exact G].
  - unfold kinv, base_of in *. cbn [k_disp k_pre k_n k_isort k_sorted k_filt k_gb]. split; [auto|]. split; [auto|]. split; [auto|]. split; [right; congruence|]. split; [intros Y; destruct (So Y); congruence|]. split; [exact F|exact G].
Qed.
Lemma sorted_shown c : kinv c -> (s = true -> k_sorted c = true) -> base_of c = shown_keys inv t p.
Proof.
  intros (D & P & N & I & So & F & G) H. unfold base_of. destruct (k_sorted c) eqn:X; [reflexivity|].
  destruct s eqn:E; [specialize (H eq_refl); discriminate|]. unfold order. symmetry. apply shown_id. apply kt_len.
Qed.
Lemma keys_ok c f : kinv c -> let '(c1, d) := keys inv lexsort None f c in
  kinv c1 /\ (s = true -> k_sorted c1 = true) /\ k_filt c1 = k_filt c /\
  d = if negb f then shown_keys inv t p else if k_filt c then with_bin binname (shown_keys inv t p) else shown_keys inv t p.
Proof.
  intros K. unfold keys. rewrite (sgd c K).
  assert (Fin : forall c1, kinv c1 -> (s = true -> k_sorted c1 = true) -> k_filt c1 = k_filt c ->
    (if negb f && k_filt c1 then trim_keys (k_gb c1) else k_gb c1) =
    if negb f then shown_keys inv t p else if k_filt c then with_bin binname (shown_keys inv t p) else shown_keys inv t p).
  { intros c1 K1 S1 F1. pose proof (sorted_shown c1 K1 S1) as B. destruct K1 as (D & P & N & I & So & F & G).
    rewrite G, B, F1. destruct f, (k_filt c); cbn [negb andb]; auto. apply trim_bin. }
  destruct (s && negb (k_sorted c)) eqn:E.
  - apply andb_prop in E. destruct E as [E1 E2]. apply negb_true_iff in E2.
    destruct (isort_ok c K E1) as (K1 & I1 & J1 & S1 & F1 & G1).
    destruct (isortrows lexsort c) as [c' i] eqn:Ei. cbn [fst snd] in *. subst i.
    destruct K1 as (D & P & N & I & So & F & G).
    assert (F0 : k_filt c' = false) by (destruct (k_filt c') eqn:X; [|reflexivity]; specialize (F eq_refl E1); congruence).
    set (c2 := mkK _ _ _ _ _ _ _).
    assert (K2 : kinv c2).
    { unfold kinv, base_of, c2. cbn [k_disp k_pre k_n k_isort k_sorted k_filt k_gb]. rewrite F0. rewrite F0 in G. unfold base_of in G. rewrite S1, E2 in G.
      repeat split; auto. rewrite G. apply shown_fancy. }
    split; [exact K2|]. split; [reflexivity|]. split; [exact F1|]. apply Fin; auto.
  - assert (S1 : s = true -> k_sorted c = true) by (intros X; rewrite X in E; cbn [andb] in E; destruct (k_sorted c); [reflexivity|discriminate]).
    split; [exact K|]. split; [exact S1|]. split; [reflexivity|]. apply Fin; auto.
Qed.
Lemma gbkeys_ok c : kinv c -> let '(c1, d) := gbkeys inv lexsort c in
  kinv c1 /\ (s = true -> k_sorted c1 = true) /\ k_filt c1 = k_filt c /\ d = shown_keys inv t p.
Proof. intros K. exact (keys_ok c false K). Qed.
Lemma insert_ok c : kinv c -> let c1 := insert_filter_bin inv lexsort binname c in kinv c1 /\ k_filt c1 = true.
Proof.
  intros K. unfold insert_filter_bin. destruct (k_filt c) eqn:E; [now split|].
  pose proof (gbkeys_ok c K) as H. destruct (gbkeys inv lexsort c) as [c1 d]. destruct H as (K1 & S1 & F1 & ->).
  pose proof (sorted_shown c1 K1 S1) as B.
  cbn zeta. split; [|reflexivity]. destruct K1 as (D & P & N & I & So & F & G). unfold kinv, base_of in *. cbn [k_disp k_pre k_n k_isort k_sorted k_filt k_gb].
  rewrite B. split; [auto|]. split; [auto|]. split; [auto|]. split; [auto|]. split; [exact So|]. split; [intros _; exact S1|]. reflexivity.
Qed.
Lemma filtered_ok c : kinv c -> let '(c1, d) := gbkeys_filtered inv lexsort binname c in
  kinv c1 /\ (s = true -> k_sorted c1 = true) /\ d = with_bin binname (shown_keys inv t p).
Proof.
  intros K. unfold gbkeys_filtered. destruct (insert_ok c K) as [K1 F1].
  pose proof (keys_ok (insert_filter_bin inv lexsort binname c) true K1) as H.
  destruct (keys inv lexsort None true (insert_filter_bin inv lexsort binname c)) as [c1 d]. destruct H as (K2 & S2 & F2 & ->).
  cbn [negb]. rewrite F1. auto.
Qed.

Lemma row_matches_ok d tup r : length tup = length d -> row_matches inv veqb d tup r = true <-> row inv d r = tup.
Proof.
  unfold row_matches. revert tup. induction d as [|[k v] d IH]; intros [|x tup] L; cbn [length] in L; try discriminate; cbn [combine forallb row map fst snd].
  - split; reflexivity.
  - rewrite andb_true_iff, VEQ, IH by congruence. unfold row. split; [intros [-> ->]; reflexivity|]. intros E. injection E; auto.
Qed.
Lemma row_shown r k : nth_error p r = Some k -> row inv (shown_keys inv t p) r = row inv t k.
Proof.
  intros H. unfold row, shown_keys. rewrite map_map. cbn [fst snd]. apply map_ext. intros q. now apply reorder_nth.
Qed.
Lemma filter_one {X} (f : X -> bool) l x : NoDup l -> In x l -> f x = true -> (forall y, In y l -> f y = true -> y = x) -> filter f l = [x].
Proof.
  induction l as [|a l IH]; intros ND I F U; [destruct I|]. inversion ND; subst. cbn [filter]. destruct (f a) eqn:E.
  - assert (a = x) by (apply U; [now left|assumption]). subst a. f_equal.
    destruct (filter f l) as [|b r] eqn:Ef; [reflexivity|]. exfalso.
    assert (Hb : In b (filter f l)) by (rewrite Ef; now left). apply filter_In in Hb. destruct Hb as [Hb1 Hb2].
    assert (b = x) by (apply U; [now right|assumption]). subst b. contradiction.
  - destruct I as [->|I]; [congruence|]. apply IH; auto. intros y Hy. apply U. now right.
Qed.
Lemma filter_nil {X} (f : X -> bool) l : (forall x, In x l -> f x = false) -> filter f l = [].
Proof. induction l as [|a l IH]; intros H; [reflexivity|]. cbn [filter]. rewrite (H a) by (now left). apply IH. intros x Hx. apply H. now right. Qed.
Lemma step_ok c o : kinv c -> plain o = true ->
  kinv (fst (kstep inv lexsort binname veqb c o)) /\ answers inv s binname t n p o (snd (kstep inv lexsort binname veqb c o)).
Proof.
  intros K Pl. destruct o as [so f| | |i|tup]; cbn [plain] in Pl.
  - destruct so; [discriminate|]. destruct f; [discriminate|]. cbn [kstep].
    pose proof (keys_ok c false K) as H. destruct (keys inv lexsort None false c) as [c1 d]. destruct H as (K1 & _ & _ & ->). split; [exact K1|]. reflexivity.
  - cbn [kstep]. pose proof (filtered_ok c K) as H. destruct (gbkeys_filtered inv lexsort binname c) as [c1 d]. destruct H as (K1 & _ & ->). split; [exact K1|reflexivity].
  - cbn [kstep]. pose proof (isort_any c K) as K1. destruct (isortrows lexsort c) as [c1 i] eqn:Ei. cbn [fst snd] in *. split; [exact K1|]. cbn [answers]. intros Hs.
    destruct (isort_ok c K Hs) as (_ & E & _). rewrite Ei in E. cbn [snd] in E. now rewrite E.
  - cbn [kstep]. unfold get_bin_from_index. assert (N : k_n c = n) by (destruct K as (_ & _ & N & _); exact N). rewrite N.
    destruct ((0 <=? i) && (i <? Z.of_nat n))%Z eqn:E.
    + apply andb_prop in E. destruct E as [E1 E2]. apply Z.leb_le in E1. apply Z.ltb_lt in E2.
      pose proof (gbkeys_ok c K) as H. destruct (gbkeys inv lexsort c) as [c1 d]. destruct H as (K1 & _ & _ & ->). cbn [fst snd].
      split; [exact K1|]. cbn [answers]. split; [|lia]. intros k _ Hk. f_equal. f_equal. exact (row_shown _ _ Hk).
    + cbn [fst snd]. split; [exact K|]. cbn [answers]. split; [|reflexivity]. intros k Hi Hk. exfalso.
      assert (Z.to_nat i < n) by (rewrite <- (order_length s t n KT); apply nth_error_Some; congruence).
      destruct (Z.leb_spec 0 i); [|lia]. destruct (Z.ltb_spec i (Z.of_nat n)); [discriminate|lia].
  - cbn [kstep]. unfold get_index_from_tuple. pose proof (gbkeys_ok c K) as H. destruct (gbkeys inv lexsort c) as [c1 d]. destruct H as (K1 & _ & _ & ->).
    assert (L : length (shown_keys inv t p) = length t) by (unfold shown_keys; apply map_length). rewrite L. cbn [answers].
    destruct (length tup =? length t) eqn:E; cbn [fst snd]; (split; [exact K1|]); [|reflexivity].
    apply Nat.eqb_eq in E.
    assert (Rn : (match shown_keys inv t p with (_, v) :: _ => length v | [] => 0 end) = n).
    { destruct KT as [Nt _]. destruct t as [|[k v] tr] eqn:Et; [congruence|]. cbn [shown_keys map fst snd]. rewrite reorder_length. rewrite <- Et. apply order_length. now rewrite Et. }
    rewrite Rn. split.
    + intros r k Hr Hk. f_equal. f_equal. rewrite (filter_one _ (seq 0 n) r); [reflexivity|apply seq_NoDup| | |].
      * apply in_seq. split; [lia|]. cbn [Nat.add]. rewrite <- (order_length s t n KT). apply nth_error_Some. congruence.
      * apply row_matches_ok; [congruence|]. now rewrite (row_shown _ _ Hr).
      * intros y Hy Hm. apply row_matches_ok in Hm; [|congruence]. apply in_seq in Hy.
        destruct (nth_error p y) as [ky|] eqn:Ey; [|apply nth_error_None in Ey; rewrite (order_length s t n KT) in Ey; lia].
        rewrite (row_shown _ _ Ey) in Hm.
        assert (ky = k).
        { destruct KT as [_ [_ [_ U]]]. apply U; [| |congruence].
          - apply (order_lt s t n); [exact KT|]. eapply nth_error_In; eauto.
          - apply (order_lt s t n); [exact KT|]. eapply nth_error_In; eauto. }
        subst ky. assert (ND : NoDup p) by (apply (Permutation_NoDup (Permutation_sym (order_perm s t n KT))), seq_NoDup).
        rewrite NoDup_nth_error in ND. apply ND; [apply nth_error_Some; congruence|congruence].
    + intros No. f_equal. rewrite filter_nil; [reflexivity|]. intros r Hr. apply in_seq in Hr.
      destruct (row_matches inv veqb (shown_keys inv t p) tup r) eqn:Em; [|reflexivity]. exfalso.
      apply row_matches_ok in Em; [|congruence].
      destruct (nth_error p r) as [k|] eqn:Er; [|apply nth_error_None in Er; rewrite (order_length s t n KT) in Er; lia].
      rewrite (row_shown _ _ Er) in Em. apply (No k); [|exact Em]. apply (order_lt s t n); [exact KT|]. eapply nth_error_In; eauto.
Qed.
Lemma history_ok ops : forall c, kinv c -> forallb plain ops = true ->
  Forall2 (answers inv s binname t n p) ops (kouts inv lexsort binname veqb c ops).
Proof.
  induction ops as [|o r IH]; intros c K Pl; [constructor|]. cbn [forallb] in Pl. apply andb_prop in Pl. destruct Pl as [P1 P2].
  cbn [kouts]. pose proof (step_ok c o K P1) as H. destruct (kstep inv lexsort binname veqb c o) as [c1 x]. cbn [fst snd] in H. destruct H as [K1 A].
  constructor; auto.
Qed.
End K.
End P.
