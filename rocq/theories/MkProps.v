(** Properties C180-C185: Categoricals over several key columns, single keys made out of them, and
    merged mappings. *)
From Coq Require Import List Arith ZArith Bool Lia.
From Verif Require Import FlattenModel GroupModel CatModel CatSpec CatProofs CatProps MkSpec MkModel MkProofs MkProofs2.
Import ListNotations.
Local Open Scope Z_scope.

(** An example: byte strings and numbers, four categories, base 1; row 4 is filtered. *)
Definition ex_k : mcat :=
  mkMcat 1 [Bytes [[97]; [97]; [98]; [99]]%nat; Nums [1; 2; 1; 7]] [3; 1; 2; 0; 3].
Lemma ex_regular : regular ex_k.
Proof.
  split; [discriminate|]. split; [intros c [<-|[<-|[]]]; reflexivity|]. split; [|split; [now right|]].
  - repeat constructor; cbn; intuition discriminate.
  - cbn. intuition lia.
Qed.
Lemma ex_asks q : q = [Cs [98]%nat; Cn 1] \/ q = [Cs [98]%nat; Cn 9] \/ q = [Cn 5; Cn 1] -> asks ex_k q.
Proof. intros [->|[->| ->]]; split; reflexivity. Qed.

(** *** C180: comparing with a tuple *)
(** c == (k1, ..., kn) is True exactly in the rows with these keys, c != (k1, ..., kn) exactly in the
    others; a number is equal to no string. *)
Theorem C180_equal_tuple :
  forall (k : mcat) (q : list cell), regular k -> asks k q ->
  exists eq ne, compare_tuple k Ceq q = Got eq /\ compare_tuple k Cne q = Got ne /\
    length eq = length (k_codes k) /\ ne = map negb eq /\
    forall r t b, nth_error (row_tuples k) r = Some t -> nth_error eq r = Some b -> (b = true <-> t = Some q).
Proof.
  intros k q Rg A. destruct (index_got k q Rg A) as [i E]. unfold compare_tuple. rewrite E.
  eexists. eexists. split; [reflexivity|]. split; [reflexivity|]. split; [apply map_length|]. split; [rewrite map_map; reflexivity|].
  intros r t b Et Eb. unfold row_tuples in Et. destruct (nth_error (k_codes k) r) as [c|] eqn:Ec.
  - rewrite (map_nth_error _ _ _ Ec) in Et. rewrite (map_nth_error _ _ _ Ec) in Eb. injection Et as <-. injection Eb as <-. cbn [zop]. rewrite Z.eqb_eq.
    apply (eq_row k q i c Rg A E). eapply nth_error_In. exact Ec.
  - apply nth_error_None in Ec. assert (nth_error (map (fun c => zop Ceq c i) (k_codes k)) r = None); [|congruence]. apply nth_error_None. now rewrite map_length.
Qed.
Print Assumptions C180_equal_tuple.
(** A tuple of the wrong length is refused, by every comparison. *)
Theorem C180_wrong_length :
  forall (k : mcat) (op : cop) (q : list cell), length q <> length (k_cols k) -> compare_tuple k op q = Raises.
Proof.
  intros k op q N. unfold compare_tuple, multikey_index. destruct (Nat.eqb_spec (length q) (length (k_cols k))); [contradiction|reflexivity].
Qed.
Print Assumptions C180_wrong_length.
(** Order comparisons with a tuple that is a category follow the order of the categories, in the rows
    that are not filtered.  Missing: tuples that are not categories (refuted below). *)
Theorem C180_order_partial :
  forall (k : mcat) (q : list cell) (lt : list cell -> list cell -> Prop), regular k -> asks k q -> In q (uniq k) ->
  (forall i j a b, (i < j)%nat -> nth_error (uniq k) i = Some a -> nth_error (uniq k) j = Some b -> lt a b /\ ~ lt b a /\ ~ lt a a /\ ~ lt b b) ->
  exists m, compare_tuple k Clt q = Got m /\
    forall r t b, nth_error (row_tuples k) r = Some (Some t) -> nth_error m r = Some b -> t <> q -> (b = true <-> lt t q).
Proof.
  intros k q lt Rg A Iq Ord. destruct (index_spec k q Rg A) as [[j [Ej E]]|[N _]]; [|contradiction].
  unfold compare_tuple. rewrite E. eexists. split; [reflexivity|]. intros r t b Et Eb Nt. unfold row_tuples in Et.
  destruct (nth_error (k_codes k) r) as [c|] eqn:Ec.
  - rewrite (map_nth_error _ _ _ Ec) in Et. rewrite (map_nth_error _ _ _ Ec) in Eb. injection Et as Et. injection Eb as <-. cbn [zop]. rewrite Z.ltb_lt.
    unfold tuple_of in Et. destruct (Z.ltb_spec c (k_base k)) as [|Ge]; [discriminate|]. set (i := Z.to_nat (c - k_base k)) in *.
    assert (Q : c = Z.of_nat i + k_base k) by lia. destruct (lt_eq_lt_dec i j) as [[L|L]|L].
    + destruct (Ord i j t q L Et Ej) as [H _]. split; [intros _; exact H|lia].
    + exfalso. apply Nt. rewrite L in Et. congruence.
    + destruct (Ord j i q t L Ej Et) as [_ [H _]]. split; [lia|contradiction].
  - apply nth_error_None in Ec. assert (nth_error (map (tuple_of k) (k_codes k)) r = None); [|congruence]. apply nth_error_None. now rewrite map_length.
Qed.
Print Assumptions C180_order_partial.
(** Finding: an order comparison with a tuple that is not a category treats it as smaller than every
    key: c > (k1, ..., kn) is True in every row, also the filtered ones and whatever the keys are, while
    the same comparison of a single key finds the place of the missing value. *)
Theorem C180_order_missing_refuted :
  exists (k : mcat) (q : list cell), regular k /\ asks k q /\
  (exists t, nth_error (row_tuples k) 0 = Some (Some t) /\ t = [Cn 1; Cn 1] /\ q = [Cn 2; Cn 2]) /\
  compare_tuple k Cgt q = Got [true; true].
Proof.
  exists (mkMcat 1 [Nums [1; 3]; Nums [1; 3]] [1; 0]), [Cn 2; Cn 2]. split.
  { split; [discriminate|]. split; [intros c [<-|[<-|[]]]; reflexivity|]. split; [|split; [now right|]].
    - repeat constructor; cbn; intuition discriminate.
    - cbn. intuition lia. }
  split; [split; reflexivity|]. split; [eexists; split; [vm_compute; reflexivity|split; reflexivity]|vm_compute; reflexivity].
Qed.
Print Assumptions C180_order_missing_refuted.
(** Finding: a tuple with a string that is not ascii makes even == raise when the key column holds byte
    strings, although the answer is known: no row has that key. *)
Theorem C180_not_ascii_refuted :
  exists (k : mcat) (q : list cell), regular k /\ length q = length (k_cols k) /\ ~ In q (uniq k) /\ compare_tuple k Ceq q = Raises.
Proof.
  exists ex_k, [Cs [233]%nat; Cn 1]. split; [exact ex_regular|]. split; [reflexivity|]. split; [|vm_compute; reflexivity].
  cbn. intuition discriminate.
Qed.
Print Assumptions C180_not_ascii_refuted.
Example C180_case : asks ex_k [Cs [98]%nat; Cn 1] /\
  compare_tuple ex_k Ceq [Cs [98]%nat; Cn 1] = Got [true; false; false; false; true] /\
  compare_tuple ex_k Cne [Cs [98]%nat; Cn 9] = Got [true; true; true; true; true] /\
  compare_tuple ex_k Ceq [Cn 5; Cn 1] = Got [false; false; false; false; false].
Proof. split; [split; reflexivity|]. split; [vm_compute; reflexivity|]. split; vm_compute; reflexivity. Qed.
Example C180_case_order : In [Cs [98]%nat; Cn 1] (uniq ex_k) /\ compare_tuple ex_k Clt [Cs [98]%nat; Cn 1] = Got [false; true; true; true; false].
Proof. split; [cbn; auto|vm_compute; reflexivity]. Qed.

(** *** C181: comparing with several tuples *)
(** c == [t1, t2, ...] is True exactly in the rows whose keys are one of the tuples. *)
Theorem C181_equal_tuples :
  forall (k : mcat) (qs : list (list cell)), regular k -> Forall (asks k) qs -> qs <> [] ->
  exists m, compare_tuples k Ceq qs = Got m /\ length m = length (k_codes k) /\
    forall r t b, nth_error (row_tuples k) r = Some t -> nth_error m r = Some b -> (b = true <-> exists q, In q qs /\ t = Some q).
Proof.
  intros k qs Rg A Ne. destruct (all_indices_got k qs Rg A) as [l [E F]]. unfold compare_tuples. destruct qs as [|q0 qs0]; [congruence|].
  rewrite E. eexists. split; [reflexivity|]. split; [apply map_length|]. clear E Ne.
  intros r t b Et Eb. unfold row_tuples in Et. destruct (nth_error (k_codes k) r) as [c|] eqn:Ec.
  - rewrite (map_nth_error _ _ _ Ec) in Et. rewrite (map_nth_error _ _ _ Ec) in Eb. injection Et as <-. injection Eb as <-. pose proof (nth_error_In _ _ Ec) as Ic. clear Ec.
    revert F A. generalize (q0 :: qs0). intros qs F A. induction F as [|q i qs l E F IH].
    + cbn. split; [discriminate|intros [q [[] _]]].
    + inversion A as [|? ? A1 A2]; subst. cbn [existsb zop]. rewrite orb_true_iff, Z.eqb_eq, (eq_row k q i c Rg A1 E Ic), (IH A2). split.
      * intros [H|[q' [I H]]]; [exists q; split; [now left|exact H]|exists q'; split; [now right|exact H]].
      * intros [q' [[<-|I] H]]; [now left|right; eauto].
  - apply nth_error_None in Ec. assert (nth_error (map (tuple_of k) (k_codes k)) r = None); [|congruence]. apply nth_error_None. now rewrite map_length.
Qed.
Print Assumptions C181_equal_tuples.
(** Finding: c != [t1, t2] is not the negation of c == [t1, t2]: with two different tuples it is True in
    every row. *)
Theorem C181_not_equal_tuples_refuted :
  exists (k : mcat) (qs : list (list cell)), regular k /\ Forall (asks k) qs /\
    compare_tuples k Ceq qs = Got [true; false; true; false; true] /\ compare_tuples k Cne qs = Got [true; true; true; true; true].
Proof.
  exists ex_k, [[Cs [98]%nat; Cn 1]; [Cs [97]%nat; Cn 2]]. split; [exact ex_regular|]. split; [repeat constructor|]. split; vm_compute; reflexivity.
Qed.
Print Assumptions C181_not_equal_tuples_refuted.
(** Finding: comparing with an empty list of tuples raises, for every comparison, although isin of the empty
    list is False everywhere. *)
Theorem C181_equal_nothing_refuted :
  forall (k : mcat) (op : cop), compare_tuples k op [] = Raises /\ isin_tuples k [] <> Raises.
Proof. intros k op. split; [reflexivity|discriminate]. Qed.
Print Assumptions C181_equal_nothing_refuted.
(** isin of an empty list is False everywhere. *)
Theorem C181_isin_nothing :
  forall (k : mcat), isin_tuples k [] = Got (repeat false (length (k_codes k))).
Proof. intros k. unfold isin_tuples. f_equal. induction (k_codes k) as [|c l IH]; [reflexivity|]. cbn. now rewrite IH. Qed.
Print Assumptions C181_isin_nothing.
(** Finding: isin([t]), and c[[t]] which calls it, raises for a tuple with a string in it, even when t is
    the key of some rows. *)
Theorem C181_isin_tuple_refuted :
  exists (k : mcat) (q : list cell), regular k /\ asks k q /\ In (Some q) (row_tuples k) /\ isin_tuples k [q] = Raises.
Proof.
  exists ex_k, [Cs [98]%nat; Cn 1]. split; [exact ex_regular|]. split; [split; reflexivity|]. split; [vm_compute; auto|reflexivity].
Qed.
Print Assumptions C181_isin_tuple_refuted.
Example C181_case : Forall (asks ex_k) [[Cs [98]%nat; Cn 1]; [Cs [97]%nat; Cn 9]] /\
  compare_tuples ex_k Ceq [[Cs [98]%nat; Cn 1]; [Cs [97]%nat; Cn 9]] = Got [true; false; false; false; true].
Proof. split; [repeat constructor|vm_compute; reflexivity]. Qed.

(** *** C182: bins and categories *)
(** Several keys: every category is found at its own bin and every bin of a category leads back to
    it; a bin outside raises. *)
Theorem C182_multikey_roundtrip :
  forall (k : mcat), regular k ->
  (forall q, asks k q -> In q (uniq k) -> exists b, from_category_multi k q = Got b /\ from_bin_multi k b = Got q) /\
  (forall b q, from_bin_multi k b = Got q -> asks k q -> from_category_multi k q = Got b) /\
  (forall b, (exists q, from_bin_multi k b = Got q) <-> k_base k <= b < k_base k + Z.of_nat (ncats k)).
Proof.
  intros k Rg. pose proof Rg as Rg'. destruct Rg' as [Ne [Lc [ND [B R]]]].
  assert (F : forall q j, nth_error (uniq k) j = Some q -> asks k q -> from_category_multi k q = Got (Z.of_nat j + k_base k)).
  { intros q j Ej A. unfold from_category_multi. assert (Lj : (j < ncats k)%nat) by (rewrite <- uniq_length; apply nth_error_Some; congruence).
    destruct (index_spec k q Rg A) as [[i [Ei E]]|[N _]]; [|exfalso; apply N; eapply nth_error_In; exact Ej].
    assert (i = j) as -> by (apply (proj1 (NoDup_nth_error (uniq k)) ND); [rewrite uniq_length; rewrite <- uniq_length; apply nth_error_Some; congruence|congruence]).
    rewrite E. destruct (Z.eqb_spec (Z.of_nat j + k_base k) (Z.of_nat (ncats k) + k_base k)); [lia|reflexivity]. }
  split; [|split].
  - intros q A I. destruct (In_nth_error _ _ I) as [j Ej]. exists (Z.of_nat j + k_base k). split; [apply F; assumption|].
    unfold from_bin_multi. destruct (Z.ltb_spec (Z.of_nat j + k_base k) (k_base k)); [lia|].
    replace (Z.to_nat (Z.of_nat j + k_base k - k_base k)) with j by lia. now rewrite Ej.
  - intros b q E A. unfold from_bin_multi in E. destruct (Z.ltb_spec b (k_base k)) as [|Ge]; [discriminate|].
    destruct (nth_error (uniq k) (Z.to_nat (b - k_base k))) as [t|] eqn:Et; [|discriminate]. injection E as ->.
    rewrite (F q _ Et A). f_equal. lia.
  - intros b. unfold from_bin_multi. destruct (Z.ltb_spec b (k_base k)) as [|Ge]; [split; [intros [q Q]; discriminate|lia]|].
    destruct (nth_error (uniq k) (Z.to_nat (b - k_base k))) as [t|] eqn:Et.
    + assert (Z.to_nat (b - k_base k) < ncats k)%nat by (rewrite <- uniq_length; apply nth_error_Some; congruence). split; [lia|intros _; now exists t].
    + apply nth_error_None in Et. rewrite uniq_length in Et. split; [intros [q Q]; discriminate|lia].
Qed.
Print Assumptions C182_multikey_roundtrip.
(** Finding: from_category of a tuple that is not a category returns -1 (base index 1; -2 for base index 0)
    instead of raising as documented and as it does for a single key. *)
Theorem C182_multikey_missing_refuted :
  forall (k : mcat) (q : list cell), regular k -> asks k q -> ~ In q (uniq k) ->
  exists b, from_category_multi k q = Got b /\ b = k_base k - 2 /\ b < 0 /\ from_bin_multi k b = Raises.
Proof.
  intros k q Rg A N. pose proof Rg as Rg'. destruct Rg' as [Ne [Lc [ND [B R]]]]. destruct (index_spec k q Rg A) as [[i [Ei _]]|[_ E]].
  - exfalso. apply N. eapply nth_error_In. exact Ei.
  - unfold from_category_multi. rewrite E. destruct (Z.eqb_spec (-2 + k_base k) (Z.of_nat (ncats k) + k_base k)); [lia|].
    eexists. split; [reflexivity|]. split; [lia|]. split; [lia|]. unfold from_bin_multi. destruct (Z.ltb_spec (-2 + k_base k) (k_base k)); [reflexivity|lia].
Qed.
Print Assumptions C182_multikey_missing_refuted.
(** A single key, sorted categories or not: from_category finds exactly the categories, each at its own
    bin, raises for everything else, and from_bin is its inverse. *)
Theorem C182_single_roundtrip :
  forall (A : Type) (o : ord A), total o -> forall (sorted : bool) (base : Z) (l : list A),
  (if sorted then increasing o l else NoDup l) ->
  forall (s : A) (b : Z),
  (from_category_single o sorted base l s = Got b <-> from_bin_single base l b = Got s) /\
  (from_category_single o sorted base l s = Raises <-> ~ In s l).
Proof.
  intros A o T sorted base l L s b. assert (Ev : forall j, nth_error l j = Some s -> category_index o sorted base l s = 2 * (Z.of_nat j + base)).
  { intros j E. symmetry. apply Z.eqb_eq. destruct sorted.
    - rewrite (proj2 (index_sorted o T base l s j s L E)). apply (eqb_refl o T).
    - rewrite (index_unsorted o T base l s j s L E). apply (eqb_refl o T). }
  assert (Found : forall j, nth_error l j = Some s -> from_category_single o sorted base l s = Got (Z.of_nat j + base)).
  { intros j E. unfold from_category_single. rewrite (Ev j E). assert (j < length l)%nat by (apply nth_error_Some; congruence).
    destruct (Z.eqb_spec (2 * (Z.of_nat j + base)) (2 * (Z.of_nat (length l) + base))); [lia|]. rewrite Z.odd_mul. cbn [Z.odd orb andb].
    rewrite Z.mul_comm, Z.div_mul by lia. reflexivity. }
  assert (Miss : ~ In s l -> from_category_single o sorted base l s = Raises).
  { intros N. unfold from_category_single, category_index. destruct sorted.
    - destruct (searchsorted_spec o T l s L) as [Lp _]. set (p := searchsorted o l s) in *. destruct (nth_error l p) as [x|] eqn:E.
      + destruct (o_eqb o s x) eqn:Q; [apply (t_eq o T) in Q; subst; exfalso; apply N; eapply nth_error_In; exact E|].
        replace (2 * (Z.of_nat p + base) - 1) with (1 + 2 * (Z.of_nat p + base - 1)) by lia. rewrite Z.odd_add_mul_2. cbn [Z.odd].
        rewrite orb_true_r. reflexivity.
      + apply nth_error_None in E. assert (p = length l) as -> by lia. rewrite Z.eqb_refl. reflexivity.
    - destruct (index_of (o_eqb o) s l) as [j|] eqn:E.
      + exfalso. apply N. apply (GroupFacts.index_of_some (o_eqb o) (t_eq o T)) in E. eapply nth_error_In. exact E.
      + rewrite Z.eqb_refl. reflexivity. }
  assert (ND : NoDup l) by (destruct sorted; [exact (increasing_nodup o T l L)|exact L]).
  assert (Dec : (exists j, nth_error l j = Some s) \/ ~ In s l).
  { destruct (existsb (o_eqb o s) l) eqn:X.
    - left. apply existsb_exists in X. destruct X as [x [I Q]]. apply (t_eq o T) in Q. subst x. apply In_nth_error. exact I.
    - right. intros I. assert (Y : existsb (o_eqb o s) l = true); [|congruence]. apply existsb_exists. exists s. split; [exact I|apply (eqb_refl o T)]. }
  assert (Bin : from_bin_single base l b = Got s <-> exists j, nth_error l j = Some s /\ b = Z.of_nat j + base).
  { unfold from_bin_single. destruct (Z.ltb_spec b base) as [H|H]; [split; [discriminate|intros [j [_ ->]]; lia]|]. split.
    - destruct (nth_error l (Z.to_nat (b - base))) as [x|] eqn:E; [|discriminate]. intros Q. injection Q as ->. exists (Z.to_nat (b - base)). split; [exact E|lia].
    - intros [j [E ->]]. replace (Z.to_nat (Z.of_nat j + base - base)) with j by lia. now rewrite E. }
  destruct Dec as [[j E]|N].
  - rewrite (Found j E), Bin. split.
    + split; [intros Q; injection Q as <-; exists j; auto|]. intros [j' [E' ->]]. f_equal. f_equal. f_equal.
      apply (proj1 (NoDup_nth_error l) ND); [apply nth_error_Some; congruence|congruence].
    + split; [discriminate|]. intros N. exfalso. apply N. eapply nth_error_In. exact E.
  - rewrite (Miss N), Bin. split; [split; [discriminate|]|tauto]. intros [j [E _]]. exfalso. apply N. eapply nth_error_In. exact E.
Qed.
Print Assumptions C182_single_roundtrip.
Example C182_case : from_category_multi ex_k [Cs [98]%nat; Cn 1] = Got 3 /\ from_bin_multi ex_k 3 = Got [Cs [98]%nat; Cn 1] /\
  from_bin_multi ex_k 0 = Raises /\ asks ex_k [Cs [98]%nat; Cn 9] /\ ~ In [Cs [98]%nat; Cn 9] (uniq ex_k) /\
  from_category_multi ex_k [Cs [98]%nat; Cn 9] = Got (-1).
Proof.
  split; [vm_compute; reflexivity|]. split; [vm_compute; reflexivity|]. split; [vm_compute; reflexivity|]. split; [split; reflexivity|].
  split; [cbn; intuition discriminate|vm_compute; reflexivity].
Qed.
Example C182_case_single : increasing nat_ord [10; 20; 30]%nat /\ from_category_single nat_ord true 1 [10; 20; 30]%nat 20%nat = Got 2 /\
  from_category_single nat_ord true 1 [10; 20; 30]%nat 25%nat = Raises /\ from_category_single nat_ord false 0 [30; 10]%nat 10%nat = Got 1.
Proof. split; [apply incb_ok; reflexivity|]. split; [vm_compute; reflexivity|]. split; vm_compute; reflexivity. Qed.

(** *** C183: assigning tuples *)
(** After any history of assignments the next one, c[mask] = tuple or c[tuple] = tuple, changes exactly
    the rows chosen, to exactly that tuple; the categories stay. *)
Theorem C183_assign :
  forall (k0 : mcat) (history : list (target * source)), regular k0 ->
  let k := fold_left assign_step history k0 in
  uniq k = uniq k0 /\
  forall (t : target) (q : list cell), asks k q -> In q (uniq k) -> sensible k t ->
  exists k', assign k t (Tuple q) = Got k' /\ uniq k' = uniq k /\ length (k_codes k') = length (k_codes k) /\
    forall r old, nth_error (row_tuples k) r = Some old ->
    exists new, nth_error (row_tuples k') r = Some new /\ (chosen t r old -> new = Some q) /\ (~ chosen t r old -> new = old).
Proof.
  intros k0 history Rg0 k. destruct (steps_regular history k0 Rg0) as [Rg [B C]]. fold k in Rg, B, C.
  assert (U : forall a b, k_cols a = k_cols b -> uniq a = uniq b) by (intros a b E; unfold uniq, ncats; now rewrite E).
  split; [apply U; exact C|]. intros t q A Iq S. destruct (index_spec k q Rg A) as [[i [Ei E]]|[N _]]; [|contradiction].
  unfold assign. cbn [source_code]. rewrite E. assert (Bb : k_base k = 0 \/ k_base k = 1) by apply Rg. destruct (Z.ltb_spec (-1) (Z.of_nat i + k_base k)) as [_|]; [|lia].
  assert (M : exists m, target_mask k t = Got m /\ length m = length (k_codes k) /\
    forall r old, nth_error (row_tuples k) r = Some old -> (nth_error m r = Some true <-> chosen t r old)).
  { destruct t as [m|p]; cbn [target_mask sensible chosen] in *; [exists m; split; [reflexivity|]; split; [exact S|reflexivity]|].
    destruct S as [Ap Ip]. destruct (index_spec k p Rg Ap) as [[j [Ej E2]]|[N _]]; [|contradiction]. rewrite E2.
    destruct (Z.ltb_spec (-1) (Z.of_nat j + k_base k)) as [_|]; [|lia]. eexists. split; [reflexivity|]. split; [apply map_length|].
    intros r old Eo. unfold row_tuples in Eo. destruct (nth_error (k_codes k) r) as [c|] eqn:Ec.
    - rewrite (map_nth_error _ _ _ Ec) in Eo. rewrite (map_nth_error _ _ _ Ec). injection Eo as <-.
      rewrite <- (code_tuple k c j p Rg Ej), <- Z.eqb_eq. split; congruence.
    - apply nth_error_None in Ec. assert (nth_error (map (tuple_of k) (k_codes k)) r = None); [|congruence]. apply nth_error_None. now rewrite map_length. }
  destruct M as [m [Em [Lm M]]]. rewrite Em. eexists. split; [reflexivity|]. split; [now apply U|].
  split; [cbn [k_codes]; unfold put_mask; rewrite map_length, combine_length; lia|].
  intros r old Eo. specialize (M r old Eo). unfold row_tuples in Eo |- *. cbn [k_codes].
  set (k' := mkMcat (k_base k) (k_cols k) (put_mask m (Z.of_nat i + k_base k) (k_codes k))).
  assert (TT : forall c, tuple_of k' c = tuple_of k c) by reflexivity.
  destruct (nth_error (k_codes k) r) as [c|] eqn:Ec.
  - rewrite (map_nth_error _ _ _ Ec) in Eo. injection Eo as Eo.
    assert (Lr : (r < length m)%nat) by (rewrite Lm; apply nth_error_Some; congruence).
    destruct (nth_error m r) as [[|]|] eqn:Emr; [| |apply nth_error_None in Emr; lia].
    + exists (Some q). split; [|split; [reflexivity|intros N; exfalso; apply N, M; reflexivity]].
      rewrite (map_nth_error (tuple_of k') r _ (d := Z.of_nat i + k_base k)) by (rewrite put_mask_nth, Emr by exact Lm; reflexivity).
      f_equal. rewrite TT. now apply (code_tuple k _ i q Rg Ei).
    + exists old. split; [|split; [intros H; apply M in H; discriminate|reflexivity]].
      rewrite (map_nth_error (tuple_of k') r _ (d := c)) by (rewrite put_mask_nth, Emr by exact Lm; exact Ec).
      now rewrite TT, Eo.
  - apply nth_error_None in Ec. assert (nth_error (map (tuple_of k) (k_codes k)) r = None); [|congruence]. apply nth_error_None. now rewrite map_length.
Qed.
Print Assumptions C183_assign.
(** After any history of assignments of tuples and codes every row shows a category or is filtered:
    c[i] never shows a code without a category. *)
Theorem C183_rows_stay_valid :
  forall (k0 : mcat) (history : list (target * source)), regular k0 -> k_base k0 = 1 ->
  let k := fold_left assign_step history k0 in
  forall code, In code (k_codes k) ->
  show_tuple k code = match tuple_of k code with Some t => Val t | None => Filtered end /\
  (forall t, tuple_of k code = Some t -> In t (uniq k0)).
Proof.
  intros k0 history Rg0 B1 k code I. destruct (steps_regular history k0 Rg0) as [Rg [B C]]. fold k in Rg, B, C. split.
  - rewrite (show_tuple_row k code Rg I). rewrite B, B1. reflexivity.
  - intros t E. unfold tuple_of in E. destruct (code <? k_base k); [discriminate|]. apply nth_error_In in E.
    assert (U : uniq k = uniq k0) by (unfold uniq, ncats; now rewrite C). now rewrite <- U.
Qed.
Print Assumptions C183_rows_stay_valid.
(** Assigning or selecting by a tuple that is not a category raises. *)
Theorem C183_missing_raises :
  forall (k : mcat) (t : target) (v : source) (q : list cell), regular k -> asks k q -> ~ In q (uniq k) ->
  assign k t (Tuple q) = Raises /\ (forall z, source_code k v = Got z -> assign k (Having q) v = Raises).
Proof.
  intros k t v q Rg A N. assert (Bb : k_base k = 0 \/ k_base k = 1) by apply Rg.
  destruct (index_spec k q Rg A) as [[i [Ei _]]|[_ E]]; [exfalso; apply N; eapply nth_error_In; exact Ei|].
  unfold assign. cbn [source_code target_mask]. rewrite E. destruct (Z.ltb_spec (-1) (-2 + k_base k)); [lia|].
  split; [reflexivity|]. intros z Ez. now rewrite Ez.
Qed.
Print Assumptions C183_missing_raises.
Example C183_case : assign ex_k (Having [Cs [98]%nat; Cn 1]) (Tuple [Cs [99]%nat; Cn 7]) = Got (mkMcat 1 (k_cols ex_k) [4; 1; 2; 0; 4]) /\
  sensible ex_k (Having [Cs [98]%nat; Cn 1]) /\ asks ex_k [Cs [99]%nat; Cn 7] /\ In [Cs [99]%nat; Cn 7] (uniq ex_k) /\
  k_codes (fold_left assign_step [(Rows [true; false; false; true; false], Tuple [Cs [97]%nat; Cn 2]); (Having [Cs [97]%nat; Cn 2], Code 0); (Rows [true; true; true; true; true], Code 9)] ex_k) = [0; 1; 0; 0; 3].
Proof.
  split; [vm_compute; reflexivity|]. split; [split; [split; reflexivity|cbn; auto]|]. split; [split; reflexivity|]. split; [cbn; auto|vm_compute; reflexivity].
Qed.

(** *** C184: as_singlekey *)
(** Several keys, base index 1: every row shows the texts of its keys joined by the separator, filtered
    rows stay filtered.  Missing: base index 0 (refuted below). *)
Theorem C184_multikey_partial :
  forall (text : cell -> name) (sep : name) (k : mcat), regular k -> k_base k = 1 ->
  map (cval 1 (snd (singlekey_multi text sep k))) (fst (singlekey_multi text sep k)) =
  map (option_map (fun t => joined sep (map text t))) (row_tuples k).
Proof.
  intros text sep k [Ne [Lc _]] B. unfold singlekey_multi, row_tuples. cbn [fst snd]. rewrite (onedict_spec text sep k Ne Lc), map_map.
  apply map_ext. intros c. unfold cval, tuple_of. rewrite B. destruct (c <? 1); [reflexivity|]. rewrite nth_error_map. reflexivity.
Qed.
Print Assumptions C184_multikey_partial.
(** If the separator occurs in no key and the texts of different keys differ, the single key has no category
    twice: rows with different keys stay different.  Missing: keys with the separator (refuted
    below). *)
Theorem C184_distinct_partial :
  forall (text : cell -> name) (c : nat) (k : mcat), regular k ->
  (forall d a, In d (k_cols k) -> In a (col_cells d) -> ~ In c (text a)) ->
  (forall d a b, In d (k_cols k) -> In a (col_cells d) -> In b (col_cells d) -> text a = text b -> a = b) ->
  NoDup (snd (singlekey_multi text [c] k)).
Proof. intros text c k. apply onedict_nodup. Qed.
Print Assumptions C184_distinct_partial.
(** Finding: with the separator inside keys the single key has the same category twice: the rows show the
    same text, but c == text is True for one of them only. *)
Theorem C184_collision_refuted :
  exists (text : cell -> name) (k : mcat) (s : name), let c := singlekey_multi text [95]%nat k in
  regular k /\ k_base k = 1 /\ map (cval 1 (snd c)) (fst c) = [Some s; Some s] /\
  forall (o : ord name), total o -> forall sorted,
    map (fun code => zop Ceq (2 * code) (category_index o sorted 1 (snd c) s)) (fst c) = [true; false].
Proof.
  exists (fun v => match v with Cs s => s | Cn _ => [] end),
    (mkMcat 1 [Bytes [[97; 95; 98]; [97]]%nat; Bytes [[99]; [98; 95; 99]]%nat] [1; 2]), [97; 95; 98; 95; 99]%nat.
  split.
  { split; [discriminate|]. split; [intros c [<-|[<-|[]]]; reflexivity|]. split; [|split; [now right|]].
    - repeat constructor; cbn; intuition discriminate.
    - cbn. intuition lia. }
  split; [reflexivity|]. split; [vm_compute; reflexivity|]. intros o T sorted.
  set (s := [97; 95; 98; 95; 99]%nat). cbn [singlekey_multi fst snd k_codes]. unfold onedict. cbn [k_cols fold_left col_cells map combine fst snd app].
  change ([97; 95; 98; 95; 99]%nat) with s. assert (E : o_eqb o s s = true) by (apply (t_eq o T); reflexivity).
  unfold category_index. destruct sorted.
  - unfold searchsorted. cbn [length bsearch Nat.ltb Nat.leb]. change (0 + (2 - 0) / 2)%nat with 1%nat. cbn [nth_error]. rewrite (t_irr o T).
    cbn [Nat.ltb Nat.leb]. change (0 + (1 - 0) / 2)%nat with 0%nat. cbn [nth_error]. rewrite (t_irr o T). cbn [nth_error]. rewrite E. reflexivity.
  - cbn [index_of]. rewrite E. reflexivity.
Qed.
Print Assumptions C184_collision_refuted.
(** Finding: for several keys with base index 0 the codes are not moved to base index 1: the rows of the
    first category become filtered and every other row shows the category before its own. *)
Theorem C184_base0_refuted :
  exists (text : cell -> name) (sep : name) (k : mcat), regular k /\ k_base k = 0 /\
  map (option_map (fun t => joined sep (map text t))) (row_tuples k) = [Some [97; 95; 1]; Some [98; 95; 2]]%nat /\
  map (cval 1 (snd (singlekey_multi text sep k))) (fst (singlekey_multi text sep k)) = [None; Some [97; 95; 1]]%nat.
Proof.
  exists (fun v => match v with Cs s => s | Cn z => [Z.to_nat z] end), [95]%nat, (mkMcat 0 [Bytes [[97]; [98]]%nat; Nums [1; 2]] [0; 1]).
  split.
  { split; [discriminate|]. split; [intros c [<-|[<-|[]]]; reflexivity|]. split; [|split; [now left|]].
    - repeat constructor; cbn; intuition discriminate.
    - cbn. intuition lia. }
  split; [reflexivity|]. split; vm_compute; reflexivity.
Qed.
Print Assumptions C184_base0_refuted.
(** A single key of either base index shows the same rows afterwards, with base index 1. *)
Theorem C184_single :
  forall (A : Type) (base : Z) (codes : list Z) (l : list A), base = 0 \/ base = 1 ->
  map (cval 1 (snd (singlekey_single base codes l))) (fst (singlekey_single base codes l)) = map (cval base l) codes.
Proof.
  intros A base codes l [->| ->]; unfold singlekey_single; cbn [Z.eqb fst snd]; [|reflexivity]. rewrite map_map. apply map_ext. intros c.
  unfold cval. destruct (Z.ltb_spec (c + 1) 1), (Z.ltb_spec c 0); try lia; [reflexivity|]. f_equal. lia.
Qed.
Print Assumptions C184_single.
(** A mapped Categorical: every row shows the name of its code, rows without a name are filtered. *)
Theorem C184_mapped :
  forall (o : ord name), total o -> forall (ordered : bool) (d : list (Z * name)) (codes : list Z),
  map (cval 1 (snd (singlekey_enum o ordered d codes))) (fst (singlekey_enum o ordered d codes)) = mapped_rows d codes.
Proof. intros o T ordered d codes. apply enum_rows. exact T. Qed.
Print Assumptions C184_mapped.
Example C184_case : regular ex_k /\
  snd (singlekey_multi (fun v => match v with Cs s => s | Cn z => [Z.to_nat z] end) [95]%nat ex_k) = [[97; 95; 1]; [97; 95; 2]; [98; 95; 1]; [99; 95; 7]]%nat /\
  singlekey_enum (mkOrd name name_eqb (fun _ _ => false) (@length nat) (@firstn nat)) false [(-3, [1%nat]); (2, [2%nat]); (5, [3%nat])] [5; 7; -3] = ([3; 0; 1], [[1]; [2]; [3]]%nat).
Proof. split; [exact ex_regular|]. split; vm_compute; reflexivity. Qed.

(** *** C185: merging mapped Categoricals *)
(** categorical_merge_dict raises exactly when two of the mappings contradict each other; otherwise the
    common mapping has exactly the names and codes of the given ones, whatever order Python walks
    through its sets. *)
Theorem C185_merge :
  forall (ms : list maps) (strings : list name) (ints : list Z), walks strings ints ms ->
  (merge_dict strings ints ms = None <-> exists m1 m2, In m1 ms /\ In m2 ms /\ contradict m1 m2) /\
  (forall M, merge_dict strings ints ms = Some M ->
     forall s c, get_s (m_s2i M) s = Some c <-> exists m, In m ms /\ get_s (m_s2i m) s = Some c).
Proof.
  intros ms strings ints W. pose proof (safe_spec strings ints ms W) as S. unfold merge_dict. destruct (safe strings ints ms) eqn:E.
  - split; [split; [discriminate|]; intros H; exfalso; apply (proj1 S eq_refl); exact H|].
    intros M Q. injection Q as <-. cbn [m_s2i]. apply (merged_get _ _ _ W E).
  - split; [|discriminate]. split; [|reflexivity]. intros _.
    destruct (existsb (fun s => negb (length (nodup Z.eq_dec (all_codes ms s)) <=? 1)%nat) strings) eqn:X1.
    + apply existsb_exists in X1. destruct X1 as [s [_ X]]. apply negb_true_iff in X.
      destruct (all_codes ms s) as [|a l] eqn:Ea; [discriminate|].
      assert (D : exists b, In b (a :: l) /\ a <> b).
      { destruct (existsb (fun b => negb (a =? b)) (a :: l)) eqn:Y; [apply existsb_exists in Y; destruct Y as [b [I Y]]; exists b; split; [exact I|]; apply negb_true_iff, Z.eqb_neq in Y; exact Y|].
        exfalso. assert (Q : (length (nodup Z.eq_dec (a :: l)) <=? 1)%nat = true); [|congruence]. apply nodup_small.
        assert (All : forall b, In b (a :: l) -> a = b); [|intros b1 b2 B1 B2; rewrite <- (All b1 B1), <- (All b2 B2); reflexivity].
        intros b I. destruct (Z.eqb_spec a b) as [|Ne]; [assumption|]. exfalso. assert (Z : existsb (fun b => negb (a =? b)) (a :: l) = true); [|congruence].
        apply existsb_exists. exists b. split; [exact I|]. apply negb_true_iff, Z.eqb_neq. exact Ne. }
      destruct D as [b [Ib Nb]]. assert (Ia : In a (all_codes ms s)) by (rewrite Ea; now left). rewrite <- Ea in Ib.
      apply all_codes_in in Ia. apply all_codes_in in Ib. destruct Ia as [m1 [I1 E1]], Ib as [m2 [I2 E2]]. exists m1, m2. split; [exact I1|]. split; [exact I2|]. left. exists s, a, b. auto.
    + destruct (existsb (fun c => negb (length (nodup name_dec (all_names ms c)) <=? 1)%nat) ints) eqn:X2.
      * apply existsb_exists in X2. destruct X2 as [c [_ X]]. apply negb_true_iff in X.
        destruct (all_names ms c) as [|a l] eqn:Ea; [discriminate|].
        assert (D : exists b, In b (a :: l) /\ a <> b).
        { destruct (existsb (fun b => if name_dec a b then false else true) (a :: l)) eqn:Y; [apply existsb_exists in Y; destruct Y as [b [I Y]]; exists b; split; [exact I|]; destruct (name_dec a b); congruence|].
          exfalso. assert (Q : (length (nodup name_dec (a :: l)) <=? 1)%nat = true); [|congruence]. apply nodup_small.
          assert (All : forall b, In b (a :: l) -> a = b); [|intros b1 b2 B1 B2; rewrite <- (All b1 B1), <- (All b2 B2); reflexivity].
          intros b I. destruct (name_dec a b) as [|Ne] eqn:Dn; [assumption|]. exfalso. assert (Z : existsb (fun b => if name_dec a b then false else true) (a :: l) = true); [|congruence].
          apply existsb_exists. exists b. split; [exact I|]. now rewrite Dn. }
        destruct D as [b [Ib Nb]]. assert (Ia : In a (all_names ms c)) by (rewrite Ea; now left). rewrite <- Ea in Ib.
        apply all_names_in in Ia. apply all_names_in in Ib. destruct Ia as [m1 [I1 E1]], Ib as [m2 [I2 E2]]. exists m1, m2. split; [exact I1|]. split; [exact I2|]. right. exists c, a, b. auto.
      * exfalso. assert (Q : safe strings ints ms = true); [|congruence]. unfold safe. apply andb_true_iff. split; apply forallb_forall.
        -- intros s I. destruct (length (nodup Z.eq_dec (all_codes ms s)) <=? 1)%nat eqn:Z; [reflexivity|].
           assert (Y : existsb (fun s => negb (length (nodup Z.eq_dec (all_codes ms s)) <=? 1)%nat) strings = true); [|congruence].
           apply existsb_exists. exists s. split; [exact I|]. now rewrite Z.
        -- intros c I. destruct (length (nodup name_dec (all_names ms c)) <=? 1)%nat eqn:Z; [reflexivity|].
           assert (Y : existsb (fun c => negb (length (nodup name_dec (all_names ms c)) <=? 1)%nat) ints = true); [|congruence].
           apply existsb_exists. exists c. split; [exact I|]. now rewrite Z.
Qed.
Print Assumptions C185_merge.
(** If the two dictionaries of every mapping say the same, so do those of the common mapping, and every row
    that showed a name shows the same name.  Missing: mappings that give one code two names (refuted
    below). *)
Theorem C185_rows_partial :
  forall (ms : list maps) (strings : list name) (ints : list Z) (M : maps), walks strings ints ms ->
  (forall m, In m ms -> two_way m) -> merge_dict strings ints ms = Some M ->
  two_way M /\
  forall m codes r s, In m ms -> nth_error (mapped_rows (m_i2s m) codes) r = Some (Some s) ->
    nth_error (mapped_rows (m_i2s M) codes) r = Some (Some s).
Proof.
  intros ms strings ints M W T E. unfold merge_dict in E. destruct (safe strings ints ms) eqn:S; [|discriminate]. injection E as <-.
  pose proof (merged_names _ _ _ W S T) as N. pose proof (merged_get _ _ _ W S) as G. cbn [m_i2s m_s2i]. split.
  - intros c s. cbn [m_i2s m_s2i]. rewrite N, G. split; intros [m [I E]]; exists m; (split; [exact I|]); apply (T m I); exact E.
  - intros m codes r s I. unfold mapped_rows. destruct (nth_error codes r) as [c|] eqn:Ec.
    + rewrite (map_nth_error _ _ _ Ec), (map_nth_error _ _ _ Ec). intros Q. injection Q as Q. f_equal. apply N. eauto.
    + apply nth_error_None in Ec. intros Q. assert (nth_error (map (fun c => get_i (m_i2s m) c) codes) r = None); [|congruence]. apply nth_error_None. now rewrite map_length.
Qed.
Print Assumptions C185_rows_partial.
(** Finding: with a mapping that gives one code two names, which the constructor allows with a warning,
    merging can change what the rows show, depending on the order of a Python set. *)
Theorem C185_two_names_refuted :
  exists (m M : maps) (strings : list name) (ints : list Z), walks strings ints [m] /\
  m_s2i m = [([97%nat], 1); ([98%nat], 1)] /\ m_i2s m = reverse (m_s2i m) /\
  merge_dict strings ints [m] = Some M /\
  mapped_rows (m_i2s m) [1] = [Some [98]%nat] /\ mapped_rows (m_i2s M) [1] = [Some [97]%nat].
Proof.
  set (m := mkMaps [(1, [98]%nat)] [([97]%nat, 1); ([98]%nat, 1)]). exists m. eexists. exists [[98]; [97]]%nat, [1]. split.
  { split.
    - intros s. split.
      + intros [<-|[<-|[]]]; exists m; eexists; (split; [now left|vm_compute; reflexivity]).
      + intros [m' [c [[<-|[]] E]]]. cbn [m_s2i m get_s] in E. destruct (name_dec [97]%nat s) as [<-|]; [right; now left|].
        destruct (name_dec [98]%nat s) as [<-|]; [now left|discriminate].
    - intros c. split.
      + intros [<-|[]]. exists m, [98]%nat. split; [now left|reflexivity].
      + intros [m' [s [[<-|[]] E]]]. cbn [m_i2s m get_i] in E. destruct (Z.eqb_spec 1 c) as [<-|]; [now left|discriminate]. }
  split; [reflexivity|]. split; [reflexivity|]. split; [vm_compute; reflexivity|]. split; vm_compute; reflexivity.
Qed.
Print Assumptions C185_two_names_refuted.
(** Comparing two mapped Categoricals raises if their mappings contradict each other; otherwise rows
    with names are == exactly when the names are equal. *)
Theorem C185_compare :
  forall (m1 m2 : maps) (strings : list name) (ints : list Z) (c1 c2 : list Z), walks strings ints [m1; m2] ->
  two_way m1 -> two_way m2 -> length c1 = length c2 ->
  (contradict m1 m2 -> compare_mapped strings ints Ceq m1 m2 c1 c2 = None) /\
  (forall m, compare_mapped strings ints Ceq m1 m2 c1 c2 = Some m ->
     compare_mapped strings ints Cne m1 m2 c1 c2 = Some (map negb m) /\ length m = length c1 /\
     forall r s1 s2 b, nth_error (mapped_rows (m_i2s m1) c1) r = Some (Some s1) ->
       nth_error (mapped_rows (m_i2s m2) c2) r = Some (Some s2) -> nth_error m r = Some b -> (b = true <-> s1 = s2)).
Proof.
  intros m1 m2 strings ints c1 c2 W T1 T2 L. pose proof (safe_spec _ _ _ W) as S. unfold compare_mapped. destruct (safe strings ints [m1; m2]) eqn:E.
  - pose proof (proj1 S eq_refl) as NC. split; [intros C; exfalso; apply NC; exists m1, m2; cbn; auto|].
    intros m Q. injection Q as <-. split; [f_equal; rewrite map_map; reflexivity|]. split; [rewrite map_length, combine_length; lia|].
    intros r s1 s2 b E1 E2 Eb. unfold mapped_rows in E1, E2. rewrite nth_error_map in E1, E2, Eb.
    destruct (nth_error c1 r) as [a1|] eqn:A1; [|discriminate]. destruct (nth_error c2 r) as [a2|] eqn:A2; [|discriminate].
    assert (Ec : nth_error (combine c1 c2) r = Some (a1, a2)).
    { clear - A1 A2. revert c2 r A1 A2. induction c1 as [|x c1 IH]; intros [|y c2] [|r] A1 A2; cbn in *; try discriminate; [congruence|]. now apply IH. }
    rewrite Ec in Eb. cbn [option_map fst snd zop] in *. injection E1 as E1. injection E2 as E2. injection Eb as <-. rewrite Z.eqb_eq. split.
    + intros ->. destruct (name_dec s1 s2) as [|D]; [assumption|]. exfalso. apply NC. exists m1, m2. split; [now left|]. split; [right; now left|]. right. exists a2, s1, s2. auto.
    + intros ->. apply T1 in E1. apply T2 in E2. destruct (Z.eq_dec a1 a2) as [|D]; [assumption|]. exfalso. apply NC. exists m1, m2. split; [now left|]. split; [right; now left|]. left. exists s2, a1, a2. auto.
  - split; [reflexivity|discriminate].
Qed.
Print Assumptions C185_compare.
Definition ex_m1 : maps := mkMaps [(1, [97%nat]); (2, [98%nat])] [([97%nat], 1); ([98%nat], 2)].
Definition ex_m2 : maps := mkMaps [(2, [98%nat]); (5, [99%nat])] [([98%nat], 2); ([99%nat], 5)].
Example C185_case : two_way ex_m1 /\ two_way ex_m2 /\
  merge_dict [[99]; [97]; [98]]%nat [5; 1; 2] [ex_m1; ex_m2] = Some (mkMaps [(5, [99%nat]); (1, [97%nat]); (2, [98%nat])] [([99%nat], 5); ([97%nat], 1); ([98%nat], 2)]) /\
  merge_dict [[97]; [98]]%nat [1; 2] [ex_m1; mkMaps [(2, [97%nat])] [([97%nat], 2)]] = None /\
  compare_mapped [[99]; [97]; [98]]%nat [5; 1; 2] Ceq ex_m1 ex_m2 [1; 2] [5; 2] = Some [false; true].
Proof.
  split; [|split; [|split; [vm_compute; reflexivity|split; vm_compute; reflexivity]]].
  - intros c s. cbn [ex_m1 m_i2s m_s2i get_i get_s]. destruct (Z.eqb_spec 1 c), (Z.eqb_spec 2 c), (name_dec [97]%nat s), (name_dec [98]%nat s); subst; split; intros H; congruence.
  - intros c s. cbn [ex_m2 m_i2s m_s2i get_i get_s]. destruct (Z.eqb_spec 2 c), (Z.eqb_spec 5 c), (name_dec [98]%nat s), (name_dec [99]%nat s); subst; split; intros H; congruence.
Qed.
