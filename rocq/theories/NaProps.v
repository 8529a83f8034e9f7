(* C227, C228: the invalid category of Categoricals. *)
From Coq Require Import List ZArith Bool Lia.
From Verif Require Import FlattenModel CatModel CatSpec CatProofs CatProps MkSpec MkModel NaSpec NaModel NaProofs.
Import ListNotations.
Local Open Scope Z_scope.

(* C227.  isnan is true exactly for the elements of the invalid category, and
   isnotnan exactly for the others; without an invalid category isnan is nowhere true. *)
Theorem C227_isnan_partial :
  forall (A : Type) (o : ord A) (k : kcat A), total o -> sound o (k_kind k) ->
  length (isnan o k) = length (k_codes k) /\ length (isnotnan o k) = length (k_codes k) /\
  forall i code, nth_error (k_codes k) i = Some code ->
  exists b, nth_error (isnan o k) i = Some b /\ nth_error (isnotnan o k) i = Some (negb b) /\
  (b = true <-> exists s, k_inv k = Some s /\ is_cat (k_kind k) code s).
Proof.
  intros A o k T H. unfold isnan, isnotnan, nan_idx. destruct (k_inv k) as [s|].
  - assert (B : forall c, bin_of o (k_kind k) s = Some c <-> is_cat (k_kind k) c s) by (intro c; now apply bin_is).
    destruct (bin_of o (k_kind k) s) as [b0|].
    + split; [apply map_length|]. split; [apply map_length|]. intros i code E. exists (code =? b0).
      split; [rewrite nth_error_map, E; reflexivity|]. split; [rewrite nth_error_map, E; reflexivity|]. split.
      * intro X. apply Z.eqb_eq in X. subst b0. exists s. split; [reflexivity|]. now apply B.
      * intros (s' & [= <-] & X). apply B in X. injection X as ->. apply Z.eqb_refl.
    + split; [apply map_length|]. split; [apply map_length|]. intros i code E. exists false.
      split; [rewrite nth_error_map, E; reflexivity|]. split; [rewrite nth_error_map, E; reflexivity|]. split; [discriminate|].
      intros (s' & [= <-] & X). apply B in X. discriminate.
  - split; [apply map_length|]. split; [apply map_length|]. intros i code E. exists false.
    split; [rewrite nth_error_map, E; reflexivity|]. split; [rewrite nth_error_map, E; reflexivity|]. split; [discriminate|].
    intros (s' & X & _). discriminate.
Qed.
Print Assumptions C227_isnan_partial.

(* isfiltered is true exactly for the elements of no category: an element is never
   both filtered and invalid. *)
Theorem C227_isfiltered :
  forall (A : Type) (o : ord A) (k : kcat A), total o -> sound o (k_kind k) ->
  length (isfiltered k) = length (k_codes k) /\
  forall i code, nth_error (k_codes k) i = Some code -> valid_code (k_kind k) code ->
  exists b, nth_error (isfiltered k) i = Some b /\ (b = true <-> forall a, ~ is_cat (k_kind k) code a) /\
  (b = true -> nth_error (isnan o k) i = Some false).
Proof.
  intros A o k T H.
  assert (D : forall i code, nth_error (k_codes k) i = Some code -> (forall a, ~ is_cat (k_kind k) code a) -> nth_error (isnan o k) i = Some false).
  { intros i code E N. destruct (C227_isnan_partial A o k T H) as (_ & _ & Q). destruct (Q i code E) as (b & B & _ & I).
    rewrite B. destruct b; [|reflexivity]. destruct (proj1 I eq_refl) as (s & _ & C). destruct (N s C). }
  unfold isfiltered. destruct (k_kind k) as [sd base l|m] eqn:K.
  - destruct H as ([->| ->] & _); cbn [Z.eqb Pos.eqb]; (split; [apply map_length|]); intros i code E V; cbn [valid_code] in V.
    + exists false. split; [rewrite nth_error_map, E; reflexivity|]. split; [|discriminate]. split; [discriminate|]. intro N. exfalso.
      assert (L : (Z.to_nat (code - 0) < length l)%nat) by lia. apply nth_error_Some in L.
      destruct (nth_error l (Z.to_nat (code - 0))) as [a|] eqn:X; [|congruence]. apply (N a). split; [lia|exact X].
    + exists (code =? 0). split; [rewrite nth_error_map, E; reflexivity|].
      assert (I : (code =? 0) = true <-> (forall a, ~ is_cat (Single sd 1 l) code a)).
      { split.
        - intros Z0 a (X & _). apply Z.eqb_eq in Z0. lia.
        - intro N. apply Z.eqb_eq. destruct (Z.eq_dec code 0) as [|NZ]; [assumption|]. exfalso.
          assert (L : (Z.to_nat (code - 1) < length l)%nat) by lia. apply nth_error_Some in L.
          destruct (nth_error l (Z.to_nat (code - 1))) as [a|] eqn:X; [|congruence]. apply (N a). split; [lia|exact X]. }
      split; [exact I|]. intro B. apply (D i code E). now apply I.
  - split; [apply map_length|]. intros i code E _. exists (negb (existsb (fun p => fst p =? code) m)). split; [rewrite nth_error_map, E; reflexivity|].
    assert (I : negb (existsb (fun p => fst p =? code) m) = true <-> (forall a, ~ is_cat (Mapping m) code a)).
    { rewrite negb_true_iff. split.
      - intros X a I. cbn in I. assert (Y : existsb (fun p => fst p =? code) m = true); [|congruence].
        apply existsb_exists. exists (code, a). split; [exact I|]. apply Z.eqb_refl.
      - intro N. destruct (existsb (fun p => fst p =? code) m) eqn:X; [|reflexivity]. exfalso. apply existsb_exists in X.
        destruct X as ([c a] & X & Y). cbn in Y. apply Z.eqb_eq in Y. subst c. exact (N a X). }
    split; [exact I|]. intro B. apply (D i code E). now apply I.
Qed.
Print Assumptions C227_isfiltered.

(* Finding: invalid_set takes bytes according to its documentation, but raises: the
   decoded bytes are thrown away before the test for str. *)
Theorem C227_bytes_refuted :
  forall (A : Type) (k : kcat A) (s : A), invalid_set k (Bytes s) = None /\ invalid_set k (Str s) <> None.
Proof. intros A k s. split; [reflexivity|discriminate]. Qed.
Print Assumptions C227_bytes_refuted.

Definition case_k : kcat nat := mkK [2; 0; 1; 2; 3] (Single true 1 [10; 20; 30]%nat) (Some 20%nat) None.
Example C227_case :
  total nat_ord /\ sound nat_ord (k_kind case_k) /\
  isnan nat_ord case_k = [true; false; false; true; false] /\ isfiltered case_k = [false; true; false; false; false] /\
  sound nat_ord (Mapping [(-5, 7%nat); (100, 8%nat)]) /\
  isnan nat_ord (mkK [100; -5; 3] (Mapping [(-5, 7%nat); (100, 8%nat)]) (Some 8%nat) None) = [true; false; false].
Proof.
  split; [exact total_nat|]. split; [split; [now right|apply incb_ok; reflexivity]|]. split; [vm_compute; reflexivity|]. split; [vm_compute; reflexivity|].
  split; [|vm_compute; reflexivity]. split; repeat constructor; cbn; intuition congruence.
Qed.

(* C228.  The invalid category of a Categorical is, after any history, the last
   one set on it or else the one it was made with: setting one on a Categorical
   does not change others, those made from it included. *)
Theorem C228_history :
  forall (A : Type) (ops : list (op A)) (j : nat) (k : kcat A) (s : A), nth_error (run ops) j = Some k ->
  (k_inv k = Some s <-> told ops j s).
Proof. intros. now apply told_is. Qed.
Print Assumptions C228_history.

(* Indexing and copies keep the elements as they are shown, with the name for
   filtered ones, and which are filtered. *)
Theorem C228_elements_partial :
  forall (A : Type) (k : kcat A) (pos : list nat), Forall (fun p => (p < length (k_codes k))%nat) pos ->
  items_of (copy k) = items_of k /\ isfiltered (copy k) = isfiltered k /\
  length (items_of (take k pos)) = length pos /\
  forall i p, nth_error pos i = Some p ->
  nth_error (items_of (take k pos)) i = nth_error (items_of k) p /\ nth_error (isfiltered (take k pos)) i = nth_error (isfiltered k) p.
Proof.
  intros A k pos F. split; [reflexivity|]. split; [reflexivity|].
  split; [unfold items_of, take; cbn [k_codes]; now rewrite !map_length|].
  intros i p E. rewrite Forall_forall in F. pose proof (F p (nth_error_In _ _ E)) as L.
  assert (C : nth_error (k_codes k) p = Some (nth p (k_codes k) 0)) by now apply nth_error_nth'.
  assert (C' : nth_error (k_codes (take k pos)) i = Some (nth p (k_codes k) 0)) by (cbn [take k_codes]; rewrite nth_error_map, E; reflexivity).
  split.
  - unfold items_of. rewrite (map_nth_error _ _ _ C), (map_nth_error _ _ _ C'). reflexivity.
  - unfold isfiltered. change (k_kind (take k pos)) with (k_kind k).
    destruct (k_kind k) as [sd base l|m]; [destruct (base =? 1)|]; rewrite (map_nth_error _ _ _ C), (map_nth_error _ _ _ C'); reflexivity.
Qed.
Print Assumptions C228_elements_partial.

(* Finding: indexing forgets the invalid category: an invalid element is no longer
   invalid in c[p:p+1], c[mask] or c[[p]]. *)
Theorem C228_take_refuted :
  forall (A : Type) (o : ord A) (k : kcat A) (p : nat), nth_error (isnan o k) p = Some true ->
  isnan o (take k [p]) = [false] /\ nth_error (items_of (take k [p])) 0 = nth_error (items_of k) p.
Proof.
  intros A o k p H. split; [reflexivity|].
  assert (L : (p < length (k_codes k))%nat).
  { assert (X : nth_error (isnan o k) p <> None) by congruence. apply nth_error_Some in X.
    unfold isnan in X. destruct (nan_idx o k); now rewrite map_length in X. }
  destruct (C228_elements_partial A k [p]) as (_ & _ & _ & Q); [now repeat constructor|]. now destruct (Q 0%nat p eq_refl).
Qed.
Print Assumptions C228_take_refuted.

(* Finding: so does copy (and Categorical(c)), although it passes the invalid
   category on to the constructor. *)
Theorem C228_copy_refuted :
  forall (A : Type) (o : ord A) (k : kcat A) (p : nat), nth_error (isnan o k) p = Some true ->
  nth_error (isnan o (copy k)) p = Some false /\ items_of (copy k) = items_of k.
Proof.
  intros A o k p H. split; [|reflexivity]. assert (X : nth_error (isnan o k) p <> None) by congruence. apply nth_error_Some in X.
  assert (L : (p < length (k_codes k))%nat) by (unfold isnan in X; destruct (nan_idx o k); now rewrite map_length in X).
  change (isnan o (copy k)) with (map (fun _ => false) (k_codes k)). apply nth_error_Some in L.
  rewrite nth_error_map. destruct (nth_error (k_codes k) p); [reflexivity|congruence].
Qed.
Print Assumptions C228_copy_refuted.

(* Finding: shift_cat forgets the invalid category and the name of filtered elements. *)
Theorem C228_shift_refuted :
  forall (A : Type) (o : ord A) (k : kcat A) (n : nat),
  isnan o (shift_cat k n) = map (fun _ => false) (shift_codes n (k_codes k)) /\
  forall nm, k_name (shift_cat (filtered_set_name k nm) n) = None.
Proof. intros. split; reflexivity. Qed.
Print Assumptions C228_shift_refuted.

Example C228_case :
  let ops := [New [2; 0; 1; 2; 3] (Single true 1 [10; 20; 30]%nat) (Some 20%nat); Take 0 [0; 1; 2]%nat; SetInvalid 1 (Str 10%nat); Copy 1; SetName 0 [78]%nat; SetInvalid 0 (Bytes 30%nat); Shift 0 1] in
  map (isnan nat_ord) (run ops) = [[true; false; false; true; false]; [false; false; true]; [false; false; false]; [false; false; false; false; false]] /\
  told ops 1 10%nat /\
  nth_error (map items_of (run ops)) 0 = Some [Value 20%nat; Name (Some [78]%nat); Value 10%nat; Value 20%nat; Value 30%nat].
Proof.
  cbv zeta. split; [vm_compute; reflexivity|]. split; [|vm_compute; reflexivity].
  eexists [_; _], _, _. split; [reflexivity|]. split; [right; split; [reflexivity|cbn; lia]|].
  intros s'. cbn. intuition discriminate.
Qed.
