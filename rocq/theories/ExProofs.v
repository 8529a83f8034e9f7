(** Proofs about extracted patterns and matrices. *)
From Coq Require Import List ZArith Bool Lia.
From Verif Require Import FlattenModel FlattenProofs ExSpec ExModel.
Import ListNotations.

Lemma at_index_map : forall A B (f : A -> B) (u : list A) inv l, length inv = length l ->
  (forall i x, nth_error l i = Some x -> exists j, nth_error inv i = Some j /\ nth_error u j = Some x) ->
  at_index (map f u) inv = map f l.
Proof.
  intros A B f u inv. induction inv as [|j inv IH]; intros [|x l] L H; try discriminate; [reflexivity|].
  injection L as L. cbn. destruct (H 0 x eq_refl) as (j' & [= <-] & E). rewrite nth_error_map, E. cbn. f_equal.
  apply IH; [exact L|]. intros i y Y. exact (H (S i) y Y).
Qed.
Lemma put_length : forall A i (x : A) l, length (put i x l) = length l.
Proof. intros A i x l. revert i. induction l as [|y l IH]; intros [|i]; cbn; auto. Qed.
Lemma put_nth : forall A i (x : A) l k, i < length l -> nth_error (put i x l) k = if Nat.eqb k i then Some x else nth_error l k.
Proof.
  intros A i x l. revert i. induction l as [|y l IH]; intros i k L; cbn in L; [lia|].
  destruct i as [|i], k as [|k]; cbn; auto. apply IH. lia.
Qed.
Lemma names_length : forall (l : list (name * nat)) ns, length (fold_left (fun ns p => put (snd p) (fst p) ns) l ns) = length ns.
Proof. induction l as [|p l IH]; intro ns; cbn; [reflexivity|]. rewrite IH. apply put_length. Qed.
Lemma names_other : forall (l : list (name * nat)) ns g, (forall p, In p l -> snd p < length ns) -> ~ In g (map snd l) ->
  nth_error (fold_left (fun ns p => put (snd p) (fst p) ns) l ns) g = nth_error ns g.
Proof.
  induction l as [|p l IH]; intros ns g LT N; cbn; [reflexivity|]. rewrite IH.
  - rewrite put_nth by (apply LT; now left). destruct (Nat.eqb_spec g (snd p)); [|reflexivity]. exfalso. apply N. left. auto.
  - intros q Q. rewrite put_length. apply LT. now right.
  - intro X. apply N. now right.
Qed.
Lemma names_in : forall (l : list (name * nat)) ns n g, (forall p, In p l -> snd p < length ns) -> NoDup (map snd l) -> In (n, g) l ->
  nth_error (fold_left (fun ns p => put (snd p) (fst p) ns) l ns) g = Some n.
Proof.
  induction l as [|p l IH]; intros ns n g LT N I; [destruct I|]. cbn. inversion N; subst.
  assert (LT' : forall q, In q l -> snd q < length (put (snd p) (fst p) ns)).
  { intros q Q. rewrite put_length. apply LT. now right. }
  destruct I as [->|I].
  - rewrite names_other by assumption. cbn. rewrite put_nth by (apply (LT (n, g)); now left). now rewrite Nat.eqb_refl.
  - now apply IH.
Qed.
Lemma nth_error_ext : forall A (l m : list A), length l = length m -> (forall i, i < length l -> nth_error l i = nth_error m i) -> l = m.
Proof.
  intros A l. induction l as [|x l IH]; intros [|y m] L H; try discriminate; [reflexivity|]. injection L as L.
  assert (H0 := H 0). cbn in H0. specialize (H0 ltac:(lia)). injection H0 as ->. f_equal. apply IH; [exact L|].
  intros i I. apply (H (S i)). cbn. lia.
Qed.
Lemma default_is : forall gname r ns, well_formed r -> 0 < r_groups r -> named gname r None ns -> default_names gname r = ns.
Proof.
  intros gname r ns (_ & ND & LT) P (L & N1 & N2). unfold default_names, arity in *. replace (Nat.max 1 (r_groups r)) with (r_groups r) in * by lia.
  assert (LT' : forall p, In p (r_names r) -> snd p < length (map gname (seq 0 (r_groups r)))).
  { intros [n g] I. rewrite map_length, seq_length. exact (LT n g I). }
  apply nth_error_ext; rewrite names_length, map_length, seq_length; [auto|].
  intros i I. destruct (in_dec Nat.eq_dec i (map snd (r_names r))) as [X|X].
  - apply in_map_iff in X. destruct X as ([n g] & E & X). cbn in E. subst g. rewrite (names_in _ _ n i LT' ND X). symmetry. now apply N1.
  - rewrite names_other by assumption. rewrite N2 by assumption. rewrite nth_error_map, (nth_error_nth' _ 0) by now rewrite seq_length.
    now rewrite seq_nth.
Qed.
Lemma row_is : forall r fill s g, well_formed r -> total r -> g < r_groups r -> nth g (row r fill s) None = Some (found r fill g s).
Proof.
  intros r fill s g (W & _) T L. unfold row, found. destruct (r_search r s) as [[m gs]|] eqn:E.
  - specialize (W s m gs E). specialize (T s m gs E). destruct (r_groups r) as [|k] eqn:G; [lia|].
    destruct (nth_error gs g) as [[t|]|] eqn:N.
    + now apply nth_error_nth.
    + exfalso. apply nth_error_In in N. rewrite Forall_forall in T. now apply (T None N).
    + apply nth_error_None in N. lia.
  - rewrite (nth_indep _ None (Some fill)) by (rewrite repeat_length; exact L). apply nth_repeat.
Qed.
Lemma parens_ok : forall r, well_formed (parens r) /\ total (parens r).
Proof.
  intro r. split.
  - split; [|split; [constructor|intros n g []]]. intros s m gs. cbn. destruct (r_search r s) as [[m' gs']|]; [|discriminate].
    intros [= <- <-]. reflexivity.
  - intros s m gs. cbn. destruct (r_search r s) as [[m' gs']|]; [|discriminate]. intros [= <- <-]. constructor; [discriminate|constructor].
Qed.
Lemma groups_is : forall gname strings r expand fill given ns, well_formed r -> total r -> 0 < r_groups r ->
  named gname r given ns -> NoDup ns -> (expand = Some false -> r_groups r = 1) ->
  let out := map (fun g => map (fun s => Some (found r fill g s)) strings) (seq 0 (r_groups r)) in
  extract_groups gname strings r expand fill given =
  if expands r expand given then Ds (combine ns out) else Arr (nth 0 out []).
Proof.
  intros gname strings r expand fill given ns W T P N ND X out.
  assert (C : columns r fill strings = out).
  { unfold columns, out. apply map_ext_in. intros g I. apply in_seq in I. apply map_ext. intro s. apply row_is; auto. lia. }
  unfold extract_groups.
  assert (E1 : (match expand with
         | None => Some (Nat.ltb 1 (r_groups r) || match given with Some _ => true | None => false end || negb (Nat.eqb (length (r_names r)) 0))
         | Some e => if negb e && Nat.ltb 1 (r_groups r) then None else Some e
         end) = Some (expands r expand given)).
  { unfold expands. destruct expand as [[|]|]; cbn [negb andb]; auto.
    - rewrite (X eq_refl). reflexivity.
    - destruct (r_names r); reflexivity. }
  rewrite E1.
  assert (E2 : (match given with
             | None => Some (default_names gname r)
             | Some ns => if Nat.eqb (length ns) (r_groups r) then Some ns else None
             end) = Some ns).
  { destruct given as [l|].
    - destruct N as (L & ->). unfold arity in L. replace (length l) with (r_groups r) by lia. now rewrite Nat.eqb_refl.
    - f_equal. now apply default_is. }
  rewrite E2, C. destruct (expands r expand given).
  - f_equal. rewrite dset_all_fresh; [reflexivity| |intros k _ []].
    assert (L : length ns = length out). { unfold out. rewrite map_length, seq_length. destruct N as (-> & _). unfold arity. lia. }
    assert (Q : forall o : list (list cell), length ns = length o -> map fst (combine ns o) = ns).
    { clear. induction ns as [|n ns IH]; intros [|o out] L; try discriminate; [reflexivity|]. cbn. f_equal. apply IH. now injection L. }
    rewrite (Q out L). exact ND.
  - unfold out. destruct (r_groups r) as [|k]; [lia|]. reflexivity.
Qed.
Lemma extract1_is : forall gname bytes strings r expand fill given ns, well_formed r -> total r ->
  (r_groups r = 0 -> bytes = true) -> named gname r given ns -> NoDup ns -> (expand = Some false -> arity r = 1) ->
  let out := map (fun g => map (fun s => Some (found r fill g s)) strings) (seq 0 (arity r)) in
  extract1 gname bytes strings r expand fill given =
  if expands r expand given then Ds (combine ns out) else Arr (nth 0 out []).
Proof.
  intros gname bytes strings r expand fill given ns W T B N ND X out. unfold extract1.
  destruct (r_groups r) as [|k] eqn:G.
  - rewrite B by reflexivity. destruct (parens_ok r) as (W' & T').
    assert (NN : r_names r = []).
    { destruct W as (_ & _ & W). destruct (r_names r) as [|[n g] l]; [reflexivity|]. specialize (W n g (or_introl eq_refl)). lia. }
    rewrite (groups_is gname strings (parens r) expand fill given ns W' T').
    + assert (E : expands (parens r) expand given = expands r expand given).
      { unfold expands. rewrite G, NN. reflexivity. }
      rewrite E. unfold out, arity. rewrite G. cbn [Nat.max r_groups parens seq map nth].
      assert (F : map (fun s => Some (found (parens r) fill 0 s)) strings = map (fun s => Some (found r fill 0 s)) strings).
      { apply map_ext. intro s. unfold found. cbn [r_search parens r_groups]. rewrite G. destruct (r_search r s) as [[m gs]|]; reflexivity. }
      rewrite F. reflexivity.
    + cbn. lia.
    + unfold named in *. rewrite NN in N. unfold arity in *. rewrite G in N. cbn [r_groups r_names parens]. exact N.
    + exact ND.
    + reflexivity.
  - assert (A : arity r = r_groups r) by (unfold arity; lia). unfold out. rewrite A.
    apply groups_is; auto; [lia|]. intro Y. rewrite <- A. auto.
Qed.

(** *** matrices *)
Lemma position_some : forall V (eq_dec : forall a b : V, {a = b} + {a <> b}) x l z, position eq_dec x l = Some z -> exists i, z = Z.of_nat i /\ nth_error l i = Some x.
Proof.
  intros V eq_dec x l. induction l as [|y l IH]; intro z; cbn; [discriminate|]. destruct (eq_dec x y) as [<-|D].
  - intros [= <-]. now exists 0.
  - destruct (position eq_dec x l) as [w|]; [|discriminate]. intros [= <-]. destruct (IH w eq_refl) as (i & -> & E). exists (S i). split; [lia|exact E].
Qed.
Lemma position_none : forall V (eq_dec : forall a b : V, {a = b} + {a <> b}) x l, position eq_dec x l = None <-> ~ In x l.
Proof.
  intros V eq_dec x l. induction l as [|y l IH]; cbn; [tauto|]. destruct (eq_dec x y) as [<-|D].
  - split; [discriminate|tauto].
  - destruct (position eq_dec x l); split; intuition (try discriminate; try congruence).
Qed.
