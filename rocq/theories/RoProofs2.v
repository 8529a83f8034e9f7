(* Lemmas for C219-C222. *)
From Coq Require Import List ZArith Bool Lia.
From Verif Require Import FlattenModel FlattenProofs DsProofs3 RoSpec RoModel RoProofs.
Import ListNotations.

(* ** asrows *)
Lemma bump_at t j u : bump (length t) (t ++ j :: u) = t ++ S j :: u.
Proof. induction t; cbn; congruence. Qed.
Lemma nth_error_at {A} (t : list A) j u : nth_error (t ++ j :: u) (length t) = Some j.
Proof. induction t; cbn; auto. Qed.
Lemma skipn_cons {A} (l : list A) j c : nth_error l j = Some c -> skipn j l = c :: skipn (S j) l.
Proof. revert j; induction l as [|x l IH]; intros [|j] E; cbn in E; try discriminate; [injection E as ->; reflexivity|]. cbn [skipn]. rewrite (IH j E). reflexivity. Qed.
Lemma pulls {V} n (cols : list (list V)) r t u rest : forall m j, j + m = length cols ->
  iter_run n cols (mkIter r (t ++ j :: u)) (repeat (Pull (length t)) m ++ rest) =
  map (fun c => nth_error c (r - 1)) (skipn j cols) ++ iter_run n cols (mkIter r (t ++ (j + m) :: u)) rest.
Proof.
  induction m as [|m IH]; intros j L.
  - rewrite Nat.add_0_r in *. rewrite skipn_all2 by lia. reflexivity.
  - cbn [repeat app iter_run iter_step it_taken it_rows]. rewrite nth_error_at.
    destruct (nth_error cols j) as [c|] eqn:E; [|apply nth_error_None in E; lia].
    rewrite bump_at. rewrite (IH (S j)) by lia. rewrite (skipn_cons _ _ _ E). cbn [map app]. f_equal. f_equal.
    replace (S j + m) with (j + S m) by lia. reflexivity.
Qed.
Lemma nexts {V} n (cols : list (list V)) rest : forall m r t, r + m <= n ->
  iter_run n cols (mkIter r t) (repeat Next m ++ rest) = repeat None m ++ iter_run n cols (mkIter (r + m) (t ++ repeat 0 m)) rest.
Proof.
  induction m as [|m IH]; intros r t L; [now rewrite Nat.add_0_r, app_nil_r|].
  cbn [repeat app iter_run iter_step it_taken it_rows]. destruct (Nat.ltb_spec r n) as [_|B]; [|lia].
  rewrite IH by lia. f_equal. f_equal. f_equal. rewrite <- app_assoc. f_equal; lia.
Qed.
Lemma collected {V} n (cols : list (list V)) r : forall m t,
  iter_run n cols (mkIter r (t ++ repeat 0 m)) (flat_map (fun k => repeat (Pull k) (length cols)) (seq (length t) m)) =
  flat_map (fun _ => map (fun c => nth_error c (r - 1)) cols) (seq (length t) m).
Proof.
  induction m as [|m IH]; intro t; [reflexivity|].
  cbn [seq flat_map repeat]. rewrite pulls by lia. cbn [skipn]. f_equal. cbn [Nat.add].
  replace (t ++ length cols :: repeat 0 m) with ((t ++ [length cols]) ++ repeat 0 m) by now rewrite <- app_assoc.
  specialize (IH (t ++ [length cols])). rewrite app_length in IH. cbn [length] in IH. rewrite Nat.add_1_r in IH. exact IH.
Qed.
Lemma prompt {V} n (cols : list (list V)) : forall m t, length t + m <= n ->
  iter_run n cols (mkIter (length t) t) (flat_map (fun k => Next :: repeat (Pull k) (length cols)) (seq (length t) m)) =
  flat_map (fun k => None :: map (fun c => nth_error c k) cols) (seq (length t) m).
Proof.
  induction m as [|m IH]; intros t L; [reflexivity|].
  cbn [seq flat_map app iter_run iter_step it_taken it_rows]. destruct (Nat.ltb_spec (length t) n) as [_|B]; [|lia].
  f_equal. rewrite pulls by lia. cbn [skipn Nat.add Nat.sub]. rewrite Nat.sub_0_r. f_equal.
  specialize (IH (t ++ [length cols])). rewrite app_length in IH. cbn [length] in IH. rewrite Nat.add_1_r in IH. apply IH. lia.
Qed.

(* ** Sums *)
Lemma zsum_app a b : zsum (a ++ b) = (zsum a + zsum b)%Z.
Proof. induction a as [|x a IH]; [reflexivity|]. cbn [app zsum fold_right]. fold (zsum (a ++ b)). fold (zsum a). rewrite IH. lia. Qed.
Lemma zsum_add (f g : nat -> Z) l : zsum (map (fun i => (f i + g i)%Z) l) = (zsum (map f l) + zsum (map g l))%Z.
Proof. induction l as [|x l IH]; [reflexivity|]. cbn [map]. unfold zsum in *. cbn [fold_right]. rewrite IH. lia. Qed.
Lemma map_nth_seq (c : list Z) n : length c = n -> map (fun i => nth i c 0%Z) (seq 0 n) = c.
Proof.
  intros <-. induction c as [|x c IH]; [reflexivity|]. cbn [length seq map]. f_equal. rewrite <- seq_shift, map_map. exact IH.
Qed.
Lemma zsum_zero (l : list nat) : zsum (map (fun _ => 0%Z) l) = 0%Z.
Proof. induction l as [|x l IH]; [reflexivity|]. cbn [map]. unfold zsum in *. cbn [fold_right]. rewrite IH. reflexivity. Qed.
Lemma zsum_swap cols n : Forall (fun c => length c = n) cols ->
  zsum (map (fun i => zsum (row_of cols i)) (seq 0 n)) = zsum (map zsum cols).
Proof.
  induction 1 as [|c cols L F IH].
  - apply zsum_zero.
  - cbn [map]. unfold zsum at 3. cbn [fold_right]. fold (zsum (map zsum cols)). rewrite <- IH.
    transitivity (zsum (map (fun i => (nth i c 0 + zsum (row_of cols i))%Z) (seq 0 n))); [reflexivity|].
    rewrite zsum_add, map_nth_seq by exact L. reflexivity.
Qed.

(* ** imatrix *)
Lemma combine_fst {A B} (a : list A) : forall (b : list B), length a = length b -> map fst (combine a b) = a.
Proof. induction a as [|x a IH]; intros [|y b] L; cbn in *; try lia; auto. f_equal. apply IH. lia. Qed.
Lemma combine_snd {A B} (a : list A) : forall (b : list B), length a = length b -> map snd (combine a b) = b.
Proof. induction a as [|x a IH]; intros [|y b] L; cbn in *; try lia; auto. f_equal. apply IH. lia. Qed.
Lemma all_some_forall2 {A B} (f : A -> option B) l r : Forall2 (fun x y => f x = Some y) l r -> all_some (map f l) = Some r.
Proof. induction 1; cbn; [reflexivity|]. now rewrite H, IHForall2. Qed.
Lemma forall2_len {A B} (R : A -> B -> Prop) l r : Forall2 R l r -> length l = length r.
Proof. induction 1; cbn; congruence. Qed.
Lemma forallb_len (cols : list (name * list Z)) R (v : list Z) :
  (forall n c, In (n, c) cols -> length c = R) -> length v = R ->
  forallb (fun p => Nat.eqb (length (snd p)) (length v)) cols = true.
Proof. intros H L. apply forallb_forall. intros [n c] I. cbn. apply Nat.eqb_eq. rewrite L. eauto. Qed.
Lemma dset_lens (cols : list (name * list Z)) R n v :
  (forall k c, In (k, c) cols -> length c = R) -> length v = R -> forall k c, In (k, c) (dset n v cols) -> length c = R.
Proof.
  intros H L. induction cols as [|[k0 c0] cols IH]; cbn; intros k c I.
  - destruct I as [I|I]; [congruence|tauto].
  - destruct (name_dec k0 n) as [->|N].
    + destruct I as [I|I]; [congruence|]. apply (H k c). now right.
    + destruct I as [I|I]; [apply (H k c); now left|]. apply (IH (fun a b X => H a b (or_intror X)) k c I).
Qed.

Lemma foot_names (f : name * list Z -> Z) (z : Z) : forall (cs : list name) (cols : list (list Z)), length cs = length cols ->
  map fst (combine cs (map f (combine cs cols) ++ [z])) = cs.
Proof. induction cs as [|a cs IH]; intros [|c cols] L; cbn in *; try lia; auto. f_equal. apply IH. lia. Qed.
Lemma foot_in (f : name * list Z -> Z) (z : Z) n c : forall (cs : list name) (cols : list (list Z)), length cs = length cols ->
  In (n, c) (combine cs cols) -> In (n, f (n, c)) (combine cs (map f (combine cs cols) ++ [z])).
Proof.
  induction cs as [|a cs IH]; intros [|c' cols] L H; cbn in *; try tauto; try lia.
  destruct H as [H|H]; [left; injection H as -> ->; reflexivity|]. right. apply IH; [lia|exact H].
Qed.

(* ** outliers *)
Lemma best_spec gt (le : Z -> Z -> Prop) :
  (forall a b, gt a b = true -> ~ le a b) -> (forall a b, gt a b = false -> le a b) -> (forall a, le a a) -> (forall a b c, le a b -> le b c -> le a c) ->
  (forall a b, le a b \/ le b a) ->
  forall l i cur,
  (* what is known of the positions before i *)
  forall (pre : list (option Z)), length pre = i ->
  match cur with Some (p, v) => is_extreme le pre p v | None => forall q w, nth_error pre q <> Some (Some w) end ->
  match best gt l i cur with
  | Some (p, v) => is_extreme le (pre ++ l) p v
  | None => forall q w, nth_error (pre ++ l) q <> Some (Some w)
  end.
Proof.
  intros G G0 R T TO. induction l as [|[v|] l IH]; intros i cur pre L C; cbn [best].
  - rewrite app_nil_r. destruct cur as [[p v]|]; exact C.
  - replace (pre ++ Some v :: l) with ((pre ++ [Some v]) ++ l) by now rewrite <- app_assoc.
    apply (IH (S i)); [rewrite app_length; cbn; lia|].
    assert (NE : forall q w, nth_error (pre ++ [Some v]) q = Some (Some w) -> (q < i /\ nth_error pre q = Some (Some w)) \/ (q = i /\ w = v)).
    { intros q w Q. destruct (Nat.lt_ge_cases q (length pre)) as [A|A].
      - left. rewrite nth_error_app1 in Q by exact A. split; [lia|exact Q].
      - right. rewrite nth_error_app2 in Q by exact A. destruct (q - length pre) as [|k] eqn:K; cbn in Q; [|destruct k; discriminate].
        injection Q as ->. split; [lia|reflexivity]. }
    assert (NV : nth_error (pre ++ [Some v]) i = Some (Some v)) by (rewrite <- L; rewrite nth_error_app2 by lia; now rewrite Nat.sub_diag).
    destruct cur as [[p w]|].
    + destruct C as (C1 & C2 & C3). assert (PL : p < length pre) by (apply nth_error_Some; congruence).
      destruct (gt v w) eqn:E.
      * apply G in E. assert (WV : le w v) by (destruct (TO w v); [assumption|contradiction]).
        split; [exact NV|]. split.
        -- intros q x Q. destruct (NE q x Q) as [[_ Q']|[_ ->]]; [|apply R]. apply T with w; eauto.
        -- intros q x Q H ->. destruct (NE q v H) as [[_ Q']|[-> _]]; [|lia]. apply E. eauto.
      * assert (VW := G0 _ _ E).
        split; [rewrite nth_error_app1 by exact PL; exact C1|]. split.
        -- intros q x Q. destruct (NE q x Q) as [[_ Q']|[_ ->]]; eauto.
        -- intros q x Q H. destruct (NE q x H) as [[_ Q']|[-> _]]; [eauto|lia].
    + split; [exact NV|]. split.
      * intros q w Q. destruct (NE q w Q) as [[_ Q']|[_ ->]]; [exfalso; eapply C; eauto|apply R].
      * intros q w Q H. destruct (NE q w H) as [[_ Q']|[-> _]]; [exfalso; eapply C; eauto|lia].
  - replace (pre ++ None :: l) with ((pre ++ [None]) ++ l) by now rewrite <- app_assoc.
    apply (IH (S i)); [rewrite app_length; cbn; lia|].
    assert (NE : forall q w, nth_error (pre ++ [None]) q = Some (Some w) -> nth_error pre q = Some (Some w)).
    { intros q w Q. destruct (Nat.lt_ge_cases q (length pre)) as [A|A].
      - now rewrite nth_error_app1 in Q by exact A.
      - rewrite nth_error_app2 in Q by exact A. destruct (q - length pre) as [|k]; cbn in Q; [discriminate|destruct k; discriminate]. }
    destruct cur as [[p w]|].
    + destruct C as (C1 & C2 & C3). split; [rewrite nth_error_app1 by (apply nth_error_Some; congruence); exact C1|]. split; eauto.
    + intros q w Q. eapply C; eauto.
Qed.
