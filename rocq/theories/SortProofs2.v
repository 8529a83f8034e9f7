(** The displayed order follows what the user asked for. *)
From Coq Require Import List Arith Bool ZArith Lia Permutation.
From Verif Require Import FlattenModel FlattenProofs MergeModel MergeFacts DsModel DsProofs DsProofs3 DsProofs4 SortModel SortSpec SortProofs.
Import ListNotations.

Lemma set_nth_length {X} (v : X) l : forall d, length (set_nth d v l) = length l.
Proof. induction l as [|x l IH]; intros [|d]; cbn; auto. Qed.
Lemma nth_error_set_nth {X} (v : X) l : forall d k, d < length l -> nth_error (set_nth d v l) k = if k =? d then Some v else nth_error l k.
Proof. induction l as [|x l IH]; intros [|d] [|k] H; cbn in *; try lia; auto. apply IH. lia. Qed.
Lemma nth_error_upd' {X} i (v : X) l k : i < length l -> nth_error (upd i v l) k = if k =? i then Some v else nth_error l k.
Proof.
  intros H. destruct (Nat.lt_ge_cases k (length l)) as [K|K]; [now apply nth_error_upd|].
  rewrite (proj2 (nth_error_None (upd i v l) k)) by (now rewrite upd_length). rewrite (proj2 (nth_error_None l k)) by exact K. destruct (Nat.eqb_spec k i); [lia|reflexivity].
Qed.
Lemma combine_rev {A B} (a : list A) : forall (b : list B), length a = length b -> combine (rev a) (rev b) = rev (combine a b).
Proof.
  induction a as [|x a IH]; intros [|y b] L; cbn in *; try discriminate; [reflexivity|]. injection L as L. rewrite <- (IH b L).
  assert (L' : length (rev a) = length (rev b)) by now rewrite !rev_length.
  revert L'. generalize (rev a) (rev b). clear. induction l as [|u l IH]; intros [|v m] L; cbn in *; try discriminate; [reflexivity|]. f_equal. apply IH. lia.
Qed.

Section Req.
Variable value : nat -> Z -> Z.
Variable crc : list Z -> nat.
Variable lexsort : list col -> asc -> list nat.
Hypothesis LC : lexsort_contract value lexsort.
Notation step := (step crc lexsort).
Notation run := (run crc lexsort).

Definition rel1 (h : list (list name)) (x : dsr) (r : request) : Prop :=
  ds_ok x /\
  match r with
  | None => s_list x = None
  | Some ps => ps <> [] /\ NoDup (map fst ps) /\ (forall n, In n (map fst ps) -> In n (map fst (s_items x))) /\ s_disp x = true /\
               dirs (s_asc x) (length ps) = rev (map snd ps) /\ exists loc, s_list x = Some loc /\ nth_error h loc = Some (map fst ps)
  end.
Definition sep (ds : list dsr) : Prop := forall d1 d2 x1 x2 loc, nth_error ds d1 = Some x1 -> nth_error ds d2 = Some x2 ->
  s_list x1 = Some loc -> s_list x2 = Some loc -> d1 = d2.
Definition rel (w : world) (req : list request) : Prop :=
  length (w_ds w) = length req /\ (forall d x r, nth_error (w_ds w) d = Some x -> nth_error req d = Some r -> rel1 (w_heap w) x r) /\
  sep (w_ds w).


Lemma at_some {X} (l : list X) d : forall req : list request, length l = length req -> forall x, nth_error l d = Some x -> exists r, nth_error req d = Some r.
Proof.
  intros req L x E. assert (d < length l) by (apply nth_error_Some; congruence). destruct (nth_error req d) eqn:Q; [eauto|]. apply nth_error_None in Q. lia.
Qed.
Lemma rel1_heap h h' x r : (forall loc, s_list x = Some loc -> nth_error h loc <> None -> nth_error h' loc = nth_error h loc) -> rel1 h x r -> rel1 h' x r.
Proof.
  intros E (OK & R). split; [exact OK|]. destruct r as [ps|]; [|exact R]. destruct R as (R1 & R2 & R3 & R4 & R5 & loc & R6 & R7).
  do 5 (split; [assumption|]). exists loc. split; [exact R6|]. rewrite E; [exact R7|exact R6|congruence].
Qed.
Lemma rel1_app h l x r : rel1 h x r -> rel1 (h ++ l) x r.
Proof. apply rel1_heap. intros loc _ N. apply nth_error_app1. now apply nth_error_Some. Qed.

(** replacing one dataset (and its request), the heap changing only where others do not look *)
Lemma rel_put w req d x r h x' r' : rel w req -> nth_error (w_ds w) d = Some x -> nth_error req d = Some r ->
  (forall d' y loc, d' <> d -> nth_error (w_ds w) d' = Some y -> s_list y = Some loc -> nth_error (w_heap w) loc <> None -> nth_error h loc = nth_error (w_heap w) loc) ->
  rel1 h x' r' -> (forall loc, s_list x' = Some loc -> forall d' y, d' <> d -> nth_error (w_ds w) d' = Some y -> s_list y <> Some loc) ->
  rel (mkW h (upd d x' (w_ds w)) (w_cache w)) (set_nth d r' req).
Proof.
  intros (L & R & SP) NX NR HH R1 FR. assert (Hd : d < length (w_ds w)) by (apply nth_error_Some; congruence).
  split; [cbn; now rewrite upd_length, set_nth_length|]. split; cbn [w_ds w_heap].
  - intros k y q Hy Hq. rewrite nth_error_upd' in Hy by exact Hd. rewrite nth_error_set_nth in Hq by lia. destruct (Nat.eqb_spec k d) as [->|N].
    + injection Hy as <-. injection Hq as <-. exact R1.
    + apply (rel1_heap (w_heap w)); [|now apply (R k)]. intros loc Hl. exact (HH k y loc N Hy Hl).
  - intros d1 d2 x1 x2 loc H1 H2 S1 S2. rewrite nth_error_upd' in H1, H2 by exact Hd.
    destruct (Nat.eqb_spec d1 d) as [->|N1], (Nat.eqb_spec d2 d) as [->|N2]; auto.
    + injection H1 as <-. elim (FR loc S1 d2 x2 N2 H2 S2).
    + injection H2 as <-. elim (FR loc S2 d1 x1 N1 H1 S1).
    + exact (SP d1 d2 x1 x2 loc H1 H2 S1 S2).
Qed.
Lemma rel_new_gen w req h x r : rel w req -> (forall loc, nth_error (w_heap w) loc <> None -> nth_error h loc = nth_error (w_heap w) loc) ->
  rel1 h x r -> (forall loc, s_list x = Some loc -> forall d y, nth_error (w_ds w) d = Some y -> s_list y <> Some loc) -> rel (mkW h (w_ds w ++ [x]) (w_cache w)) (req ++ [r]).
Proof.
  intros (L & R & SP) HH R1 SN. split; [cbn; rewrite !app_length; cbn; lia|]. split; cbn [w_ds w_heap].
  - intros k y q Hy Hq. destruct (Nat.lt_ge_cases k (length (w_ds w))) as [Hk|Hk].
    + rewrite nth_error_app1 in Hy by exact Hk. rewrite nth_error_app1 in Hq by lia. apply (rel1_heap (w_heap w)); [auto|now apply (R k)].
    + rewrite nth_error_app2 in Hy by exact Hk. rewrite nth_error_app2 in Hq by lia. rewrite <- L in Hq. destruct (k - length (w_ds w)) as [|m]; [|destruct m; discriminate].
      injection Hy as <-. injection Hq as <-. exact R1.
  - assert (CASE : forall d1 x1, nth_error (w_ds w ++ [x]) d1 = Some x1 -> nth_error (w_ds w) d1 = Some x1 \/ (d1 = length (w_ds w) /\ x1 = x)).
    { intros d1 x1 H1. destruct (Nat.lt_ge_cases d1 (length (w_ds w))) as [Hk|Hk]; [left; now rewrite nth_error_app1 in H1 by exact Hk|].
      rewrite nth_error_app2 in H1 by exact Hk. destruct (d1 - length (w_ds w)) as [|m] eqn:E; [|destruct m; discriminate]. injection H1 as <-. right. split; [lia|reflexivity]. }
    intros d1 d2 x1 x2 loc H1 H2 S1 S2. destruct (CASE d1 x1 H1) as [C1|(-> & ->)], (CASE d2 x2 H2) as [C2|(-> & ->)]; auto.
    + exact (SP d1 d2 x1 x2 loc C1 C2 S1 S2).
    + elim (SN loc S2 d1 x1 C1 S1).
    + elim (SN loc S1 d2 x2 C2 S2).
Qed.
Lemma rel_new w req h x r : rel w req -> (forall loc, nth_error (w_heap w) loc <> None -> nth_error h loc = nth_error (w_heap w) loc) ->
  rel1 h x r -> s_list x = None -> rel (mkW h (w_ds w ++ [x]) (w_cache w)) (req ++ [r]).
Proof. intros R HH R1 SN. apply rel_new_gen; auto. congruence. Qed.
Lemma rel_cache w req c : rel w req -> rel (mkW (w_heap w) (w_ds w) c) req.
Proof. intros R. exact R. Qed.
Lemma set_nth_same {X} (l : list X) : forall d v, nth_error l d = Some v -> set_nth d v l = l.
Proof. induction l as [|x l IH]; intros [|d] v E; cbn in *; try discriminate; [congruence|]. f_equal. now apply IH. Qed.
Lemma upd_same {X} (l : list X) d v : nth_error l d = Some v -> upd d v l = l.
Proof.
  intros E. assert (Hd : d < length l) by (apply nth_error_Some; congruence). unfold upd. destruct (Nat.ltb_spec d (length l)); [|lia].
  clear H Hd. revert l E. induction d as [|d IH]; intros [|x l] E; try discriminate; cbn in *; [congruence|]. f_equal. now apply IH.
Qed.

(** ** what the sort information says *)
Definition col_at (items : list (name * col)) (n : name) : col := match dget n items with Some c => c | None => mkCol 0 [] end.
Lemma info_some h x ps : rel1 h x (Some ps) -> row_sort_info h x = (x, Some (map (fun n => (n, col_at (s_items x) n)) (map fst ps))).
Proof.
  intros (OK & NE & ND & IN & _ & _ & loc & SL & HL). unfold row_sort_info. rewrite SL. rewrite (nth_error_nth _ _ [] HL).
  destruct (forallb _ _) eqn:FA.
  - f_equal. f_equal. rewrite dset_all_fresh; [reflexivity| |cbn; auto]. rewrite map_map. cbn. now rewrite map_id.
  - exfalso. assert (forallb (fun n => mem n (names (s_items x))) (map fst ps) = true) by (apply forallb_forall; intros n Hn; apply mem_in; now apply IN). congruence.
Qed.
Lemma info_none h x : rel1 h x None -> row_sort_info h x = (x, None).
Proof. intros (_ & SL). unfold row_sort_info. now rewrite SL. Qed.
Lemma order_gen x ps a : ds_ok x -> ps <> [] -> (forall n, In n (map fst ps) -> In n (map fst (s_items x))) -> dirs a (length ps) = rev (map snd ps) ->
  sorted_by value (key_cols (s_items x) ps) (lexsort (rev (map (col_at (s_items x)) (map fst ps))) a) (s_nrows x).
Proof.
  intros (ND0 & LEN) NE IN DR.
  set (cols := map (col_at (s_items x)) (map fst ps)).
  assert (LC1 : length cols = length ps) by (unfold cols; now rewrite !map_length).
  assert (Q : sorted_by value (rev (combine (rev cols) (dirs a (length (rev cols))))) (lexsort (rev cols) a) (s_nrows x)).
  { apply LC.
    - intros E. apply NE. apply (f_equal (@length col)) in E. rewrite rev_length, LC1 in E. now destruct ps.
    - intros c I. apply in_rev in I. unfold cols in I. apply in_map_iff in I. destruct I as (n & <- & I). unfold col_at.
      destruct (dget_has n (s_items x) (IN n I)) as (v & V). rewrite V. apply (LEN n). now apply dget_some_in.
    - rewrite rev_length, LC1, DR, rev_length, map_length. reflexivity. }
  rewrite rev_length, LC1, DR, combine_rev, rev_involutive in Q by now rewrite map_length.
  replace (key_cols (s_items x) ps) with (combine cols (map snd ps)); [exact Q|]. unfold cols, key_cols, col_at. clear.
  induction ps as [|p ps IH]; [reflexivity|]. cbn [map combine]. now f_equal.
Qed.
Lemma order_ok h x ps : rel1 h x (Some ps) ->
  sorted_by value (key_cols (s_items x) ps) (lexsort (rev (map snd (map (fun n => (n, col_at (s_items x) n)) (map fst ps)))) (s_asc x)) (s_nrows x).
Proof.
  intros (OK & NE & ND & IN & _ & DR & _). rewrite (map_map (fun n => (n, col_at (s_items x) n)) snd). cbn [snd]. now apply order_gen.
Qed.

(** ** the arguments of a sort *)
Lemma rev_repeat' {X} (b : X) k : rev (repeat b k) = repeat b k.
Proof. induction k as [|k IH]; [reflexivity|]. cbn. rewrite IH. clear. induction k as [|k IH]; [reflexivity|]. cbn. now f_equal. Qed.
Lemma map_snd_combine {A B} (a : list A) : forall (b : list B), length a = length b -> map snd (combine a b) = b.
Proof. induction a as [|x a IH]; intros [|y b] L; cbn in *; try discriminate; [reflexivity|]. f_equal. apply IH. lia. Qed.
Lemma parse_ok w x by_ given bl a : fits by_ given w -> parse_sort (w_heap w) x by_ given = Some (bl, a) ->
  bl = fst (parse_by (w_heap w) by_) /\ bl <> [] /\ (forall n, In n bl -> In n (map fst (s_items x))) /\ map fst (asked bl given) = bl /\ dirs a (length (asked bl given)) = rev (map snd (asked bl given)) /\ asked bl given <> [].
Proof.
  intros F. unfold parse_sort. destruct (parse_by (w_heap w) by_) as [bl' len] eqn:PB. destruct (forallb _ bl') eqn:FA; [|discriminate].
  assert (NE : bl' <> []) by (destruct by_; cbn in PB; injection PB as <- <-; [discriminate|exact F]).
  assert (IN : forall n, In n bl' -> In n (map fst (s_items x))) by (intros n Hn; rewrite forallb_forall in FA; apply mem_in; now apply FA).
  assert (fin : forall g a0, length g = length bl' -> dirs a0 (length bl') = rev g -> asked bl' given = combine bl' g ->
     bl' <> [] /\ (forall n, In n bl' -> In n (map fst (s_items x))) /\ map fst (asked bl' given) = bl' /\ dirs a0 (length (asked bl' given)) = rev (map snd (asked bl' given)) /\ asked bl' given <> []).
  { intros g a0 L D E. rewrite E. split; [exact NE|]. split; [exact IN|]. rewrite map_fst_combine, map_snd_combine by (symmetry; exact L). split; [reflexivity|].
    rewrite combine_length, L, Nat.min_id. split; [exact D|]. destruct bl'; [congruence|]. destruct g; discriminate. }
  destruct given as [|b [|b2 given]]; [discriminate| |].
  - intros [= <- <-]. split; [reflexivity|]. apply (fin (repeat b (length bl'))); [apply repeat_length|cbn; now rewrite rev_repeat'|reflexivity].
  - destruct (length (b :: b2 :: given) =? len) eqn:L; [|discriminate]. apply Nat.eqb_eq in L. intros E. injection E as <- <-. split; [reflexivity|].
    assert (len = length bl') by (destruct by_; cbn in PB, F; [discriminate F|now injection PB as <- <-]).
    apply (fin (b :: b2 :: given)); [congruence|reflexivity|reflexivity].
Qed.
Lemma sort_ok w x by_ given bl a : ds_ok x -> fits by_ given w -> parse_sort (w_heap w) x by_ given = Some (bl, a) ->
  sorted_by value (key_cols (s_items x) (asked bl given)) (sort_lexsort lexsort x bl a) (s_nrows x).
Proof.
  intros OK F P. destruct (parse_ok w x by_ given bl a F P) as (_ & NE & IN & MF & DR & AN).
  pose proof (order_gen x (asked bl given) a OK AN) as Q. rewrite MF in Q. exact (Q IN DR).
Qed.
End Req.
