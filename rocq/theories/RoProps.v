(* C217-C219: masks, rows chosen by their labels, going through the rows. *)
From Coq Require Import List ZArith Bool Lia.
From Verif Require Import FlattenModel FlattenProofs DsProofs3 RoSpec RoModel RoProofs RoProofs2.
Import ListNotations.

(* C217.  mask_or, mask_and, mask_xor, mask_andnot of two or more arrays (or
   bools) combine them position by position, from left to right, into a new
   array, and change nothing else. *)
Theorem C217_masks :
  forall (op : bool -> bool -> bool) (h : heap) (n : nat) (a b : arg) (rest : list arg),
  Forall (of_length h n) (a :: b :: rest) -> ((exists i, a = Ref i) \/ (exists j, b = Ref j)) ->
  exists r, mask_op op false h (a :: b :: rest) = (h ++ [r], Some (Ref (length h))) /\ length r = n /\
            forall i, i < n -> nth i r false = fold_left op (map (bit h i) (b :: rest)) (bit h i a).
Proof.
  intros op h n a b rest F R. inversion F as [|? ? FA F1]; subst. inversion F1 as [|? ? FB FR]; subst.
  destruct (two_bits op h n a b FA FB R) as (v & V1 & V2 & V3).
  unfold mask_op. rewrite V1.
  assert (OF : forall x, of_length h n x -> of_length (h ++ [v]) n x).
  { intros [r|c]; cbn; auto. intros [A B]. rewrite app_length. unfold array in *. rewrite app_nth1 by exact A. split; [lia|exact B]. }
  destruct (loop_bits op n rest (h ++ [v]) (length h)) as (w & W1 & W2 & W3).
  - cbn. rewrite app_length. unfold array. rewrite app_nth2 by lia. rewrite Nat.sub_diag. cbn. split; [lia|exact V2].
  - eapply Forall_impl; [|exact FR]. exact OF.
  - intro H. rewrite Forall_forall in FR. specialize (FR _ H). cbn in FR. lia.
  - exists w. rewrite W1, upd_last. split; [reflexivity|]. split; [exact W2|]. intros i L. rewrite W3 by exact L.
    cbn [map fold_left]. f_equal.
    + apply map_ext_in. intros x HX. rewrite Forall_forall in FR. specialize (FR _ HX). destruct x as [r|c]; cbn in *; auto.
      unfold array. rewrite app_nth1 by lia. reflexivity.
    + cbn [bit]. unfold array. rewrite app_nth2 by lia. rewrite Nat.sub_diag. cbn [nth]. now apply V3.
Qed.
Print Assumptions C217_masks.

(* The versions in place put the same values into their first array and change
   nothing else, if the first array does not occur again among the arguments. *)
Theorem C217_inplace_partial :
  forall (op : bool -> bool -> bool) (h : heap) (n r : nat) (b : arg) (rest : list arg),
  Forall (of_length h n) (Ref r :: b :: rest) -> ~ In (Ref r) (b :: rest) ->
  exists v, mask_op op true h (Ref r :: b :: rest) = (upd r v h, Some (Ref r)) /\ length v = n /\
            forall i, i < n -> nth i v false = fold_left op (map (bit h i) (b :: rest)) (bit h i (Ref r)).
Proof.
  intros op h n r b rest F N. inversion F as [|? ? FA F1]; subst.
  destruct (loop_bits op n (b :: rest) h r FA F1 N) as (v & V1 & V2 & V3). exists v. auto.
Qed.
Print Assumptions C217_inplace_partial.

(* Finding: an array given twice to a version in place is read after it was
   changed: mask_xori(a, b, a) is all False, where a xor b xor a is b. *)
Theorem C217_twice_refuted :
  forall (a b : list bool), length a = length b ->
  mask_op xorb true [a; b] [Ref 0; Ref 1; Ref 0] = ([map (fun _ => false) a; b], Some (Ref 0)).
Proof.
  intros a b L. cbn [mask_op mask_loop two array nth]. rewrite L, Nat.eqb_refl. cbn [upd two array nth]. rewrite Nat.eqb_refl.
  cbn [upd mask_loop]. f_equal. f_equal. unfold map2.
  revert b L. induction a as [|x a IH]; intros [|y b] L; cbn in L; try lia; [reflexivity|].
  cbn [combine map fst snd]. rewrite xorb_nilpotent. f_equal. apply IH. lia.
Qed.
Print Assumptions C217_twice_refuted.

(* Finding: mask_or and the like of a single array return that array itself, not
   a new one (so a later change in place of the result changes the input), and a
   version in place that raises because an array has another length has already
   changed its first array. *)
Theorem C217_same_refuted :
  (forall op h i, mask_op op false h [Ref i] = (h, Some (Ref i))) /\
  (exists h, mask_op orb true h [Ref 0; Ref 1; Ref 2] = (upd 0 [true; true] h, None) /\ array h 0 = [false; false]).
Proof. split; [reflexivity|]. exists [[false; false]; [true; true]; [true; true; true]]. split; reflexivity. Qed.
Print Assumptions C217_same_refuted.

Example C217_case :
  mask_op orb false [[true; false; false]; [false; false; true]] [Ref 0; Ref 1; Scal false; Ref 0] =
    ([[true; false; false]; [false; false; true]; [true; false; true]], Some (Ref 2)) /\
  Forall (of_length [[true; false; false]; [false; false; true]] 3) [Ref 0; Ref 1; Scal false; Ref 0] /\
  mask_op andb true [[true; false; true]; [true; false; false]] [Ref 0; Ref 1] = ([[true; false; false]; [true; false; false]], Some (Ref 0)).
Proof. split; [reflexivity|]. split; [repeat constructor; cbn; lia|reflexivity]. Qed.

(* C218.  label_filter keeps, in their order, the rows in which a label column
   holds one of the items. *)
Theorem C218_items_partial :
  forall (d : table) (labels : list name) (n : nat) (its : list value) (given : items),
  even n d -> labels <> [] -> its <> [] ->
  (given = IMany its \/ exists v, its = [v] /\ given = IOne v) ->
  (forall l, In l labels -> exists c, dget l d = Some c /\ forall v, In v its -> comparable v c) ->
  exists rows, label_filter d labels (Some given) None None = Some (take_rows rows d) /\
    rows_where n (fun i => exists l c v, In l labels /\ dget l d = Some c /\ In v its /\ cell c i = v) rows.
Proof.
  intros d labels n its given E NL NI GV LB.
  destruct (keys_found d labels) as (cols & C1 & C2); [intros l H; destruct (LB l H) as (c & H1 & _); eauto|].
  assert (CC : forall c, In c cols -> clen c = n /\ forall v, In v its -> comparable v c).
  { intros c H. destruct (forall2_in _ _ _ C2 c H) as (l & L1 & L2). destruct (LB l L1) as (c' & D1 & D2).
    assert (c' = c) by congruence. subst. split; [|exact D2]. apply dget_some_in in D1. eauto. }
  assert (M : exists m, ori (flat_map (fun c => map (fun v => eq_col v c) its) cols) = Some m /\ length m = n /\
              forall i, i < n -> (nth i m false = true <-> exists p : col * value, In p (list_prod cols its) /\ cell (fst p) i = snd p)).
  { rewrite (flat_map_pairs (fun c v => eq_col v c)). apply ori_bits.
    - destruct cols; [inversion C2; subst; congruence|]. destruct its; [congruence|discriminate].
    - intros [c v] H. apply in_prod_iff in H as [H1 H2]. cbn [fst snd]. destruct (CC c H1) as [CL CP].
      destruct (eq_col_bits v c (CP v H2)) as (m & M1 & M2 & M3). exists m. rewrite <- CL. auto. }
  destruct M as (m & M1 & M2 & M3).
  assert (MM : exists m', match given with IOne v => ori (map (eq_col v) cols) | IMany l => ori (flat_map (fun c => map (fun v => eq_col v c) l) cols) | IArr l => ori (map (eq_arr l) cols) end = Some m' /\ m' = m).
  { destruct GV as [->|(v & -> & ->)]; [eauto|]. exists m. split; [|reflexivity]. rewrite <- M1.
    assert (X : forall cs, flat_map (fun c => map (fun v0 => eq_col v0 c) [v]) cs = map (eq_col v) cs) by (induction cs as [|c0 cs IHc]; cbn; [reflexivity|now rewrite <- IHc]). now rewrite X. }
  destruct MM as (m' & MM & ->).
  unfold label_filter. cbn [Nat.add Nat.eqb negb]. rewrite C1, MM.
  eexists. split; [apply (f_equal Some), (compress_cols n m d M2 E)|]. exists (fun i => nth i m false). split; [reflexivity|].
  intros i L. rewrite M3 by exact L. split.
  - intros ([c v] & H1 & H2). apply in_prod_iff in H1 as [H1 H3]. destruct (forall2_in _ _ _ C2 c H1) as (l & L1 & L2). exists l, c, v. auto.
  - intros (l & c & v & H1 & H2 & H3 & H4). exists (c, v). split; [|exact H4]. apply in_prod_iff. split; [|exact H3].
    destruct (forall2_in_l _ _ _ C2 l H1) as (c' & I1 & I2). congruence.
Qed.
Print Assumptions C218_items_partial.

(* like= keeps the rows in which a label holds one of the strings, and regex=
   those in which the pattern is found, if pattern and labels are of the same
   kind (both bytes or both str). *)
Theorem C218_like_partial :
  forall (d : table) (labels : list name) (n : nat) (b : bool) (pats : list text) (found : text -> bool),
  even n d -> 0 < n -> labels <> [] -> pats <> [] ->
  (forall l, In l labels -> exists s, dget l d = Some (CTxt b s)) ->
  (exists rows, label_filter d labels None (Some (LMany (map (pair b) pats))) None = Some (take_rows rows d) /\
     rows_where n (fun i => exists l s p, In l labels /\ dget l d = Some (CTxt b s) /\ In p pats /\ occurs p (nth i s [])) rows) /\
  (exists rows, label_filter d labels None None (Some (b, found)) = Some (take_rows rows d) /\
     rows_where n (fun i => exists l s, In l labels /\ dget l d = Some (CTxt b s) /\ found (nth i s []) = true) rows).
Proof.
  intros d labels n b pats found E N0 NL NP LB.
  destruct (keys_found d labels) as (cols & C1 & C2); [intros l H; destruct (LB l H) as (c & H1); eauto|].
  assert (CC : forall c, In c cols -> exists s, c = CTxt b s /\ length s = n).
  { intros c H. destruct (forall2_in _ _ _ C2 c H) as (l & L1 & L2). destruct (LB l L1) as (s & D1).
    exists s. assert (c = CTxt b s) by congruence. subst. split; [reflexivity|]. apply dget_some_in in D1. apply (E _ _ D1). }
  assert (NC : cols <> []) by (destruct cols; [inversion C2; subst; congruence|discriminate]).
  split.
  - assert (M : exists m, ori (flat_map (fun c => map (fun p => apply_txt (fst p) (contains (snd p)) c) (map (pair b) pats)) cols) = Some m /\ length m = n /\
              forall i, i < n -> (nth i m false = true <-> exists p : col * (bool * text), In p (list_prod cols (map (pair b) pats)) /\
                 exists s, fst p = CTxt b s /\ occurs (snd (snd p)) (nth i s []))).
    { rewrite (flat_map_pairs (fun c (p : bool * text) => apply_txt (fst p) (contains (snd p)) c)). apply ori_bits.
      - destruct cols; [congruence|]. destruct pats; [congruence|discriminate].
      - intros [c [b' p]] H. apply in_prod_iff in H as [H1 H2]. cbn [fst snd]. apply in_map_iff in H2 as (p' & P1 & P2). injection P1 as <- ->.
        destruct (CC c H1) as (s & -> & SL). assert (SN : s <> []) by (intros ->; cbn in SL; lia).
        destruct (apply_bits b (contains p) s SN) as (m & M1 & M2 & M3). exists m. split; [exact M1|]. split; [congruence|].
        intros i L. rewrite M3 by lia. rewrite contains_spec. split; [eauto|]. intros (s' & S1 & S2). injection S1 as ->. exact S2. }
    destruct M as (m & M1 & M2 & M3). unfold label_filter. cbn [Nat.add Nat.eqb negb]. rewrite C1.
    destruct pats as [|p0 pats]; [congruence|]. cbn [map] in M1 |- *. rewrite M1.
    eexists. split; [apply (f_equal Some), (compress_cols n m d M2 E)|]. exists (fun i => nth i m false). split; [reflexivity|].
    intros i L. rewrite M3 by exact L. split.
    + intros ([c [b' p]] & H1 & s & H2 & H3). apply in_prod_iff in H1 as [H1 H4]. cbn [fst snd] in *. subst c.
      change ((b, p0) :: map (pair b) pats) with (map (pair b) (p0 :: pats)) in H4.
      apply in_map_iff in H4 as (p' & P1 & P2). injection P1 as <- ->.
      destruct (forall2_in _ _ _ C2 _ H1) as (l & L1 & L2). exists l, s, p. auto.
    + intros (l & s & p & H1 & H2 & H3 & H4). exists (CTxt b s, (b, p)). split.
      * apply in_prod_iff. split; [|apply (in_map (pair b) (p0 :: pats)); exact H3].
        destruct (forall2_in_l _ _ _ C2 l H1) as (c' & I1 & I2). congruence.
      * exists s. auto.
  - assert (M : exists m, ori (map (apply_txt b found) cols) = Some m /\ length m = n /\
              forall i, i < n -> (nth i m false = true <-> exists c, In c cols /\ exists s, c = CTxt b s /\ found (nth i s []) = true)).
    { apply ori_bits; [exact NC|]. intros c H1. destruct (CC c H1) as (s & -> & SL). assert (SN : s <> []) by (intros ->; cbn in SL; lia).
      destruct (apply_bits b found s SN) as (m & M1 & M2 & M3). exists m. split; [exact M1|]. split; [congruence|].
      intros i L. rewrite M3 by lia. split; [eauto|]. intros (s' & S1 & S2). injection S1 as ->. exact S2. }
    destruct M as (m & M1 & M2 & M3). unfold label_filter. cbn [Nat.add Nat.eqb negb fst snd]. rewrite C1, M1.
    eexists. split; [apply (f_equal Some), (compress_cols n m d M2 E)|]. exists (fun i => nth i m false). split; [reflexivity|].
    intros i L. rewrite M3 by exact L. split.
    + intros (c & H1 & s & -> & H3). destruct (forall2_in _ _ _ C2 _ H1) as (l & L1 & L2). exists l, s. auto.
    + intros (l & s & H1 & H2 & H4). exists (CTxt b s). split; [|eauto].
      destruct (forall2_in_l _ _ _ C2 l H1) as (c' & I1 & I2). congruence.
Qed.
Print Assumptions C218_like_partial.

(* Finding: like= with a str raises for label columns of bytes, the kind riptable
   makes of strings (the line that would encode the str only sets a local
   variable): the examples of the documentation raise.  So does regex= with a
   str, and like= and regex= on a Dataset without rows. *)
Theorem C218_like_refuted :
  forall (d : table) (l : name) (s : list text) (p : text) (found : text -> bool),
  dget l d = Some (CTxt true s) ->
  label_filter d [l] None (Some (LOne false p)) None = None /\
  label_filter d [l] None (Some (LMany [(false, p)])) None = None /\
  label_filter d [l] None None (Some (false, found)) = None /\
  (s = [] -> forall b, label_filter d [l] None (Some (LMany [(b, p)])) None = None /\ label_filter d [l] None None (Some (b, found)) = None).
Proof.
  intros d l s p found D. unfold label_filter. cbn [map all_some]. rewrite D. cbn [all_some].
  split; [|split; [|split]].
  - destruct p as [|c p]; [reflexivity|]. destruct s; reflexivity.
  - destruct s; reflexivity.
  - destruct s; reflexivity.
  - intros -> b. split; reflexivity.
Qed.
Print Assumptions C218_like_refuted.

(* Finding: items given as an array or a tuple (the documentation says
   list-like) are compared with the labels position by position: with labels
   [1, 2] and items (2, 1) no row is kept. *)
Theorem C218_array_refuted :
  label_filter [([97], CNum [1; 2]%Z)] [[97]] (Some (IArr [VNum 2; VNum 1]%Z)) None None = Some [([97], CNum [])] /\
  label_filter [([97], CNum [1; 2]%Z)] [[97]] (Some (IMany [VNum 2; VNum 1]%Z)) None None = Some [([97], CNum [1; 2]%Z)].
Proof. split; reflexivity. Qed.
Print Assumptions C218_array_refuted.

(* No keyword, or more than one, raises. *)
Theorem C218_keywords :
  forall d labels, label_filter d labels None None None = None /\
  (forall i l, label_filter d labels (Some i) (Some l) None = None) /\
  (forall i r, label_filter d labels (Some i) None (Some r) = None) /\
  (forall l r, label_filter d labels None (Some l) (Some r) = None) /\
  (forall i l r, label_filter d labels (Some i) (Some l) (Some r) = None).
Proof. intros. repeat split. Qed.
Print Assumptions C218_keywords.

Example C218_case :
  let d := [([107], CTxt true [[106; 111]; [114; 97; 121]; [109; 97]]); ([97], CNum [5; 6; 7]%Z)] in
  even 3 d /\
  label_filter d [[107]] (Some (IMany [VTxt [109; 97]; VTxt [106; 111]])) None None = Some [([107], CTxt true [[106; 111]; [109; 97]]); ([97], CNum [5; 7]%Z)] /\
  label_filter d [[107]] None (Some (LMany [(true, [97])])) None = Some [([107], CTxt true [[114; 97; 121]; [109; 97]]); ([97], CNum [6; 7]%Z)].
Proof.
  cbv zeta. split; [|split; vm_compute; reflexivity]. intros m c [H|[H|[]]]; injection H as <- <-; reflexivity.
Qed.

(* C219.  asrows gives the rows from the first to the last, each with the values
   of that row in the order of the columns; the columns can be read back. *)
Theorem C219_rows :
  forall (V : Type) (dflt : V) (n : nat) (cols : list (list V)),
  length (asrows dflt n cols) = n /\
  (forall i, i < n -> nth_error (asrows dflt n cols) i = Some (map (fun c => nth i c dflt) cols)) /\
  (forall j c, nth_error cols j = Some c -> length c = n -> map (fun row => nth j row dflt) (asrows dflt n cols) = c).
Proof.
  intros V dflt n cols. unfold asrows. split; [now rewrite map_length, seq_length|]. split.
  - intros i L. rewrite nth_error_map. assert (E : nth_error (seq 0 n) i = Some i).
    { rewrite (nth_error_nth' _ 0) by now rewrite seq_length. now rewrite seq_nth. }
    now rewrite E.
  - intros j c E <-. rewrite map_map.
    transitivity (map (fun i => nth i c dflt) (seq 0 (length c))).
    + apply map_ext. intro i. rewrite (nth_indep _ dflt (nth i c dflt)).
      * assert (X := map_nth (fun c0 : list V => nth i c0 dflt) cols c j). rewrite X. f_equal. now apply nth_error_nth.
      * rewrite map_length. apply nth_error_Some. congruence.
    + clear E. induction c as [|x c IH]; [reflexivity|]. cbn [length seq map]. f_equal. rewrite <- seq_shift, map_map. exact IH.
Qed.
Print Assumptions C219_rows.

(* as_type='iter' gives the same values if every row is read before the next one
   is asked for. *)
Theorem C219_iter_partial :
  forall (V : Type) (n : nat) (cols : list (list V)),
  iter_run n cols iter0 (flat_map (fun k => Next :: repeat (Pull k) (length cols)) (seq 0 n)) =
  flat_map (fun k => None :: map (fun c => nth_error c k) cols) (seq 0 n).
Proof. intros V n cols. apply (prompt n cols n []). cbn. lia. Qed.
Print Assumptions C219_iter_partial.

(* However rows are asked for and read, no more rows are yielded than there are,
   and every one of them if it is asked for often enough. *)
Theorem C219_iter_ends :
  forall (V : Type) (n : nat) (cols : list (list V)) (es : list event),
  it_rows (iter_after n cols iter0 es) = Nat.min n (length (filter (fun e => match e with Next => true | Pull _ => false end) es)).
Proof.
  intros V n cols es.
  assert (G : forall es s, it_rows s <= n -> it_rows (iter_after n cols s es) =
            Nat.min n (it_rows s + length (filter (fun e => match e with Next => true | Pull _ => false end) es))).
  { clear es. induction es as [|e es IH]; intros s L.
    - cbn. lia.
    - unfold iter_after. cbn [fold_left]. change (fold_left _ es ?x) with (iter_after n cols x es). destruct e as [|k]; cbn [filter length iter_step].
      + destruct (Nat.ltb_spec (it_rows s) n); cbn [fst].
        * rewrite IH; cbn [it_rows]; lia.
        * rewrite IH by exact L. lia.
      + destruct (nth_error (it_taken s) k) as [j|]; [destruct (nth_error cols j)|]; cbn [fst]; rewrite IH; cbn [it_rows]; auto. }
  rewrite G; cbn; lia.
Qed.
Print Assumptions C219_iter_ends.

(* Finding: as_type='iter' gives generators that look at the current row when
   they are read: if the rows are collected first (list(ds.asrows('iter'))),
   every one of them gives the values of the last row. *)
Theorem C219_iter_refuted :
  forall (V : Type) (n : nat) (cols : list (list V)),
  iter_run n cols iter0 (repeat Next n ++ flat_map (fun k => repeat (Pull k) (length cols)) (seq 0 n)) =
  repeat None n ++ flat_map (fun _ => map (fun c => nth_error c (n - 1)) cols) (seq 0 n).
Proof.
  intros V n cols. unfold iter0. rewrite nexts by lia. f_equal. cbn [app Nat.add]. apply (collected n cols n n []).
Qed.
Print Assumptions C219_iter_refuted.

Example C219_case :
  asrows 0 2 [[1; 2]; [5; 6]] = [[1; 5]; [2; 6]] /\
  iter_run 2 [[1; 2]; [5; 6]] iter0 [Next; Pull 0; Pull 0; Next; Pull 1; Pull 1] = [None; Some 1; Some 5; None; Some 2; Some 6] /\
  iter_run 2 [[1; 2]; [5; 6]] iter0 [Next; Next; Pull 0; Pull 0; Pull 1; Pull 1] = [None; None; Some 2; Some 6; Some 2; Some 6].
Proof. repeat split. Qed.
