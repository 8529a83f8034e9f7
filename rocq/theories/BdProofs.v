(** Proofs about bad rows and columns. *)
From Coq Require Import List Arith Bool Lia Permutation.
From Verif Require Import FlattenModel BdSpec BdModel.
Import ListNotations.

Lemma memn_in : forall i l, memn i l = true <-> In i l.
Proof.
  intros. unfold memn. rewrite existsb_exists. split.
  - intros (x & I & E). apply Nat.eqb_eq in E. now subst.
  - intro I. exists i. split; auto. apply Nat.eqb_refl.
Qed.
Lemma mems_in : forall n l, mems n l = true <-> In n l.
Proof.
  intros. unfold mems. rewrite existsb_exists. split.
  - intros (x & I & E). destruct (name_dec n x); [now subst|discriminate].
  - intro I. exists n. split; auto. destruct (name_dec n n); congruence.
Qed.
Lemma filter_ext_in' : forall A (p q : A -> bool) l, (forall a, In a l -> p a = q a) -> filter p l = filter q l.
Proof. intros A p q l H. apply filter_ext_in. exact H. Qed.

(** *** parts *)
Lemma filter_two : forall A (p q : A -> bool) l, (forall a, p a && q a = false) ->
  Permutation (filter p l ++ filter q l) (filter (fun a => p a || q a) l).
Proof.
  intros A p q l D. induction l as [|a l IH]; [constructor|]. cbn. specialize (D a).
  destruct (p a), (q a); cbn in *; try discriminate.
  - now constructor.
  - apply Permutation_sym, Permutation_cons_app, Permutation_sym, IH.
  - exact IH.
Qed.
Lemma parts : forall A V (val : A -> V) (key : A -> nat) (q : A -> bool) (l : list A) cs, NoDup cs ->
  Permutation (concat (map (fun c => map val (filter (fun a => q a && (key a =? c)) l)) cs))
              (map val (filter (fun a => q a && memn (key a) cs) l)).
Proof.
  intros A V val key q l cs N. induction N as [|c cs C N IH]; cbn [map concat].
  - rewrite (filter_ext_in' _ _ (fun _ => false)); [|intros; cbn; apply andb_false_r].
    replace (filter (fun _ : A => false) l) with (@nil A) by (induction l; auto). constructor.
  - eapply Permutation_trans; [apply Permutation_app_head, IH|].
    rewrite <- map_app. apply Permutation_map.
    eapply Permutation_trans; [apply filter_two|].
    + intro a. destruct (key a =? c) eqn:E; [|now rewrite andb_false_r].
      apply Nat.eqb_eq in E. subst c. destruct (memn (key a) cs) eqn:M; [apply memn_in in M; tauto|].
      rewrite !andb_false_r. reflexivity.
    + rewrite (filter_ext_in' _ _ (fun a => q a && memn (key a) (c :: cs))); [apply Permutation_refl|].
      intros a _. cbn [memn existsb]. destruct (q a); reflexivity.
Qed.

Section Tot.
  Context {V : Type} (f : list V -> V) (F : regroups f).
  Let elt := elt (V := V).
  Lemma cells_row : forall (data : list elt) r cs, NoDup cs ->
    f (map (cell f data r) cs) = f (map e_val (filter (fun e => (e_row e =? r) && memn (e_col e) cs) data)).
  Proof.
    intros data r cs N. destruct F as [F1 F2].
    transitivity (f (map f (map (fun c => map e_val (filter (fun e : elt => (e_row e =? r) && (e_col e =? c)) data)) cs))).
    { now rewrite map_map. }
    rewrite <- F1. apply F2, (parts _ _ e_val e_col (fun e : elt => e_row e =? r) data cs N).
  Qed.
  Lemma cells_col : forall (data : list elt) c rs, NoDup rs ->
    f (map (fun r => cell f data r c) rs) = f (map e_val (filter (fun e => (e_col e =? c) && memn (e_row e) rs) data)).
  Proof.
    intros data c rs N. destruct F as [F1 F2].
    transitivity (f (map f (map (fun r => map e_val (filter (fun e : elt => (e_col e =? c) && (e_row e =? r)) data)) rs))).
    { rewrite map_map. f_equal. apply map_ext. intro r. unfold cell, vals. do 2 f_equal. apply filter_ext. intro e. apply andb_comm. }
    rewrite <- F1. apply F2, (parts _ _ e_val e_row (fun e : elt => e_col e =? c) data rs N).
  Qed.
  Lemma cells_all : forall (data : list elt) rs cs, NoDup rs -> NoDup cs ->
    f (totals_y f (cell f data) rs cs) = f (map e_val (filter (fun e => memn (e_col e) cs && memn (e_row e) rs) data)).
  Proof.
    intros data rs cs NR NC. unfold totals_y. destruct F as [F1 F2].
    rewrite (map_ext _ (fun r => f (map e_val (filter (fun e : elt => memn (e_col e) cs && (e_row e =? r)) data)))).
    2: { intro r. rewrite cells_row by exact NC. do 2 f_equal. apply filter_ext. intro e. apply andb_comm. }
    rewrite <- (map_map (fun r => map e_val (filter (fun e : elt => memn (e_col e) cs && (e_row e =? r)) data)) f), <- F1.
    apply F2, (parts _ _ e_val e_row (fun e : elt => memn (e_col e) cs) data rs NR).
  Qed.
  Lemma cells_concat : forall (data : list elt) rs cs,
    f (concat (map (fun r => map (cell f data r) cs) rs)) = f (totals_y f (cell f data) rs cs).
  Proof. intros. destruct F as [F1 _]. now rewrite F1, map_map. Qed.
End Tot.

(** *** masks *)
Lemma scatter_is : forall A B (h g : A -> B) m xs, length m = length xs ->
  scatter m (map h (compress m xs)) (map g xs) = map (fun p : bool * A => if fst p then h (snd p) else g (snd p)) (combine m xs).
Proof.
  intros A B h g m. induction m as [|b m IH]; intros [|x xs] L; try discriminate; [reflexivity|].
  injection L as L. destruct b; cbn; f_equal; auto.
Qed.
Lemma compress_in : forall A m (xs : list A) x, In x (compress m xs) <-> exists k, nth_error m k = Some true /\ nth_error xs k = Some x.
Proof.
  intros A m. induction m as [|b m IH]; intros [|y xs] x; cbn.
  - split; [tauto|]. intros ([|k] & E & _); discriminate.
  - split; [tauto|]. intros ([|k] & E & _); discriminate.
  - split; [tauto|]. intros ([|k] & _ & E); discriminate.
  - destruct b; cbn; rewrite IH; split.
    + intros [<-|(k & E)]; [now exists 0|]. now exists (S k).
    + intros ([|k] & E1 & E2); cbn in *; [left; congruence|]. right. now exists k.
    + intros (k & E). now exists (S k).
    + intros ([|k] & E1 & E2); cbn in *; [discriminate|]. now exists k.
Qed.
Lemma compress_nodup : forall A m (xs : list A), NoDup xs -> NoDup (compress m xs).
Proof.
  intros A m. induction m as [|b m IH]; intros [|y xs] N; cbn; try constructor. inversion N; subst.
  destruct b; [constructor|]; auto. rewrite compress_in. intros (k & _ & E). apply nth_error_In in E. auto.
Qed.
Lemma shown_in : forall sf (cats : list name) c, In c (shown sf (length cats)) <-> in_table sf cats c.
Proof. intros [|] cats c; unfold shown, in_table; rewrite in_seq; intuition (try lia; try discriminate). Qed.
Lemma shown_length : forall sf n, length (shown sf n) = n + (1 - first_code sf).
Proof. intros [|] n; unfold shown, first_code; rewrite seq_length; lia. Qed.
Lemma shown_nth : forall sf n k, k < length (shown sf n) -> nth_error (shown sf n) k = Some (k + first_code sf).
Proof.
  intros sf n k L. rewrite shown_length in L.
  destruct sf; unfold shown, first_code in *; rewrite (nth_error_nth' _ 0) by (rewrite seq_length; lia); rewrite seq_nth by lia; f_equal; lia.
Qed.
Lemma shown_nodup : forall sf n, NoDup (shown sf n).
Proof. intros [|] n; apply seq_NoDup. Qed.

Lemma index_some : forall n l i, index n l = Some i -> nth_error l i = Some n.
Proof.
  intros n l. induction l as [|m l IH]; cbn; [discriminate|]. intros i. destruct (name_dec n m) as [<-|D].
  - now intros [= <-].
  - destruct (index n l) eqn:E; [|discriminate]. intros [= <-]. cbn. now apply IH.
Qed.
Lemma index_in : forall n l, In n l -> exists i, index n l = Some i.
Proof.
  intros n l. induction l as [|m l IH]; cbn; [tauto|]. intro H. destruct (name_dec n m) as [<-|D]; [eauto|].
  destruct IH as (i & ->); [destruct H; congruence|eauto].
Qed.
Lemma all_some_map : forall A B (g : A -> option B) l, (forall a, In a l -> exists b, g a = Some b) ->
  exists r, all_some (map g l) = Some r /\ forall b, In b r <-> exists a, In a l /\ g a = Some b.
Proof.
  intros A B g l. induction l as [|a l IH]; intro H.
  - exists []. split; [reflexivity|]. cbn. firstorder.
  - destruct IH as (r & R1 & R2); [intros; apply H; now right|]. destruct (H a (or_introl eq_refl)) as (b & E).
    exists (b :: r). cbn. rewrite E, R1. split; [reflexivity|]. intro b'. cbn. rewrite R2. split.
    + intros [<-|(a' & I & E')]; [exists a; auto|exists a'; auto].
    + intros (a' & [<-|I] & E'); [left; congruence|right; eauto].
Qed.
(** the positions of bad groups *)
Lemma fancy_ok : forall cats s, NoDup cats -> okay cats s ->
  exists o, fancy_of cats s = Some o /\
    match o with
    | None => s = None
    | Some l => s <> None /\ (forall i, In i l -> i < length cats) /\ forall i, In i l <-> bad cats s (S i)
    end.
Proof.
  intros cats [[ar l|l]|] N K; cbn [fancy_of].
  - exists (Some l). split; [reflexivity|]. split; [discriminate|]. split; [exact K|]. intro i. cbn. split.
    + intro I. now exists i.
    + intros (j & [= <-] & I). exact I.
  - destruct (all_some_map _ _ (fun n => index n cats) l) as (r & R1 & R2).
    { intros a I. apply index_in, K, I. }
    exists (Some r). rewrite R1. split; [reflexivity|]. split; [discriminate|].
    assert (X : forall i, In i r <-> bad cats (Some (Names l)) (S i)).
    { intro i. rewrite R2. cbn. split.
      - intros (n & I & E). exists i. split; [reflexivity|]. exists n. split; [now apply index_some|exact I].
      - intros (j & [= <-] & n & E & I). exists n. split; [exact I|].
        destruct (index_in n cats) as (j & J); [apply K, I|]. rewrite J. f_equal. apply index_some in J.
        apply (proj1 (NoDup_nth_error cats) N); [apply nth_error_Some; congruence|congruence]. }
    split; [|exact X]. intros i I. apply X in I. destruct I as (j & [= <-] & n & E & _). apply nth_error_Some. congruence.
  - now exists None.
Qed.
Lemma mask_ok : forall sf cats s o, NoDup cats -> okay cats s -> fancy_of cats s = Some o ->
  exists m, mask_of (length (shown sf (length cats))) sf o = Some m /\ length m = length (shown sf (length cats)) /\
    forall k, k < length m -> exists b, nth_error m k = Some b /\ (b = true <-> ~ bad cats s (k + first_code sf)).
Proof.
  intros sf cats s o N K E. destruct (fancy_ok cats s N K) as (o' & E' & H). rewrite E in E'. injection E' as <-.
  destruct o as [l|]; cbn [mask_of].
  - destruct H as (_ & LT & B).
    replace (forallb _ _) with true.
    2: { symmetry. apply forallb_forall. intros x I. apply Nat.ltb_lt. rewrite shown_length. destruct sf; cbn [first_code].
         - apply in_map_iff in I. destruct I as (i & <- & I). apply LT in I. lia.
         - apply LT in I. lia. }
    eexists. split; [reflexivity|]. rewrite map_length, seq_length. split; [reflexivity|]. intros k L.
    eexists. split; [apply map_nth_error, (nth_error_nth' _ 0); now rewrite seq_length|]. rewrite seq_nth by exact L. cbn [Nat.add].
    rewrite negb_true_iff, <- not_true_iff_false, memn_in. apply not_iff_compat. destruct sf; cbn [first_code].
    + rewrite Nat.add_0_r, in_map_iff. split.
      * intros (i & <- & I). now apply B.
      * intro X. assert (Y := X). destruct s as [s|]; [|destruct Y]. destruct Y as (i & -> & _). exists i. split; auto. now apply B.
    + rewrite Nat.add_1_r. apply B.
  - subst s. eexists. split; [reflexivity|]. rewrite repeat_length. split; [reflexivity|]. intros k L.
    exists true. split; [|cbn; tauto]. rewrite (nth_error_nth' _ true) by now rewrite repeat_length. f_equal. apply nth_repeat.
Qed.
Lemma kept_in : forall sf cats s m, length m = length (shown sf (length cats)) ->
  (forall k, k < length m -> exists b, nth_error m k = Some b /\ (b = true <-> ~ bad cats s (k + first_code sf))) ->
  forall c, In c (compress m (shown sf (length cats))) <-> in_table sf cats c /\ ~ bad cats s c.
Proof.
  intros sf cats s m L H c. rewrite compress_in. split.
  - intros (k & E1 & E2). assert (KL : k < length m) by (apply nth_error_Some; congruence).
    destruct (H k KL) as (b & B1 & B2). rewrite shown_nth in E2 by lia. injection E2 as <-.
    rewrite <- shown_in. split; [|apply B2; congruence]. apply (nth_error_In _ k). apply shown_nth. lia.
  - intros [I B]. apply shown_in in I. apply In_nth_error in I. destruct I as (k & E).
    assert (KL : k < length (shown sf (length cats))) by (apply nth_error_Some; congruence).
    rewrite shown_nth in E by exact KL. injection E as <-. destruct (H k) as (b & B1 & B2); [lia|].
    exists k. split; [|now apply shown_nth]. rewrite B1. f_equal. now apply B2.
Qed.

(** *** several passes *)
Lemma filter_pair : forall A B C (val : A -> C) (p : A -> bool) (l : list A) (m : list B), length l = length m ->
  map (fun q : A * B => val (fst q)) (filter (fun q => p (fst q)) (combine l m)) = map val (filter p l).
Proof.
  intros A B C val p l. induction l as [|a l IH]; intros [|b m] L; try discriminate; [reflexivity|]. injection L as L.
  cbn. destruct (p a); cbn; rewrite IH by exact L; reflexivity.
Qed.
Lemma filter_keyed : forall A V (val : A -> V) (k : nat) (g : A * bool -> nat) (l : list A) (on : list bool), length on = length l ->
  map (fun p : nat * A => val (snd p)) (filter (fun p => fst p =? k) (combine (map g (combine l on)) l)) =
  map (fun q => val (fst q)) (filter (fun q => g q =? k) (combine l on)).
Proof.
  intros A V val k g l. induction l as [|a l IH]; intros [|b on] L; try discriminate; [reflexivity|]. injection L as L.
  cbn [combine map filter fst snd]. destruct (g (a, b) =? k); cbn [map fst snd]; rewrite IH by exact L; reflexivity.
Qed.

Lemma combine_nth_error : forall A B k (xs : list A) (ys : list B) x y, nth_error xs k = Some x -> nth_error ys k = Some y ->
  nth_error (combine xs ys) k = Some (x, y).
Proof.
  intros A B. induction k as [|k IH]; intros [|a xs] [|b ys] x y X Y; try discriminate; cbn in *; [congruence|]. now apply IH.
Qed.

Lemma combine_maps : forall A B C (g : A -> B) (h : A -> C) l, combine (map g l) (map h l) = map (fun a => (g a, h a)) l.
Proof. intros A B C g h l. induction l as [|a l IH]; cbn; congruence. Qed.
Lemma combine_fst : forall A B (l : list A) (m : list B), length m = length l -> map fst (combine l m) = l.
Proof. intros A B l. induction l as [|a l IH]; intros [|b m] L; try discriminate; [reflexivity|]. injection L as L. cbn. now rewrite IH. Qed.
Lemma combine_snd : forall A B (l : list A) (m : list B), length m = length l -> map snd (combine l m) = m.
Proof. intros A B l. induction l as [|a l IH]; intros [|b m] L; try discriminate; [reflexivity|]. injection L as L. cbn. now rewrite IH. Qed.
Lemma picked_is : forall A (m : option (list bool)) (p : A * bool -> bool) (l : list A) on, length on = length l ->
  passes m (length l) = map p (combine l on) ->
  match m with None => l | Some g => compress g l end = map fst (filter p (combine l on)).
Proof.
  intros A [g|] p l on L E; cbn [passes] in E.
  - subst g. revert on L. induction l as [|a l IH]; intros [|b on] L; try discriminate; [reflexivity|]. injection L as L.
    cbn. destruct (p (a, b)); cbn; rewrite IH by exact L; reflexivity.
  - revert on L E. induction l as [|a l IH]; intros [|b on] L E; try discriminate; [reflexivity|]. injection L as L.
    cbn in E. injection E as E1 E2. cbn. rewrite <- E1. cbn. f_equal. now apply IH.
Qed.

Section Multi.
  Context {V : Type} (f : list V -> V).
  Lemma accum1_nth : forall codes n flt (data : list (@BdSpec.elt V)) k, k < n ->
    nth_error (accum1 f codes n false flt data) k =
    Some (f (map (fun p : nat * (@BdSpec.elt V) => e_val (snd p))
                 (filter (fun p => fst p =? S k) (combine (match flt with None => codes | Some g => map (fun p : nat * bool => if snd p then fst p else 0) (combine codes g) end) data)))).
  Proof.
    intros codes n flt data k L. unfold accum1. apply map_nth_error with (f := fun k0 => f _).
    unfold shown. rewrite (nth_error_nth' _ 0) by now rewrite seq_length. now rewrite seq_nth.
  Qed.
  (* elements whose mask is false are in bin 0 *)
  Lemma accum1_is : forall (key : (@BdSpec.elt V) -> nat) (data : list (@BdSpec.elt V)) flt (p : (@BdSpec.elt V) * bool -> bool) on k, length on = length data ->
    passes flt (length data) = map p (combine data on) ->
    map (fun p : nat * (@BdSpec.elt V) => e_val (snd p))
        (filter (fun p => fst p =? S k) (combine (match flt with None => map key data | Some g => map (fun p : nat * bool => if snd p then fst p else 0) (combine (map key data) g) end) data)) =
    map (fun q : (@BdSpec.elt V) * bool => e_val (fst q)) (filter (fun q => (if p q then key (fst q) else 0) =? S k) (combine data on)).
  Proof.
    intros key data flt p on k L E.
    rewrite <- (filter_keyed _ _ e_val (S k) (fun q => if p q then key (fst q) else 0) data on L).
    do 3 f_equal. destruct flt as [g|]; cbn [passes] in E.
    - subst g. replace (map key data) with (map (fun q : (@BdSpec.elt V) * bool => key (fst q)) (combine data on)).
      + rewrite combine_maps, map_map. reflexivity.
      + rewrite <- (map_map fst key), combine_fst by exact L. reflexivity.
    - transitivity (map (fun q : (@BdSpec.elt V) * bool => key (fst q)) (combine data on)).
      + rewrite <- (map_map fst key), combine_fst by exact L. reflexivity.
      + apply map_ext_in. intros q I.
        assert (X : In (p q) (map p (combine data on))) by now apply in_map.
        rewrite <- E in X. apply repeat_spec in X. now rewrite X.
  Qed.
  Lemma badmask_ok : forall (key : (@BdSpec.elt V) -> nat) (data : list (@BdSpec.elt V)) base cats s flt, okay cats s ->
    (base = 1 \/ exists l, s = Some (Names l) \/ s = None) ->
    (forall g, flt = Some g -> length g = length data) ->
    exists p, passes (badmask (map key data) base cats s flt) (length data) = map p (combine data (passes flt (length data))) /\
      forall q, p q = true <-> (snd q = true /\ ~ bad cats s (key (fst q))).
  Proof.
    intros key data base cats s flt K B FL.
    set (on := passes flt (length data)).
    assert (LO : length on = length data).
    { unfold on, passes. destruct flt; [now apply FL|apply repeat_length]. }
    assert (G : forall m : nat -> bool, (forall c, m c = true <-> ~ bad cats s c) ->
            passes (Some (match flt with None => map m (map key data) | Some g => map (fun p => fst p && snd p) (combine (map m (map key data)) g) end)) (length data) =
            map (fun q => m (key (fst q)) && snd q) (combine data on)).
    { intros m M. cbn [passes]. unfold on, passes in *. destruct flt as [g|].
      - specialize (FL g eq_refl).
        replace (map m (map key data)) with (map (fun q : (@BdSpec.elt V) * bool => m (key (fst q))) (combine data g)).
        + rewrite <- (combine_snd _ _ data g FL) at 2. rewrite combine_maps, map_map. reflexivity.
        + rewrite <- (map_map fst (fun e => m (key e))), combine_fst by exact FL. now rewrite map_map.
      - rewrite <- (combine_fst _ _ data (repeat true (length data))) at 1 by apply repeat_length.
        rewrite !map_map. apply map_ext_in. intros [e b] I. cbn. apply in_combine_r, repeat_spec in I. subst b. now rewrite andb_true_r. }
    destruct s as [s|].
    - set (m := fun c => match s with
                         | Numbers _ l => negb (memn (c + base - 1) (map S l))
                         | Names l => negb (match c with O => false | S i => match nth_error cats i with Some n => mems n l | None => false end end)
                         end).
      assert (M : forall c, m c = true <-> ~ bad cats (Some s) c).
      { intro c. unfold m. destruct s as [ar l|l]; rewrite negb_true_iff, <- not_true_iff_false; apply not_iff_compat; cbn [bad means].
        - destruct B as [->|(l' & [H|H])]; [|discriminate|discriminate]. rewrite memn_in, in_map_iff. replace (c + 1 - 1) with c by lia.
          split; [intros (i & <- & I); exists i; auto|intros (i & -> & I); exists i; auto].
        - destruct c as [|i]; [split; [discriminate|intros (i & [=] & _)]|]. split.
          + destruct (nth_error cats i) as [n|] eqn:E; [|discriminate]. rewrite mems_in. intro I. exists i. split; auto. exists n. auto.
          + intros (j & [= <-] & n & E & I). rewrite E. now apply mems_in. }
      exists (fun q => m (key (fst q)) && snd q). split.
      + rewrite <- (G m M). unfold badmask. destruct s; cbn [passes]; rewrite !map_map; unfold m; destruct flt; rewrite ?map_map; reflexivity.
      + intro q. rewrite andb_true_iff, M. tauto.
    - exists snd. split; [|intro q; cbn; tauto]. cbn [badmask]. fold on. now rewrite combine_snd.
  Qed.
End Multi.
