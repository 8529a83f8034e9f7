(** trim *)
From Coq Require Import List Arith Bool Lia.
From Verif Require Import FlattenModel FlattenProofs MergeModel MergeFacts GroupingModel DsModel DsSpec DsProofs3 DsProofs4 DsProofs5.
Import ListNotations.

Lemma count_true_le l : count_true l <= length l.
Proof. unfold count_true. induction l as [|[] l IH]; cbn; lia. Qed.
Lemma count_true_0 l : count_true l = 0 <-> (forall b, In b l -> b = false).
Proof.
  unfold count_true. induction l as [|[] l IH]; cbn [filter length In].
  - split; [contradiction|reflexivity].
  - split; [discriminate|]. intros H. specialize (H true (or_introl eq_refl)). discriminate.
  - rewrite IH. split; intros H; [intros b [<-|I]; auto|intros b I; apply H; now right].
Qed.
Lemma count_true_all l : count_true l = length l <-> (forall b, In b l -> b = true).
Proof.
  pose proof (count_true_le l) as LE. unfold count_true in *. induction l as [|[] l IH]; cbn [filter length In] in *.
  - split; [contradiction|reflexivity].
  - specialize (IH (count_true_le l)). split.
    + intros H b [<-|I]; [reflexivity|]. apply IH; [lia|exact I].
    + intros H. f_equal. apply IH. intros b I. apply H. now right.
  - split; [intros H; pose proof (count_true_le l) as Q; unfold count_true in Q; lia|]. intros H. specialize (H false (or_introl eq_refl)). discriminate.
Qed.

Section Trim.
Context {V : Type}.
Variable func : V -> bool.
Variable plain : name -> bool.
Variable keep columns : bool.
Notation table := (table V).
(** a value that makes its row and column stay *)
Definition live (v : V) : bool := Bool.eqb (func v) keep.
Definition stays (p : name * list V) : bool := plain (fst p) || negb columns || existsb live (snd p).
Lemma addcol_ok c : (if keep then negb (count_true (map func c) =? 0) else negb (count_true (map func c) =? length c)) = existsb live c.
Proof.
  unfold live. destruct keep.
  - destruct (count_true (map func c) =? 0) eqn:E; cbn [negb].
    + apply Nat.eqb_eq in E. rewrite count_true_0 in E. symmetry. destruct (existsb _ c) eqn:X; [|reflexivity]. apply existsb_exists in X. destruct X as (v & I & Q).
      specialize (E (func v) (in_map func _ _ I)). rewrite E in Q. discriminate.
    + apply Nat.eqb_neq in E. symmetry. destruct (existsb _ c) eqn:X; [reflexivity|]. elim E. apply count_true_0. intros b I. apply in_map_iff in I. destruct I as (v & <- & I).
      destruct (func v) eqn:F; [|reflexivity]. assert (existsb (fun v => Bool.eqb (func v) true) c = true) by (apply existsb_exists; exists v; rewrite F; auto). congruence.
  - destruct (count_true (map func c) =? length c) eqn:E; cbn [negb]; rewrite <- (map_length func c) in E.
    + apply Nat.eqb_eq in E. rewrite count_true_all in E. symmetry. destruct (existsb _ c) eqn:X; [|reflexivity]. apply existsb_exists in X. destruct X as (v & I & Q).
      specialize (E (func v) (in_map func _ _ I)). rewrite E in Q. discriminate.
    + apply Nat.eqb_neq in E. symmetry. destruct (existsb _ c) eqn:X; [reflexivity|]. elim E. apply count_true_all. intros b I. apply in_map_iff in I. destruct I as (v & <- & I).
      destruct (func v) eqn:F; [reflexivity|]. assert (existsb (fun v => Bool.eqb (func v) false) c = true) by (apply existsb_exists; exists v; rewrite F; auto). congruence.
Qed.
Definition tested (p : name * list V) : bool := stays p && negb (plain (fst p)).
Lemma trim_cols_ok (t : table) : trim_cols func plain keep columns t = (map fst (filter stays t), map (fun p => map func (snd p)) (filter tested t)).
Proof.
  unfold trim_cols. match goal with |- fold_left ?f _ _ = _ => cut (forall cf ms, fold_left f t (cf, ms) = (cf ++ map fst (filter stays t), ms ++ map (fun p => map func (snd p)) (filter tested t))) end; [intros A; apply (A [] [])|].
  induction t as [|[n c] t IH]; intros cf ms; cbn [fold_left filter]; [now rewrite !app_nil_r|]. cbv zeta. rewrite addcol_ok.
  assert (S1 : stays (n, c) = plain n || (existsb live c || negb columns)) by (unfold stays; cbn [fst snd]; now rewrite <- orb_assoc, (orb_comm (negb columns))).
  assert (T1 : tested (n, c) = negb (plain n) && (existsb live c || negb columns)) by (unfold tested; rewrite S1; cbn [fst]; destruct (plain n); cbn; [reflexivity|now rewrite andb_true_r]).
  rewrite S1, T1. destruct (plain n); cbn [negb orb andb].
  - rewrite IH. cbn [map fst]. rewrite <- app_assoc. reflexivity.
  - destruct (existsb live c || negb columns); cbn [andb].
    + rewrite IH. cbn [map fst snd]. rewrite <- !app_assoc. reflexivity.
    + now rewrite IH.
Qed.
Lemma zip_at f (a b : list bool) i x y : nth_error a i = Some x -> nth_error b i = Some y -> nth_error (zip_with f a b) i = Some (f x y).
Proof.
  unfold zip_with. revert b i. induction a as [|p a IH]; intros [|q b] [|i]; cbn; try discriminate; [intros [= ->] [= ->]; reflexivity|]. apply IH.
Qed.
Lemma zip_len f (a b : list bool) : length a = length b -> length (zip_with f a b) = length a.
Proof. intros H. unfold zip_with. rewrite map_length, combine_length. lia. Qed.
Lemma fold_zip (f : bool -> bool -> bool) N (ls : list (list V)) : forall acc, length acc = N -> (forall l, In l ls -> length l = N) ->
  length (fold_left (zip_with f) (map (map func) ls) acc) = N /\
  forall i x, nth_error acc i = Some x -> exists y, nth_error (fold_left (zip_with f) (map (map func) ls) acc) i = Some y /\
    y = fold_left (fun b l => match nth_error l i with Some v => f b (func v) | None => b end) ls x.
Proof.
  induction ls as [|l ls IH]; intros acc L H; cbn [map fold_left].
  - split; [exact L|]. intros i x E. exists x. auto.
  - assert (Ll : length l = N) by (apply H; now left). destruct (IH (zip_with f acc (map func l))) as (I1 & I2).
    + rewrite zip_len; [exact L|]. rewrite map_length. congruence.
    + intros x Hx. apply H. now right.
    + split; [exact I1|]. intros i x E. assert (i < N) by (rewrite <- L; apply nth_error_Some; congruence).
      destruct (nth_error l i) as [v|] eqn:EV; [|apply nth_error_None in EV; lia]. destruct (I2 i (f x (func v))) as (y & Y1 & Y2); [apply zip_at; [exact E|now apply map_nth_error]|]. exists y. auto.
Qed.
(** a row has something worth keeping in the tested columns *)
Definition row_live (t : table) (i : nat) : bool := existsb (fun p => match nth_error (snd p) i with Some v => live v | None => false end) (filter tested t).
Lemma fold_or i ls : forall x, fold_left (fun b (l : list V) => match nth_error l i with Some v => orb b (func v) | None => b end) ls x
  = x || existsb (fun l => match nth_error l i with Some v => func v | None => false end) ls.
Proof. induction ls as [|l ls IH]; intros x; cbn [fold_left existsb]; [now rewrite orb_false_r|]. rewrite IH. destruct (nth_error l i); [now rewrite orb_assoc|reflexivity]. Qed.
Lemma fold_and i ls : forall x, fold_left (fun b (l : list V) => match nth_error l i with Some v => andb b (func v) | None => b end) ls x
  = x && negb (existsb (fun l => match nth_error l i with Some v => negb (func v) | None => false end) ls).
Proof. induction ls as [|l ls IH]; intros x; cbn [fold_left existsb]; [now rewrite andb_true_r|]. rewrite IH. destruct (nth_error l i); [|reflexivity]. rewrite negb_orb, negb_involutive. now rewrite andb_assoc. Qed.
Lemma row_mask_ok (t : table) N : (forall n c, In (n, c) t -> length c = N) ->
  match row_mask keep true (map (fun p => map func (snd p)) (filter tested t)) with
  | None => filter tested t = []
  | Some m => filter tested t <> [] /\ length m = N /\ forall i, i < N -> nth_error m i = Some (Bool.eqb (row_live t i) keep)
  end.
Proof.
  intros L. unfold row_mask, row_live. destruct (filter tested t) as [|[n c] r] eqn:E; [reflexivity|]. cbn [map snd]. split; [discriminate|].
  assert (LE : forall p, In p ((n, c) :: r) -> length (snd p) = N).
  { intros [q w] I. rewrite <- E in I. apply filter_In in I. cbn [snd]. eapply L. apply (proj1 I). }
  assert (Lc : length c = N) by (apply (LE (n, c)); now left).
  assert (Lr : forall l, In l (map snd r) -> length l = N) by (intros l I; apply in_map_iff in I; destruct I as (p & <- & I); apply LE; now right).
  assert (MM : map (fun p => map func (snd p)) r = map (map func) (map snd r)) by (now rewrite map_map). rewrite MM.
  destruct (fold_zip (if keep then orb else andb) N (map snd r) (map func c)) as (F1 & F2); [now rewrite map_length|exact Lr|]. split; [exact F1|].
  intros i Hi. destruct (nth_error c i) as [v|] eqn:EV; [|apply nth_error_None in EV; lia]. destruct (F2 i (func v) (map_nth_error func _ _ EV)) as (y & Y1 & Y2). rewrite Y1. f_equal. rewrite Y2.
  cbn [existsb snd]. rewrite EV. unfold live.
  assert (EX : forall (g : list V -> bool), existsb g (map snd r) = existsb (fun p : name * list V => g (snd p)) r) by (intros g; clear; induction r as [|x r IH]; cbn; [reflexivity|now rewrite IH]).
  destruct keep.
  - rewrite fold_or, EX. 
    assert (Q : existsb (fun p : name * list V => match nth_error (snd p) i with Some v0 => Bool.eqb (func v0) true | None => false end) r = existsb (fun p => match nth_error (snd p) i with Some v0 => func v0 | None => false end) r).
    { clear. induction r as [|x r IH]; cbn; [reflexivity|]. rewrite IH. destruct (nth_error (snd x) i); [now destruct (func v)|reflexivity]. }
    rewrite Q. destruct (func v); cbn; [reflexivity|]. match goal with |- ?b = Bool.eqb ?c true => change c with b; now destruct b end.
  - rewrite fold_and, EX.
    assert (Q : existsb (fun p : name * list V => match nth_error (snd p) i with Some v0 => Bool.eqb (func v0) false | None => false end) r = existsb (fun p => match nth_error (snd p) i with Some v0 => negb (func v0) | None => false end) r).
    { clear. induction r as [|x r IH]; cbn; [reflexivity|]. rewrite IH. destruct (nth_error (snd x) i); [now destruct (func v)|reflexivity]. }
    rewrite Q. destruct (func v); cbn; [|reflexivity]. match goal with |- negb ?b = Bool.eqb ?c false => change c with b; now destruct b end.
Qed.
(** the rows that remain *)
Definition row_stays (rows : bool) (t : table) (i : nat) : bool := negb rows || (match filter tested t with [] => true | _ => row_live t i end).
Lemma sel_eq (t : table) : NoDup (map fst t) -> filter (fun p => mem (fst p) (map fst (filter stays t))) t = filter stays t.
Proof.
  intros ND. apply filter_ext_in. intros p I. destruct (stays p) eqn:E.
  - apply mem_in, in_map. now apply filter_In.
  - apply mem_not. intros Q. apply in_map_iff in Q. destruct Q as (q & E1 & I1). apply filter_In in I1. destruct I1 as (I1 & E2).
    destruct p as [n c], q as [n' c']. cbn [fst] in E1. subst n'. pose proof (dget_in _ _ _ ND I) as G1. pose proof (dget_in _ _ _ ND I1) as G2. rewrite G1 in G2. injection G2 as ->. congruence.
Qed.
Lemma in_cols (t : table) n : NoDup (map fst t) -> In n (map fst (filter stays t)) -> dget n (filter stays t) = dget n t /\ exists c, dget n t = Some c.
Proof.
  intros ND I. apply in_map_iff in I. destruct I as ([n' c] & E & I). cbn [fst] in E. subst n'. pose proof (proj1 (filter_In _ _ _) I) as (I1 & _).
  rewrite (dget_in n c t ND I1). split; [|eauto]. apply dget_in; [|exact I]. clear -ND. induction t as [|p t IH]; cbn; [constructor|]. cbn in ND. inversion ND as [|? ? N1 N2]; subst. destruct (stays p); cbn; [|auto]. constructor; [|auto].
  intros Q. apply N1. apply in_map_iff in Q. destruct Q as (q & <- & Q). apply in_map. now apply filter_In in Q.
Qed.
Lemma dget_map_snd {X} n (f : X -> X) (d : list (name * X)) : dget n (map (fun p => (fst p, f (snd p))) d) = option_map f (dget n d).
Proof. induction d as [|[q w] d IH]; [reflexivity|]. cbn [map dget fst snd]. destruct (name_dec q n); [reflexivity|exact IH]. Qed.
Lemma filter_seq_all N (f : nat -> bool) : (forall i, i < N -> f i = true) -> filter f (seq 0 N) = seq 0 N.
Proof. intros H. apply filter_true. intros i I. apply in_seq in I. apply H. lia. Qed.
Lemma trim_ok rows (t : table) N : NoDup (map fst t) -> (forall n c, In (n, c) t -> length c = N) ->
  let '(t', am, cf) := trim func plain keep columns rows t in
  cf = map fst (filter stays t) /\ taken t' t (filter (row_stays rows t) (seq 0 N)) cf /\
  (am = None -> t' = filter stays t).
Proof.
  intros ND L. unfold trim. rewrite trim_cols_ok. rewrite (sel_eq t ND).
  assert (ALL : forall t', t' = filter stays t -> (forall i, i < N -> row_stays rows t i = true) -> taken t' t (filter (row_stays rows t) (seq 0 N)) (map fst (filter stays t))).
  { intros t' -> H. rewrite filter_seq_all by exact H. split; [reflexivity|]. intros n q I. unfold cell_of. destruct (in_cols t n ND I) as (E & c & Ec). rewrite E, Ec.
    assert (Lc : length c = N) by (eapply L, dget_some_in; eauto). destruct (nth_error (seq 0 N) q) as [i|] eqn:Q.
    - assert (q < N) by (rewrite <- (seq_length N 0); apply nth_error_Some; congruence). rewrite (nth_error_nth' _ 0) in Q by (now rewrite seq_length). rewrite seq_nth in Q by assumption. injection Q as <-. reflexivity.
    - apply nth_error_None in Q. rewrite seq_length in Q. apply nth_error_None. lia. }
  assert (MASK : forall m, length m = N -> (forall i, i < N -> nth_error m i = Some (row_stays rows t i)) ->
     taken (map (fun p => (fst p, compress m (snd p))) (filter stays t)) t (filter (row_stays rows t) (seq 0 N)) (map fst (filter stays t))).
  { intros m Lm H. split; [rewrite map_map; reflexivity|]. intros n q I. unfold cell_of. rewrite (dget_map_snd n (compress m)). destruct (in_cols t n ND I) as (E & c & Ec). rewrite E, Ec. cbn [option_map].
    assert (Lc : length c = N) by (eapply L, dget_some_in; eauto). rewrite compress_at by congruence. rewrite Lc.
    replace (filter (fun p => nth p m false) (seq 0 N)) with (filter (row_stays rows t) (seq 0 N)); [reflexivity|]. apply filter_ext_in. intros i Hi. apply in_seq in Hi. symmetry. apply nth_error_nth. apply H. lia. }
  destruct rows.
  2:{ cbn [row_mask apply_mask]. split; [reflexivity|]. split; [|reflexivity]. apply ALL; [reflexivity|]. intros i _. reflexivity. }
  pose proof (row_mask_ok t N L) as R. destruct (row_mask keep true _) as [m|].
  2:{ cbn [apply_mask]. split; [reflexivity|]. split; [|reflexivity]. apply ALL; [reflexivity|]. intros i _. unfold row_stays. now rewrite R. }
  destruct R as (R1 & R2 & R3). 
  assert (RS : forall i, row_stays true t i = row_live t i) by (intros i; unfold row_stays; destruct (filter tested t); [congruence|reflexivity]).
  unfold apply_mask. destruct keep eqn:EK.
  - destruct (count_true m =? length m) eqn:C.
    + apply Nat.eqb_eq in C. rewrite count_true_all in C. split; [reflexivity|]. split; [|reflexivity]. apply ALL; [reflexivity|]. intros i Hi. rewrite RS. specialize (R3 i Hi). apply nth_error_In, C in R3. now destruct (row_live t i).
    + split; [reflexivity|]. split; [|discriminate]. apply MASK; [exact R2|]. intros i Hi. rewrite RS, R3 by exact Hi. now destruct (row_live t i).
  - destruct (count_true m =? 0) eqn:C.
    + apply Nat.eqb_eq in C. rewrite count_true_0 in C. split; [reflexivity|]. split; [|reflexivity]. apply ALL; [reflexivity|]. intros i Hi. rewrite RS. specialize (R3 i Hi). apply nth_error_In, C in R3. now destruct (row_live t i).
    + split; [reflexivity|]. split; [|discriminate]. apply MASK; [now rewrite map_length|]. intros i Hi. rewrite RS. rewrite (map_nth_error negb _ _ (R3 i Hi)). now destruct (row_live t i).
Qed.
End Trim.
