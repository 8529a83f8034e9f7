(* Lemmas for C217-C222: masks and label_filter. *)
From Coq Require Import List ZArith Bool Lia.
From Verif Require Import FlattenModel FlattenProofs DsProofs3 RoSpec RoModel.
Import ListNotations.

(* ** Masks *)
Lemma upd_length i v h : length (upd i v h) = length h.
Proof. revert i; induction h; intros [|i]; cbn; auto. Qed.
Lemma array_upd i v h : i < length h -> array (upd i v h) i = v.
Proof. revert i; induction h as [|x h IH]; intros [|i] L; cbn in *; try lia; auto. apply IH. lia. Qed.
Lemma array_upd_other i j v h : i <> j -> array (upd i v h) j = array h j.
Proof. revert i j; induction h as [|x h IH]; intros [|i] [|j] N; cbn; auto; try congruence. apply IH. congruence. Qed.
Lemma upd_upd i v w h : upd i v (upd i w h) = upd i v h.
Proof. revert i; induction h; intros [|i]; cbn; congruence. Qed.
Lemma upd_app i v h t : i < length h -> upd i v (h ++ t) = upd i v h ++ t.
Proof. revert i; induction h as [|x h IH]; intros [|i] L; cbn in *; try lia; auto. f_equal. apply IH. lia. Qed.
Lemma upd_last v w h : upd (length h) v (h ++ [w]) = h ++ [v].
Proof. induction h; cbn; congruence. Qed.

Lemma map2_length op a b : length a = length b -> length (map2 op a b) = length a.
Proof. intro L. unfold map2. rewrite map_length, combine_length. lia. Qed.
Lemma map2_nth op a b i : length a = length b -> i < length a -> nth i (map2 op a b) false = op (nth i a false) (nth i b false).
Proof.
  revert b i; induction a as [|x a IH]; intros [|y b] [|i] L H; cbn in *; try lia; auto.
  unfold map2 in IH. rewrite <- IH; auto; lia.
Qed.
Lemma map_nth_b (f : bool -> bool) a i : i < length a -> nth i (map f a) false = f (nth i a false).
Proof. revert i; induction a as [|x a IH]; intros [|i] L; cbn in *; try lia; auto. apply IH. lia. Qed.

Lemma two_bits op h n a b :
  of_length h n a -> of_length h n b -> ((exists i, a = Ref i) \/ (exists j, b = Ref j)) ->
  exists v, two op h a b = Some v /\ length v = n /\ forall i, i < n -> nth i v false = op (bit h i a) (bit h i b).
Proof.
  intros A B R. destruct a as [r|c], b as [s|e]; cbn in *.
  - destruct A as [_ A], B as [_ B]. rewrite A, B, Nat.eqb_refl. eexists; split; [reflexivity|]. split; [rewrite map2_length; congruence|].
    intros i L. apply map2_nth; lia.
  - destruct A as [_ A]. eexists; split; [reflexivity|]. split; [now rewrite map_length|]. intros i L. apply (map_nth_b (fun x => op x e)). lia.
  - destruct B as [_ B]. eexists; split; [reflexivity|]. split; [now rewrite map_length|]. intros i L. apply (map_nth_b (op c)). lia.
  - destruct R as [[? ?]|[? ?]]; discriminate.
Qed.

Lemma bit_upd h r v i x : x <> Ref r -> bit (upd r v h) i x = bit h i x.
Proof. destruct x as [s|c]; cbn; auto. intro N. rewrite array_upd_other; congruence. Qed.
Lemma of_length_upd h r v n x : length v = n -> of_length h n x -> of_length (upd r v h) n x.
Proof.
  destruct x as [s|c]; cbn; auto. intros L [B E]. rewrite upd_length. split; [exact B|].
  destruct (Nat.eq_dec r s) as [->|N]; [now rewrite array_upd|]. now rewrite array_upd_other.
Qed.
Lemma loop_bits op n rest : forall h r,
  of_length h n (Ref r) -> Forall (of_length h n) rest -> ~ In (Ref r) rest ->
  exists v, mask_loop op h r rest = (upd r v h, Some (Ref r)) /\ length v = n /\
            forall i, i < n -> nth i v false = fold_left op (map (bit h i) rest) (bit h i (Ref r)).
Proof.
  induction rest as [|x rest IH]; intros h r R F N.
  - exists (array h r). destruct R as [R L]. split; [|split; [exact L|intros; reflexivity]].
    cbn. f_equal. clear L N F. revert r R. induction h as [|y h IH]; intros [|r] R; cbn in *; try lia; auto. f_equal. unfold array in *. rewrite <- IH; auto. lia.
  - inversion F as [|? ? FX FR]; subst.
    destruct (two_bits op h n (Ref r) x R FX) as (v & V1 & V2 & V3); [left; eauto|].
    cbn [mask_loop]. rewrite V1.
    destruct (IH (upd r v h) r) as (w & W1 & W2 & W3).
    + now apply of_length_upd.
    + eapply Forall_impl; [|exact FR]. intros a. now apply of_length_upd.
    + intro H. apply N. now right.
    + exists w. rewrite W1, upd_upd. split; [reflexivity|]. split; [exact W2|]. intros i L. rewrite W3 by exact L.
      cbn [map fold_left]. f_equal.
      * apply map_ext_in. intros a HA. apply bit_upd. intros ->. apply N. now right.
      * cbn [bit]. rewrite array_upd by apply R. now apply V3.
Qed.

(* ** Rows *)
Lemma compress_take {A} (dfl : A) (m : list bool) (l : list A) : length m = length l ->
  compress m l = map (fun i => nth i l dfl) (filter (fun i => nth i m false) (seq 0 (length l))).
Proof.
  revert m. induction l as [|x l IH]; intros [|b m] L; cbn in L; try lia; [reflexivity|].
  cbn [compress length seq filter]. change (nth 0 (b :: m) false) with b.
  assert (E : map (fun i => nth i (x :: l) dfl) (filter (fun i => nth i (b :: m) false) (seq 1 (length l))) = compress m l).
  { rewrite IH by lia. rewrite <- seq_shift.
    generalize (seq 0 (length l)) as s. induction s as [|k s IHs]; [reflexivity|]. cbn [map filter].
    change (nth (S k) (b :: m) false) with (nth k m false).
    destruct (nth k m false); cbn [map]; rewrite IHs; reflexivity. }
  destruct b; cbn [map]; rewrite E; reflexivity.
Qed.
Lemma compress_cols n m (d : table) : length m = n -> even n d ->
  map (fun p => (fst p, compress_col m (snd p))) d = take_rows (filter (fun i => nth i m false) (seq 0 n)) d.
Proof.
  intros L E. unfold take_rows. apply map_ext_in. intros [k c] H. cbn [fst snd]. f_equal.
  specialize (E _ _ H). destruct c as [l|b l]; cbn in *; f_equal; rewrite <- E; apply compress_take; congruence.
Qed.

Lemma mask_ori_bits n (l : list (list bool)) : l <> [] -> Forall (fun x => length x = n) l ->
  exists m, mask_ori l = Some m /\ length m = n /\ forall i, i < n -> nth i m false = existsb (fun x => nth i x false) l.
Proof.
  destruct l as [|x r]; [congruence|]. intros _ F. inversion F as [|? ? FX FR]; subst. clear F. cbn [mask_ori].
  assert (G : forall a, length a = length x -> exists m, fold_left (fun a b => match a with
                                    | Some a => if Nat.eqb (length a) (length b) then Some (map2 orb a b) else None
                                    | None => None end) r (Some a) = Some m /\ length m = length x /\
       forall i, i < length x -> nth i m false = nth i a false || existsb (fun x => nth i x false) r).
  { induction r as [|y r IH]; intros a LA; cbn [fold_left existsb].
    - exists a. split; [reflexivity|]. split; [exact LA|]. intros. now rewrite orb_false_r.
    - inversion FR as [|? ? FY FR']; subst. rewrite LA, FY, Nat.eqb_refl.
      destruct (IH FR' (map2 orb a y)) as (m & M1 & M2 & M3); [rewrite map2_length; lia|].
      exists m. split; [exact M1|]. split; [exact M2|]. intros i L. rewrite M3 by exact L. rewrite map2_nth by lia. now rewrite orb_assoc. }
  destruct (G x eq_refl) as (m & M1 & M2 & M3). exists m. auto.
Qed.
Lemma all_some_ex {A B} (f : A -> option B) l : (forall x, In x l -> exists y, f x = Some y) ->
  exists r, all_some (map f l) = Some r /\ Forall2 (fun x y => f x = Some y) l r.
Proof.
  induction l as [|x l IH]; intro H; cbn; [exists []; auto|].
  destruct (H x) as [y E]; [now left|]. destruct IH as (r & R1 & R2); [intros; apply H; now right|].
  exists (y :: r). rewrite E, R1. auto.
Qed.
Lemma forall2_in {A B} (R : A -> B -> Prop) l r : Forall2 R l r -> forall y, In y r -> exists x, In x l /\ R x y.
Proof. induction 1; intros y' H'; [destruct H'|]. destruct H' as [<-|H']; [eexists; split; [now left|eassumption]|]. destruct (IHForall2 _ H') as (z & Z1 & Z2). exists z. split; [now right|exact Z2]. Qed.
Lemma forall2_in_l {A B} (R : A -> B -> Prop) l r : Forall2 R l r -> forall x, In x l -> exists y, In y r /\ R x y.
Proof. induction 1; intros y' H'; [destruct H'|]. destruct H' as [<-|H']; [eexists; split; [now left|eassumption]|]. destruct (IHForall2 _ H') as (z & Z1 & Z2). exists z. split; [now right|exact Z2]. Qed.
Lemma ori_bits {A} n (f : A -> option (list bool)) (P : A -> nat -> Prop) l :
  l <> [] -> (forall x, In x l -> exists m, f x = Some m /\ length m = n /\ forall i, i < n -> (nth i m false = true <-> P x i)) ->
  exists m, ori (map f l) = Some m /\ length m = n /\ forall i, i < n -> (nth i m false = true <-> exists x, In x l /\ P x i).
Proof.
  intros NE H. destruct (all_some_ex f l) as (r & R1 & R2).
  { intros x HX. destruct (H x HX) as (m & M & _). eauto. }
  unfold ori. rewrite R1.
  destruct (mask_ori_bits n r) as (m & M1 & M2 & M3).
  - inversion R2; subst; congruence.
  - apply Forall_forall. intros y HY. destruct (forall2_in _ _ _ R2 y HY) as (x & X1 & X2).
    destruct (H _ X1) as (m & E1 & E2 & _). congruence.
  - exists m. split; [exact M1|]. split; [exact M2|]. intros i L. rewrite M3 by exact L. rewrite existsb_exists.
    clear M1 M2 M3 R1 NE. split.
    + intros (y & Y1 & Y2). revert H Y1. induction R2 as [|a b l' r' E R IH]; intros H Y1; [destruct Y1|].
      destruct Y1 as [->|Y1].
      * destruct (H a) as (m' & E1 & E2 & E3); [now left|]. exists a. split; [now left|]. apply E3; [exact L|]. congruence.
      * destruct IH as (z & Z1 & Z2); [intros; apply H; now right|exact Y1|]. exists z. split; [now right|exact Z2].
    + intros (a & A1 & A2). revert H A1. induction R2 as [|a' b l' r' E R IH]; intros H A1; [destruct A1|].
      destruct A1 as [->|A1].
      * destruct (H a) as (m' & E1 & E2 & E3); [now left|]. exists b. split; [now left|]. assert (m' = b) by congruence. subst. now apply E3.
      * destruct IH as (z & Z1 & Z2); [intros; apply H; now right|exact A1|]. exists z. split; [now right|exact Z2].
Qed.

Lemma text_eqb_eq a b : text_eqb a b = true <-> a = b.
Proof. unfold text_eqb. destruct (list_eq_dec _ _ _); split; congruence. Qed.
Lemma nth_map_in {A} (f : A -> bool) (l : list A) (dfl : A) i : i < length l -> nth i (map f l) false = f (nth i l dfl).
Proof. revert i; induction l as [|x l IH]; intros [|i] L; cbn in *; try lia; auto. apply IH. lia. Qed.
Lemma eq_col_bits v c : comparable v c ->
  exists m, eq_col v c = Some m /\ length m = clen c /\ forall i, i < clen c -> (nth i m false = true <-> cell c i = v).
Proof.
  intro C. destruct v as [z|t], c as [l|b l]; cbn in C; try tauto; eexists; (split; [reflexivity|]); (split; [cbn; apply map_length|]); intros i L; cbn in L |- *.
  - rewrite (nth_map_in _ l 0%Z) by exact L. rewrite Z.eqb_eq. split; congruence.
  - rewrite (nth_map_in _ l []) by exact L. rewrite text_eqb_eq. split; congruence.
Qed.

Lemma is_prefix_spec p t : is_prefix p t = true <-> exists b, t = p ++ b.
Proof.
  revert t; induction p as [|x p IH]; intros [|y t]; cbn.
  - split; eauto.
  - split; eauto.
  - split; [discriminate|intros [b E]; discriminate].
  - rewrite andb_true_iff, Nat.eqb_eq, IH. split.
    + intros [-> [b ->]]. eauto.
    + intros [b E]. injection E as -> ->. eauto.
Qed.
Lemma contains_spec p t : contains p t = true <-> occurs p t.
Proof.
  unfold occurs. induction t as [|y t IH].
  - cbn. rewrite orb_false_r, is_prefix_spec. split.
    + intros [b E]. exists [], b. exact E.
    + intros (a & b & E). symmetry in E. apply app_eq_nil in E as [-> E]. apply app_eq_nil in E as [-> ->]. now exists [].
  - cbn [contains]. rewrite orb_true_iff, is_prefix_spec, IH. split.
    + intros [[b E]|(a & b & E)]; [exists [], b; exact E|exists (y :: a), b; cbn; congruence].
    + intros ([|x a] & b & E); [left; exists b; exact E|]. right. cbn in E. injection E as -> ->. eauto.
Qed.
Lemma apply_bits b f l : l <> [] ->
  exists m, apply_txt b f (CTxt b l) = Some m /\ length m = length l /\ forall i, i < length l -> nth i m false = f (nth i l []).
Proof.
  intro NE. destruct l as [|x l]; [congruence|]. unfold apply_txt. rewrite Bool.eqb_reflx. eexists; split; [reflexivity|].
  split; [apply map_length|]. intros i L. now apply nth_map_in.
Qed.

Lemma label_mask n d labels m (P : nat -> Prop) :
  even n d -> length m = n -> (forall i, i < n -> (nth i m false = true <-> P i)) ->
  exists rows, Some (map (fun p => (fst p, compress_col m (snd p))) d) = Some (take_rows rows d) /\ rows_where n P rows /\ labels = labels :> list name.
Proof.
  intros E L H. exists (filter (fun i => nth i m false) (seq 0 n)). split; [f_equal; now apply compress_cols|]. split; [|reflexivity].
  exists (fun i => nth i m false). auto.
Qed.
Lemma keys_found (d : table) labels : (forall l, In l labels -> exists c, dget l d = Some c) ->
  exists cols, all_some (map (fun n => dget n d) labels) = Some cols /\ Forall2 (fun n c => dget n d = Some c) labels cols.
Proof. intro H. apply (all_some_ex (fun n => dget n d)). exact H. Qed.
Lemma flat_map_pairs {A B C} (f : A -> B -> C) (l : list A) (k : list B) :
  flat_map (fun c => map (fun v => f c v) k) l = map (fun p => f (fst p) (snd p)) (list_prod l k).
Proof. induction l as [|x l IH]; [reflexivity|]. cbn [flat_map list_prod]. rewrite map_app, IH, map_map. reflexivity. Qed.
