From Coq Require Import List Arith Bool ZArith Permutation Lia.
From Verif Require Import FlattenModel DsModel GroupModel GroupingModel GroupingSpec DsProofs3 AggModel AggSpec AggProofs AggProofs2 AggProofs3 AggProofs4.
Import ListNotations.

(** positions in a list of blocks *)
Lemma position_app_in r a b : In r a -> position r (a ++ b) = position r a.
Proof. induction a as [|x a IH]; intros H; [destruct H|]. cbn [app position]. destruct (x =? r) eqn:E; [reflexivity|]. apply Nat.eqb_neq in E. destruct H; [congruence|]. now rewrite IH. Qed.
Lemma position_app_out r a b : ~ In r a -> position r (a ++ b) = length a + position r b.
Proof.
  induction a as [|x a IH]; intros H; [reflexivity|]. cbn [app position length]. destruct (x =? r) eqn:E.
  - apply Nat.eqb_eq in E. subst. exfalso. apply H. now left.
  - rewrite IH; [reflexivity|]. intros I. apply H. now right.
Qed.
Lemma position_lt r a : In r a -> position r a < length a.
Proof. induction a as [|x a IH]; intros H; [destruct H|]. cbn [position length]. destruct (x =? r) eqn:E; [lia|]. apply Nat.eqb_neq in E. destruct H; [congruence|]. specialize (IH H). lia. Qed.
Lemma blocks {V} (inv : V) (rows : nat -> list nat) (vals : nat -> list V) r b bs :
  In b bs -> NoDup bs -> (forall b, In b bs -> length (vals b) = length (rows b)) -> (forall b', In b' bs -> In r (rows b') <-> b' = b) ->
  nth (position r (concat (map rows bs))) (concat (map vals bs)) inv = nth (position r (rows b)) (vals b) inv.
Proof.
  induction bs as [|a bs IH]; intros I ND L U; [destruct I|]. cbn [map concat]. inversion ND; subst.
  destruct (Nat.eq_dec a b) as [->|N].
  - assert (Ir : In r (rows b)) by (apply U; [now left|reflexivity]). rewrite position_app_in by exact Ir. apply app_nth1.
    rewrite L by (now left). now apply position_lt.
  - destruct I as [|I]; [congruence|]. assert (Nr : ~ In r (rows a)) by (intros X; apply U in X; [congruence|now left]).
    rewrite position_app_out by exact Nr. rewrite app_nth2 by (rewrite L by (now left); lia). rewrite L by (now left).
    replace (length (rows a) + position r (concat (map rows bs)) - length (rows a)) with (position r (concat (map rows bs))) by lia.
    apply IH; auto.
    + intros b' Hb. apply L. now right.
    + intros b' Hb. apply U. now right.
Qed.
Lemma concat_filter {X Y} (g : X -> bool) (h : X -> list Y) l : (forall x, In x l -> g x = false -> h x = []) ->
  concat (map h (filter g l)) = concat (map h l).
Proof.
  induction l as [|x l IH]; intros H; [reflexivity|]. cbn [filter map concat]. destruct (g x) eqn:E.
  - cbn [map concat]. f_equal. apply IH. intros y Hy. apply H. now right.
  - rewrite (H x) by (auto; now left). cbn [app]. apply IH. intros y Hy. apply H. now right.
Qed.
Lemma filter_all {X} (g : X -> bool) l : (forall x, In x l -> g x = true) -> filter g l = l.
Proof. induction l as [|x l IH]; intros H; [reflexivity|]. cbn [filter]. rewrite H by (now left). f_equal. apply IH. intros y Hy. apply H. now right. Qed.
Lemma concat_single {X V} (inv : V) (h : X -> list V) l : (forall x, In x l -> length (h x) = 1) -> concat (map h l) = map (fun x => nth 0 (h x) inv) l.
Proof.
  induction l as [|x l IH]; intros H; [reflexivity|]. cbn [map concat]. rewrite IH by (intros y Hy; apply H; now right).
  assert (L : length (h x) = 1) by (apply H; now left). destruct (h x) as [|v [|? ?]]; cbn [length] in L; try discriminate. reflexivity.
Qed.
Lemma compress_reorder {V} (inv : V) (keep : nat -> bool) (u : list V) :
  map fst (filter snd (combine u (map keep (seq 0 (length u))))) = reorder inv u (filter keep (seq 0 (length u))).
Proof.
  unfold reorder. rewrite (list_as_seq inv u) at 1. rewrite combine_maps, filter_map, map_map. cbn [fst snd]. reflexivity.
Qed.

Section P.
Context {V : Type}.
Variable inv : V.
Variable vlt : V -> V -> Prop.
Variable lexsort : list (list V) -> list nat.
Variable LS : lexsort_ok inv vlt lexsort.
Variable binname : list V -> V.
Variables (t : table (V := V)) (n : nat) (sd pre : bool).
Variable KT : key_table inv t n.
Notation s := (sd && negb pre).
Notation p := (order lexsort s t n).
Notation kinv := (kinv inv lexsort binname t n sd pre).
Notation oinv := (oinv inv lexsort binname t n sd pre).
Variable o0 : gobj (V := V).
Hypothesis FO : o_n o0 = n.
Hypothesis CI : codes_in n (o_ikey o0).
Variables (f : list V -> list V) (c : name) (x : list V) (flt : option (list bool)).
Hypothesis FL : forall g, flt = Some g -> length g = length (o_ikey o0).
Hypothesis XL : length x = length (o_ikey o0).
Notation ik := (o_ikey o0).
Notation vals := (bin_values inv ik flt x).
Lemma vals_size b : length (vals b) = bin_size ik flt b.
Proof. unfold bin_values, bin_size. apply map_length. Qed.
(** the groups that have rows *)
Definition filled (k : nat) : bool := negb (bin_size ik flt (S k) =? 0).
Lemma apply_unfold o : oinv o0 o -> apply_user inv lexsort f c x flt o =
  let bins := filter (fun b => 0 <? length (vals b)) (seq 1 n) in
  let result := concat (map (fun b => f (vals b)) bins) in
  match bins with
  | [] => (o, None)
  | _ =>
      let '(c1, ds) :=
        if length result =? length bins then
          let '(c1, gb) := gbkeys inv lexsort (o_kc o) in
          if length bins <? n then
            match set_cols (map (fun p => (fst p, map fst (filter snd (combine (snd p) (map (fun b => 0 <? length (vals b)) (seq 1 n)))))) gb) (Some [(c, result)]) with
            | Some d => finalize_dataset inv lexsort d c1 gb false false false
            | None => (c1, None)
            end
          else finalize_dataset inv lexsort [(c, result)] c1 gb false false true
        else
          let full := repeat inv (length (vals 0)) ++ result in
          (o_kc o, if length full =? length ik
                   then Some [(c, map (fun r => nth (position r (igroup (passing flt ik) n)) full inv) (seq 0 (length ik)))]
                   else None) in
      let '(c2, lk) := gbkeys inv lexsort c1 in
      possibly_transform inv lexsort (with_kc c2 o) ds (names lk) false false
  end.
Proof.
  intros (_ & Ik & N & _). unfold apply_user. rewrite Ik, N, FO. cbv zeta.
  assert (E : forall b, in_bin (passing flt ik) x b = vals b) by (intros b; apply in_bin_values; auto).
  assert (E1 : filter (fun b => 0 <? length (in_bin (passing flt ik) x b)) (seq 1 n) = filter (fun b => 0 <? length (vals b)) (seq 1 n)) by (apply filter_ext; intros b; now rewrite E).
  assert (E2 : map (fun b => 0 <? length (in_bin (passing flt ik) x b)) (seq 1 n) = map (fun b => 0 <? length (vals b)) (seq 1 n)) by (apply map_ext; intros b; now rewrite E).
  rewrite E1, E2, !E.
  assert (E3 : map (fun b => f (in_bin (passing flt ik) x b)) (filter (fun b => 0 <? length (vals b)) (seq 1 n)) = map (fun b => f (vals b)) (filter (fun b => 0 <? length (vals b)) (seq 1 n))) by (apply map_ext; intros b; now rewrite E).
  rewrite E3.
  assert (E4 : length (passing flt ik) = length ik) by (rewrite passing_bins by exact FL; now rewrite map_length, seq_length).
  now rewrite E4.
Qed.
Lemma bins_filled : filter (fun b => 0 <? length (vals b)) (seq 1 n) = map S (filter filled (seq 0 n)).
Proof.
  rewrite <- seq_shift, filter_map. f_equal. apply filter_ext. intros k. rewrite vals_size. unfold filled. destruct (bin_size ik flt (S k)); reflexivity.
Qed.
Lemma reduce_ok o : oinv o0 o -> o_flag o = false -> ~ In c (map fst t) ->
  (exists k, k < n /\ filled k = true) -> (forall k, k < n -> filled k = true -> length (f (vals (S k))) = 1) ->
  (s = true -> forall k, k < n -> filled k = true) ->
  exists d, snd (apply_user inv lexsort f c x flt o) = Some d /\
    keyed_result inv binname t (if s then p else filter filled (seq 0 n)) false (fun _ b => nth 0 (f (vals b)) inv) (fun _ => true) [(c, x)] d.
Proof.
  intros O Fl NK [k0 [Hk0 F0]] One All. rewrite (apply_unfold o O). cbv zeta. rewrite bins_filled.
  set (q := filter filled (seq 0 n)).
  assert (Iq : In k0 q) by (apply filter_In; split; [apply in_seq; lia|exact F0]).
  destruct (map S q) as [|b0 bs] eqn:Eq; [exfalso; apply map_eq_nil in Eq; rewrite Eq in Iq; destruct Iq|]. rewrite <- Eq. clear b0 bs Eq.
  assert (Er : concat (map (fun b => f (vals b)) (map S q)) = map (fun k => nth 0 (f (vals (S k))) inv) q).
  { rewrite (concat_single inv).
    - rewrite map_map. reflexivity.
    - intros b Hb. apply in_map_iff in Hb. destruct Hb as [k [<- Hk]]. apply filter_In in Hk. destruct Hk as [Hk1 Hk2]. apply in_seq in Hk1. apply One; [lia|exact Hk2]. }
  rewrite Er, !map_length, Nat.eqb_refl. pose proof O as (K & _).
  pose proof (gbkeys_ok inv vlt lexsort LS binname t n sd pre KT (o_kc o) K) as G. destruct (gbkeys inv lexsort (o_kc o)) as [c1 gb]. destruct G as (K1 & _ & _ & ->).
  assert (Fin : forall inner : keychain * option (list (name * list V)),
    (let '(c2, r) := inner in kinv c2 /\ exists r', r = Some r' /\ keyed_result inv binname t (if s then p else q) false (fun _ b => nth 0 (f (vals b)) inv) (fun _ => true) [(c, x)] r') ->
    exists d, snd (let '(c2, ds) := inner in let '(c3, lk) := gbkeys inv lexsort c2 in possibly_transform inv lexsort (with_kc c3 o) ds (names lk) false false) = Some d /\
    keyed_result inv binname t (if s then p else q) false (fun _ b => nth 0 (f (vals b)) inv) (fun _ => true) [(c, x)] d).
  { intros [c2 r] (K2 & r' & -> & KR). destruct (gbkeys inv lexsort c2) as [c3 lk]. unfold possibly_transform. change (o_flag (with_kc c3 o)) with (o_flag o). rewrite Fl. cbn [orb snd].
    exists r'. split; [reflexivity|exact KR]. }
  destruct (Nat.ltb_spec (length q) n) as [Lt|Ge].
  - (* some group has no rows: unsorted *)
    assert (Es : s = false).
    { destruct s eqn:E; [|reflexivity]. exfalso. assert (X : q = seq 0 n) by (apply filter_all; intros k Hk; apply in_seq in Hk; apply All; [reflexivity|lia]).
      rewrite X, seq_length in Lt. lia. }
    rewrite Es in *.
    assert (ND : NoDup (map fst t)) by apply KT.
    assert (Eg : map (fun q0 => (fst q0, map fst (filter snd (combine (snd q0) (map (fun b => 0 <? length (vals b)) (seq 1 n)))))) (shown_keys inv t (order lexsort false t n))
                 = map (fun q0 => (fst q0, reorder inv (snd q0) q)) t).
    { cbn [order]. rewrite shown_id by apply KT. apply map_ext_in. intros [k u] Hu. cbn [fst snd]. f_equal.
      assert (Lu : length u = n) by (destruct KT as (_ & _ & L & _); apply (L _ Hu)).
   unfold q. rewrite <- Lu at 2. rewrite <- (compress_reorder inv filled u). rewrite Lu. do 3 f_equal.
      rewrite <- seq_shift, map_map. apply map_ext. intros j. rewrite vals_size. unfold filled. destruct (bin_size ik flt (S j)); reflexivity. }
    rewrite Eg. cbn [order] in *. set (rcol := map (fun k => nth 0 (f (vals (S k))) inv) q).
    assert (L1 : all_len (length q) [(c, rcol)]) by (intros z [<-|[]]; cbn [snd]; apply map_length).
    assert (L2 : all_len (length q) (map (fun q0 => (fst q0, reorder inv (snd q0) q)) t)) by (intros z Hz; apply in_map_iff in Hz; destruct Hz as [q0 [<- _]]; apply reorder_length).
    rewrite (set_cols_ok _ _ _ L1 L2).
    assert (N2 : map fst (map (fun q0 => (fst q0, reorder inv (snd q0) q)) t) = map fst t) by (rewrite map_map; reflexivity).
    rewrite dset_all_id by (cbn [map fst app]; rewrite N2; constructor; [exact NK|exact ND]). cbn [app].
    apply Fin. unfold finalize_dataset. rewrite (sgd inv lexsort binname t n sd pre c1 K1), Es. cbn [andb].
    split; [exact K1|]. eexists. split; [apply (make_ds_ok (length q)); intros z [<-|Hz]; [cbn [snd]; apply map_length|apply L2; exact Hz]|].
    assert (NDd : NoDup (map fst ((c, rcol) :: map (fun q0 => (fst q0, reorder inv (snd q0) q)) t))) by (cbn [map fst]; rewrite N2; constructor; [exact NK|exact ND]).
    split; [|split; [|split]].
    + intros k u I. cbn [lead app]. apply dget_nodup; [exact NDd|]. right. apply in_map_iff. exists (k, u). auto.
    + intros k y [E|[]] _ _. injection E as <- <-. cbn [lead app]. apply dget_nodup; [exact NDd|]. now left.
    + intros k Hk. cbn [map fst] in Hk. rewrite N2 in Hk. destruct Hk as [<-|Hk]; [right; split; [now left|reflexivity]|now left].
    + exact NDd.
  - assert (X : q = seq 0 n).
    { assert (forall l, length (filter filled l) >= length l -> filter filled l = l).
      { induction l as [|a l IH]; intros H; [reflexivity|]. cbn [filter] in *. destruct (filled a); cbn [length] in *; [f_equal; apply IH; lia|].
        exfalso. assert (forall l, length (filter filled l) <= length l) by (clear; induction l as [|b l IH]; cbn [filter length]; [lia|destruct (filled b); cbn [length]; lia]). specialize (H0 l). lia. }
      apply H. rewrite seq_length. exact Ge. }
    apply Fin. set (d := [(c, map (fun k => nth 0 (f (vals (S k))) inv) q)]).
    assert (NDd : NoDup (map fst d)) by (repeat constructor; intros []).
    assert (Ld : all_len (len_of n false) d) by (intros z [<-|[]]; cbn [snd]; rewrite map_length, X; apply seq_length).
    pose proof (keyed_ok inv vlt lexsort LS binname t n sd pre KT c1 false d (fun _ b => nth 0 (f (vals b)) inv) (fun _ => true) [(c, x)] NDd Ld K1) as KO.
    change (gb_of inv lexsort binname t n sd pre false) with (shown_keys inv t p) in KO.
    destruct (finalize_dataset inv lexsort d c1 (shown_keys inv t p) false false true) as [c2 r].
    destruct KO as (K2 & r' & E & KR).
    + intros k y [E|[]] _ _. injection E as <- <-. unfold d. rewrite X. now left.
    + intros k [<-|[]]. right. split; [now left|reflexivity].
    + split; [exact K2|]. exists r'. split; [exact E|]. replace (if s then p else q) with p; [exact KR|]. unfold order. destruct s; [reflexivity|]. now rewrite X.
Qed.

Lemma group_rows_bins b : group_rows (passing flt ik) b = filter (fun r => bin_of ik flt r =? b) (seq 0 (length ik)).
Proof.
  unfold group_rows. rewrite passing_bins by exact FL. rewrite map_length, seq_length. apply filter_ext_in. intros r Hr. apply in_seq in Hr.
  f_equal. apply nth_error_nth. erewrite map_nth_error; [reflexivity|]. rewrite (nth_error_nth' _ 0) by (rewrite seq_length; lia). now rewrite seq_nth by lia.
Qed.
Lemma bin_le r : r < length ik -> bin_of ik flt r <= n.
Proof.
  intros H. assert (nth r ik 0 <= n) by (unfold codes_in in CI; rewrite Forall_forall in CI; apply CI, nth_In, H). unfold bin_of. destruct flt as [g|]; [destruct (nth r g false)|]; lia.
Qed.
Lemma rank_position r : r < length ik -> position r (filter (fun r' => bin_of ik flt r' =? bin_of ik flt r) (seq 0 (length ik))) = rank ik flt r.
Proof.
  intros H. unfold rank. replace (length ik) with (r + S (length ik - r - 1)) by lia. rewrite seq_app, filter_app. cbn [Nat.add seq filter]. rewrite Nat.eqb_refl.
  rewrite position_app_out.
  - cbn [position]. rewrite Nat.eqb_refl. lia.
  - intros I. apply filter_In in I. destruct I as [I _]. apply in_seq in I. lia.
Qed.
Lemma sum_blocks (h : nat -> list nat) bs : length (concat (map h bs)) = list_sum (map (fun b => length (h b)) bs).
Proof. induction bs as [|b bs IH]; [reflexivity|]. cbn [map concat list_sum fold_right]. rewrite app_length, IH. reflexivity. Qed.
Lemma nonreduce_ok o : oinv o0 o -> o_flag o = false ->
  (forall k, k < n -> length (f (vals (S k))) = length (vals (S k))) ->
  (exists k, k < n /\ 2 <= bin_size ik flt (S k)) ->
  exists col, snd (apply_user inv lexsort f c x flt o) = Some [(c, col)] /\ length col = length ik /\
    forall r, r < length ik ->
      nth_error col r = Some (match bin_of ik flt r with 0 => inv | b => nth (rank ik flt r) (f (vals b)) inv end).
Proof.
  intros O Fl Len [k0 [Hk0 S2]]. rewrite (apply_unfold o O). cbv zeta.
  set (bins := filter (fun b => 0 <? length (vals b)) (seq 1 n)).
  assert (Ib : In (S k0) bins) by (apply filter_In; split; [apply in_seq; lia|apply Nat.ltb_lt; rewrite vals_size; lia]).
  destruct bins as [|b0 bs] eqn:Eb; [destruct Ib|]. rewrite <- Eb in *. clear b0 bs Eb.
  assert (Er : concat (map (fun b => f (vals b)) bins) = concat (map (fun b => f (vals b)) (seq 1 n))).
  { apply concat_filter. intros b Hb E. apply Nat.ltb_ge in E. apply in_seq in Hb. destruct b as [|k]; [lia|]. specialize (Len k ltac:(lia)). apply length_zero_iff_nil. lia. }
  assert (Lb : forall b, In b (seq 1 n) -> length (f (vals b)) = length (vals b)) by (intros b Hb; apply in_seq in Hb; destruct b as [|k]; [lia|apply Len; lia]).
  assert (Gt : length (concat (map (fun b => f (vals b)) bins)) > length bins).
  { assert (G : forall l, (forall b, In b l -> 1 <= length (f (vals b))) -> length (concat (map (fun b => f (vals b)) l)) >= length l).
    { induction l as [|b l IH]; intros H; [cbn; lia|]. cbn [map concat length]. rewrite app_length. specialize (IH (fun b' Hb => H b' (or_intror Hb))). specialize (H b (or_introl eq_refl)). lia. }
    assert (G2 : forall l, (forall b, In b l -> 1 <= length (f (vals b))) -> In (S k0) l -> length (concat (map (fun b => f (vals b)) l)) > length l).
    { induction l as [|b l IH]; intros H I; [destruct I|]. cbn [map concat length]. rewrite app_length.
      assert (H' : forall b, In b l -> 1 <= length (f (vals b))) by (intros b' Hb; apply H; now right).
      destruct I as [->|I].
      - specialize (G l H'). rewrite (Len k0 Hk0), vals_size. lia.
      - specialize (IH H' I). specialize (H b (or_introl eq_refl)). lia. }
    apply G2; [|exact Ib]. intros b Hb. apply filter_In in Hb. destruct Hb as [Hb1 Hb2]. rewrite Lb by exact Hb1. apply Nat.ltb_lt in Hb2. lia. }
  destruct (Nat.eqb_spec (length (concat (map (fun b => f (vals b)) bins))) (length bins)) as [E|_]; [lia|].
  pose (rows := fun b => filter (fun r => bin_of ik flt r =? b) (seq 0 (length ik))).
  pose (blk := fun b => match b with 0 => repeat inv (length (vals 0)) | _ => f (vals b) end).
  assert (Efull : repeat inv (length (vals 0)) ++ concat (map (fun b => f (vals b)) bins) = concat (map blk (seq 0 (S n)))).
  { rewrite Er. cbn [seq map concat]. f_equal. f_equal. apply map_ext_in. intros b Hb. apply in_seq in Hb. destruct b; [lia|reflexivity]. }
  assert (Eg : igroup (passing flt ik) n = concat (map rows (seq 0 (S n)))) by (unfold igroup; f_equal; apply map_ext; intros b; apply group_rows_bins).
  assert (Lblk : forall b, In b (seq 0 (S n)) -> length (blk b) = length (rows b)).
  { intros b Hb. change (length (rows b)) with (bin_size ik flt b). unfold blk. destruct b as [|k]; [now rewrite repeat_length, vals_size|]. rewrite Lb; [apply vals_size|]. apply in_seq in Hb. apply in_seq. lia. }
  rewrite Efull, Eg.
  assert (Lf : length (concat (map blk (seq 0 (S n)))) = length ik).
  { transitivity (length (concat (map rows (seq 0 (S n))))).
    - clear - Lblk. induction (seq 0 (S n)) as [|b l IH]; [reflexivity|]. cbn [map concat]. rewrite !app_length. rewrite IH by (intros b' Hb; apply Lblk; now right). f_equal. apply Lblk. now left.
    - rewrite <- (seq_length (length ik) 0) at 1. apply Permutation_length. apply NoDup_Permutation.
      + clear - KT. generalize (seq_NoDup (S n) 0). induction (seq 0 (S n)) as [|b l IH]; intros ND; [constructor|]. cbn [map concat]. inversion ND; subst.
        assert (D : forall (a b : list nat), NoDup a -> NoDup b -> (forall y, In y a -> ~ In y b) -> NoDup (a ++ b)).
        { clear. induction a as [|z a IHa]; intros b Ha Hb X; [exact Hb|]. cbn [app]. inversion Ha; subst. constructor.
          - rewrite in_app_iff. intros [Y|Y]; [contradiction|]. apply (X z); [now left|exact Y].
          - apply IHa; auto. intros y Hy. apply X. now right. }
        apply D; [apply NoDup_filter, seq_NoDup|now apply IH|].
        intros y Hy Hc. apply filter_In in Hy. destruct Hy as [_ Hy]. apply Nat.eqb_eq in Hy. apply in_concat in Hc. destruct Hc as [l' [Hl' Hy']]. apply in_map_iff in Hl'. destruct Hl' as [b' [<- Hb']].
        apply filter_In in Hy'. destruct Hy' as [_ Hy']. apply Nat.eqb_eq in Hy'. apply H1. rewrite <- Hy, Hy'. exact Hb'.
      + apply seq_NoDup.
      + intros y. rewrite in_concat. split.
        * intros [l' [Hl' Hy]]. apply in_map_iff in Hl'. destruct Hl' as [b' [<- Hb']]. apply filter_In in Hy. tauto.
        * intros Hy. exists (rows (bin_of ik flt y)). split; [apply in_map; apply in_seq; apply in_seq in Hy; pose proof (bin_le y ltac:(lia)); lia|]. apply filter_In. split; [exact Hy|]. apply Nat.eqb_refl. }
  rewrite Lf, Nat.eqb_refl.
  pose proof O as (K & _).
  pose proof (gbkeys_ok inv vlt lexsort LS binname t n sd pre KT (o_kc o) K) as G. destruct (gbkeys inv lexsort (o_kc o)) as [c2 lk].
  unfold possibly_transform. change (o_flag (with_kc c2 o)) with (o_flag o). rewrite Fl. cbn [orb snd].
  eexists. split; [reflexivity|]. split; [now rewrite map_length, seq_length|].
  intros r Hr. erewrite map_nth_error by (rewrite (nth_error_nth' _ 0) by (rewrite seq_length; exact Hr); now rewrite seq_nth by exact Hr). cbn [Nat.add]. f_equal.
  assert (Hb : In (bin_of ik flt r) (seq 0 (S n))) by (apply in_seq; pose proof (bin_le r Hr); lia).
  rewrite (blocks inv rows blk r (bin_of ik flt r) (seq 0 (S n)) Hb (seq_NoDup _ _) Lblk).
  - unfold rows. rewrite rank_position by exact Hr. unfold blk. destruct (bin_of ik flt r) eqn:E; [|reflexivity].
    apply nth_repeat.
  - intros b' _. unfold rows. rewrite filter_In. split; [intros [_ X]; apply Nat.eqb_eq in X; congruence|]. intros ->. split; [apply in_seq; lia|]. apply Nat.eqb_refl.
Qed.
End P.
