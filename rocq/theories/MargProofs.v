From Coq Require Import List Arith Bool ZArith Lia.
From Verif Require Import FlattenModel FlattenProofs DsModel DsProofs3 DsProofs5 GroupingProofs AggModel AggProofs2 Acc2Model MargModel MargSpec.
Import ListNotations.

Lemma summary_inj i j : summary_name i = summary_name j -> i = j.
Proof. intros E. apply app_inv_head in E. now apply digits_nat_inj. Qed.
Lemma footer_name_inj i j : footer_name i = footer_name j -> i = j.
Proof. intros E. apply app_inv_head in E. now apply digits_nat_inj. Qed.
Lemma nodup_app {A} (l r : list A) : NoDup (l ++ r) -> NoDup l /\ NoDup r /\ forall x, In x l -> ~ In x r.
Proof.
  induction l as [|a l IH]; cbn [app]; intros ND; [split; [constructor|split; [exact ND|intros x []]]|]. inversion ND as [|? ? NI ND']; subst. destruct (IH ND') as (A1 & A2 & A3).
  split; [constructor; [intros I; apply NI, in_or_app; now left|exact A1]|]. split; [exact A2|]. intros x [<-|I]; [intros J; apply NI, in_or_app; now right|now apply A3].
Qed.
Lemma nodup_cat {A} (l r : list A) : NoDup l -> NoDup r -> (forall x, In x l -> ~ In x r) -> NoDup (l ++ r).
Proof.
  induction l as [|a l IH]; cbn [app]; intros A1 A2 D; [exact A2|]. inversion A1; subst. constructor; [intros I; apply in_app_or in I; destruct I as [I|I]; [contradiction|exact (D a (or_introl eq_refl) I)]|]. apply IH; auto. intros x I. apply D. now right.
Qed.

Section P.
Context {V : Type}.
Variable inv : V.
Variable op : V -> V -> V.
Notation cols := (list (name * list V)).
Notation mds := (mds (V := V)).

Lemma zip_rowwise u v : length u = length v -> rowwise op u v (zip_with op u v).
Proof.
  intros L. unfold zip_with. split; [rewrite map_length, combine_length; lia|]. revert v L. induction u as [|x u IH]; intros [|y v] L [|i] a b Ha Hb; try discriminate; cbn in *; [congruence|]. apply IH; auto.
Qed.
Lemma zip_length u v : length u = length v -> length (zip_with op u v) = length u.
Proof. intros L. unfold zip_with. rewrite map_length, combine_length. lia. Qed.

(** ** the columns *)
Definition zip_cols (l l' : cols) : cols := map (fun q => (fst (fst q), zip_with op (snd (fst q)) (snd (snd q)))) (combine l l').
Definition zip_sums (k : nat) (l l' : cols) : cols :=
  map (fun q => (summary_name (fst q), zip_with op (snd (fst (snd q))) (snd (snd (snd q))))) (combine (seq k (length l)) (combine l l')).
Lemma zip_cols_names l l' : length l = length l' -> map fst (zip_cols l l') = map fst l.
Proof. intros L. unfold zip_cols. rewrite map_map. revert l' L. induction l as [|a l IH]; intros [|b l'] L; try discriminate; [reflexivity|]. cbn. f_equal. apply IH. now injection L. Qed.
Lemma zip_sums_names l l' : forall k, length l = length l' -> map fst (zip_sums k l l') = map summary_name (seq k (length l)).
Proof. unfold zip_sums. revert l'. induction l as [|a l IH]; intros [|b l'] k L; try discriminate; [reflexivity|]. cbn. f_equal. apply IH. now injection L. Qed.

Variables (conf : bool) (a b : mds).
Lemma bc_key l : forall k od, (forall c, In c (map fst l) -> In c (m_labels a) /\ ~ In c (m_sums a)) -> NoDup (map fst od ++ map fst l) ->
  binop_cols op conf a b l k od = od ++ l.
Proof.
  induction l as [|[c v] l IH]; intros k od H ND; [now rewrite app_nil_r|]. cbn [binop_cols]. destruct (H c (or_introl eq_refl)) as [H1 H2]. apply mem_in in H1. apply mem_not in H2. rewrite H1, H2, andb_false_r. cbv iota.
  cbn [map fst] in ND. assert (NI : ~ In c (map fst od)) by (intros I; apply (proj2 (proj2 (nodup_app _ _ ND)) c I); now left). rewrite dset_fresh by exact NI. rewrite IH; [now rewrite <- app_assoc|intros d I; apply H; now right|]. rewrite map_app, <- app_assoc. exact ND.
Qed.
Lemma bc_cells l : forall l' k od, map fst l = map fst l' -> (forall c v, In (c, v) l' -> dget c (m_cols b) = Some v) ->
  (forall c, In c (map fst l) -> ~ In c (m_labels a) /\ ~ In c (m_sums a)) -> NoDup (map fst od ++ map fst l) ->
  binop_cols op conf a b l k od = od ++ zip_cols l l'.
Proof.
  induction l as [|[c v] l IH]; intros [|[c' v'] l'] k od E G H ND; try discriminate; [now rewrite app_nil_r|]. cbn [map fst] in E. injection E as <- E. cbn [binop_cols]. destruct (H c (or_introl eq_refl)) as [H1 H2]. apply mem_not in H1, H2. rewrite H1, H2, andb_false_r. cbv iota.
  rewrite (G c v' (or_introl eq_refl)). cbn [map fst] in ND. assert (NI : ~ In c (map fst od)) by (intros I; apply (proj2 (proj2 (nodup_app _ _ ND)) c I); now left). rewrite dset_fresh by exact NI.
  rewrite (IH l' k (od ++ [(c, zip_with op v v')]) E); [unfold zip_cols; cbn [combine map fst snd]; now rewrite <- app_assoc|intros d w I; apply G; now right|intros d I; apply H; now right|]. rewrite map_app, <- app_assoc. exact ND.
Qed.
Lemma bc_sums l : conf = true -> forall l' k od, length l = length l' -> (forall i d, nth_error l' i = Some d -> nth (k + i) (m_sums b) [] = fst d /\ dget (fst d) (m_cols b) = Some (snd d)) ->
  (forall c, In c (map fst l) -> ~ In c (m_labels a) /\ In c (m_sums a)) -> (forall i, ~ In (summary_name (k + i)) (map fst od) \/ length l <= i) ->
  binop_cols op conf a b l k od = od ++ zip_sums k l l'.
Proof.
  intros CF. rewrite CF. induction l as [|[c v] l IH]; intros [|[c' v'] l'] k od E G H NI; try discriminate; [now rewrite app_nil_r|]. cbn [length] in E. injection E as E. cbn [binop_cols]. destruct (H c (or_introl eq_refl)) as [H1 H2]. apply mem_not in H1. apply mem_in in H2. rewrite H1, H2. cbn [andb]. cbv iota.
  destruct (G 0 (c', v') eq_refl) as [G1 G2]. rewrite Nat.add_0_r in G1. cbn [fst snd] in G1, G2. rewrite G1, G2.
  assert (N0 : ~ In (summary_name k) (map fst od)) by (destruct (NI 0) as [N|N]; [now rewrite Nat.add_0_r in N|cbn in N; lia]). rewrite dset_fresh by exact N0.
  rewrite (IH l' (S k) (od ++ [(summary_name k, zip_with op v v')]) E).
  - unfold zip_sums. cbn [length seq combine map fst snd]. now rewrite <- app_assoc.
  - intros i d D. specialize (G (S i) d D). now rewrite Nat.add_succ_r in G.
  - intros d I. apply H. now right.
  - intros i. destruct (NI (S i)) as [N|N]; [|right; cbn in N; lia]. rewrite Nat.add_succ_r in N. left. rewrite map_app. intros I. apply in_app_or in I. destruct I as [I|[I|[]]]; [contradiction|]. cbn [fst] in I. apply summary_inj in I. lia.
Qed.
Lemma bc_app l1 : forall l2 k od, (forall c, In c (map fst l1) -> ~ In c (m_sums a)) -> binop_cols op conf a b (l1 ++ l2) k od = binop_cols op conf a b l2 k (binop_cols op conf a b l1 k od).
Proof.
  induction l1 as [|[c v] l1 IH]; intros l2 k od H; [reflexivity|]. cbn [app binop_cols]. assert (N := H c (or_introl eq_refl)). apply mem_not in N. rewrite N, andb_false_r. cbv iota. apply IH. intros d I. apply H. now right.
Qed.

(** ** the footers *)
Lemma nf_cells l : forall l2 arr arr2 k acc, length l = length arr -> (forall c, In c l -> ~ In c (m_sums a)) -> NoDup (map fst acc ++ l) ->
  new_footer a (l ++ l2) (arr ++ arr2) k acc = new_footer a l2 arr2 k (acc ++ combine l arr).
Proof.
  induction l as [|c l IH]; intros l2 [|x arr] arr2 k acc E H ND; try discriminate; [now rewrite app_nil_r|]. cbn [app new_footer]. assert (N := H c (or_introl eq_refl)). apply mem_not in N. rewrite N. assert (NI : ~ In c (map fst acc)) by (intros I; apply (proj2 (proj2 (nodup_app _ _ ND)) c I); now left). rewrite dset_fresh by exact NI.
  rewrite IH; [cbn [combine]; now rewrite <- app_assoc|now injection E|intros d I; apply H; now right|]. rewrite map_app, <- app_assoc. exact ND.
Qed.
Lemma nf_sums l : forall arr k acc, length l = length arr -> (forall c, In c l -> In c (m_sums a)) -> (forall i, ~ In (summary_name (k + i)) (map fst acc) \/ length l <= i) ->
  new_footer a l arr k acc = acc ++ combine (map summary_name (seq k (length l))) arr.
Proof.
  induction l as [|c l IH]; intros [|x arr] k acc E H NI; try discriminate; [cbn; now rewrite app_nil_r|]. cbn [new_footer]. assert (N := H c (or_introl eq_refl)). apply mem_in in N. rewrite N.
  assert (N0 : ~ In (summary_name k) (map fst acc)) by (destruct (NI 0) as [N0|N0]; [now rewrite Nat.add_0_r in N0|cbn in N0; lia]). rewrite dset_fresh by exact N0.
  rewrite (IH arr (S k)); [cbn [length seq map combine]; now rewrite <- app_assoc|now injection E|intros d I; apply H; now right|].
  intros i. destruct (NI (S i)) as [N1|N1]; [|right; cbn in N1; lia]. rewrite Nat.add_succ_r in N1. left. rewrite map_app. intros I. apply in_app_or in I. destruct I as [I|[I|[]]]; [contradiction|]. cbn [fst] in I. apply summary_inj in I. lia.
Qed.
End P.

(** ** conforming layouts *)
Lemma index_nth l : forall i c, NoDup l -> nth_error l i = Some c -> index c l = i.
Proof.
  induction l as [|k l IH]; intros [|i] c ND H; try discriminate; cbn [index].
  - injection H as ->. destruct (name_dec c c); [reflexivity|congruence].
  - inversion ND as [|? ? NI ND']; subst. cbn in H. destruct (name_dec k c) as [E|E]; [subst; exfalso; apply NI; now apply nth_error_In with i|]. f_equal. now apply IH.
Qed.
Lemma index_mid p : forall l q, NoDup (p ++ l ++ q) -> map (fun c => index c (p ++ l ++ q)) l = seq (length p) (length l).
Proof.
  intros l q ND. apply nth_ext with (d := 0) (d' := 0); [now rewrite map_length, seq_length|]. intros i H. rewrite map_length in H. rewrite seq_nth by exact H.
  destruct (nth_error l i) as [c|] eqn:E; [|apply nth_error_None in E; lia]. apply nth_error_nth with (d := 0). rewrite (map_nth_error _ i l E). f_equal. apply index_nth; [exact ND|]. rewrite nth_error_app2 by lia. rewrite nth_error_app1 by lia. now replace (length p + i - length p) with i by lia.
Qed.
Section C.
Context {V : Type}.
Notation mds := (mds (V := V)).
Lemma eq_nats_refl l : eq_nats l l = true.
Proof. unfold eq_nats. now destruct (list_eq_dec Nat.eq_dec l l). Qed.
Lemma conform_ok KN CN SN SN' n (a b : mds) : laid_out KN CN SN n a -> laid_out KN CN SN' n b -> length SN = length SN' -> length (m_foot a) = length (m_foot b) -> conform a b = true.
Proof.
  intros (NA & DA & LA & SA & _) (NB & DB & LB & SB & _) LS LF. unfold conform.
  assert (LC : length (m_cols a) = length (m_cols b)) by (rewrite <- (map_length fst (m_cols a)), <- (map_length fst (m_cols b)), NA, NB, !app_length; lia).
  apply andb_true_intro. split; [apply andb_true_intro; split|].
  - unfold footers_conform. destruct (m_foot a), (m_foot b); cbn [isnil orb andb]; try reflexivity; try discriminate. now rewrite LF, LC, !Nat.eqb_refl.
  - unfold columns_conform. rewrite LA, LB. destruct KN as [|k KN]; [reflexivity|]. cbn [isnil orb]. unfold names. rewrite NA, NB. remember (k :: KN) as K eqn:EK. pose proof (index_mid [] K (CN ++ SN) DA) as IA. pose proof (index_mid [] K (CN ++ SN') DB) as IB. cbn [app length] in IA, IB. rewrite IA, IB, !eq_nats_refl. reflexivity.
  - unfold columns_conform. rewrite SA, SB. destruct SN as [|k SN]; destruct SN' as [|k' SN']; try discriminate; [reflexivity|]. cbn [isnil orb]. unfold names. rewrite <- (map_length fst (m_cols a)), NA, NB. remember (k :: SN) as K eqn:EK. remember (k' :: SN') as K' eqn:EK'.
    pose proof (index_mid (KN ++ CN) K []) as IA. pose proof (index_mid (KN ++ CN) K' []) as IB. rewrite !app_nil_r, <- !app_assoc in IA, IB. rewrite (IA DA), (IB DB), LS, eq_nats_refl. rewrite !app_length. replace (length KN + (length CN + length K) - length K') with (length KN + length CN) by lia. rewrite !eq_nats_refl. reflexivity.
Qed.
End C.
