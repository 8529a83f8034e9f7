(** Proofs about loading several files. *)
From Coq Require Import List Arith ZArith Bool Lia.
From Verif Require Import FlattenModel DsModel GroupingModel GroupingSpec PdsModel DsProofs3 FlattenProofs MsModel MsSpec.
Import ListNotations.

(** ** slices *)
Lemma slices_from {X} : forall (ls : list (list X)) (pre : list X),
  slices (length pre) (cumsum_from (length pre) (map (@length X) ls)) (pre ++ concat ls) = ls.
Proof.
  induction ls as [|l ls IH]; intros pre; cbn [map cumsum_from slices concat]; [reflexivity|].
  f_equal.
  - replace (length pre + length l - length pre) with (length l) by lia.
    rewrite skipn_app, skipn_all, Nat.sub_diag. cbn [skipn app]. rewrite firstn_app, firstn_all, Nat.sub_diag. cbn [firstn]. apply app_nil_r.
  - specialize (IH (pre ++ l)). rewrite app_length in IH. rewrite app_assoc. exact IH.
Qed.
Lemma slices_concat {X} (ls : list (list X)) : slices 0 (cumsum (map (@length X) ls)) (concat ls) = ls.
Proof. exact (slices_from ls []). Qed.

(** ** names *)
Lemma before_bang_app n r : ~ In bang n -> before_bang (n ++ bang :: r) = Some n.
Proof.
  induction n as [|c n IH]; intros H; cbn [app before_bang].
  - rewrite Nat.eqb_refl. reflexivity.
  - destruct (Nat.eqb_spec c bang) as [->|]; [exfalso; apply H; now left|]. rewrite IH; [reflexivity|]. intros I; apply H; now right.
Qed.
Lemma spec_cat n : ~ In bang n -> spec_name (cat_item n) = n.
Proof. intros H. unfold spec_name, cat_item. now rewrite before_bang_app. Qed.
Lemma cat_bang n : In bang (cat_item n). Proof. unfold cat_item. apply in_or_app. right. now left. Qed.

Section P.
Context {V B M : Type}.
Notation file := (file V B M). Notation column := (column V B M). Notation cell := (@cell V B).
Implicit Types (f : file) (fs : list file).

Definition data_of (c : column) : list cell := match c with Plain _ l => map CV l | Cat _ codes _ => map CC codes end.
Definition colitems (p : name * column) : list (name * (bool * list cell)) :=
  match snd p with
  | Plain _ l => [(fst p, (true, map CV l))]
  | Cat _ codes cats => [(fst p, (true, map CC codes)); (cat_item (fst p), (false, map CU cats))]
  end.
Lemma dget_app {X} n (a b : list (name * X)) : dget n (a ++ b) = match dget n a with Some v => Some v | None => dget n b end.
Proof. induction a as [|[k v] a IH]; cbn [app dget]; auto. destruct (name_dec k n); auto. Qed.
Lemma items_plain_gen (cols : list (name * column)) n : Forall (fun p => ~ In bang (fst p)) cols -> ~ In bang n ->
  dget n (flat_map colitems cols) = match dget n cols with Some c => Some (true, data_of c) | None => None end.
Proof.
  intros F H. induction cols as [|[k c] cols IH]; cbn [flat_map dget]; auto. inversion F as [|? ? F1 F2]; subst.
  rewrite dget_app. unfold colitems at 1. cbn [fst snd] in *.
  assert (N : cat_item k <> n) by (intros <-; apply H, cat_bang).
  destruct c as [m l|b k' u]; cbn [dget]; destruct (name_dec k n) as [->|]; auto.
  destruct (name_dec (cat_item k) n); [contradiction|]. auto.
Qed.
Lemma items_cat_gen (cols : list (name * column)) n : NoDup (map fst cols) -> Forall (fun p => ~ In bang (fst p)) cols -> ~ In bang n ->
  dget (cat_item n) (flat_map colitems cols) =
  match dget n cols with Some (Cat _ _ u) => Some (false, map CU u) | _ => None end.
Proof.
  intros ND F H. induction cols as [|[k c] cols IH]; cbn [flat_map dget]; auto. inversion F as [|? ? F1 F2]; subst.
  inversion ND as [|? ? ND1 ND2]; subst. specialize (IH ND2 F2).
  rewrite dget_app. unfold colitems at 1. cbn [fst snd] in *.
  assert (N : k <> cat_item n) by (intros ->; apply F1, cat_bang).
  assert (J : cat_item k = cat_item n -> k = n).
  { intros E. rewrite <- (spec_cat k), <- (spec_cat n), E; auto. }
  destruct c as [m l|b k' u]; cbn [dget].
  - destruct (name_dec k (cat_item n)); [contradiction|]. rewrite IH. destruct (name_dec k n) as [->|]; auto.
    assert (E : dget n cols = None) by (apply dget_none; exact ND1). now rewrite E.
  - destruct (name_dec k (cat_item n)); [contradiction|].
    destruct (name_dec (cat_item k) (cat_item n)) as [E|E].
    + apply J in E. subst k. destruct (name_dec n n); [reflexivity|congruence].
    + destruct (name_dec k n) as [->|]; [congruence|]. exact IH.
Qed.
Lemma ok_bang f : file_ok f -> Forall (fun p => ~ In bang (fst p)) (f_cols f).
Proof. intros [_ F]. eapply Forall_impl; [|exact F]. cbv beta. tauto. Qed.
Lemma part_col f n : file_ok f -> ~ In bang n ->
  part n true f = match dget n (f_cols f) with Some c => data_of c | None => repeat CGap (f_rows f) end.
Proof.
  intros O H. unfold part. change (items f) with (flat_map colitems (f_cols f)). rewrite (items_plain_gen (f_cols f) n (ok_bang f O) H). now destruct (dget n (f_cols f)).
Qed.
Lemma part_cats f n : file_ok f -> ~ In bang n ->
  part (cat_item n) false f = match dget n (f_cols f) with Some (Cat _ _ u) => map CU u | _ => [] end.
Proof.
  intros O H. unfold part. change (items f) with (flat_map colitems (f_cols f)). rewrite (items_cat_gen (f_cols f) n (proj1 O) (ok_bang f O) H).
  destruct (dget n (f_cols f)) as [[m l|b k u]|]; reflexivity.
Qed.
Lemma get_ok f n c : file_ok f -> dget n (f_cols f) = Some c -> ~ In bang n /\ col_length c = f_rows f /\ col_ok c.
Proof.
  intros [_ F] G. rewrite Forall_forall in F. apply dget_some_in in G. exact (F _ G).
Qed.
Lemma data_length c : length (data_of c) = col_length c.
Proof. destruct c; cbn; apply map_length. Qed.
Lemma part_length f n : file_ok f -> ~ In bang n -> length (part n true f) = f_rows f.
Proof.
  intros O H. rewrite part_col by auto. destruct (dget n (f_cols f)) as [c|] eqn:G; [|apply repeat_length].
  rewrite data_length. now apply (get_ok f n).
Qed.

(** ** the names of the stacked arrays *)
Definition keys fs : list (name * bool) := flat_map (fun f => map (fun p => (fst p, fst (snd p))) (items f)) fs.
Lemma keys_in fs n o : Forall (@file_ok V B M) fs -> In (n, o) (keys fs) ->
  exists f, In f fs /\ ((o = true /\ In n (map fst (f_cols f))) \/
    (o = false /\ exists m b k u, n = cat_item m /\ dget m (f_cols f) = Some (Cat b k u))).
Proof.
  intros F I. unfold keys in I. apply in_flat_map in I as [f [If I]]. exists f. split; [exact If|].
  rewrite Forall_forall in F. specialize (F f If).
  apply in_map_iff in I as [[n' [o' l]] [E I]]. cbn [fst snd] in E. inversion E; subst n' o'. clear E.
  unfold items in I. apply in_flat_map in I as [[m c] [Ic I]]. cbn [fst snd] in I.
  destruct c as [mm l'|b k u]; cbn [In] in I.
  - destruct I as [I|[]]. inversion I; subst. left. split; auto. apply (in_map fst) in Ic. exact Ic.
  - destruct I as [I|[I|[]]]; inversion I; subst.
    + left. split; auto. apply (in_map fst) in Ic. exact Ic.
    + right. split; auto. exists m, b, k, u. split; auto.
      apply dget_in; [exact (proj1 F)|exact Ic].
Qed.
Lemma in_keys fs f n c : In f fs -> dget n (f_cols f) = Some c -> In (n, true) (keys fs) /\
  (match c with Cat _ _ _ => In (cat_item n, false) (keys fs) | _ => True end).
Proof.
  intros If G. apply dget_some_in in G. unfold keys. destruct c as [m l|b k u].
  - split; auto. apply in_flat_map. exists f. split; auto. apply in_map_iff. exists (n, (true, map CV l)). split; auto.
    apply in_flat_map. exists (n, Plain m l). split; auto. now left.
  - split; (apply in_flat_map; exists f; split; auto; apply in_map_iff).
    + exists (n, (true, map CC k)). split; auto. apply in_flat_map. exists (n, Cat b k u). split; auto. now left.
    + exists (cat_item n, (false, map CU u)). split; auto. apply in_flat_map. exists (n, Cat b k u). split; auto. right. now left.
Qed.
Lemma first_sub : forall (l : list (name * bool)) seen p, In p (first_names l seen) -> In p l /\ ~ In (fst p) seen.
Proof.
  induction l as [|[n o] l IH]; intros seen p I; cbn [first_names] in I; [destruct I|].
  destruct (mem n seen) eqn:E.
  - apply IH in I as [I1 I2]. split; auto. now right.
  - destruct I as [<-|I].
    + split; [now left|]. cbn [fst]. now apply mem_not.
    + apply IH in I as [I1 I2]. split; [now right|]. intros Q. apply I2. now right.
Qed.
Lemma first_nodup : forall (l : list (name * bool)) seen, NoDup (map fst (first_names l seen)).
Proof.
  induction l as [|[n o] l IH]; intros seen; cbn [first_names]; [constructor|].
  destruct (mem n seen) eqn:E; [apply IH|]. cbn [map fst]. constructor; [|apply IH].
  intros I. apply in_map_iff in I as [p [E' I]]. apply first_sub in I as [_ I]. apply I. rewrite E'. now left.
Qed.
Lemma first_has : forall (l : list (name * bool)) seen n o, In (n, o) l -> ~ In n seen -> exists o', In (n, o') (first_names l seen).
Proof.
  induction l as [|[m o'] l IH]; intros seen n o I H; [destruct I|]. cbn [first_names].
  destruct (mem m seen) eqn:E.
  - destruct I as [I|I]; [inversion I; subst; apply mem_in in E; contradiction|]. eauto.
  - destruct (name_dec m n) as [->|N]; [exists o'; now left|].
    destruct I as [I|I]; [congruence|]. destruct (IH (m :: seen) n o I) as [o'' Q].
    { intros [->|Q]; auto. }
    exists o''. now right.
Qed.
End P.
