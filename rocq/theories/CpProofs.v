(** Proofs about tables of several columns, columns popped and the truth of Structs. *)
From Coq Require Import List ZArith Bool Lia Permutation.
From Verif Require Import FlattenModel FlattenProofs CvProofs CpSpec CpModel.
Import ListNotations.

(** ** accum_cols *)
Section Accum.
Context {A F Filter X Y : Type}.
Variables (agg : F -> A -> Filter -> option (X * Y)) (ratio : F -> A -> A -> Filter -> option (X * Y)) (percent : F -> A -> Filter -> option (X * Y)).
Notation computed := (computed agg ratio percent).
Notation add_cols := (add_cols agg ratio percent).
Lemma computed_curr f filt v x y : computed f filt v x y -> curr_data agg ratio percent f filt v = Some (x, y).
Proof. intros [a x' y' E|a b x' y' E|a s x' y' Hs E]; cbn [curr_data]; [exact E|exact E|]. destruct Hs as [-> | ->]; exact E. Qed.
Lemma add_cols_is : forall vals names filts funcs (out : list (X * Y)) (cols : list (name * X)) (foot : list (name * Y)),
  length out = Nat.min (Nat.min (length vals) (length names)) (Nat.min (length filts) (length funcs)) ->
  (forall i v filt f o, nth_error vals i = Some v -> nth_error filts i = Some filt -> nth_error funcs i = Some f -> nth_error out i = Some o -> computed f filt v (fst o) (snd o)) ->
  NoDup names -> (forall n, In n names -> ~ In n (map fst cols) /\ ~ In n (map fst foot)) ->
  add_cols vals names filts funcs cols foot = Some (cols ++ combine names (map fst out), foot ++ combine names (map snd out)).
Proof.
  induction vals as [|v vals IH]; intros names filts funcs out cols foot L H N D.
  - destruct out; [|cbn in L; lia]. cbn [map]. rewrite !combine_nil, !app_nil_r. reflexivity.
  - destruct names as [|n names]; [destruct out; [|cbn in L; lia]; cbn; rewrite !app_nil_r; reflexivity|].
    destruct filts as [|filt filts]; [destruct out; [|cbn in L; lia]; cbn; rewrite !app_nil_r; reflexivity|].
    destruct funcs as [|f funcs]; [destruct out; [|cbn in L; lia]; cbn; rewrite !app_nil_r; reflexivity|].
    destruct out as [|[x y] out]; [cbn in L; lia|]. cbn [CpModel.add_cols].
    rewrite (computed_curr f filt v x y) by (apply (H 0 v filt f (x, y)); reflexivity).
    destruct (D n (or_introl eq_refl)) as (D1 & D2). rewrite !dset_fresh by assumption. inversion N as [|? ? N1 N2]; subst. rewrite (IH names filts funcs out).
    + cbn [map fst snd combine]. now rewrite <- !app_assoc.
    + cbn in L. lia.
    + intros i v' filt' f' o. exact (H (S i) v' filt' f' o).
    + exact N2.
    + intros n' I. destruct (D n' (or_intror I)) as (E1 & E2). rewrite !map_app, !in_app_iff. cbn [map fst In].
      split; intros [J|[J|[]]]; try contradiction; subst; contradiction.
Qed.
End Accum.
Lemma col_name_inj i j : col_name i = col_name j -> i = j.
Proof. unfold col_name. intros H. apply app_inv_head, digits_inj in H. now apply DecimalNat.Unsigned.to_uint_inj in H. Qed.
Lemma col_names_nodup n : NoDup (map col_name (seq 0 n)).
Proof. apply FinFun.Injective_map_NoDup; [exact col_name_inj|apply seq_NoDup]. Qed.

(** ** col_pop *)
Section Pop.
Context {V : Type}.
Lemma isin_in l n : isin l n = true <-> In n l.
Proof.
  unfold isin. rewrite existsb_exists. split.
  - intros (x & I & E). destruct (name_dec x n); [congruence|discriminate].
  - intros I. exists n. split; [exact I|]. now destruct (name_dec n n).
Qed.
Lemma unique_nodup l : unique l = true <-> NoDup l.
Proof.
  induction l as [|k l IH]; cbn [unique]; [split; [constructor|reflexivity]|]. rewrite andb_true_iff, negb_true_iff, IH. split.
  - intros (A & B). constructor; [|exact B]. rewrite <- isin_in, A. discriminate.
  - intros N. inversion N as [|? ? N1 N2]; subst. split; [|exact N2]. apply not_true_iff_false. now rewrite isin_in.
Qed.
Lemma delete_is n (st : struct V) : NoDup (map fst st) -> delete n st = filter (fun c => negb (if name_dec (fst c) n then true else false)) st.
Proof.
  induction st as [|[k v] st IH]; intros N; [reflexivity|]. cbn [map fst] in N. inversion N as [|? ? N1 N2]; subst. cbn [delete filter fst].
  destruct (name_dec k n) as [->|]; cbn [negb]; [|now rewrite IH]. symmetry. clear IH N N2. induction st as [|[k' v'] st IH]; [reflexivity|]. cbn [filter fst map In] in *.
  destruct (name_dec k' n) as [->|]; [elim N1; now left|]. cbn [negb]. f_equal. apply IH. tauto.
Qed.
Lemma filter_names (p : name * V -> bool) st : NoDup (map fst st) -> NoDup (map fst (filter p st)).
Proof.
  induction st as [|c st IH]; intros N; [constructor|]. cbn [map] in N. inversion N as [|? ? N1 N2]; subst. cbn [filter]. destruct (p c); [|auto].
  cbn [map]. constructor; [|auto]. intros I. apply N1. apply in_map_iff in I. destruct I as (d & E & I). apply filter_In in I. rewrite <- E. now apply in_map.
Qed.
Lemma deletes_is l : forall st : struct V, NoDup (map fst st) -> fold_left (fun d n => delete n d) l st = filter (fun c => negb (isin l (fst c))) st.
Proof.
  induction l as [|n l IH]; intros st N; cbn [fold_left].
  - symmetry. clear N. induction st as [|c st IH]; [reflexivity|]. cbn. now f_equal.
  - rewrite delete_is, IH by (try apply filter_names; exact N). clear. induction st as [|[k v] st IH]; [reflexivity|]. cbn [filter fst]. unfold isin at 2. cbn [existsb]. fold (isin l k).
    destruct (name_dec k n) as [->|Q]; cbn [negb].
    + destruct (name_dec n n); [|congruence]. cbn [orb negb]. exact IH.
    + destruct (name_dec n k); [congruence|]. cbn [orb filter fst]. destruct (isin l k); cbn [negb]; [exact IH|now f_equal].
Qed.
Lemma pick_is l (st : struct V) : (forall k, In k l -> In k (map fst st)) -> exists d, pick l st = Some d /\ map fst d = l /\ (forall k v, In (k, v) d -> dget k st = Some v).
Proof.
  induction l as [|k l IH]; intros H; [exists []; repeat split; intros k v []|]. cbn [pick]. destruct (dget_there k st (H k (or_introl eq_refl))) as (v & E). rewrite E.
  destruct IH as (d & Ed & Kd & Vd); [intros k' I; apply H; now right|]. rewrite Ed. exists ((k, v) :: d). split; [reflexivity|]. cbn [map fst]. split; [now f_equal|].
  intros k' v' [Q|I]; [injection Q as <- <-; exact E|now apply Vd].
Qed.
Lemma pick_perm l (st d : struct V) : NoDup (map fst st) -> NoDup l -> map fst d = l -> (forall k v, In (k, v) d -> dget k st = Some v) ->
  Permutation st (d ++ filter (fun c => negb (isin l (fst c))) st).
Proof.
  intros N NL K H. apply NoDup_Permutation.
  - exact (NoDup_map_inv _ _ N).
  - rewrite <- K in NL. apply NoDup_map_inv in NL. assert (ND : NoDup st) by exact (NoDup_map_inv _ _ N).
    assert (G : forall a b : list (name * V), NoDup a -> NoDup b -> (forall x, In x a -> ~ In x b) -> NoDup (a ++ b)).
    { clear. induction a as [|x a IH]; intros b Na Nb D; [exact Nb|]. inversion Na as [|? ? N1 N2]; subst. cbn [app]. constructor.
      - rewrite in_app_iff. intros [I|I]; [contradiction|]. apply (D x (or_introl eq_refl) I).
      - apply IH; [assumption|assumption|]. intros y I. apply D. now right. }
    apply G; [exact NL|apply NoDup_filter; exact ND|]. intros [k v] I J. apply filter_In in J. destruct J as (_ & J). cbn [fst] in J. apply negb_true_iff in J.
    apply not_true_iff_false in J. apply J, isin_in. rewrite <- K. apply (in_map fst) in I. exact I.
  - intros [k v]. rewrite in_app_iff, filter_In. cbn [fst]. rewrite negb_true_iff, <- not_true_iff_false, isin_in. split.
    + intros I. destruct (in_dec name_dec k l) as [J|J]; [left|right; split; assumption]. rewrite <- K in J. apply in_map_iff in J. destruct J as ([k' v'] & <- & J). cbn [fst] in *.
      pose proof (H _ _ J) as E. rewrite (dget_in k' v st N I) in E. injection E as <-. exact J.
    + intros [I|(I & _)]; [|exact I]. apply dget_some. now apply H.
Qed.
End Pop.

(** ** any and all *)
Lemma item_ind' (P : item -> Prop) :
  (forall l, (forall k i, In (k, i) l -> P i) -> P (SubStruct l)) -> (forall l, P (Array l)) -> (forall l, P (Iterable l)) -> (forall l, P (Dict l)) -> (forall b, P (Scalar b)) ->
  forall i, P i.
Proof.
  intros HS HA HI HD HB. fix IH 1. intros [l|l|l|l|b]; [|apply HA|apply HI|apply HD|apply HB]. apply HS.
  induction l as [|[k' i'] l IHl]; intros k i I; [destruct I|]. destruct I as [Q|I]; [injection Q as <- <-; apply IH|exact (IHl k i I)].
Qed.
Lemma any_sub l : any (SubStruct l) = existsb (fun c => any (snd c)) l.
Proof. cbn [any]. induction l as [|[k i] l IH]; [reflexivity|]. cbn [existsb snd]. rewrite IH. now destruct (any i). Qed.
Lemma all_sub l : all (SubStruct l) = forallb (fun c => all (snd c)) l.
Proof. cbn [all]. induction l as [|[k i] l IH]; [reflexivity|]. cbn [forallb snd]. rewrite IH. now destruct (all i). Qed.
Lemma existsb_id l : existsb (fun b : bool => b) l = true <-> In true l.
Proof. rewrite existsb_exists. split; [intros (x & I & ->); exact I|intros I; now exists true]. Qed.
Lemma forallb_id l : forallb (fun b : bool => b) l = false <-> In false l.
Proof.
  induction l as [|[] l IH]; cbn; [split; [discriminate|contradiction]|rewrite IH|split; [now left|reflexivity]].
  split; [now right|intros [Q|I]; [discriminate|exact I]].
Qed.
Lemma any_ok i : plain i -> (any i = true <-> element true i).
Proof.
  induction i as [l IH|l|l|l|b] using item_ind'; intros P.
  - rewrite any_sub, existsb_exists. inversion P as [? H| | |]; subst. split.
    + intros ([k i] & I & E). apply (e_sub true k i); [exact I|]. apply (IH k i I); [now apply (H k)|exact E].
    + intros E. inversion E as [k i ? I E'| | | |]; subst. exists (k, i). split; [exact I|]. apply (IH k i I); [now apply (H k)|exact E'].
  - cbn [any]. rewrite existsb_id. split; [now constructor|intros E; now inversion E].
  - cbn [any]. rewrite existsb_id. split; [now constructor|intros E; now inversion E].
  - inversion P.
  - cbn [any]. split; [intros ->; constructor|intros E; now inversion E].
Qed.
Lemma forallb_false {T} (p : T -> bool) l : forallb p l = false <-> exists x, In x l /\ p x = false.
Proof.
  induction l as [|x l IH]; cbn [forallb]; [split; [discriminate|intros (x & [] & _)]|]. rewrite andb_false_iff, IH. split.
  - intros [E|(y & I & E)]; [exists x; split; [now left|exact E]|exists y; split; [now right|exact E]].
  - intros (y & [<-|I] & E); [now left|right; now exists y].
Qed.
Lemma all_ok i : plain i -> (all i = false <-> element false i).
Proof.
  induction i as [l IH|l|l|l|b] using item_ind'; intros P.
  - rewrite all_sub, forallb_false. inversion P as [? H| | |]; subst. split.
    + intros ([k i] & I & E). apply (e_sub false k i); [exact I|]. apply (IH k i I); [now apply (H k)|exact E].
    + intros E. inversion E as [k i ? I E'| | | |]; subst. exists (k, i). split; [exact I|]. apply (IH k i I); [now apply (H k)|exact E'].
  - cbn [all]. rewrite forallb_id. split; [now constructor|intros E; now inversion E].
  - cbn [all]. rewrite forallb_id. split; [now constructor|intros E; now inversion E].
  - inversion P.
  - cbn [all]. split; [intros ->; constructor|intros E; now inversion E].
Qed.
