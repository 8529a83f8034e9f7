From Coq Require Import List Arith Bool ZArith Permutation Lia.
From Verif Require Import FlattenModel DsModel GroupingModel GroupingSpec DsProofs3 AggModel AggSpec AggProofs.
Import ListNotations.

Section P.
Context {V : Type}.
Variable inv : V.

Lemma list_as_seq {X} (d : X) (l : list X) : l = map (fun r => nth r l d) (seq 0 (length l)).
Proof.
  induction l as [|x l IH]; [reflexivity|]. cbn [length seq map nth]. f_equal. rewrite <- seq_shift, map_map. exact IH.
Qed.
Lemma combine_maps {X Y Z} (f : X -> Y) (g : X -> Z) l : combine (map f l) (map g l) = map (fun x => (f x, g x)) l.
Proof. induction l; cbn; congruence. Qed.
Lemma filter_map {X Y} (f : X -> Y) (g : Y -> bool) l : filter g (map f l) = map f (filter (fun x => g (f x)) l).
Proof. induction l as [|x l IH]; [reflexivity|]. cbn [map filter]. destruct (g (f x)); cbn [map]; congruence. Qed.
Lemma passing_bins ikey flt : (forall f, flt = Some f -> length f = length ikey) ->
  passing flt ikey = map (bin_of ikey flt) (seq 0 (length ikey)).
Proof.
  intros H. unfold passing, bin_of. destruct flt as [f|]; [|apply list_as_seq].
  specialize (H f eq_refl). rewrite (list_as_seq 0 ikey) at 1. rewrite (list_as_seq false f) at 1. rewrite H, combine_maps, map_map. reflexivity.
Qed.
Lemma in_bin_values ikey flt x b : (forall f, flt = Some f -> length f = length ikey) -> length x = length ikey ->
  in_bin (passing flt ikey) x b = bin_values inv ikey flt x b.
Proof.
  intros H L. unfold in_bin, bin_values. rewrite (passing_bins _ _ H). rewrite (list_as_seq inv x) at 1. rewrite L, combine_maps, filter_map, map_map. reflexivity.
Qed.
Lemma count_bin ikey flt b : (forall f, flt = Some f -> length f = length ikey) ->
  length (filter (Nat.eqb b) (passing flt ikey)) = bin_size ikey flt b.
Proof.
  intros H. unfold bin_size. rewrite (passing_bins _ _ H), filter_map, map_length. f_equal. apply filter_ext. intros r. apply Nat.eqb_sym.
Qed.

(** a result column before sorting *)
Definition raw (s : bool) (g : nat -> V) (n : nat) : list V := lead s (g 0) ++ map (fun k => g (S k)) (seq 0 n).
Lemma raw_length s g n : length (raw s g n) = (if s then S n else n).
Proof. unfold raw. rewrite app_length, map_length, seq_length. destruct s; reflexivity. Qed.
Lemma skip_raw (s : bool) (g h : nat -> V) n : (forall b, (if s then 0 else 1) <= b -> h b = g b) ->
  skipn (if s then 0 else 1) (map h (seq 0 (S n))) = raw s g n.
Proof.
  intros H. unfold raw. cbn [seq]. rewrite <- seq_shift. cbn [map]. rewrite map_map. destruct s; cbn [skipn lead app].
  - f_equal; [apply H; lia|]. apply map_ext. intros k. apply H. lia.
  - apply map_ext. intros k. apply H. lia.
Qed.
Lemma calc_col_raw f ikey flt n (s : bool) x : (forall g, flt = Some g -> length g = length ikey) -> length x = length ikey ->
  calc_col inv f (passing flt ikey) n (if s then 0 else 1) x = raw s (fun b => f (bin_values inv ikey flt x b)) n.
Proof.
  intros H L. unfold calc_col. apply skip_raw. intros b Hb. destruct (Nat.ltb_spec b (if s then 0 else 1)); [lia|].
  now rewrite (in_bin_values _ _ _ _ H L).
Qed.
Lemma reduce_col_raw f ikey flt n (s : bool) x : (forall g, flt = Some g -> length g = length ikey) -> length x = length ikey ->
  reduce_col inv f (passing flt ikey) n (if s then 0 else 1) x = raw s (fun b => on_rows inv f (bin_values inv ikey flt x b)) n.
Proof.
  intros H L. unfold reduce_col. apply skip_raw. intros b Hb. rewrite (in_bin_values _ _ _ _ H L). unfold on_rows. now destruct (bin_values inv ikey flt x b).
Qed.
Lemma fancy_raw (s : bool) g n p : (forall k, In k p -> k < n) ->
  fancy inv (raw s g n) (if s then 0 :: map S p else p) = lead s (g 0) ++ map (fun k => g (S k)) p.
Proof.
  intros H.
  assert (E : forall k, k < n -> nth k (map (fun k => g (S k)) (seq 0 n)) inv = g (S k)).
  { intros k Hk. apply nth_error_nth. erewrite map_nth_error; [reflexivity|]. rewrite (nth_error_nth' _ 0) by (rewrite seq_length; exact Hk). now rewrite seq_nth. }
  destruct s; rewrite fancy_reorder; unfold reorder.
  - unfold raw. cbn [lead app map nth]. f_equal. rewrite map_map. apply map_ext_in. intros k Hk. cbn [nth]. apply E. auto.
  - intros k [<-|Hk]; rewrite raw_length; [lia|]. apply in_map_iff in Hk. destruct Hk as [j [<- Hj]]. specialize (H j Hj). lia.
  - unfold raw. cbn [lead app]. apply map_ext_in. intros k Hk. apply E. auto.
  - intros k Hk. rewrite raw_length. auto.
Qed.

(** dictionaries *)
Lemma dget_nodup {X} (d : list (name * X)) k v : NoDup (map fst d) -> In (k, v) d -> dget k d = Some v.
Proof.
  induction d as [|[k' v'] d IH]; intros ND I; [destruct I|]. cbn [map fst] in ND. inversion ND; subst. cbn [dget].
  destruct (name_dec k' k) as [->|N].
  - destruct I as [E|I]; [congruence|]. exfalso. apply H1. now apply (in_map fst) in I.
  - destruct I as [E|I]; [congruence|]. auto.
Qed.
Lemma dget_dset_all {X} (l : list (name * X)) : forall d, NoDup (map fst l) -> forall k,
  dget k (dset_all l d) = match dget k l with Some v => Some v | None => dget k d end.
Proof.
  induction l as [|[a v] l IH]; intros d ND k; [reflexivity|]. cbn [map fst] in ND. inversion ND; subst. unfold dset_all. cbn [fold_left fst snd].
  change (dget k (dset_all l (dset a v d)) = match dget k ((a, v) :: l) with Some v => Some v | None => dget k d end).
  rewrite IH by assumption. cbn [dget]. rewrite dget_dset. destruct (name_dec a k) as [->|N]; [|reflexivity].
  destruct (dget k l) eqn:E; [|reflexivity]. exfalso. apply H1. apply dget_some_in in E. now apply (in_map fst) in E.
Qed.
Lemma dset_all_in {X} (l : list (name * X)) : forall d k, In k (map fst (dset_all l d)) <-> In k (map fst l) \/ In k (map fst d).
Proof.
  induction l as [|[a v] l IH]; intros d k; [cbn; tauto|]. unfold dset_all. cbn [fold_left fst snd map].
  change (In k (map fst (dset_all l (dset a v d))) <-> (a = k \/ In k (map fst l)) \/ In k (map fst d)).
  rewrite IH, dset_names. destruct (mem a (map fst d)) eqn:E; [apply mem_in in E|rewrite in_app_iff; cbn [In]].
  - intuition; subst; auto.
  - tauto.
Qed.
Lemma dset_all_nodup {X} (l : list (name * X)) : forall d, NoDup (map fst d) -> NoDup (map fst (dset_all l d)).
Proof. induction l as [|[a v] l IH]; intros d ND; [exact ND|]. apply (IH (dset a v d)). now apply dset_nodup. Qed.
Lemma dset_snoc {X} (d : list (name * X)) k v : ~ In k (map fst d) -> dset k v d = d ++ [(k, v)].
Proof.
  induction d as [|[a w] d IH]; intros H; [reflexivity|]. cbn [dset map fst In app] in *. destruct (name_dec a k); [tauto|]. rewrite IH by tauto. reflexivity.
Qed.
Lemma dset_all_id {X} (l : list (name * X)) : forall d, NoDup (map fst d ++ map fst l) -> dset_all l d = d ++ l.
Proof.
  induction l as [|[a v] l IH]; intros d ND; [now rewrite app_nil_r|]. unfold dset_all. cbn [fold_left fst snd].
  change (dset_all l (dset a v d) = d ++ (a, v) :: l).
  cbn [map fst] in ND. rewrite dset_snoc.
  - rewrite IH; [now rewrite <- app_assoc|]. rewrite map_app, <- app_assoc. exact ND.
  - apply NoDup_remove_2 in ND. rewrite in_app_iff in ND. tauto.
Qed.

(** columns of one length *)
Definition all_len (L : nat) (d : list (name * list V)) : Prop := forall q, In q d -> length (snd q) = L.
Lemma make_ds_ok L d : all_len L d -> make_ds d = Some d.
Proof.
  intros H. destruct d as [|[k v] r]; [reflexivity|]. cbn [make_ds].
  assert (E : forallb (fun q => length (snd q) =? length v) r = true).
  { apply forallb_forall. intros q Hq. apply Nat.eqb_eq. rewrite (H q) by (now right). symmetry. apply (H (k, v)). now left. }
  now rewrite E.
Qed.
Lemma all_len_dset L k v d : all_len L d -> length v = L -> all_len L (dset k v d).
Proof.
  intros H Hv. induction d as [|[a w] d IH]; cbn [dset].
  - intros q [<-|[]]. exact Hv.
  - destruct (name_dec a k).
    + intros q [<-|Hq]; [exact Hv|]. apply H. now right.
    + intros q [<-|Hq]; [apply (H (a, w)); now left|]. apply IH; [|exact Hq]. intros x Hx. apply H. now right.
Qed.
Lemma set_cols_ok L l : forall d, all_len L d -> all_len L l -> set_cols l (Some d) = Some (dset_all l d).
Proof.
  induction l as [|[k v] l IH]; intros d Hd Hl; [reflexivity|]. unfold set_cols. cbn [fold_left fst snd].
  assert (Hv : length v = L) by (apply (Hl (k, v)); now left).
  assert (E : set_col k v (Some d) = Some (dset k v d)).
  { destruct d as [|[a w] d']; [reflexivity|]. cbn [set_col]. rewrite Hv. rewrite <- (Hd (a, w)) by (now left). cbn [snd]. now rewrite Nat.eqb_refl. }
  rewrite E. apply (IH (dset k v d)); [now apply all_len_dset|]. intros q Hq. apply Hl. now right.
Qed.

(** going through the columns of the data *)
Definition pick (choose : name * list V -> option (list V)) (l : list (name * list V)) : list (name * list V) :=
  flat_map (fun q => match choose q with Some v => [(fst q, v)] | None => [] end) l.
Lemma pick_fold choose l : forall d, NoDup (map fst d ++ map fst l) ->
  fold_left (fun d q => match choose q with Some v => dset (fst q) v d | None => d end) l d = d ++ pick choose l.
Proof.
  induction l as [|q l IH]; intros d ND; [now rewrite app_nil_r|]. cbn [fold_left pick flat_map map] in *.
  destruct (choose q) as [v|] eqn:E.
  - rewrite dset_snoc.
    + rewrite IH; [now rewrite <- app_assoc|]. rewrite map_app. cbn [map fst]. rewrite <- app_assoc. exact ND.
    + apply NoDup_remove_2 in ND. rewrite in_app_iff in ND. tauto.
  - rewrite IH; [reflexivity|]. eapply NoDup_remove_1. exact ND.
Qed.
Lemma pick_in choose l k w : In (k, w) (pick choose l) <-> exists x, In (k, x) l /\ choose (k, x) = Some w.
Proof.
  unfold pick. rewrite in_flat_map. split.
  - intros [[a x] [I H]]. destruct (choose (a, x)) eqn:E; [|destruct H]. cbn [fst] in H. destruct H as [H|[]]. injection H as -> ->. eauto.
  - intros [x [I H]]. exists (k, x). split; [exact I|]. rewrite H. now left.
Qed.
Lemma pick_nodup choose l : NoDup (map fst l) -> NoDup (map fst (pick choose l)).
Proof.
  induction l as [|[a x] l IH]; intros ND; [constructor|]. cbn [map fst] in ND. inversion ND; subst. cbn [pick flat_map]. rewrite map_app.
  change (NoDup (map fst (match choose (a, x) with Some v => [(fst (a, x), v)] | None => [] end) ++ map fst (pick choose l))).
  destruct (choose (a, x)); [|now apply IH]. cbn [map fst app]. constructor; [|now apply IH].
  intros I. apply in_map_iff in I. destruct I as [[k w] [E I]]. cbn [fst] in E. subst k. apply pick_in in I. destruct I as [y [I _]]. apply H1. now apply (in_map fst) in I.
Qed.
End P.
