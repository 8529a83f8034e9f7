From Coq Require Import List ZArith Bool Lia Permutation Sorted.
From Verif Require Import FlattenModel FlattenProofs DsModel DsProofs3 DsProofs4 SvSpec SvModel.
Import ListNotations.
Local Open Scope Z_scope.

Lemma load_cols_save lex d : NoDup (map fst (d_cols d)) -> load_cols (save lex d) = d_cols d.
Proof.
  intros N. unfold load_cols, save. cbn [f_names f_arrays].
  set (rest := _ ++ map (fun _ => None) (d_foots d)). clearbody rest.
  assert (G : forall cols acc, NoDup (map fst cols) -> (forall k, In k (map fst cols) -> ~ In k (map fst acc)) ->
    fold_left (fun data p => match snd p with None => data | Some a => dset (fst p) a data end)
      (combine (map fst cols) (map (fun p : name * list Z => Some (snd p)) cols ++ rest)) acc = acc ++ cols).
  { induction cols as [|[k a] cols IH]; intros acc ND F; cbn [map combine app fold_left fst snd].
    - now rewrite app_nil_r.
    - inversion ND as [|? ? NI ND']; subst. rewrite dset_fresh by (apply F; now left). rewrite IH.
      + now rewrite <- app_assoc.
      + exact ND'.
      + intros q HQ. rewrite map_app, in_app_iff. intros [X|[X|[]]].
        * apply (F q); [now right|exact X].
        * cbn in X. now subst. }
  now rewrite G by (cbn; auto).
Qed.

Lemma filter_all {X} (f : X -> bool) l : (forall x, In x l -> f x = true) -> filter f l = l.
Proof. induction l as [|x l IH]; cbn; intros H; [reflexivity|]. rewrite (H x) by now left. f_equal. apply IH. auto. Qed.
Lemma mem_true n l : In n l -> mem n l = true.
Proof. intros H. unfold mem. apply existsb_exists. exists n. split; [exact H|]. now destruct (name_dec n n). Qed.
Lemma all_some_column cols ks : incl ks (map fst cols) -> all_some (map (fun k => dget k cols) ks) = Some (map (column cols) ks).
Proof.
  induction ks as [|k ks IH]; intros I; [reflexivity|]. cbn [map all_some]. unfold column at 1.
  destruct (dget_has k cols) as (v & E); [apply I; now left|]. rewrite E, IH; [reflexivity|]. intros x HX. apply I. now right.
Qed.

Lemma zset_fresh {X} k (v : X) d : ~ In k (map fst d) -> zset k v d = d ++ [(k, v)].
Proof.
  induction d as [|[k' v'] d IH]; cbn; intros H; [reflexivity|]. destruct (Z.eqb_spec k' k) as [->|N]; [tauto|].
  now rewrite IH by tauto.
Qed.
Lemma zset_all_fresh (l : list (name * Z)) : forall acc, NoDup (map snd l) -> (forall k, In k (map snd l) -> ~ In k (map fst acc)) ->
  fold_left (fun r p => zset (snd p) (fst p) r) l acc = acc ++ map (fun p => (snd p, fst p)) l.
Proof.
  induction l as [|[n z] l IH]; intros acc ND F; cbn [fold_left map fst snd]; [now rewrite app_nil_r|].
  inversion ND as [|? ? NI ND']; subst. rewrite zset_fresh by (apply F; now left). rewrite IH; [now rewrite <- app_assoc|exact ND'|].
  intros k HK. rewrite map_app, in_app_iff. cbn. intros [X|[X|[]]]; [apply (F k); [now right|exact X]|subst; tauto].
Qed.
Lemma combine_map {X Y W} (f : X -> Y) (g : X -> W) l : combine (map f l) (map g l) = map (fun x => (f x, g x)) l.
Proof. induction l; cbn; congruence. Qed.
Lemma all_some_map {X Y} (f : X -> Y) l : all_some (map (fun x => Some (f x)) l) = Some (map f l).
Proof. induction l as [|x l IH]; [reflexivity|]. cbn. now rewrite IH. Qed.

Section C.
  Context {M V : Type}.
  Variable has_meta : M -> bool.
  Variable plain : M.
  Lemma metas_get (cols : list (name * (M * list V))) : forall acc n m l, NoDup (map fst cols) -> In (n, (m, l)) cols ->
    (forall k, In k (map fst cols) -> dget k acc = None) ->
    dget n (fold_left (fun m p => if has_meta (fst (snd p)) then dset (fst p) (fst (snd p)) m else m) cols acc)
    = if has_meta m then Some m else None.
  Proof.
    assert (K : forall (cols : list (name * (M * list V))) acc n, ~ In n (map fst cols) ->
      dget n (fold_left (fun m p => if has_meta (fst (snd p)) then dset (fst p) (fst (snd p)) m else m) cols acc) = dget n acc).
    { clear cols. induction cols as [|[k [m l]] cols IH]; intros acc n NI; [reflexivity|]. cbn [fold_left fst snd]. rewrite IH by (cbn in NI; tauto).
      destruct (has_meta m); [|reflexivity]. rewrite dget_dset. destruct (name_dec k n); [subst; cbn in NI; tauto|reflexivity]. }
    induction cols as [|[k [m0 l0]] cols IH]; intros acc n m l ND HI F; [easy|]. cbn [fold_left fst snd].
    inversion ND as [|? ? NI ND']; subst. destruct HI as [HI|HI].
    - inversion HI; subst. rewrite K by exact NI. destruct (has_meta m).
      + rewrite dget_dset. now destruct (name_dec n n).
      + apply F. now left.
    - apply IH with (l := l); [exact ND'|exact HI|]. intros q HQ. assert (q <> k) by (intros ->; tauto).
      destruct (has_meta m0); [rewrite dget_dset; destruct (name_dec k q); [congruence|]|]; apply F; now right.
  Qed.

  Lemma keys_back (cols : list (name * (M * list V))) :
    NoDup (map fst cols) -> (forall p, In p cols -> has_meta (fst (snd p)) = false -> fst (snd p) = plain) ->
    dset_all (map (fun p => (fst p, (match dget (fst p) (fold_left (fun m p => if has_meta (fst (snd p)) then dset (fst p) (fst (snd p)) m else m) cols []) with Some m => m | None => plain end, snd p)))
      (combine (map fst cols) (map (fun p => snd (snd p)) cols))) [] = cols.
  Proof.
    intros ND P. rewrite combine_map, map_map. cbn [fst snd].
    assert (E : map (fun x : name * (M * list V) => (fst x, (match dget (fst x) (fold_left (fun m p => if has_meta (fst (snd p)) then dset (fst p) (fst (snd p)) m else m) cols []) with Some m => m | None => plain end, snd (snd x)))) cols = cols).
    { transitivity (map (fun x => x) cols); [|apply map_id]. apply map_ext_in. intros [n [m l]] HI. cbn [fst snd].
      rewrite (metas_get cols [] n m l ND HI) by reflexivity. destruct (has_meta m) eqn:H; [reflexivity|].
      now rewrite <- (P _ HI H). }
    rewrite E. apply dset_all_fresh; [exact ND|]. cbn. tauto.
  Qed.
End C.
