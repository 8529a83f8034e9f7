(** Facts about the dict operations of ItemsModel.v. *)
From Coq Require Import String Ascii List Arith Bool Lia Permutation.
From Verif Require Import ItemsModel ItemsSpec.
Import ListNotations.
Open Scope list_scope.

Lemma eqb_iff a b : String.eqb a b = true <-> a = b.
Proof. apply String.eqb_eq. Qed.
Lemma eqb_no a b : String.eqb a b = false <-> a <> b.
Proof. apply String.eqb_neq. Qed.
Ltac seq a b := destruct (String.eqb_spec a b); try subst.

Lemma smem_in x l : smem x l = true <-> In x l.
Proof.
  unfold smem. rewrite existsb_exists. split.
  - intros (y & H & E). apply String.eqb_eq in E. subst. exact H.
  - intros H. exists x. split; [exact H|apply String.eqb_refl].
Qed.
Lemma smem_not x l : smem x l = false <-> ~ In x l.
Proof. rewrite <- smem_in. destruct (smem x l); split; congruence. Qed.
Lemma dmem_in {E} x (d : dict E) : dmem x d = true <-> In x (keys d).
Proof. apply smem_in. Qed.
Lemma dmem_not {E} x (d : dict E) : dmem x d = false <-> ~ In x (keys d).
Proof. apply smem_not. Qed.

Section D.
Context {E : Type}.
Implicit Types d : dict E.

Lemma dget_none k d : dget k d = None <-> ~ In k (keys d).
Proof.
  induction d as [|[k' e] r IH]; cbn; [tauto|].
  seq k k'; [split; [discriminate|tauto]|]. rewrite IH. split; [intros H [G|G]|]; try congruence; tauto.
Qed.
Lemma dget_some_in k e d : dget k d = Some e -> In (k, e) d.
Proof.
  induction d as [|[k' e'] r IH]; cbn; [discriminate|].
  seq k k'; [intros [= ->]; auto|auto].
Qed.
Lemma dget_in_keys k e d : dget k d = Some e -> In k (keys d).
Proof. intros H. apply dget_some_in in H. exact (in_map fst _ _ H). Qed.
Lemma in_keys_dget k d : In k (keys d) -> exists e, dget k d = Some e.
Proof.
  intros H. destruct (dget k d) eqn:G; [eauto|]. apply dget_none in G. contradiction.
Qed.
Lemma in_dget k e d : NoDup (keys d) -> In (k, e) d -> dget k d = Some e.
Proof.
  induction d as [|[k' e'] r IH]; cbn; [tauto|].
  intros N [G|G].
  - injection G as -> ->. now rewrite String.eqb_refl.
  - apply NoDup_cons_iff in N. destruct N as [N1 N2]. seq k k'; [|auto].
    elim N1. exact (in_map fst _ _ G).
Qed.

Lemma dget_dset k k' e d : dget k (dset k' e d) = if String.eqb k k' then Some e else dget k d.
Proof.
  induction d as [|[q x] r IH]; cbn.
  - reflexivity.
  - seq k' q; cbn; [seq k q; reflexivity|]. rewrite IH. seq k q; [|reflexivity].
    seq q k'; congruence.
Qed.
Lemma keys_dset k e d : keys (dset k e d) = if dmem k d then keys d else keys d ++ [k].
Proof.
  induction d as [|[q x] r IH]; cbn; [reflexivity|].
  seq k q; cbn; [reflexivity|]. unfold keys in *. cbn. rewrite IH. unfold dmem.
  destruct (existsb _ _); reflexivity.
Qed.
Lemma nodup_snoc {X} (l : list X) x : NoDup l -> ~ In x l -> NoDup (l ++ [x]).
Proof.
  intros H N. apply NoDup_rev in H.
  rewrite <- (rev_involutive (l ++ [x])). apply NoDup_rev. rewrite rev_app_distr. cbn.
  constructor; [now rewrite <- in_rev|exact H].
Qed.
Lemma nodup_dset k e d : NoDup (keys d) -> NoDup (keys (dset k e d)).
Proof.
  intros H. rewrite keys_dset. destruct (dmem k d) eqn:G; [exact H|].
  apply nodup_snoc; [exact H|]. now apply dmem_not.
Qed.
Lemma in_keys_dset x k e d : In x (keys (dset k e d)) <-> x = k \/ In x (keys d).
Proof.
  rewrite keys_dset. destruct (dmem k d) eqn:G.
  - apply dmem_in in G. split; [auto|intros [->|]; auto].
  - rewrite in_app_iff. cbn. split; intros; intuition congruence.
Qed.
Lemma dset_fresh k e d : ~ In k (keys d) -> dset k e d = d ++ [(k, e)].
Proof.
  induction d as [|[q x] r IH]; cbn; [reflexivity|]. intros H.
  seq k q; [tauto|]. rewrite IH; tauto.
Qed.
Lemma length_dset_mem k e d : dmem k d = true -> length (dset k e d) = length d.
Proof.
  intros H. pose proof (keys_dset k e d) as K. rewrite H in K.
  apply (f_equal (@length _)) in K. unfold keys in K. now rewrite !map_length in K.
Qed.

Lemma filter_all {X} (f : X -> bool) l : (forall x, In x l -> f x = true) -> filter f l = l.
Proof.
  induction l as [|y l IH]; cbn; [reflexivity|]. intros H.
  rewrite H by auto. f_equal. apply IH. auto.
Qed.
Lemma keys_ddel k d : NoDup (keys d) -> keys (ddel k d) = filter (fun x => negb (String.eqb k x)) (keys d).
Proof.
  induction d as [|[q x] r IH]; cbn; [reflexivity|]. intros N. apply NoDup_cons_iff in N. destruct N as [N1 N2].
  seq k q; cbn.
  - symmetry. apply filter_all. intros y Hy. seq q y; [contradiction|reflexivity].
  - unfold keys in *. cbn. now rewrite IH.
Qed.
Lemma dget_ddel k k' d : NoDup (keys d) -> dget k (ddel k' d) = if String.eqb k k' then None else dget k d.
Proof.
  induction d as [|[q x] r IH]; cbn; intros N; [now destruct (String.eqb _ _)|].
  apply NoDup_cons_iff in N. destruct N as [N1 N2].
  seq k' q; cbn.
  - seq k q; [|reflexivity]. apply dget_none. exact N1.
  - rewrite IH by exact N2. seq k q; [seq q k'; congruence|reflexivity].
Qed.
Lemma nodup_ddel k d : NoDup (keys d) -> NoDup (keys (ddel k d)).
Proof. intros N. rewrite keys_ddel by exact N. now apply NoDup_filter. Qed.
Lemma length_ddel k d : dmem k d = true -> length (ddel k d) = length d - 1.
Proof.
  induction d as [|[q x] r IH]; cbn; [discriminate|].
  unfold dmem in *. cbn. seq k q; cbn; [lia|]. intros H. rewrite IH by exact H.
  destruct r; cbn in *; [discriminate|lia].
Qed.
Lemma in_keys_ddel x k d : NoDup (keys d) -> (In x (keys (ddel k d)) <-> x <> k /\ In x (keys d)).
Proof.
  intros N. rewrite keys_ddel, filter_In by exact N. seq k x; cbn; intuition congruence.
Qed.

(** folding [dset] over fresh distinct keys appends *)
Lemma fold_dset_fresh d : forall acc, NoDup (keys acc ++ keys d) ->
  fold_left (fun a kv => dset (fst kv) (snd kv) a) d acc = acc ++ d.
Proof.
  induction d as [|[k e] r IH]; cbn; intros acc N; [now rewrite app_nil_r|].
  rewrite IH.
  - rewrite dset_fresh; [now rewrite <- app_assoc|].
    apply NoDup_remove_2 in N. intros H. apply N. apply in_or_app. now left.
  - rewrite keys_dset.
    assert (G : dmem k acc = false).
    { apply dmem_not. apply NoDup_remove_2 in N. intros H. apply N. apply in_or_app. now left. }
    rewrite G, <- app_assoc. exact N.
Qed.
End D.

Lemma fold_left_map {X Y Z} (f : Z -> Y -> Z) (g : X -> Y) l : forall a,
  fold_left f (map g l) a = fold_left (fun a x => f a (g x)) l a.
Proof. induction l; cbn; auto. Qed.

(** the rebuilding loop with injective renaming is a positionwise renaming *)
Lemma rebuild_map {V A} (f : string -> string) (d : container V A) :
  NoDup (map f (keys d)) -> rebuild f d = map (fun kv => (f (fst kv), snd kv)) d.
Proof.
  intros N. unfold rebuild.
  pose proof (fold_left_map (fun (a : container V A) kv' => dset (fst kv') (snd kv') a)
                (fun kv => (f (fst kv), snd kv)) d []) as F. etransitivity; [symmetry; exact F|]. clear F.
  etransitivity; [apply fold_dset_fresh|reflexivity]. cbn. unfold keys in *. rewrite map_map in *. exact N.
Qed.
Lemma rebuild_nodup {V A} (f : string -> string) (d : container V A) : NoDup (keys (rebuild f d)).
Proof.
  unfold rebuild.
  assert (G : forall l acc, NoDup (keys acc) ->
    NoDup (keys (fold_left (fun acc kv => dset (f (fst kv)) (snd kv) acc) l acc : container V A))).
  { induction l as [|[k e] r IH]; cbn; intros acc H; [exact H|]. apply IH. now apply nodup_dset. }
  apply G. constructor.
Qed.

Lemma nodup_map_inj {X Y} (f : X -> Y) l : (forall a b, In a l -> In b l -> f a = f b -> a = b) ->
  NoDup l -> NoDup (map f l).
Proof.
  induction l as [|x l IH]; cbn; intros Inj N; [constructor|].
  apply NoDup_cons_iff in N. destruct N as [N1 N2]. constructor.
  - rewrite in_map_iff. intros (y & E & H). apply N1. rewrite (Inj x y); auto.
  - apply IH; auto.
Qed.

Lemma append_inj_l p a b : (p ++ a = p ++ b)%string -> a = b.
Proof. induction p; cbn; [auto|]. intros H. injection H. auto. Qed.
Lemma append_length a b : String.length (a ++ b)%string = String.length a + String.length b.
Proof. induction a; cbn; auto. Qed.
Lemma append_inj_r s : forall a b, (a ++ s = b ++ s)%string -> a = b.
Proof.
  induction a as [|c a IH]; destruct b as [|c' b]; cbn; intros H; auto.
  - apply (f_equal String.length) in H. cbn in H. rewrite append_length in H. lia.
  - apply (f_equal String.length) in H. cbn in H. rewrite append_length in H. lia.
  - injection H as -> H. f_equal. now apply IH.
Qed.

(** the spec's [value] / [attr] in terms of [dget] *)
Section VA.
Context {V A : Type}.
Implicit Types st : struct V A.
Lemma find_dget n (d : container V A) :
  find (fun kv => String.eqb (fst kv) n) d = option_map (fun e => (n, e)) (dget n d).
Proof.
  induction d as [|[k e] r IH]; cbn; [reflexivity|].
  rewrite String.eqb_sym. seq n k; [reflexivity|exact IH].
Qed.
Lemma value_dget st n : value st n = item_get_value n (items st).
Proof. unfold value, item_get_value. rewrite find_dget. destruct (dget n (items st)) as [[v a]|]; reflexivity. Qed.
Lemma attr_dget st n : attr st n = match dget n (items st) with Some (_, a) => a | None => None end.
Proof. unfold attr. rewrite find_dget. destruct (dget n (items st)) as [[v a]|]; reflexivity. Qed.
Lemma value_some st n : In n (colnames st) <-> exists v, value st n = Some v.
Proof.
  rewrite value_dget. unfold item_get_value, colnames. split.
  - intros H. apply in_keys_dget in H. destruct H as [[v a] ->]. cbn. eauto.
  - intros [v H]. destruct (dget n (items st)) eqn:G; [|discriminate]. exact (dget_in_keys _ _ _ G).
Qed.
Lemma renamed_dget m k : renamed m k = match dget k m with Some n => n | None => k end.
Proof.
  unfold renamed. induction m as [|[a b] r IH]; cbn; [reflexivity|].
  rewrite String.eqb_sym. seq k a; [reflexivity|exact IH].
Qed.

Lemma item_set_keys k v (d : container V A) :
  keys (item_set_value k v d) = if dmem k d then keys d else keys d ++ [k].
Proof. unfold item_set_value. destruct (dget k d) as [[x a]|]; apply keys_dset. Qed.
Lemma item_set_get k k' v (d : container V A) :
  item_get_value k (item_set_value k' v d) = if String.eqb k k' then Some v else item_get_value k d.
Proof.
  unfold item_get_value, item_set_value.
  destruct (dget k' d) as [[x a]|]; rewrite dget_dset; destruct (String.eqb k k'); reflexivity.
Qed.
Lemma item_set_attr k k' v (d : container V A) :
  match dget k (item_set_value k' v d) with Some (_, a) => a | None => None end =
  match dget k d with Some (_, a) => a | None => None end.
Proof.
  unfold item_set_value. destruct (dget k' d) as [[x a]|] eqn:G; rewrite dget_dset; seq k k'; try reflexivity.
  - now rewrite G.
  - now rewrite G.
Qed.
Lemma item_set_nodup k v (d : container V A) : NoDup (keys d) -> NoDup (keys (item_set_value k v d)).
Proof. unfold item_set_value. destruct (dget k d) as [[x a]|]; apply nodup_dset. Qed.
End VA.
