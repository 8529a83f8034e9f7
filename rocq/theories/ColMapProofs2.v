(** Proofs for C13, continued: the effect of the renames and swaps, and the final theorems. *)
From Coq Require Import String Ascii List Arith Bool Lia Permutation Sorted.
From Verif Require Import ItemsModel ItemsSpec ItemsFacts ItemsProofs ItemsProofs2 ColMapProofs.
Import ListNotations.
Open Scope list_scope.

Lemma dget_app' {E} k (a b : dict E) : dget k (a ++ b) = match dget k a with Some e => Some e | None => dget k b end.
Proof. induction a as [|[q x] a IH]; cbn; [reflexivity|]. seq k q; [reflexivity|exact IH]. Qed.
Lemma ren_notin m k : ~ In k (keys m) -> ren m k = k.
Proof. unfold ren. intros H. apply dget_none in H. now rewrite H. Qed.
Lemma ren_in m k n : dget k m = Some n -> ren m k = n.
Proof. unfold ren. now intros ->. Qed.

Section P.
Context {V A : Type}.
Variable attr_kind : string -> option bool.
Variable restricted : string -> bool.
Implicit Types st : struct V A.
Notation valid := (valid_colname restricted).
Notation setattr := (setattr attr_kind restricted).
Notation col_rename := (col_rename restricted).
Notation do_renames := (do_renames restricted).
Notation do_swaps := (do_swaps attr_kind restricted).
Notation col_swap := (col_swap attr_kind restricted).

Record good st : Prop := mkG {
  g_nodup : NoDup (keys (items st)); g_valid : Forall (fun n => valid n = true) (keys (items st));
  g_unlocked : locked st = false }.

Lemma setattr_locked n v st : locked (fst (setattr n v st)) = locked st.
Proof.
  unfold ItemsModel.setattr, replaceitem, addnewitem. destruct (starts_underscore n); [reflexivity|].
  destruct (locked st) eqn:L; [exact L|]. destruct (dmem n (items st)).
  - now rewrite col_set_value_locked, update_sort_locked.
  - destruct (attr_kind n) as [[|]|]; [exact L| |].
    + now rewrite col_set_value_locked, update_sort_locked.
    + pose proof (col_set_value_locked restricted n v st) as Q. destruct (col_set_value restricted n v st) as [s [e|]]; cbn in *; congruence.
Qed.
Lemma setattr_existing n v st : good st -> In n (keys (items st)) ->
  snd (setattr n v st) = None /\ good (fst (setattr n v st)) /\
  keys (items (fst (setattr n v st))) = keys (items st) /\
  (forall k, value (fst (setattr n v st)) k = if String.eqb k n then Some v else value st k).
Proof.
  intros G I. assert (Va : valid n = true) by (destruct G as [_ F _]; rewrite Forall_forall in F; auto).
  destruct (set_effect attr_kind restricted st n v (g_nodup _ G) (g_unlocked _ G) Va (or_introl I)) as (E & K & _ & Vl & _).
  destruct (K I) as [Kn _]. split; [exact E|]. unfold colnames in Kn. fold (keys (items st)) in Kn.
  fold (keys (items (fst (setattr n v st)))) in Kn. split; [|split; [exact Kn|exact Vl]].
  constructor; rewrite ?Kn, ?setattr_locked; apply G.
Qed.

(** *** renames *)
Lemma col_rename_step o n st st' : good st -> col_rename o n st = (st', None) ->
  good st' /\ keys (items st') = map (fun k => if String.eqb k o then n else k) (keys (items st)) /\
  entries (items st') = entries (items st) /\
  (o <> n -> In o (keys (items st)) /\ ~ In n (keys (items st))).
Proof.
  intros [N Va L]. unfold ItemsModel.col_rename.
  destruct (String.eqb_spec o n) as [->|E].
  - intros [= <-]. split; [constructor; auto|]. split; [|split; [reflexivity|congruence]].
    rewrite <- (map_id (keys (items st))) at 1. apply map_ext. intros k. seq k n; reflexivity.
  - rewrite L. destruct (valid n) eqn:Vn; cbn [negb]; [|discriminate].
    destruct (item_rename_cases o n (items st) N) as [[Q _]|[(_ & _ & ->)|(Hn & Io & J & ->)]]; [congruence|discriminate|].
    intros [= <-].
    pose proof (keys_map_entry (fun k => if String.eqb k o then n else k) (items st)) as K.
    match goal with |- good (with_sortl (with_items _ ?d) _) /\ _ =>
      assert (K' : keys d = map (fun k => if String.eqb k o then n else k) (keys (items st))) by exact K;
      assert (E' : entries d = entries (items st)) by (unfold entries; rewrite map_map; reflexivity);
      set (d' := d) in * end.
    clearbody d'. cbn [items with_sortl with_items]. split; [|auto].
    constructor; cbn [items with_sortl with_items locked]; [| |exact L].
    + rewrite K'. now apply rename_keys_inj.
    + rewrite K'. apply Forall_forall. intros x Hx. apply in_map_iff in Hx. destruct Hx as (y & <- & Hy).
      rewrite Forall_forall in Va. seq y o; auto.
Qed.

Lemma do_renames_effect rs : forall st st', good st -> ordered rs -> do_renames rs st = (st', None) ->
  good st' /\ keys (items st') = map (ren rs) (keys (items st)) /\ entries (items st') = entries (items st).
Proof.
  induction rs as [|[o n] r IH]; cbn [ItemsModel.do_renames ordered]; intros st st' G O H.
  - injection H as <-. split; [exact G|]. split; [|reflexivity]. symmetry. rewrite <- (map_id (keys (items st))) at 2. apply map_ext. reflexivity.
  - unfold bind in H. destruct (col_rename o n st) as [s [e|]] eqn:R; [discriminate|].
    destruct (col_rename_step o n st s G R) as (Gs & K & E & _). destruct O as [On Or].
    destruct (IH s st' Gs Or H) as (G' & K' & E'). split; [exact G'|]. split; [|congruence].
    rewrite K', K, map_map. apply map_ext. intros k. unfold ren at 2. cbn [dget]. seq k o; [now apply ren_notin|reflexivity].
Qed.

Lemma aligned_in {E} (f : string -> string) : forall (d d' : dict E) k e,
  keys d' = map f (keys d) -> entries d' = entries d -> In (k, e) d -> In (f k, e) d'.
Proof.
  induction d as [|[q x] d IH]; intros d' k e K Es H; [contradiction|].
  destruct d' as [|[q' x'] d']; [discriminate|]. cbn in K, Es. injection K as K1 K2. injection Es as E1 E2.
  destruct H as [H|H]; [injection H as -> ->; subst; now left|]. right. now apply IH.
Qed.
Lemma aligned_value (f : string -> string) st st' : good st' ->
  keys (items st') = map f (keys (items st)) -> entries (items st') = entries (items st) ->
  forall k, In k (keys (items st)) -> value st' (f k) = value st k.
Proof.
  intros G K E k H. apply in_keys_dget in H. destruct H as [e D].
  rewrite !value_dget. unfold item_get_value. rewrite D.
  pose proof (aligned_in f _ _ k e K E (dget_some_in _ _ _ D)) as Q. apply in_dget in Q; [|apply G]. now rewrite Q.
Qed.

(** *** swaps *)
Lemma swap_temp_get froms st t : swap_temp froms st = Some t -> forall k, In k froms -> dget k t = value st k.
Proof.
  revert t. induction froms as [|x r IH]; cbn; intros t H k Hk; [contradiction|].
  destruct (item_get_value x (items st)) eqn:Gx; [|discriminate]. destruct (swap_temp r st) eqn:T; [|discriminate].
  injection H as <-. cbn. seq k x; [now rewrite value_dget|]. destruct Hk as [->|Hk]; [congruence|]. now apply IH.
Qed.
Lemma swap_temp_total froms st : (forall k, In k froms -> In k (keys (items st))) -> exists t, swap_temp froms st = Some t.
Proof.
  induction froms as [|x r IH]; cbn; intros H; [eauto|].
  destruct IH as [t ->]; [auto|]. destruct (in_keys_dget x (items st) (H x (or_introl eq_refl))) as [e D].
  unfold item_get_value. rewrite D. cbn. eauto.
Qed.
Lemma swap_assign_effect temp tos : forall froms st, good st -> length tos = length froms -> NoDup tos ->
  (forall k, In k tos -> In k (keys (items st))) -> (forall f, In f froms -> exists v, dget f temp = Some v) ->
  exists st', swap_assign attr_kind restricted temp tos froms st = (st', None) /\ good st' /\
    keys (items st') = keys (items st) /\
    (forall x, value st' x = match dget x (combine tos froms) with Some f => dget f temp | None => value st x end).
Proof.
  induction tos as [|k1 tos IH]; intros froms st G L N H T; destruct froms as [|k2 froms]; try discriminate; cbn.
  - exists st. auto.
  - destruct (T k2 (or_introl eq_refl)) as [v Dv]. rewrite Dv.
    destruct (setattr_existing k1 v st G (H k1 (or_introl eq_refl))) as (E & G1 & K1 & V1).
    unfold bind. destruct (setattr k1 v st) as [s e]. cbn in E, G1, K1, V1. subst e.
    apply NoDup_cons_iff in N. destruct N as [N1 N2].
    destruct (IH froms s G1) as (st' & R & G' & K' & V').
    { cbn in L. lia. } { exact N2. } { intros k Hk. rewrite K1. apply H. now right. }
    { intros f Hf. apply T. now right. }
    exists st'. split; [exact R|]. split; [exact G'|]. split; [congruence|]. intros x. rewrite V'.
    seq x k1; [|rewrite V1; apply eqb_no in n; now rewrite n].
    assert (Q : dget k1 (combine tos froms) = None).
    { apply dget_none. unfold keys. intros Q. apply N1. apply in_map_iff in Q. destruct Q as ([a b] & <- & Q).
      exact (in_combine_l _ _ _ _ Q). }
    rewrite Q, V1, String.eqb_refl. auto.
Qed.
Lemma nodupb_nodup l : nodupb l = true <-> NoDup l.
Proof.
  induction l as [|x l IH]; cbn; [split; [constructor|reflexivity]|].
  rewrite andb_true_iff, IH, negb_true_iff, smem_not, NoDup_cons_iff. reflexivity.
Qed.
Lemma keys_combine {E} (a : list string) (b : list E) : length a = length b -> keys (combine a b) = a.
Proof. revert b. induction a as [|x a IH]; intros [|y b] H; cbn in *; try discriminate; [reflexivity|]. unfold keys in *. cbn. now rewrite IH by lia. Qed.
Lemma in_combine_swap {X Y} (a : list X) (b : list Y) x y : In (x, y) (combine a b) -> In (y, x) (combine b a).
Proof. revert b. induction a as [|p a IH]; intros [|q b] H; cbn in *; try contradiction. destruct H as [[= -> ->]|H]; auto. Qed.

(** the swap of a closed list of names *)
Lemma col_swap_effect froms tos st : good st -> length froms = length tos -> NoDup froms -> seteq froms tos = true ->
  (forall k, In k froms -> In k (keys (items st))) ->
  exists st', col_swap froms tos st = (st', None) /\ good st' /\ keys (items st') = keys (items st) /\
   (forall k, In k (keys (items st)) -> value st' (ren (combine froms tos) k) = value st k).
Proof.
  intros G L N S H. unfold ItemsModel.col_swap. rewrite (g_unlocked _ G). unfold names_eqb.
  destruct (list_eq_dec string_dec froms tos) as [->|Ne].
  - exists st. split; [reflexivity|]. split; [exact G|]. split; [reflexivity|]. intros k Hk. f_equal.
    unfold ren. destruct (dget k (combine tos tos)) as [n|] eqn:D; [|reflexivity]. apply dget_some_in in D.
    clear - D. induction tos as [|x r IH]; cbn in D; [contradiction|]. destruct D as [[= -> ->]|D]; auto.
  - apply Nat.eqb_eq in L as L'. rewrite L'. apply nodupb_nodup in N as N'. rewrite N', S. cbn [andb negb].
    destruct (swap_temp_total froms st H) as [t T]. rewrite T.
    pose proof (seteq_in _ _ S) as Si.
    assert (Nt : NoDup tos).
    { apply (NoDup_incl_NoDup (l := froms)); [exact N|lia|]. intros x Hx. now apply Si. }
    destruct (swap_assign_effect t tos froms st G) as (st' & R & G' & K' & V'); [lia|exact Nt| | |].
    { intros k Hk. apply H. now apply Si. }
    { intros f Hf. rewrite (swap_temp_get _ _ _ T f Hf). apply value_some. unfold colnames. apply H. exact Hf. }
    exists st'. split; [exact R|]. split; [exact G'|]. split; [exact K'|]. intros k Hk.
    unfold ren. destruct (dget k (combine froms tos)) as [n|] eqn:D.
    + rewrite V'. pose proof (dget_some_in _ _ _ D) as Q. apply in_combine_l in Q as Qf. apply in_combine_swap in Q.
      rewrite (in_dget n k (combine tos froms)); [apply (swap_temp_get _ _ _ T k Qf)| |exact Q].
      rewrite keys_combine; [exact Nt|lia].
    + rewrite V'. assert (Z : dget k (combine tos froms) = None).
      { apply dget_none. rewrite keys_combine by lia. intros Q. apply Si in Q. apply dget_none in D.
        rewrite keys_combine in D by lia. contradiction. }
      now rewrite Z.
Qed.

Definition swd (sw : list (list string * list string)) : dict string := concat (map (fun s => combine (fst s) (snd s)) sw).
Definition closed (s : list string * list string) : Prop :=
  length (fst s) = length (snd s) /\ NoDup (fst s) /\ seteq (fst s) (snd s) = true.

Lemma do_swaps_effect sw : forall st, good st ->
  ForallOrdPairs (fun s s' => forall k, In k (fst s) -> ~ In k (fst s')) sw ->
  Forall closed sw -> (forall s k, In s sw -> In k (fst s) -> In k (keys (items st))) ->
  exists st', do_swaps sw st = (st', None) /\ good st' /\ keys (items st') = keys (items st) /\
   (forall k, In k (keys (items st)) -> value st' (ren (swd sw) k) = value st k).
Proof.
  induction sw as [|[f t] sw IH]; intros st G D C H.
  - exists st. repeat split; auto; apply G.
  - inversion D as [|? ? D1 D2]; subst. inversion C as [|? ? [L [N S]] C2]; subst. cbn [fst snd] in *.
    destruct (col_swap_effect f t st G L N S) as (s1 & R1 & G1 & K1 & V1).
    { intros k Hk. apply (H (f, t) k); [now left|exact Hk]. }
    destruct (IH s1 G1 D2 C2) as (st' & R' & G' & K' & V').
    { intros s k Hs Hk. rewrite K1. apply (H s k); [now right|exact Hk]. }
    exists st'. cbn [ItemsModel.do_swaps]. rewrite R1. cbn [bind]. split; [exact R'|]. split; [exact G'|].
    split; [congruence|]. intros k Hk.
    assert (E : ren (swd ((f, t) :: sw)) k = ren (swd sw) (ren (combine f t) k)).
    { unfold swd. cbn [map concat fst snd]. fold (swd sw). unfold ren at 1 3. rewrite dget_app'.
      destruct (dget k (combine f t)) as [n|] eqn:Dk; [|reflexivity].
      symmetry. apply ren_notin. intros Q.
      apply dget_some_in, in_combine_r in Dk. apply (seteq_in _ _ S) in Dk.
      unfold swd, keys in Q. apply in_map_iff in Q. destruct Q as ([a b] & Ea & Q). cbn in Ea. subst a.
      apply in_concat in Q. destruct Q as (c & Hc & Q). apply in_map_iff in Hc. destruct Hc as ([f' t'] & <- & Hs).
      rewrite Forall_forall in D1. apply (D1 (f', t') Hs n Dk). cbn in *. exact (in_combine_l _ _ _ _ Q). }
    rewrite E, V', V1; auto. rewrite K1.
    assert (Z : exists v, value s1 (ren (combine f t) k) = Some v).
    { rewrite V1 by exact Hk. now apply value_some. }
    apply value_some in Z. unfold colnames in Z. fold (keys (items s1)) in Z. now rewrite <- K1.
Qed.

(** *** success of a rename list *)
Fixpoint free (done S : list string) (rs : dict string) : Prop :=
  match rs with [] => True | (o, n) :: r => (In n S -> In n done) /\ free (o :: done) S r end.

Lemma do_renames_success S rs : forall done intro st,
  good st -> (forall x, In x (keys (items st)) <-> (In x S /\ ~ In x done) \/ In x intro) ->
  NoDup (entries rs) -> (forall n, In n (entries rs) -> ~ In n intro) ->
  NoDup (keys rs) -> (forall o, In o (keys rs) -> ~ In o done /\ In o S /\ ~ In o intro) ->
  Forall (fun n => valid n = true) (entries rs) ->
  (forall k n, In (k, n) rs -> k <> n) ->
  ordered rs -> free done S rs -> snd (do_renames rs st) = None.
Proof.
  induction rs as [|[o n] r IH]; intros done intro st G K Ne Ni Nk Ko Va Nl Or Fr; [reflexivity|].
  cbn [ItemsModel.do_renames]. cbn in Ne, Nk, Or, Fr.
  apply NoDup_cons_iff in Ne. destruct Ne as [Ne1 Ne2]. apply NoDup_cons_iff in Nk. destruct Nk as [Nk1 Nk2].
  inversion Va as [|? ? Vn Vr]; subst. destruct Or as [Or1 Or2]. destruct Fr as [Fr1 Fr2].
  destruct (Ko o (or_introl eq_refl)) as (Od & Os & Oi).
  assert (On : o <> n) by (apply (Nl o n); now left).
  assert (Io : In o (keys (items st))) by (apply K; auto).
  assert (In_ : ~ In n (keys (items st))).
  { rewrite K. intros [[Q1 Q2]|Q]; [tauto|]. apply (Ni n); [now left|exact Q]. }
  destruct (rename_effect restricted st o n (g_nodup _ G) (g_unlocked _ G) On) as [Ok _].
  destruct (Ok (conj Vn (conj Io In_))) as (E & Kn & _).
  destruct (col_rename o n st) as [s e] eqn:R. cbn in E, Kn. subst e. cbn [bind].
  destruct (col_rename_step o n st s G R) as (Gs & Ks & _).
  apply (IH (o :: done) (n :: intro) s Gs); auto.
  - intros x. rewrite Ks, in_map_iff. split.
    + intros (y & Ey & Hy). destruct (String.eqb_spec y o) as [_|Hyo]; [right; left; exact Ey|]. subst y. apply K in Hy. destruct Hy as [[H1 H2]|H].
      * left. split; [exact H1|]. intros [Q|Q]; [congruence|contradiction].
      * right. now right.
    + intros [[H1 H2]|[->|H]].
      * exists x. assert (x <> o) by (intros ->; apply H2; now left). apply eqb_no in H. rewrite H. split; [reflexivity|].
        apply K. left. split; [exact H1|]. intros Q. apply H2. now right.
      * exists o. now rewrite String.eqb_refl.
      * exists x. assert (x <> o) by (intros ->; contradiction). apply eqb_no in H0. rewrite H0. split; [reflexivity|]. apply K. now right.
  - intros x Hx [->|Q]; [contradiction|]. apply (Ni x); [now right|exact Q].
  - intros x Hx. destruct (Ko x (or_intror Hx)) as (X1 & X2 & X3). split; [|split; [exact X2|]].
    + intros [->|Q]; contradiction.
    + intros [->|Q]; contradiction.
  - intros k x Hx. apply (Nl k x). now right.
Qed.
End P.
