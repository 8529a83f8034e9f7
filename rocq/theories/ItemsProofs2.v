(** User-level statements for C11, C12, C14 and the counterexamples of C10, C14. *)
From Coq Require Import String Ascii List Arith Bool Lia Permutation.
From Verif Require Import ItemsModel ItemsSpec ItemsFacts ItemsProofs.
Import ListNotations.
Open Scope list_scope.

Section P.
Context {V A : Type}.
Variable restricted : string -> bool.
Implicit Types st : struct V A.
Notation valid := (valid_colname restricted).

Lemma rename_effect st old new :
  NoDup (colnames st) -> locked st = false -> old <> new ->
  let r := col_rename restricted old new st in
  (valid new = true /\ In old (colnames st) /\ ~ In new (colnames st) ->
     snd r = None /\
     colnames (fst r) = map (fun k => if String.eqb k old then new else k) (colnames st) /\
     map snd (items (fst r)) = map snd (items st) /\
     ncols (fst r) = ncols st /\
     value (fst r) new = value st old /\ attr (fst r) new = attr st old /\ value (fst r) old = None /\
     (forall k, k <> old -> k <> new -> value (fst r) k = value st k /\ attr (fst r) k = attr st k)) /\
  (valid new = false \/ ~ In old (colnames st) \/ In new (colnames st) ->
     snd r = Some EValue /\ fst r = st).
Proof.
  intros N L E. cbn zeta. unfold col_rename. pose proof E as E'. apply eqb_no in E'. rewrite E', L. split.
  - intros (Va & I & J). rewrite Va. cbn [negb]. rewrite (item_rename_ok old new (items st) N E I J). cbn [fst snd].
    assert (G : forall k, dget k (map (fun kv => (if String.eqb (fst kv) old then new else fst kv, snd kv)) (items st)) =
                if String.eqb k new then dget old (items st) else if String.eqb k old then None else dget k (items st)).
    { intros k. unfold colnames in *. revert I J N. clear - E. generalize (items st). intros d. unfold keys.
      induction d as [|[q x] r IH]; cbn; [tauto|].
      intros I J N. apply NoDup_cons_iff in N. destruct N as [N1 N2].
      seq q old.
      - rewrite String.eqb_refl. seq k new; [reflexivity|]. seq k old.
        + apply dget_none. unfold keys. rewrite map_map. cbn. rewrite in_map_iff. intros ([a b] & H1 & H2). cbn in H1.
          destruct (String.eqb_spec a old); congruence.
        + clear IH I. assert (Q : forall a, In a (map fst r) -> String.eqb a old = false).
          { intros a Ha. apply eqb_no. intros ->. contradiction. }
          revert Q. clear. induction r as [|[a b] r IH]; cbn; [reflexivity|]. intros Q.
          rewrite (Q a) by auto. seq k a; [reflexivity|]. apply IH. auto.
      - destruct I as [I|I]; [congruence|]. rewrite IH by tauto.
        seq k q.
        + seq q new; [tauto|]. apply eqb_no in n. rewrite n. reflexivity.
        + seq old q; [congruence|]. reflexivity. }
    split; [reflexivity|]. split; [|split; [|split; [reflexivity|]]].
    + unfold colnames. cbn. rewrite !map_map. reflexivity.
    + cbn. rewrite map_map. reflexivity.
    + rewrite !value_dget, !attr_dget. cbn [items with_sortl with_items]. unfold item_get_value.
      repeat match goal with |- context [dget ?k (map ?f ?d)] => rewrite (G k : dget k (map f d) = _) end.
      rewrite String.eqb_refl. seq old new; [congruence|]. rewrite String.eqb_refl.
      split; [reflexivity|]. split; [reflexivity|]. split; [reflexivity|].
      intros k H1 H2. rewrite !value_dget, !attr_dget. cbn [items with_sortl with_items]. unfold item_get_value.
      repeat match goal with |- context [dget ?k (map ?f ?d)] => rewrite (G k : dget k (map f d) = _) end.
      apply eqb_no in H1. apply eqb_no in H2. rewrite H1, H2. split; reflexivity.
  - intros H. destruct (valid new) eqn:Va; cbn [negb]; [|split; reflexivity].
    destruct H as [H|H]; [discriminate|].
    destruct (item_rename_cases old new (items st) N) as [[Q _]|[(_ & _ & ->)|(_ & I & J & _)]].
    + congruence.
    + split; [reflexivity|]. destruct st; reflexivity.
    + unfold colnames in H. fold (keys (items st)) in H. tauto.
Qed.

Lemma dget_value st st' : (forall k, dget k (items st') = dget k (items st)) ->
  forall k, value st' k = value st k /\ attr st' k = attr st k.
Proof. intros G k. rewrite !value_dget, !attr_dget. unfold item_get_value. rewrite G. split; reflexivity. Qed.

Lemma front_effect st cols :
  NoDup (colnames st) -> locked st = false ->
  let r := col_move_to_front cols st in
  (length cols <= length (colnames st) ->
     snd r = None /\
     (exists moved, first_occurrences (filter (fun c => existsb (String.eqb c) (colnames st)) cols) moved /\
        colnames (fst r) = moved ++ filter (fun k => negb (existsb (String.eqb k) cols)) (colnames st)) /\
     Permutation (colnames st) (colnames (fst r)) /\
     (forall k, value (fst r) k = value st k /\ attr (fst r) k = attr st k) /\ ncols (fst r) = ncols st) /\
  (length (colnames st) < length cols -> snd r = Some EValue /\ fst r = st).
Proof.
  intros N L. cbn zeta. unfold col_move_to_front. rewrite L. split.
  - intros H. unfold colnames in H. rewrite map_length in H.
    destruct (move_front_effect cols (items st) N H) as (d' & E & K & G).
    pose proof (move_front_nodup cols _ N) as N'. rewrite E in *. cbn in N'. cbn [fst snd].
    split; [reflexivity|]. split; [|split; [|split; [|reflexivity]]].
    + eexists. split; [apply fromkeys_fo|]. exact K.
    + apply (Permutation_map fst). apply dget_same_perm; auto.
    + intros k. apply (dget_value st (with_items st d')). exact G.
  - intros H. unfold colnames in H. rewrite map_length in H. unfold item_move_to_front, too_many.
    apply Nat.ltb_lt in H. rewrite H. split; [reflexivity|]. destruct st; reflexivity.
Qed.

Lemma back_effect st cols :
  NoDup (colnames st) -> locked st = false ->
  let r := col_move_to_back cols st in
  (length cols <= length (colnames st) ->
     snd r = None /\
     (exists moved, last_occurrences (filter (fun c => existsb (String.eqb c) (colnames st)) cols) moved /\
        colnames (fst r) = filter (fun k => negb (existsb (String.eqb k) cols)) (colnames st) ++ moved) /\
     Permutation (colnames st) (colnames (fst r)) /\
     (forall k, value (fst r) k = value st k /\ attr (fst r) k = attr st k) /\ ncols (fst r) = ncols st) /\
  (length (colnames st) < length cols -> snd r = Some EValue /\ fst r = st).
Proof.
  intros N L. cbn zeta. unfold col_move_to_back. rewrite L. split.
  - intros H. unfold colnames in H. rewrite map_length in H.
    destruct (move_back_effect cols (items st) N H) as (d' & E & K & G).
    pose proof (move_back_nodup cols _ N) as N'. rewrite E in *. cbn in N'. cbn [fst snd].
    split; [reflexivity|]. split; [|split; [|split; [|reflexivity]]].
    + eexists. split; [|exact K]. unfold last_occurrences. rewrite rev_involutive. apply fromkeys_fo.
    + apply (Permutation_map fst). apply dget_same_perm; auto.
    + intros k. apply (dget_value st (with_items st d')). exact G.
  - intros H. unfold colnames in H. rewrite map_length in H. unfold item_move_to_back, too_many.
    apply Nat.ltb_lt in H. rewrite H. split; [reflexivity|]. destruct st; reflexivity.
Qed.

Lemma existsb_none {X} (f : X -> bool) l : existsb f l = false -> forall x, In x l -> f x = false.
Proof.
  induction l as [|y l IH]; cbn; [tauto|]. intros H x [->|Hx]; apply orb_false_iff in H; [tauto|]. apply IH; tauto.
Qed.

Lemma str_replace_effect st old new max :
  NoDup (colnames st) -> NoDup (map (sreplace old new max) (colnames st)) -> sortl st = None ->
  let r := col_str_replace old new max st in
  (exists e, snd r = Some e /\ fst r = st) \/
  (snd r = None /\ colnames (fst r) = map (sreplace old new max) (colnames st) /\
   map snd (items (fst r)) = map snd (items st) /\ ncols (fst r) = ncols st).
Proof.
  intros N Nf S. cbn zeta. unfold col_str_replace, item_str_replace.
  destruct (existsb _ _) eqn:E1; [left; exists EValue; split; reflexivity|].
  destruct (existsb (fun k => negb (String.eqb (sreplace old new max k) k)) (keys (items st))) eqn:E2; rewrite ?S; right.
  - cbn [fst snd]. split; [reflexivity|]. pose proof (rebuild_map (sreplace old new max) (items st) Nf) as R.
    unfold colnames. cbn [items with_items ncols]. rewrite R, !map_map. repeat split; reflexivity.
  - cbn [fst snd]. split; [reflexivity|]. split; [|split; reflexivity]. unfold colnames. cbn [items with_items].
    rewrite <- (map_id (map fst (items st))) at 1. apply map_ext_in. intros k Hk.
    pose proof (existsb_none _ _ E2 k Hk) as Q. apply negb_false_iff, String.eqb_eq in Q. now rewrite Q.
Qed.
End P.

(** ** Concrete cases *)
Local Open Scope string_scope.
(** the attributes of a small class: a method, a property; and Python keyword "for" *)
Definition ex_kind (n : string) : option bool :=
  if String.eqb n "shape" then Some false else if String.eqb n "keys" then Some true else None.
Definition ex_restricted (n : string) : bool :=
  String.eqb n "shape" || String.eqb n "keys" || String.eqb n "for".
Lemma ex_car : class_attributes_restricted ex_kind ex_restricted.
Proof.
  intros n. unfold ex_kind, ex_restricted. destruct (String.eqb n "shape"); [reflexivity|].
  destruct (String.eqb n "keys"); [reflexivity|]. congruence.
Qed.
Definition ex_ops : list (op nat nat) :=
  [OSetAttr "a" 1; OSetItem "b" 2; OSetAttr "c" 3; OAttr "b" (fun _ => 9); OSort ["c"]; OSetAttr "a" 4;
   OFront ["c"]; ORename "a" "z"; OPrefix "p"; ODel "pc"; OSwap ["pb"; "pz"] ["pz"; "pb"]].
Lemma ex_ops_ordinary : ordinary_history ex_kind ex_restricted empty_struct ex_ops.
Proof. cbn. repeat split; auto; try (left; reflexivity); repeat constructor. Qed.
Lemma ex_ops_result : items (run ex_kind ex_restricted ex_ops) = [("pz", (2, None)); ("pb", (4, Some 9))].
Proof. reflexivity. Qed.

Lemma count_refuted_property :
  let st := run ex_kind ex_restricted [OSetAttr "shape" 5 : op nat nat] in
  colnames st = ["Shape"] /\ ncols st = 0.
Proof. split; reflexivity. Qed.

Lemma str_replace_refuted :
  let st := run ex_kind ex_restricted [OSetItem "ab" 1; OSetItem "ba" 2; OSetItem "c" 3 : op nat nat] in
  let r := col_str_replace "a" "" None st in
  colnames st = ["ab"; "ba"; "c"] /\ ncols st = 3 /\
  snd r = None /\ colnames (fst r) = ["b"; "c"] /\ value (fst r) "b" = Some 2 /\ ncols (fst r) = 3 /\
  (forall k, value (fst r) k <> Some 1).
Proof.
  cbn. repeat split; try reflexivity. intros k. unfold value. cbn.
  intros H. destruct k as [|c k]; [discriminate|].
  repeat (match type of H with context [if ?x then _ else _] => destruct x end; try discriminate).
Qed.
Lemma str_replace_sortlist_refuted :
  let st := run ex_kind ex_restricted [OSetItem "abc" 1; OSetItem "d" 2; OSort ["abc"] : op nat nat] in
  let r := col_str_replace "a" "x" None st in
  snd r = Some EValue /\ colnames (fst r) = ["xbc"; "d"] /\ sortl (fst r) = Some ["abc"].
Proof. repeat split; reflexivity. Qed.
