(** Proofs about the Dataset container (2): assigning and deleting columns keep the dataset rectangular. *)
From Coq Require Import List Arith Bool ZArith Lia.
From Verif Require Import FlattenModel FlattenProofs MergeModel MergeFacts DsModel DsProofs DsProofs3 TabModel TabSpec TabProofs.
Import ListNotations.

Lemma in_dget_nodup {X} n (x : X) d : NoDup (map fst d) -> In (n, x) d -> dget n d = Some x.
Proof.
  induction d as [|[m y] d IH]; cbn [map fst dget In]; [tauto|]. intros N H. inversion N as [|? ? Nm Nd]; subst.
  destruct (name_dec m n) as [->|Ne].
  - destruct H as [E|H]; [congruence|]. exfalso. apply Nm. change n with (fst (n, x)). now apply in_map.
  - destruct H as [E|H]; [congruence|auto].
Qed.
Lemma dset_length {X} k (v : X) d : length (dset k v d) = if DsModel.mem k (map fst d) then length d else S (length d).
Proof. rewrite <- (map_length fst (dset k v d)), dset_names. destruct (DsModel.mem k (map fst d)); rewrite ?app_length, ?map_length; cbn; lia. Qed.

Section Tab.
Context {V : Type}.
Variable junk inv : V.
Variable c : pyclass.
Hypothesis PY : python_class c.
Notation read := (read junk).
Notation check_addtype := (check_addtype junk).
Notation setattr := (setattr junk c).
Implicit Types w : world V.

Record good w (d : dataset) : Prop := Good {
  g_con : consistent d;
  g_in : all_inside w d;
  g_names : forall n, In n (keys d) -> stored_name c n = n }.

Lemma good_grows w w' d : good w d -> grows junk w w' -> good w' d.
Proof. intros [A B C] G. constructor; auto. intros n it H. apply G. eauto. Qed.

Lemma has_in (d : dataset) n : has d n = true <-> In n (keys d).
Proof. unfold has. apply mem_in. Qed.
Lemma has_false (d : dataset) n : has d n = false <-> ~ In n (keys d).
Proof. rewrite <- has_in. destruct (has d n); split; congruence. Qed.

Lemma valid_stored n : n <> [] -> restricted c n = false -> valid_colname c n = true /\ stored_name c n = n.
Proof. intros N R. unfold stored_name, valid_colname. destruct n; [congruence|]. rewrite R. auto. Qed.

(** what an assignment does *)
Definition assigned w (d : dataset) (n : name) (v : value V) w' (d' : dataset) (e : option exn) : Prop :=
  grows junk w w' /\ good w' d' /\ nrows d' = rows_after (nrows d) v /\ locked d' = locked d /\
  match e with
  | None => keys d' = (if has d n then keys d else keys d ++ [n]) /\
      (exists a at_, dget n (items d') = Some (Item a at_) /\ at_ = match dget n (items d) with Some it => attr it | None => None end /\
           Some (alen a) = rows_after (nrows d) v /\ as_column junk w (alen a) v = Some (read w' a)) /\
      (forall m, m <> n -> dget m (items d') = dget m (items d))
  | Some _ => items d' = items d /\ ncols d' = ncols d /\ forall k, nrows d = Some k -> as_column junk w k v = None
  end.

Lemma good_nrows w d nr : good w d -> (keys d <> [] -> nr = nrows d) -> good w (with_nrows d nr).
Proof.
  intros [(A & B & R) I S] H. constructor; auto. split; [assumption|]. split; [assumption|]. intros n it Hin. cbn in *.
  rewrite H; [eauto|]. intros E. unfold keys in E. destruct (items d); [easy|discriminate].
Qed.

Lemma rows_after_some nr v n : nr = Some n -> rows_after (V := V) nr v = nr.
Proof. now intros ->. Qed.
Lemma good_rows w d : good w d -> keys d <> [] -> exists n, nrows d = Some n.
Proof. intros [(A & B & R) I S] H. unfold keys in H. destruct (items d) as [|[n it] r] eqn:E; [easy|]. eexists. apply (R n it). try rewrite E. now left. Qed.

Lemma set_item_good w d n a (nr : option nat) (nc : Z) : good w d -> inside w a -> stored_name c n = n ->
  nr = Some (alen a) -> (keys d <> [] -> nr = nrows d) ->
  nc = (if has d n then ncols d else ncols d + 1)%Z ->
  good w (Ds nr nc (item_set n a (items d)) (locked d)).
Proof.
  intros [(A & B & R) I S] Ia Sn En Er Ec. unfold item_set.
  set (it := Item a (match dget n (items d) with Some it => attr it | None => None end)).
  assert (ND : NoDup (map fst (dset n it (items d)))) by now apply dset_nodup.
  assert (Cases : forall m x, In (m, x) (dset n it (items d)) -> (m = n /\ x = it) \/ In (m, x) (items d)).
  { intros m x H. apply in_dget_nodup in H; [|assumption]. rewrite dget_dset in H. destruct (name_dec n m) as [->|]; [left; split; congruence|].
    right. now apply dget_some_in. }
  constructor.
  - split; [exact ND|]. split.
    + cbn [ncols keys items]. unfold keys. cbn [items]. rewrite Ec. unfold has, keys in *. rewrite dset_names.
      destruct (DsModel.mem n (map fst (items d))); rewrite ?app_length; cbn; lia.
    + intros m x H. cbn [nrows items] in *. destruct (Cases m x H) as [[-> ->]|H']; [exact En|]. rewrite Er; [eauto|].
      unfold keys. destruct (items d); [easy|discriminate].
  - intros m x H. cbn [items] in H. destruct (Cases m x H) as [[-> ->]|H']; [exact Ia|eauto].
  - intros m H. unfold keys in H. cbn [items] in H. rewrite dset_names in H.
    destruct (DsModel.mem n (map fst (items d))); [auto|]. apply in_app_iff in H. destruct H as [H|[<-|[]]]; auto.
Qed.

Lemma setattr_spec w d n v : good w d -> value_inside w v -> locked d = false ->
  (has d n = true \/ (n <> [] /\ restricted c n = false)) ->
  exists w' d' e, setattr w d n v = (w', d', e) /\ assigned w d n v w' d' e.
Proof.
  intros Gd Iv Lk Hn. unfold TabModel.setattr. rewrite Lk.
  destruct (check_addtype_spec junk w (nrows d) v Iv) as (w1 & r & E & G1 & Hr).
  assert (Sn : stored_name c n = n) by (destruct Hn as [H|[H1 H2]]; [apply Gd; now apply has_in|now apply valid_stored]).
  assert (Er : keys d <> [] -> rows_after (nrows d) v = nrows d).
  { intros K. destruct (good_rows w d Gd K) as [k Ek]. now apply rows_after_some with k. }
  pose proof (good_grows w w1 d Gd G1) as Gd1.
  destruct (has d n) eqn:Hh.
  - rewrite E. destruct r as [a|e].
    + destruct Hr as (Ia & Ea & Ca). exists w1, (col_set_value c n a (with_nrows d (rows_after (nrows d) v))), None.
      split; [reflexivity|]. split; [assumption|]. unfold col_set_value. rewrite Sn. cbn [with_nrows nrows ncols items locked].
      split; [apply set_item_good; auto; now rewrite Hh|]. split; [reflexivity|]. split; [reflexivity|]. split; [|split].
      * unfold keys at 1. cbn [items]. unfold item_set. rewrite dset_names. change (map fst (items d)) with (keys d). unfold has in *. now rewrite Hh.
      * exists a, (match dget n (items d) with Some it => attr it | None => None end). unfold item_set. rewrite dget_dset.
        destruct (name_dec n n); [|congruence]. auto.
      * intros m Nm. unfold item_set. rewrite dget_dset. destruct (name_dec n m); congruence.
    + exists w1, (with_nrows d (rows_after (nrows d) v)), (Some e). split; [reflexivity|]. split; [assumption|].
      split; [now apply good_nrows|]. repeat split; auto.
  - assert (Kn : kind c n = ANone).
    { destruct Hn as [H|[H1 H2]]; [congruence|]. destruct (kind c n) eqn:K; auto; exfalso; assert (kind c n <> ANone) by congruence;
        apply PY in H; congruence. }
    rewrite Kn, E. destruct r as [a|e].
    + destruct Hr as (Ia & Ea & Ca). eexists w1, _, None. split; [reflexivity|]. split; [assumption|].
      unfold col_set_value. rewrite Sn. cbn [with_nrows nrows ncols items locked].
      split; [apply set_item_good; auto; now rewrite Hh|]. split; [reflexivity|]. split; [reflexivity|]. split; [|split].
      * unfold keys at 1. cbn [items]. unfold item_set. rewrite dset_names. change (map fst (items d)) with (keys d). unfold has in *. now rewrite Hh.
      * exists a, (match dget n (items d) with Some it => attr it | None => None end). unfold item_set. rewrite dget_dset.
        destruct (name_dec n n); [|congruence]. auto.
      * intros m Nm. unfold item_set. rewrite dget_dset. destruct (name_dec n m); congruence.
    + exists w1, (with_nrows d (rows_after (nrows d) v)), (Some e). split; [reflexivity|]. split; [assumption|].
      split; [now apply good_nrows|]. repeat split; auto.
Qed.

(** deletion *)
Lemma ddel_in {X} n (d : list (name * X)) : NoDup (map fst d) -> forall m x, In (m, x) (ddel n d) <-> In (m, x) d /\ m <> n.
Proof.
  induction d as [|[k y] d IH]; cbn [ddel map fst In]; [tauto|]. intros N m x. inversion N as [|? ? Nk Nd]; subst.
  destruct (name_dec k n) as [->|Ne].
  - split; [|intros [[E|H] Hm]; [congruence|assumption]]. intros H. split; [now right|]. intros ->. apply Nk. change n with (fst (n, x)). now apply in_map.
  - cbn [In]. rewrite (IH Nd). split.
    + intros [E|[H Hm]]; [split; [now left|congruence]|split; [now right|assumption]].
    + intros [[E|H] Hm]; [now left|right; auto].
Qed.
Lemma ddel_names {X} n (d : list (name * X)) : NoDup (map fst d) -> map fst (ddel n d) = filter (fun m => if name_dec m n then false else true) (map fst d).
Proof.
  induction d as [|[k y] d IH]; cbn [ddel map fst filter]; [reflexivity|]. intros N. inversion N as [|? ? Nk Nd]; subst.
  destruct (name_dec k n) as [->|Ne].
  - symmetry. clear -Nk. induction (map fst d) as [|m l IH]; [reflexivity|]. cbn [filter]. destruct (name_dec m n) as [->|]; [exfalso; apply Nk; now left|].
    f_equal. apply IH. intros H. apply Nk. now right.
  - cbn [map fst]. now rewrite IH.
Qed.
Lemma ddel_length {X} n (d : list (name * X)) : In n (map fst d) -> S (length (ddel n d)) = length d.
Proof.
  induction d as [|[k y] d IH]; cbn [ddel map fst In length]; [tauto|]. intros [E|H]; destruct (name_dec k n); try congruence.
  cbn [length]. now rewrite IH.
Qed.
Lemma ddel_dget {X} n (d : list (name * X)) : NoDup (map fst d) -> forall m, m <> n -> dget m (ddel n d) = dget m d.
Proof.
  induction d as [|[k y] d IH]; cbn [ddel map fst dget]; [reflexivity|]. intros N m Nm. inversion N as [|? ? Nk Nd]; subst.
  destruct (name_dec k n) as [->|Ne].
  - destruct (name_dec n m); congruence.
  - cbn [dget]. now rewrite IH.
Qed.
Lemma delattr_good w d n : good w d -> good w (fst (delattr d n)).
Proof.
  intros Gd. pose proof Gd as [(A & B & R) I Sn]. unfold delattr. destruct (locked d); [assumption|]. destruct (has d n) eqn:Hh; [|assumption].
  cbn [fst]. apply has_in in Hh. pose proof (ddel_length n (items d) Hh) as L.
  constructor.
  - split; [|split].
    + unfold keys. cbn [items]. rewrite (ddel_names n (items d) A). now apply NoDup_filter.
    + unfold keys in *. cbn [items ncols]. rewrite B. rewrite !map_length in *. lia.
    + intros m it H. cbn [items nrows] in *. apply ddel_in in H; [|exact A]. destruct H as [H Nm].
      unfold keys in *. rewrite map_length in B. destruct (Z.leb_spec (ncols d - 1) 0) as [Le|Le]; [|eauto].
      exfalso.
      assert (In (m, it) (ddel n (items d))) by (apply ddel_in; auto). destruct (ddel n (items d)); [easy|cbn in L]. lia.
  - intros m it H. cbn [items] in H. apply ddel_in in H; [|exact A]. eapply I, H.
  - intros m H. apply Sn. unfold keys in *. cbn [items] in H. rewrite (ddel_names n (items d) A) in H. apply filter_In in H. tauto.
Qed.
End Tab.
