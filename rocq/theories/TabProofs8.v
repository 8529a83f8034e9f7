(** Proofs about the Dataset container (8): what an operation cannot change; deep copies. *)
From Coq Require Import List Arith Bool ZArith Lia.
From Verif Require Import FlattenModel FlattenProofs MergeModel MergeFacts DsModel DsProofs3 TabModel TabSpec TabProofs TabProofs2 TabProofs3 TabProofs7.
Import ListNotations.

Section Tab.
Context {V : Type}.
Variable junk inv : V.
Variable c : pyclass.
Notation read := (read junk).
Implicit Types w : world V.

(** blocks and attribute objects that are not to be touched *)
Variable PB PR : nat -> Prop.
Definition bounded w : Prop := (forall b, PB b -> b < length (mem w)) /\ (forall r, PR r -> r < length (attrs w)).
Definition safe (its : list (name * item)) : Prop := forall n it, In (n, it) its -> ~ PB (base (arr it)) /\ (forall r, attr it = Some r -> ~ PR r).
Definition untouched w w' : Prop := length (mem w) <= length (mem w') /\ length (attrs w) <= length (attrs w') /\
  (forall b, PB b -> block w' b = block w b) /\ (forall r, PR r -> nth r (attrs w') None = nth r (attrs w) None).
Lemma unt_refl w : untouched w w. Proof. repeat split; auto. Qed.
Lemma unt_trans w1 w2 w3 : untouched w1 w2 -> untouched w2 w3 -> untouched w1 w3.
Proof. intros (A1 & B1 & C1 & D1) (A2 & B2 & C2 & D2). split; [lia|]. split; [lia|]. split; [intros b H; rewrite C2, C1; auto|intros r H; rewrite D2, D1; auto]. Qed.
Lemma unt_bounded w w' : untouched w w' -> bounded w -> bounded w'.
Proof. intros (A & B & _) [C D]. split; [intros b H; apply C in H; lia|intros r H; apply D in H; lia]. Qed.
Lemma unt_alloc w l : bounded w -> untouched w (fst (alloc w l)).
Proof.
  intros [BB _]. cbn. split; [cbn; rewrite app_length; lia|]. split; [reflexivity|]. split; [|reflexivity]. intros b H. unfold block. cbn. apply app_nth1. auto.
Qed.
Lemma fresh_alloc w l : bounded w -> ~ PB (base (snd (alloc w l))).
Proof. intros [BB _] H. cbn in H. apply BB in H. lia. Qed.
Lemma unt_store w a ps vals : ~ PB (base a) -> untouched w (store w a ps vals).
Proof.
  intros N. split; [now rewrite store_mem|]. split; [reflexivity|]. split; [|reflexivity]. intros b H. unfold block, store. cbn. rewrite nth_upd'.
  destruct (Nat.eqb_spec b (base a)) as [->|]; [contradiction|reflexivity].
Qed.
Lemma dget_safe its n it : safe its -> dget n its = Some it -> ~ PB (base (arr it)) /\ (forall r, attr it = Some r -> ~ PR r).
Proof. intros S H. apply dget_some_in in H. eauto. Qed.
Lemma safe_dset its n it : safe its -> ~ PB (base (arr it)) -> (forall r, attr it = Some r -> ~ PR r) -> safe (dset n it its).
Proof.
  intros S A B m x H. assert (Q : (m, x) = (n, it) \/ In (m, x) its \/ x = it).
  { clear - H. induction its as [|[q y] its IH]; cbn in H; [destruct H as [H|[]]; left; congruence|]. destruct (name_dec q n) as [->|].
    - destruct H as [H|H]; [right; right; congruence|right; left; now right].
    - destruct H as [H|H]; [right; left; now left|]. destruct (IH H) as [?|[?|?]]; auto. right. left. now right. }
  destruct Q as [[= -> ->]|[Q| ->]]; eauto.
Qed.
Lemma safe_set its n a : safe its -> ~ PB (base a) -> safe (item_set n a its).
Proof.
  intros S N. unfold item_set. apply safe_dset; [assumption|assumption|]. cbn. intros r E. destruct (dget n its) as [it|] eqn:D; [|discriminate]. now apply (dget_safe its n it).
Qed.
Definition value_safe (v : value V) : Prop := match v with VArr a => ~ PB (base a) | _ => True end.
Lemma check_safe w nr v : bounded w -> value_safe v ->
  untouched w (fst (fst (check_addtype junk w nr v))) /\ match snd (check_addtype junk w nr v) with inl a => ~ PB (base a) | inr _ => True end.
Proof.
  intros B S.
  assert (F : forall w nr a, bounded w -> ~ PB (base a) -> untouched w (fst (fst (finish junk w nr a))) /\ match snd (finish junk w nr a) with inl a => ~ PB (base a) | inr _ => True end).
  { clear. intros w nr a B N. unfold finish. destruct nr as [n|].
    - destruct ((alen a =? 1) && (1 <? n)).
      + pose proof (unt_alloc w (repeat1 (read w a) n) B) as U. pose proof (fresh_alloc w (repeat1 (read w a) n) B) as Fr. destruct (alloc w _) as [w1 a1]. cbn [fst snd] in *.
        unfold check_add_dimensions. destruct (n =? alen a1); cbn; auto.
      + unfold check_add_dimensions. destruct (n =? alen a); cbn; split; auto; apply unt_refl.
    - cbn. split; [apply unt_refl|assumption]. }
  destruct v as [a|l|x|k|]; unfold check_addtype; cbn [value_safe] in S.
  - exact (F w nr a B S).
  - set (n := match nr with Some n => n | None => length l end). set (l' := if _ : bool then repeat1 l n else l). destruct (length l' =? n); [|cbn; split; [apply unt_refl|exact I]].
    pose proof (unt_alloc w l' B) as U. pose proof (fresh_alloc w l' B) as Fr. destruct (alloc w l') as [w1 a1]. cbn [fst snd] in *.
    destruct (F w1 (Some n) a1 (unt_bounded _ _ U B) Fr) as [P Q]. split; [eapply unt_trans; [exact U|exact P]|exact Q].
  - set (n := match nr with Some n => n | None => 1 end).
    pose proof (unt_alloc w (repeat x n) B) as U. pose proof (fresh_alloc w (repeat x n) B) as Fr. destruct (alloc w (repeat x n)) as [w1 a1]. cbn [fst snd] in *.
    destruct (F w1 (Some n) a1 (unt_bounded _ _ U B) Fr) as [P Q]. split; [eapply unt_trans; [exact U|exact P]|exact Q].
  - destruct (_ || _); cbn; split; auto; apply unt_refl.
  - cbn. split; [apply unt_refl|exact I].
Qed.
Lemma raw_safe w v : bounded w -> value_safe v -> untouched w (fst (raw junk w v)) /\ ~ PB (base (snd (raw junk w v))).
Proof.
  intros B S. destruct v as [a|l|x|k|]; unfold raw; try (split; [now apply unt_alloc|now apply fresh_alloc]). split; [apply unt_refl|exact S].
Qed.
Lemma setattr_safe w d n v : bounded w -> safe (items d) -> value_safe v ->
  untouched w (fst (fst (setattr junk c w d n v))) /\ safe (items (snd (fst (setattr junk c w d n v)))).
Proof.
  intros B S Sv. unfold setattr. destruct (locked d); [split; [apply unt_refl|assumption]|]. destruct (check_safe w (nrows d) v B Sv) as [U F].
  destruct (has d n).
  - destruct (check_addtype junk w (nrows d) v) as [[w1 nr] [a|e]]; cbn in *; split; auto. now apply safe_set.
  - destruct (kind c n).
    + destruct (check_addtype junk w (nrows d) v) as [[w1 nr] [a|e]]; cbn in *; split; auto. now apply safe_set.
    + split; [apply unt_refl|assumption].
    + destruct (raw_safe w v B Sv) as [U' F']. destruct (raw junk w v) as [w1 a]. cbn in *. split; [assumption|now apply safe_set].
Qed.
Lemma assign_safe w a r vals : ~ PB (base a) -> untouched w (fst (assign w a r vals)).
Proof.
  intros N. unfold assign. destruct (row_positions _ _); [|apply unt_refl]. destruct (_ =? _); [now apply unt_store|]. destruct vals as [|x [|y q]]; try apply unt_refl. now apply unt_store.
Qed.
Lemma assign_columns_safe d r : safe (items d) -> forall cols src w, untouched w (fst (assign_columns junk w d r cols src)).
Proof.
  intros S. induction cols as [|n cols IH]; intros src w; cbn [assign_columns]; [apply unt_refl|]. destruct (dget n (items d)) as [it|] eqn:E; [|apply unt_refl]. destruct src as [|a src]; [apply unt_refl|].
  pose proof (assign_safe w (arr it) r (read w a) (proj1 (dget_safe _ _ _ S E))) as U. destruct (assign w (arr it) r (read w a)) as [w1 [e|]]; cbn in *; [assumption|]. eapply unt_trans; [exact U|apply IH].
Qed.
Lemma assign_scalar_safe d r x : safe (items d) -> forall cols w, untouched w (fst (assign_scalar w d r cols x)).
Proof.
  intros S. induction cols as [|n cols IH]; intros w; cbn [assign_scalar]; [apply unt_refl|]. destruct (dget n (items d)) as [it|] eqn:E; [|apply unt_refl].
  pose proof (assign_safe w (arr it) r [x] (proj1 (dget_safe _ _ _ S E))) as U. destruct (assign w (arr it) r [x]) as [w1 [e|]]; cbn in *; [assumption|]. eapply unt_trans; [exact U|apply IH].
Qed.
Lemma put_all_safe m : forall dst src w, (forall a, In a dst -> ~ PB (base a)) -> untouched w (put_all junk w m dst src).
Proof.
  induction dst as [|a dst IH]; intros [|b src] w N; cbn [put_all]; try apply unt_refl. eapply unt_trans; [apply unt_store, N; now left|apply IH]. intros x Hx. apply N. now right.
Qed.
Lemma arrays_safe d : safe (items d) -> forall a, In a (arrays d) -> ~ PB (base a).
Proof. intros S a H. apply in_map_iff in H. destruct H as ([n it] & <- & H). now apply (S n it). Qed.
Lemma take_all_safe idx : forall its w, bounded w -> safe its -> untouched w (fst (take_all junk inv w its idx)) /\ safe (snd (take_all junk inv w its idx)).
Proof.
  induction its as [|[n it] its IH]; intros w B S; cbn [take_all]; [split; [apply unt_refl|exact S]|].
  unfold take. set (l := map _ idx). pose proof (unt_alloc w l B) as U. pose proof (fresh_alloc w l B) as Fr. destruct (alloc w l) as [w1 a1]. cbn [fst snd] in *.
  destruct (IH w1 (unt_bounded _ _ U B)) as [U2 S2]; [intros m x H; apply (S m x); now right|]. destruct (take_all junk inv w1 its idx) as [w2 its2]. cbn [fst snd] in *.
  split; [eapply unt_trans; eassumption|]. intros m x [H|H]; [|eauto]. injection H as <- <-. cbn. split; [assumption|]. apply (S n it). now left.
Qed.
Lemma set_columns_safe : forall cols src w d, bounded w -> safe (items d) -> (forall a, In a src -> ~ PB (base a)) ->
  untouched w (fst (fst (set_columns junk c w d cols src))) /\ safe (items (snd (fst (set_columns junk c w d cols src)))).
Proof.
  induction cols as [|n cols IH]; intros src w d B S Sa; cbn [set_columns]; [split; [apply unt_refl|assumption]|]. destruct src as [|a src]; [split; [apply unt_refl|assumption]|].
  destruct (setattr_safe w d n (VArr a) B S (Sa a (or_introl eq_refl))) as [U S1]. destruct (setattr junk c w d n (VArr a)) as [[w1 d1] [e|]]; cbn [fst snd] in *; [auto|].
  destruct (IH src w1 d1 (unt_bounded _ _ U B) S1) as [U2 S2]; [intros x Hx; apply Sa; now right|]. split; [eapply unt_trans; eassumption|assumption].
Qed.
Lemma remove_safe d w : safe (items d) -> untouched w (label_remove w d).
Proof.
  intros S. destruct (label_remove_attrs d w) as (L & _ & F). split; [now rewrite label_remove_mem|]. split; [now rewrite L|]. split; [intros b _; unfold block; now rewrite label_remove_mem|].
  intros r H. apply F. intros Hin. unfold refs, refs_of in Hin. apply in_flat_map in Hin. destruct Hin as ([n it] & Hin & Hr). cbn in Hr. destruct (attr it) as [r'|] eqn:E; [|easy]. destruct Hr as [->|[]]. now apply (proj2 (S n it Hin) r).
Qed.
Lemma set_label_safe w d n k : bounded w -> safe (items d) -> untouched w (fst (set_label w d n k)) /\ safe (items (snd (set_label w d n k))).
Proof.
  intros B S. unfold set_label. destruct (dget n (items d)) as [it|] eqn:E; [|split; [apply unt_refl|assumption]]. destruct (dget_safe _ _ _ S E) as [N1 N2].
  destruct (attr it) as [l|] eqn:Ea; cbn [fst snd items].
  - split; [|assumption]. split; [reflexivity|]. split; [cbn; now rewrite upd_len|]. split; [reflexivity|]. intros r H. cbn. rewrite nth_upd'. destruct (Nat.eqb_spec r l) as [->|]; [exfalso; now apply (N2 l)|reflexivity].
  - split.
    + split; [reflexivity|]. split; [cbn; rewrite app_length; lia|]. split; [reflexivity|]. intros r H. cbn. apply app_nth1. now apply B.
    + apply safe_dset; [assumption|assumption|]. cbn. intros r [= <-] H. apply B in H. lia.
Qed.
Lemma set_labels_safe : forall l w d k, bounded w -> safe (items d) -> untouched w (fst (set_labels w d l k)) /\ safe (items (snd (set_labels w d l k))).
Proof.
  induction l as [|n l IH]; intros w d k B S; cbn [set_labels]; [split; [apply unt_refl|assumption]|].
  destruct (set_label_safe w d n k B S) as [U S1]. destruct (set_label w d n k) as [w1 d1]. cbn [fst snd] in *. destruct (IH w1 d1 (Datatypes.S k) (unt_bounded _ _ U B) S1) as [U2 S2]. split; [eapply unt_trans; eassumption|assumption].
Qed.
Lemma label_set_safe w d l : bounded w -> safe (items d) -> untouched w (fst (label_set_names w d l)) /\ safe (items (snd (label_set_names w d l))).
Proof.
  intros B S. pose proof (remove_safe d w S) as U. unfold label_set_names. destruct (set_labels_safe l (label_remove w d) d 0 (unt_bounded _ _ U B) S) as [U2 S2]. split; [eapply unt_trans; eassumption|assumption].
Qed.
Lemma ddel_sub {X} n (its : list (name * X)) m x : In (m, x) (ddel n its) -> In (m, x) its.
Proof. induction its as [|[q y] its IH]; [easy|]. cbn. destruct (name_dec q n); [now right|]. intros [H|H]; [now left|right; auto]. Qed.
Lemma exec_safe w d o : bounded w -> safe (items d) -> (forall a, In a (op_arrays o) -> ~ PB (base a)) ->
  untouched w (fst (fst (exec junk inv c w d o))) /\ safe (items (snd (fst (exec junk inv c w d o)))).
Proof.
  intros B S A. destruct o as [n v|n v|n|r|cols src|r cols src|r cols x|m a|l| | |l]; cbn [exec].
  - apply setattr_safe; auto. destruct v; cbn in *; auto.
  - unfold setitem. destruct (has d n); [apply setattr_safe; auto; destruct v; cbn in *; auto|]. destruct (valid_colname c n); [apply setattr_safe; auto; destruct v; cbn in *; auto|split; [apply unt_refl|assumption]].
  - unfold delattr. destruct (locked d); [split; [apply unt_refl|assumption]|]. destruct (has d n); [|split; [apply unt_refl|assumption]]. cbn. split; [apply unt_refl|]. intros m it H. apply (S m it). now apply ddel_sub in H.
  - unfold filter_inplace. destruct (selector d r) as [idx|e]; [|split; [apply unt_refl|assumption]]. destruct (take_all_safe idx (items d) w B S) as [U S1]. destruct (take_all junk inv w (items d) idx) as [w1 its1]. cbn in *. auto.
  - destruct (forallb (has d) cols); [|split; [apply unt_refl|assumption]]. now apply set_columns_safe.
  - pose proof (assign_columns_safe d r S cols src w) as U. destruct (assign_columns junk w d r cols src). cbn in *. auto.
  - pose proof (assign_scalar_safe d r x S cols w) as U. destruct (assign_scalar w d r cols x). cbn in *. auto.
  - unfold putmask_arr. destruct (nrows d) as [n|]; [|split; [apply unt_refl|assumption]]. destruct (length m =? n); [|split; [apply unt_refl|assumption]]. destruct (alen a =? n); [|split; [apply unt_refl|assumption]].
    cbn. split; [apply put_all_safe; now apply arrays_safe|assumption].
  - destruct (label_set_safe w d l B S) as [U S1]. destruct (label_set_names w d l). cbn in *. auto.
  - split; [apply unt_refl|assumption].
  - split; [apply unt_refl|assumption].
  - split; [now apply unt_alloc|assumption].
Qed.
Lemma run_safe : forall l w d, bounded w -> safe (items d) -> (forall o a, In o l -> In a (op_arrays o) -> ~ PB (base a)) ->
  untouched w (fst (run junk inv c w d l)) /\ safe (items (snd (run junk inv c w d l))).
Proof.
  induction l as [|o l IH]; intros w d B S A; cbn [run]; [split; [apply unt_refl|assumption]|].
  destruct (exec_safe w d o B S) as [U S1]; [intros a; apply A; now left|]. destruct (exec junk inv c w d o) as [[w1 d1] e]. cbn [fst snd] in *.
  destruct (IH w1 d1 (unt_bounded _ _ U B) S1) as [U2 S2]; [intros o' a Ho; apply A; now right|]. split; [eapply unt_trans; eassumption|assumption].
Qed.
End Tab.

Section Deep.
Context {V : Type}.
Variable junk inv : V.
Variable c : pyclass.
Notation read := (read junk).
Implicit Types w : world V.

(** every attribute object of a dataset is its own *)
Lemma labels_run : forall l w d, labels_ok w d -> labels_ok (fst (run junk inv c w d l)) (snd (run junk inv c w d l)).
Proof.
  assert (Same : forall w w' (d d' : dataset), labels_ok w d -> refs d' = refs d -> length (attrs w) <= length (attrs w') -> labels_ok w' d').
  { intros w w' d d' [A B] E L. unfold labels_ok. rewrite E. split; [assumption|]. intros r H. apply B in H. lia. }
  assert (Sub : forall w (d d' : dataset) l1 r l2, labels_ok w d -> refs d = l1 ++ r ++ l2 -> refs d' = l1 ++ l2 -> labels_ok w d').
  { intros w d d' l1 r l2 [A B] E E'. unfold labels_ok. rewrite E in A. rewrite E'. split.
    - clear - A. induction r as [|x r IH]; [exact A|]. apply IH. cbn in A. now apply NoDup_remove_1 in A.
    - intros x H. apply B. rewrite E. rewrite !in_app_iff in *. tauto. }
  assert (Al : forall w (x : list V), length (attrs (fst (alloc w x))) = length (attrs w)) by reflexivity.
  assert (Chk : forall w nr v, length (attrs (fst (fst (check_addtype junk w nr v)))) = length (attrs w)).
  { intros w nr v. destruct v as [a|x|x|k|]; unfold check_addtype, check_add_dimensions.
    - destruct nr as [n|]; [|reflexivity]. destruct ((alen a =? 1) && (1 <? n)); cbn; destruct (n =? _); reflexivity.
    - destruct (length _ =? _); [|reflexivity]. cbn. destruct (_ && _); cbn; match goal with |- context [if ?b then _ else _] => destruct b end; try reflexivity; cbn; match goal with |- context [if ?b then _ else _] => destruct b end; reflexivity.
    - cbn. destruct (_ && _); cbn; match goal with |- context [if ?b then _ else _] => destruct b end; reflexivity.
    - destruct (_ || _); reflexivity.
    - reflexivity. }
  assert (SA : forall w d n v, labels_ok w d -> labels_ok (fst (fst (setattr junk c w d n v))) (snd (fst (setattr junk c w d n v)))).
  { intros w d n v LO. unfold setattr. destruct (locked d); [assumption|]. specialize (Chk w (nrows d) v). destruct (has d n).
    - destruct (check_addtype junk w (nrows d) v) as [[w1 nr] [a|e]]; cbn [fst snd] in *; apply (Same w w1 d); auto; try lia; unfold refs; cbn; first [apply refs_item_set | reflexivity].
    - destruct (kind c n).
      + destruct (check_addtype junk w (nrows d) v) as [[w1 nr] [a|e]]; cbn [fst snd] in *; apply (Same w w1 d); auto; try lia; unfold refs; cbn; first [apply refs_item_set | reflexivity].
      + assumption.
      + assert (length (attrs (fst (raw junk w v))) = length (attrs w)) by (destruct v; reflexivity). destruct (raw junk w v) as [w1 a]. cbn [fst snd] in *. apply (Same w w1 d); auto; try lia. unfold refs. cbn. apply refs_item_set. }
  assert (TA : forall idx its w, length (attrs (fst (take_all junk inv w its idx))) = length (attrs w) /\ refs_of (snd (take_all junk inv w its idx)) = refs_of its).
  { induction its as [|[n it] its IH]; intros w; cbn [take_all]; [auto|]. unfold take. pose proof (Al w) as E. match goal with |- context [alloc w ?l] => specialize (E l); destruct (alloc w l) as [w1 a1] end.
    destruct (IH w1) as [E1 E2]. destruct (take_all junk inv w1 its idx) as [w2 its2]. cbn [fst snd] in *. split; [congruence|]. unfold refs_of in *. cbn [flat_map snd attr]. now rewrite E2. }
  assert (ST : forall w (a : array) ps (vals : list V), attrs (store w a ps vals) = attrs w) by reflexivity.
  assert (SS : forall w (a : array) r (vals : list V), attrs (fst (assign w a r vals)) = attrs w).
  { intros w a r vals. unfold assign. destruct (row_positions _ _); [|reflexivity]. destruct (_ =? _); [reflexivity|]. destruct vals as [|x [|y q]]; reflexivity. }
  assert (RM : forall w d, labels_ok w d -> labels_ok (label_remove w d) d).
  { intros w d LO. destruct (label_remove_attrs d w) as (L & _). apply (Same w _ d); auto. lia. }
  assert (SL1 : forall w d n k, labels_ok w d -> labels_ok (fst (set_label w d n k)) (snd (set_label w d n k))).
  { intros w d n k LO. unfold set_label. destruct (dget n (items d)) as [it|] eqn:E; [|assumption]. destruct (attr it) as [l|] eqn:Ea; cbn [fst snd].
    - apply (Same w _ d); auto. cbn. rewrite upd_len. lia.
    - destruct LO as [NR Rg]. destruct (refs_set_new n (arr it) (items d) it (length (attrs w)) E Ea NR) as [P Q]; [intros H; apply Rg in H; lia|].
      split; [exact P|]. intros r Hr. cbn. rewrite app_length. cbn. apply Q in Hr. destruct Hr as [->|Hr]; [lia|]. apply Rg in Hr. lia. }
  assert (SLs : forall l w d k, labels_ok w d -> labels_ok (fst (set_labels w d l k)) (snd (set_labels w d l k))).
  { induction l as [|n l IH]; intros w d k LO; cbn [set_labels]; [assumption|]. specialize (SL1 w d n k LO). destruct (set_label w d n k) as [w1 d1]. now apply IH. }
  assert (EX : forall w d o, labels_ok w d -> labels_ok (fst (fst (exec junk inv c w d o))) (snd (fst (exec junk inv c w d o)))).
  { intros w d o LO. destruct o as [n v|n v|n|r|cols src|r cols src|r cols x|m a|l| | |l]; cbn [exec].
    - now apply SA.
    - unfold setitem. destruct (has d n); [now apply SA|]. destruct (valid_colname c n); [now apply SA|assumption].
    - unfold delattr. destruct (locked d); [assumption|]. destruct (has d n); [|assumption]. cbn. destruct (refs_ddel n (items d)) as (l1 & l2 & r & E1 & E2). eapply (Sub w d _ l1 r l2); eauto.
    - unfold filter_inplace. destruct (selector d r) as [idx|e]; [|assumption]. destruct (TA idx (items d) w) as [E1 E2]. destruct (take_all junk inv w (items d) idx) as [w1 its1]. cbn [fst snd] in *. apply (Same w w1 d); auto. lia.
    - destruct (forallb (has d) cols); [|assumption]. revert src w d LO. induction cols as [|n cols IH]; intros src w d LO; cbn [set_columns]; [assumption|]. destruct src as [|a src]; [assumption|].
      specialize (SA w d n (VArr a) LO). destruct (setattr junk c w d n (VArr a)) as [[w1 d1] [e|]]; cbn [fst snd] in *; [assumption|]. now apply IH.
    - assert (E : attrs (fst (assign_columns junk w d r cols src)) = attrs w).
      { revert src w LO. induction cols as [|n cols IH]; intros src w LO; cbn [assign_columns]; [reflexivity|]. destruct (dget n (items d)); [|reflexivity]. destruct src as [|a src]; [reflexivity|].
        specialize (SS w (arr i) r (read w a)). destruct (assign w (arr i) r (read w a)) as [w1 [e|]]; cbn [fst] in *; [assumption|]. rewrite IH; [assumption|]. apply (Same w w1 d); auto. rewrite SS. lia. }
      destruct (assign_columns junk w d r cols src) as [w1 e]. cbn [fst snd] in *. apply (Same w w1 d); auto. rewrite E. lia.
    - assert (E : attrs (fst (assign_scalar w d r cols x)) = attrs w).
      { revert w LO. induction cols as [|n cols IH]; intros w LO; cbn [assign_scalar]; [reflexivity|]. destruct (dget n (items d)); [|reflexivity].
        specialize (SS w (arr i) r [x]). destruct (assign w (arr i) r [x]) as [w1 [e|]]; cbn [fst] in *; [assumption|]. rewrite IH; [assumption|]. apply (Same w w1 d); auto. rewrite SS. lia. }
      destruct (assign_scalar w d r cols x) as [w1 e]. cbn [fst snd] in *. apply (Same w w1 d); auto. rewrite E. lia.
    - unfold putmask_arr. destruct (nrows d) as [n|]; [|assumption]. destruct (length m =? n); [|assumption]. destruct (alen a =? n); [|assumption]. cbn [fst snd].
      assert (E : forall dst src w, attrs (put_all junk w m dst src) = attrs w).
      { induction dst as [|b dst IH]; intros [|b' src] w0; cbn [put_all]; try reflexivity. rewrite IH. reflexivity. }
      apply (Same w _ d); auto. rewrite E. lia.
    - unfold label_set_names. specialize (SLs l (label_remove w d) d 0 (RM w d LO)). destruct (set_labels (label_remove w d) d l 0). exact SLs.
    - assumption.
    - assumption.
    - apply (Same w _ d); auto. }
  induction l as [|o l IH]; intros w d LO; cbn [run]; [assumption|]. specialize (EX w d o LO). destruct (exec junk inv c w d o) as [[w1 d1] e]. now apply IH.
Qed.
Lemma construct_labels w l d w' : construct c w l = (w', inl d) -> labels_ok w' d.
Proof.
  assert (Q : forall l w its, refs_of its = [] -> match snd (add_all c w l its) with inl its' => refs_of its' = [] | inr _ => True end).
  { induction l0 as [|[n v] l0 IH]; intros w0 its E; cbn [add_all]; [exact E|]. destruct (possibly_convert w0 v) as [w1 [a|e]]; [|exact I]. apply IH. now rewrite refs_item_set. }
  unfold construct. specialize (Q l w [] eq_refl). destruct (add_all c w l []) as [w1 [its|e]]; [|discriminate]. cbn in Q. destruct (check_all None its) as [nr [e|]]; [discriminate|]. intros [= <- <-].
  split; unfold refs; cbn [items]; rewrite Q; [constructor|easy].
Qed.

(** *** deep copies *)
Lemma deep_items_spec : forall its w, (forall n it, In (n, it) its -> inside w (arr it)) ->
  let w' := fst (deep_items junk w its) in let its' := snd (deep_items junk w its) in
  map fst its' = map fst its /\ length (mem w) <= length (mem w') /\ length (attrs w) <= length (attrs w') /\
  (forall b, b < length (mem w) -> block w' b = block w b) /\ (forall r, r < length (attrs w) -> nth r (attrs w') None = nth r (attrs w) None) /\
  (forall n it, In (n, it) its' -> inside w' (arr it) /\ length (mem w) <= base (arr it)) /\
  map (fun p => (fst p, read w' (arr (snd p)))) its' = map (fun p => (fst p, read w (arr (snd p)))) its /\
  NoDup (refs_of its') /\ (forall r, In r (refs_of its') -> length (attrs w) <= r < length (attrs w')).
Proof.
  induction its as [|[n it] its IH]; intros w I; cbn [deep_items].
  - cbn. repeat split; auto; try easy. constructor.
  - set (w1 := fst (alloc w (read w (arr it)))). set (a1 := snd (alloc w (read w (arr it)))).
    assert (Ea : alloc w (read w (arr it)) = (w1, a1)) by reflexivity. rewrite Ea.
    set (w2 := match attr it with Some l => World (mem w1) (attrs w1 ++ [nth l (attrs w1) None]) | None => w1 end).
    set (at2 := match attr it with Some l => Some (length (attrs w1)) | None => None end).
    assert (E2 : (match attr it with Some l => (World (mem w1) (attrs w1 ++ [nth l (attrs w1) None]), Some (length (attrs w1))) | None => (w1, None) end) = (w2, at2)) by (unfold w2, at2; destruct (attr it); reflexivity).
    rewrite E2. assert (M2 : mem w2 = mem w1) by (unfold w2; destruct (attr it); reflexivity).
    assert (G1 : grows junk w w1) by apply grows_alloc.
    destruct (IH w2) as (A & B & C & D & E & F & G & H & J).
    { intros m x Hx. apply (mem_inside w1 w2 M2). apply G1. apply (I m x). now right. }
    destruct (deep_items junk w2 its) as [w3 its3]. cbn [fst snd] in *.
    assert (L1 : length (mem w1) = S (length (mem w))) by (unfold w1; cbn; rewrite app_length; cbn; lia).
    assert (At : attrs w1 = attrs w) by reflexivity. assert (Ba : base a1 = length (mem w)) by reflexivity.
    assert (L2 : length (attrs w) <= length (attrs w2)) by (unfold w2; destruct (attr it); cbn; rewrite ?app_length; lia).
    rewrite M2 in *.
    assert (Bk : forall b, b < length (mem w) -> block w3 b = block w b).
    { intros b Hb. rewrite D by lia. unfold block. rewrite M2. unfold w1. cbn. now apply app_nth1. }
    assert (Ia : inside w3 a1). { assert (inside w1 a1) by apply alloc_inside. destruct H0 as (P & Q & R). split; [lia|]. split; [|assumption]. intros p Hp. rewrite D by lia. unfold block. rewrite M2. now apply Q. }
    assert (R2 : forall x, inside w x -> read w3 x = read w x /\ read w2 x = read w x).
    { intros x Hx. split; [unfold TabModel.read; rewrite Bk by apply Hx; reflexivity|]. rewrite (mem_read junk w1 w2 M2). now apply G1. }
    split; [cbn; congruence|]. split; [lia|]. split; [lia|]. split; [assumption|]. split; [|split; [|split; [|split]]].
    + intros r Hr. rewrite E by lia. unfold w2. destruct (attr it); [|reflexivity]. cbn. now apply app_nth1.
    + intros m x [Hx|Hx].
      * injection Hx as <- <-. cbn. split; [assumption|lia].
      * destruct (F m x Hx). split; [assumption|lia].
    + cbn [map fst snd arr]. f_equal.
      * f_equal. unfold TabModel.read at 1. rewrite D by lia. assert (read w1 a1 = read w (arr it)) by apply alloc_read. unfold TabModel.read at 1 in H0. unfold block at 1. rewrite M2. exact H0.
      * rewrite G. apply map_ext_in. intros [m x] Hx. cbn. f_equal. apply R2. apply (I m x). now right.
    + unfold refs_of in *. cbn [flat_map snd attr]. unfold at2 in *. destruct (attr it) as [l|]; [|assumption]. cbn. constructor; [|assumption]. intros Hin. apply J in Hin. unfold w2 in Hin. cbn in Hin. rewrite app_length in Hin. cbn in Hin. lia.
    + unfold refs_of in *. cbn [flat_map snd attr]. intros r Hr. apply in_app_iff in Hr. unfold at2, w2 in *. destruct (attr it) as [l|]; cbn in *.
      * destruct Hr as [[<-|[]]|Hr]; [rewrite app_length in *; cbn in *; lia|]. apply J in Hr. rewrite app_length in *. lia.
      * destruct Hr as [[]|Hr]. apply J in Hr. lia.
Qed.
End Deep.
