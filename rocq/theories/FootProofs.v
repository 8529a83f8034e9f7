(** Footers: the heap of attribute objects refines independent Datasets as long as nothing is shared. *)
From Coq Require Import List Arith Bool Lia.
From Verif Require Import FlattenModel FlattenProofs DsModel DsProofs3 AggProofs2 FootModel FootSpec.
Import ListNotations.

Lemma nth_upd {X} (l : list X) i x j : i < length l -> nth_error (firstn i l ++ x :: skipn (S i) l) j = if j =? i then Some x else nth_error l j.
Proof.
  revert i j. induction l as [|y l IH]; intros i j H; [cbn in H; lia|]. destruct i as [|i]; destruct j as [|j]; cbn [firstn skipn app nth_error Nat.eqb]; try reflexivity.
  cbn [length] in H. apply IH. lia.
Qed.
Lemma length_upd {X} (l : list X) i x : i < length l -> length (firstn i l ++ x :: skipn (S i) l) = length l.
Proof. intros H. rewrite app_length, firstn_length. cbn [length]. rewrite skipn_length. lia. Qed.

Section P.
Context {V : Type}.
Notation attr := (attr (V := V)).
Notation items := (list (name * option nat)).
Implicit Types (h : list attr) (it : items).

Lemma length_put h r a : length (put h r a) = length h.
Proof. revert r. induction h as [|x h IH]; intros [|r]; cbn [put length]; auto. Qed.
Lemma nth_put h r a j : r < length h -> nth_error (put h r a) j = if j =? r then Some a else nth_error h j.
Proof.
  revert r j. induction h as [|x h IH]; intros r j H; [cbn in H; lia|]. destruct r as [|r]; destruct j as [|j]; cbn [put nth_error Nat.eqb]; try reflexivity. cbn [length] in H. apply IH. lia.
Qed.
Lemma eqn_spec (a b : name) : eqn a b = true <-> a = b.
Proof. unfold eqn. destruct (name_dec a b); split; congruence. Qed.
Lemma eqn_refl (a : name) : eqn a a = true.
Proof. now apply eqn_spec. Qed.
Lemma eqn_neq (a b : name) : a <> b -> eqn a b = false.
Proof. unfold eqn. destruct (name_dec a b); congruence. Qed.

Definition val h it (l c : name) : option V := match footer_of h it c with Some cd => dget l cd | None => None end.
Definition heapok h : Prop := forall r cd, nth_error h r = Some (Some cd) -> NoDup (map fst cd).
Definition loc h it : Prop :=
  (forall c r, dget c it = Some (Some r) -> r < length h) /\
  (forall c c' r, dget c it = Some (Some r) -> dget c' it = Some (Some r) -> c = c') /\ heapok h.
Definition frame h it h' it' : Prop :=
  length h <= length h' /\
  (forall r, r < length h -> (forall c, dget c it <> Some (Some r)) -> nth_error h' r = nth_error h r) /\
  (forall c r, dget c it' = Some (Some r) -> (exists c0, dget c0 it = Some (Some r)) \/ length h <= r).
Lemma frame_refl h it : frame h it h it.
Proof. split; [lia|]. split; [reflexivity|]. intros c r E. left. now exists c. Qed.
Lemma frame_trans h it h1 it1 h2 it2 : frame h it h1 it1 -> frame h1 it1 h2 it2 -> frame h it h2 it2.
Proof.
  intros (A1 & A2 & A3) (B1 & B2 & B3). split; [lia|]. split.
  - intros r Hr N. rewrite B2; [now apply A2|lia|]. intros c E. destruct (A3 c r E) as [[c0 E0]|G]; [exact (N c0 E0)|lia].
  - intros c r E. destruct (B3 c r E) as [[c0 E0]|G]; [exact (A3 c0 r E0)|right; lia].
Qed.

(** *** footer_set_values *)
Lemma footer_some h it c cd : footer_of h it c = Some cd -> exists r, dget c it = Some (Some r) /\ nth_error h r = Some (Some cd).
Proof.
  unfold footer_of. destruct (dget c it) as [[r|]|]; try discriminate. destruct (nth_error h r) as [a|] eqn:E; [|discriminate]. intros ->. now exists r.
Qed.
Lemma dset_nodup {X} (d : list (name * X)) k v : NoDup (map fst d) -> NoDup (map fst (dset k v d)).
Proof.
  intros ND. destruct (in_dec name_dec k (map fst d)) as [I|I].
  - assert (E : map fst (dset k v d) = map fst d).
    { clear ND. induction d as [|[m x] d IH]; [destruct I|]. cbn [dset]. destruct (name_dec m k) as [->|NE]; [reflexivity|]. cbn [map fst]. f_equal. apply IH. destruct I as [I|I]; [cbn in I; congruence|exact I]. }
    now rewrite E.
  - rewrite dset_fresh by exact I. rewrite map_app. cbn [map fst]. apply NoDup_app_comm || idtac.
    clear -ND I. induction (map fst d) as [|x l IH]; cbn [app]; [repeat constructor; intros []|]. inversion ND as [|? ? N1 N2]; subst. constructor.
    + intros J. apply in_app_or in J. destruct J as [J|[<-|[]]]; [contradiction|]. apply I. now left.
    + apply IH; [exact N2|]. intros J. apply I. now right.
Qed.
Lemma dset_names_in {X} (d : list (name * X)) k v : In k (map fst d) -> map fst (dset k v d) = map fst d.
Proof.
  induction d as [|[m x] d IH]; [intros []|]. intros I. cbn [dset]. destruct (name_dec m k) as [->|NE]; [reflexivity|]. cbn [map fst]. f_equal. apply IH. destruct I as [I|I]; [cbn in I; congruence|exact I].
Qed.
(** changing one object *)
Lemma put_loc h it c r (cd : list (name * V)) : loc h it -> dget c it = Some (Some r) -> NoDup (map fst cd) ->
  loc (put h r (Some cd)) it /\ frame h it (put h r (Some cd)) it /\
  forall l c', val (put h r (Some cd)) it l c' = if eqn c' c then dget l cd else val h it l c'.
Proof.
  intros (L1 & L2 & L3) E ND. pose proof (L1 c r E) as Hr. split; [|split].
  - split; [intros c' r' E'; rewrite length_put; exact (L1 c' r' E')|]. split; [exact L2|]. intros q cd' E'. rewrite nth_put in E' by exact Hr. destruct (Nat.eqb_spec q r) as [->|NE]; [injection E' as <-; exact ND|exact (L3 q cd' E')].
  - split; [rewrite length_put; lia|]. split; [|intros c' r' E'; left; now exists c']. intros q Hq N. rewrite nth_put by exact Hr. destruct (Nat.eqb_spec q r) as [->|NE]; [exfalso; exact (N c E)|reflexivity].
  - intros l c'. unfold val, footer_of. destruct (eqn c' c) eqn:Q.
    + apply eqn_spec in Q. subst c'. rewrite E. rewrite nth_put by exact Hr. now rewrite Nat.eqb_refl.
    + destruct (dget c' it) as [[q|]|] eqn:E'; try reflexivity. rewrite nth_put by exact Hr. destruct (Nat.eqb_spec q r) as [->|NE]; [|reflexivity]. rewrite (L2 c' c r E' E) in Q. rewrite eqn_refl in Q. discriminate.
Qed.
(** a new object *)
Lemma new_loc h it c a : loc h it -> (forall r, dget c it <> Some (Some r)) -> In c (map fst it) -> (forall cd, a = Some cd -> NoDup (map fst cd)) ->
  let it' := dset c (Some (length h)) it in
  loc (h ++ [a]) it' /\ frame h it (h ++ [a]) it' /\ map fst it' = map fst it /\
  forall l c', val (h ++ [a]) it' l c' = if eqn c' c then match a with Some cd => dget l cd | None => None end else val h it l c'.
Proof.
  intros (L1 & L2 & L3) NR IC NA it'.
  assert (G : forall c', dget c' it' = if eqn c' c then Some (Some (length h)) else dget c' it).
  { intros c'. unfold it', eqn. rewrite dget_dset. destruct (name_dec c c') as [->|NE]; destruct (name_dec c' _); try congruence. }
  assert (B : forall c' r, dget c' it' = Some (Some r) -> (c' = c /\ r = length h) \/ (c' <> c /\ dget c' it = Some (Some r))).
  { intros c' r E. rewrite G in E. destruct (eqn c' c) eqn:Q; [left; apply eqn_spec in Q; split; [exact Q|congruence]|right]. split; [intros ->; rewrite eqn_refl in Q; discriminate|exact E]. }
  split; [|split; [|split]].
  - split; [|split].
    + intros c' r E. rewrite app_length. cbn [length]. destruct (B c' r E) as [[_ ->]|[_ E']]; [lia|]. pose proof (L1 c' r E'). lia.
    + intros c1 c2 r E1 E2. destruct (B c1 r E1) as [[-> ->]|[N1 F1]]; destruct (B c2 _ E2) as [[-> Q]|[N2 F2]]; auto.
      * pose proof (L1 c2 _ F2). lia.
      * subst r. pose proof (L1 c1 _ F1). lia.
      * exact (L2 c1 c2 r F1 F2).
    + intros q cd E. destruct (Nat.lt_ge_cases q (length h)) as [Hq|Hq]; [rewrite nth_error_app1 in E by exact Hq; exact (L3 q cd E)|]. rewrite nth_error_app2 in E by exact Hq. destruct (q - length h) as [|k]; cbn [nth_error] in E; [|destruct k; discriminate]. injection E as E. now apply NA.
  - split; [rewrite app_length; lia|]. split.
    + intros r Hr _. now rewrite nth_error_app1.
    + intros c' r E. destruct (B c' r E) as [[_ ->]|[_ E']]; [right; lia|left; now exists c'].
  - apply dset_names_in, IC.
  - intros l c'. unfold val, footer_of. rewrite G. destruct (eqn c' c).
    + rewrite nth_error_app2 by lia. rewrite Nat.sub_diag. cbn [nth_error]. reflexivity.
    + destruct (dget c' it) as [[q|]|] eqn:E'; try reflexivity. rewrite nth_error_app1 by exact (L1 c' q E'). reflexivity.
Qed.
Definition set_one (label : name) (s : list attr * items) (p : name * V) : list attr * items :=
  let '(h, it) := s in
  match footer_of h it (fst p) with
  | None => set_footer h it (fst p) [(label, snd p)]
  | Some cd => (change_footer h it (fst p) (dset label (snd p) cd), it)
  end.
Lemma set_one_ok label h it c v h' it' : loc h it -> In c (map fst it) -> set_one label (h, it) (c, v) = (h', it') ->
  loc h' it' /\ frame h it h' it' /\ map fst it' = map fst it /\
  forall l c', val h' it' l c' = if eqn c' c && eqn l label then Some v else val h it l c'.
Proof.
  intros L IC E. unfold set_one in E. cbn [fst snd] in E. destruct (footer_of h it c) as [cd|] eqn:F.
  - destruct (footer_some h it c cd F) as (r & G & N). unfold change_footer in E. rewrite G in E. injection E as <- <-.
    assert (ND : NoDup (map fst cd)) by (destruct L as (_ & _ & L3); exact (L3 r cd N)).
    destruct (put_loc h it c r (dset label v cd) L G (dset_nodup cd label v ND)) as (P1 & P2 & P3). split; [exact P1|]. split; [exact P2|]. split; [reflexivity|].
    intros l c'. rewrite P3. destruct (eqn c' c) eqn:Q; [|reflexivity]. apply eqn_spec in Q. subst c'. cbn [andb]. rewrite dget_dset. unfold eqn, val. rewrite F. destruct (name_dec label l) as [->|NE]; destruct (name_dec l _); congruence.
  - unfold set_footer in E. destruct (dget c it) as [[r|]|] eqn:G.
    + injection E as <- <-. destruct (put_loc h it c r [(label, v)] L G) as (P1 & P2 & P3); [repeat constructor; intros []|]. split; [exact P1|]. split; [exact P2|]. split; [reflexivity|].
      intros l c'. rewrite P3. destruct (eqn c' c) eqn:Q; [|reflexivity]. apply eqn_spec in Q. subst c'. cbn [andb dget]. unfold val. rewrite F. unfold eqn. destruct (name_dec label l) as [->|NE]; destruct (name_dec l _); congruence.
    + injection E as <- <-. destruct (new_loc h it c (Some [(label, v)]) L) as (P1 & P2 & P3 & P4); [intros r X; congruence|exact IC|intros cd X; injection X as <-; repeat constructor; intros []|]. split; [exact P1|]. split; [exact P2|]. split; [exact P3|].
      intros l c'. rewrite P4. destruct (eqn c' c) eqn:Q; [|reflexivity]. apply eqn_spec in Q. subst c'. cbn [andb dget]. unfold val. rewrite F. unfold eqn. destruct (name_dec label l) as [->|NE]; destruct (name_dec l _); congruence.
    + apply dget_none in G. contradiction.
Qed.
Lemma set_all_ok label vals : forall h it h' it', loc h it -> (forall c, In c (map fst vals) -> In c (map fst it)) -> NoDup (map fst vals) ->
  fold_left (set_one label) vals (h, it) = (h', it') ->
  loc h' it' /\ frame h it h' it' /\ map fst it' = map fst it /\
  forall l c, val h' it' l c = if eqn l label then match dget c vals with Some v => Some v | None => val h it l c end else val h it l c.
Proof.
  induction vals as [|[c v] vals IH]; intros h it h' it' L I ND E; cbn [fold_left] in E.
  - injection E as <- <-. split; [exact L|]. split; [apply frame_refl|]. split; [reflexivity|]. intros l c. cbn [dget]. now destruct (eqn l label).
  - destruct (set_one label (h, it) (c, v)) as [h1 it1] eqn:E1. cbn [map fst] in I, ND. inversion ND as [|? ? N1 N2]; subst.
    destruct (set_one_ok label h it c v h1 it1 L (I c (or_introl eq_refl)) E1) as (P1 & P2 & P3 & P4).
    destruct (IH h1 it1 h' it' P1) as (Q1 & Q2 & Q3 & Q4); [intros c' J; rewrite P3; apply I; now right|exact N2|exact E|].
    split; [exact Q1|]. split; [eapply frame_trans; eauto|]. split; [congruence|]. intros l c'. rewrite Q4. destruct (eqn l label) eqn:QL.
    + cbn [dget]. destruct (name_dec c c') as [<-|NE].
      * destruct (dget c vals) as [w|] eqn:G; [exfalso; apply N1; apply in_map_iff; exists (c, w); split; [reflexivity|now apply dget_some_in]|]. rewrite P4, QL, eqn_refl. reflexivity.
      * destruct (dget c' vals); [reflexivity|]. rewrite P4. rewrite (eqn_neq c' c) by congruence. reflexivity.
    + rewrite P4, QL, andb_false_r. reflexivity.
Qed.

(** *** footer_remove *)
Lemma dget_pop l l' (d : list (name * V)) : NoDup (map fst d) -> dget l' (pop l d) = if eqn l' l then None else dget l' d.
Proof.
  induction d as [|[k v] d IH]; intros ND; cbn [pop dget]; [now destruct (eqn l' l)|]. cbn [map fst] in ND. inversion ND as [|? ? N1 N2]; subst.
  destruct (name_dec k l) as [->|NE].
  - destruct (eqn l' l) eqn:Q.
    + apply eqn_spec in Q. subst l'. now apply dget_none.
    + destruct (name_dec l l') as [->|]; [rewrite eqn_refl in Q; discriminate|reflexivity].
  - cbn [dget]. rewrite IH by exact N2. destruct (name_dec k l') as [->|]; [rewrite (eqn_neq l' l) by exact NE; reflexivity|reflexivity].
Qed.
Lemma pop_nodup l (d : list (name * V)) : NoDup (map fst d) -> NoDup (map fst (pop l d)).
Proof.
  induction d as [|[k v] d IH]; intros ND; cbn [pop]; [constructor|]. cbn [map fst] in ND. inversion ND as [|? ? N1 N2]; subst. destruct (name_dec k l); [exact N2|]. cbn [map fst]. constructor; [|now apply IH].
  intros I. apply N1. clear -I. induction d as [|[m w] d IH]; [exact I|]. cbn [pop] in I. destruct (name_dec m l); cbn [map fst] in *; [now right|]. destruct I as [I|I]; [now left|right; auto].
Qed.
Lemma pops_ok ls : forall (d : list (name * V)), NoDup (map fst d) ->
  NoDup (map fst (fold_left (fun cd l => pop l cd) ls d)) /\ forall l, dget l (fold_left (fun cd l => pop l cd) ls d) = if mem l ls then None else dget l d.
Proof.
  induction ls as [|x ls IH]; intros d ND; cbn [fold_left]; [split; [exact ND|reflexivity]|].
  destruct (IH (pop x d) (pop_nodup x d ND)) as [A B]. split; [exact A|]. intros l. rewrite B, dget_pop by exact ND. destruct (mem l (x :: ls)) eqn:M.
  - apply mem_in in M. destruct M as [->|M]; [rewrite eqn_refl; now destruct (mem l ls)|]. rewrite (proj2 (mem_in l ls) M). reflexivity.
  - apply mem_not in M. rewrite (proj2 (mem_not l ls)) by (intros J; apply M; now right). rewrite eqn_neq; [reflexivity|]. intros ->. apply M. now left.
Qed.
Definition rem_one (it : items) (ls : list name) (h : list attr) (c : name) : list attr :=
  match footer_of h it c with
  | None => h
  | Some cd => change_footer h it c (fold_left (fun cd l => pop l cd) ls cd)
  end.
Lemma rem_all_ok it ls cs : forall h, loc h it ->
  loc (fold_left (rem_one it ls) cs h) it /\ frame h it (fold_left (rem_one it ls) cs h) it /\
  forall l c, val (fold_left (rem_one it ls) cs h) it l c = if mem l ls && mem c cs then None else val h it l c.
Proof.
  induction cs as [|c cs IH]; intros h L; cbn [fold_left].
  - split; [exact L|]. split; [apply frame_refl|]. intros l c. cbn [mem existsb]. now rewrite andb_false_r.
  - assert (S1 : loc (rem_one it ls h c) it /\ frame h it (rem_one it ls h c) it /\ forall l c', val (rem_one it ls h c) it l c' = if mem l ls && eqn c' c then None else val h it l c').
    { unfold rem_one. destruct (footer_of h it c) as [cd|] eqn:F.
      - destruct (footer_some h it c cd F) as (r & G & N). unfold change_footer. rewrite G. assert (ND : NoDup (map fst cd)) by (destruct L as (_ & _ & L3); exact (L3 r cd N)).
        destruct (pops_ok ls cd ND) as [A B]. destruct (put_loc h it c r _ L G A) as (P1 & P2 & P3). split; [exact P1|]. split; [exact P2|]. intros l c'. rewrite P3. destruct (eqn c' c) eqn:Q.
        + apply eqn_spec in Q. subst c'. rewrite B, andb_true_r. unfold val. now rewrite F.
        + now rewrite andb_false_r.
      - split; [exact L|]. split; [apply frame_refl|]. intros l c'. destruct (eqn c' c) eqn:Q; [|now rewrite andb_false_r]. apply eqn_spec in Q. subst c'. unfold val. rewrite F. now destruct (mem l ls && true). }
    destruct S1 as (P1 & P2 & P3). destruct (IH _ P1) as (Q1 & Q2 & Q3). split; [exact Q1|]. split; [eapply frame_trans; eauto|]. intros l c'. rewrite Q3, P3.
    assert (M : mem c' (c :: cs) = eqn c' c || mem c' cs).
    { destruct (mem c' (c :: cs)) eqn:M.
      - apply mem_in in M. destruct M as [->|M]; [now rewrite eqn_refl|]. rewrite (proj2 (mem_in c' cs) M). now rewrite orb_true_r.
      - apply mem_not in M. rewrite (proj2 (mem_not c' cs)) by (intros J; apply M; now right). rewrite eqn_neq; [reflexivity|]. intros ->. apply M. now left. }
    rewrite M. destruct (mem l ls); cbn [andb]; [|reflexivity]. destruct (eqn c' c); cbn [orb]; [now destruct (mem c' cs)|reflexivity].
Qed.
Lemma del_all_ok ls : forall fs, NoDup ls -> (forall l, In l ls -> In l fs) -> del_all ls fs = (filter (fun n => negb (mem n ls)) fs, true).
Proof.
  induction ls as [|x ls IH]; intros fs ND I; cbn [del_all].
  - f_equal. symmetry. clear. induction fs as [|y fs IH]; [reflexivity|]. cbn [filter mem existsb negb]. now f_equal.
  - inversion ND as [|? ? N1 N2]; subst. rewrite (proj2 (mem_in x fs)) by (apply I; now left). rewrite IH; [|exact N2|].
    + f_equal. clear -N1. induction fs as [|y fs IH]; [reflexivity|]. cbn [filter]. destruct (name_dec y x) as [->|NE].
      * rewrite (proj2 (mem_in x (x :: ls))) by (now left). cbn [negb]. exact IH.
      * assert (M : mem y (x :: ls) = mem y ls).
        { destruct (mem y ls) eqn:Q; [apply mem_in; right; now apply mem_in|]. apply mem_not. intros [J|J]; [congruence|]. apply mem_not in Q. contradiction. }
        rewrite M. cbn [filter]. destruct (negb (mem y ls)); [f_equal|]; exact IH.
    + intros l J. apply filter_In. split; [apply I; now right|]. destruct (name_dec l x) as [->|]; [contradiction|reflexivity].
Qed.

(** *** copies *)
Lemma copy_attrs_ok it : forall h h' it', NoDup (map fst it) -> heapok h -> (forall c r, dget c it = Some (Some r) -> r < length h) -> copy_attrs h it = (h', it') ->
  length h <= length h' /\ (forall r, r < length h -> nth_error h' r = nth_error h r) /\ map fst it' = map fst it /\
  (forall c r, dget c it' = Some (Some r) -> length h <= r < length h') /\
  (forall c c' r, dget c it' = Some (Some r) -> dget c' it' = Some (Some r) -> c = c') /\ heapok h' /\
  forall c, footer_of h' it' c = footer_of h it c.
Proof.
  induction it as [|[c [a|]] it IH]; intros h h' it' ND HO B E; cbn [copy_attrs] in E.
  - injection E as <- <-. split; [lia|]. split; [reflexivity|]. split; [reflexivity|]. split; [intros c r X; discriminate|]. split; [intros c c' r X; discriminate|]. split; [exact HO|reflexivity].
  - set (x := match nth_error h a with Some x => x | None => None end) in *. destruct (copy_attrs (h ++ [x]) it) as [h1 it1] eqn:E1. injection E as <- <-. cbn [map fst] in ND. inversion ND as [|? ? N1 N2]; subst.
    assert (Ba : a < length h) by (apply (B c); cbn [dget]; destruct (name_dec c c); congruence).
    assert (XE : nth_error h a = Some x). { unfold x. destruct (nth_error h a) eqn:Q; [reflexivity|]. apply nth_error_None in Q. lia. }
    assert (B' : forall c' r, dget c' it = Some (Some r) -> r < length h).
    { intros c' r G. apply (B c'). cbn [dget]. destruct (name_dec c c') as [->|]; [|exact G]. exfalso. apply N1. apply in_map_iff. exists (c', Some r). split; [reflexivity|now apply dget_some_in]. }
    destruct (IH (h ++ [x]) h1 it1 N2) as (P1 & P2 & P3 & P4 & P5 & P6 & P7).
    { intros q cd Q. destruct (Nat.lt_ge_cases q (length h)) as [Hq|Hq]; [rewrite nth_error_app1 in Q by exact Hq; exact (HO q cd Q)|]. rewrite nth_error_app2 in Q by exact Hq. destruct (q - length h) as [|k]; cbn [nth_error] in Q; [|destruct k; discriminate]. injection Q as Q. apply (HO a cd). rewrite XE, Q. reflexivity. }
    { intros c' r G. rewrite app_length. pose proof (B' c' r G). lia. }
    { exact E1. }
    rewrite app_length in P1, P4. cbn [length] in P1, P4. split; [lia|]. split; [intros r Hr; rewrite P2 by (rewrite app_length; cbn; lia); now rewrite nth_error_app1|]. split; [cbn [map fst]; now rewrite P3|].
    assert (NC : forall r, dget c it1 <> Some r). { intros r G. apply N1. rewrite <- P3. apply in_map_iff. exists (c, r). split; [reflexivity|now apply dget_some_in]. }
    split; [|split; [|split]].
    + intros c' r G. cbn [dget] in G. destruct (name_dec c c'); [injection G as <-; lia|]. specialize (P4 c' r G). lia.
    + intros c1 c2 r G1 G2. cbn [dget] in G1, G2. destruct (name_dec c c1) as [D1|D1]; destruct (name_dec c c2) as [D2|D2]; try congruence.
      * injection G1 as <-. specialize (P4 c2 _ G2). lia.
      * injection G2 as <-. specialize (P4 c1 _ G1). lia.
      * exact (P5 c1 c2 r G1 G2).
    + exact P6.
    + intros c'. unfold footer_of in P7 |- *. cbn [dget]. destruct (name_dec c c') as [->|NE].
      * rewrite XE. rewrite P2 by (rewrite app_length; cbn; lia). rewrite nth_error_app2 by lia. rewrite Nat.sub_diag. reflexivity.
      * rewrite P7. destruct (dget c' it) as [[q|]|] eqn:G; try reflexivity. rewrite nth_error_app1 by exact (B' c' q G). reflexivity.
  - destruct (copy_attrs h it) as [h1 it1] eqn:E1. injection E as <- <-. cbn [map fst] in ND. inversion ND as [|? ? N1 N2]; subst.
    assert (B' : forall c' r, dget c' it = Some (Some r) -> r < length h).
    { intros c' r G. apply (B c'). cbn [dget]. destruct (name_dec c c') as [->|]; [|exact G]. exfalso. apply N1. apply in_map_iff. exists (c', Some r). split; [reflexivity|now apply dget_some_in]. }
    destruct (IH h h1 it1 N2 HO B' E1) as (P1 & P2 & P3 & P4 & P5 & P6 & P7). split; [exact P1|]. split; [exact P2|]. split; [cbn [map fst]; now rewrite P3|].
    split; [|split; [|split]].
    + intros c' r G. cbn [dget] in G. destruct (name_dec c c'); [discriminate|]. exact (P4 c' r G).
    + intros c1 c2 r G1 G2. cbn [dget] in G1, G2. destruct (name_dec c c1); destruct (name_dec c c2); try discriminate. exact (P5 c1 c2 r G1 G2).
    + exact P6.
    + intros c'. unfold footer_of in P7 |- *. cbn [dget]. destruct (name_dec c c'); [reflexivity|]. apply P7.
Qed.
Lemma once_in l x : In x (once l) <-> In x l.
Proof.
  induction l as [|y l IH]; cbn [once]; [tauto|]. cbn [In]. rewrite filter_In, IH. destruct (name_dec x y) as [->|NE]; [tauto|]. split; [tauto|]. intros [E|I]; [now left|right; auto].
Qed.
Lemma once_nodup l : NoDup (once l).
Proof.
  induction l as [|y l IH]; cbn [once]; [constructor|]. constructor; [|now apply NoDup_filter]. intros I. apply filter_In in I. destruct I as [_ I]. destruct (name_dec y y); [discriminate|congruence].
Qed.
Lemma once_id l : NoDup l -> once l = l.
Proof.
  induction l as [|y l IH]; intros ND; cbn [once]; [reflexivity|]. inversion ND as [|? ? N1 N2]; subst. rewrite IH by exact N2. f_equal. clear -N1. induction l as [|z l IH]; [reflexivity|]. cbn [filter]. destruct (name_dec z y) as [->|]; [exfalso; apply N1; now left|]. f_equal. apply IH. intros I. apply N1. now right.
Qed.
Lemma copy_cols_ok it cs : (forall c, In c cs -> In c (map fst it)) -> forall m, NoDup (map fst m) ->
  let r := fold_left (fun m c => match dget c it with Some a => dset c a m | None => m end) cs m in
  map fst r = map fst m ++ filter (fun c => negb (mem c (map fst m))) (once cs) /\
  forall c, dget c r = if mem c cs then dget c it else dget c m.
Proof.
  induction cs as [|x cs IH]; intros I m ND; cbn [fold_left once].
  - split; [cbn [filter]; now rewrite app_nil_r|reflexivity].
  - destruct (dget_has x it (I x (or_introl eq_refl))) as [a G]. rewrite G. destruct (IH (fun c J => I c (or_intror J)) (dset x a m) (dset_nodup m x a ND)) as [A B]. split.
    + rewrite A. destruct (in_dec name_dec x (map fst m)) as [J|J].
      * rewrite dset_names_in by exact J. f_equal. cbn [filter]. rewrite (proj2 (mem_in x (map fst m)) J). cbn [negb]. clear -J. induction (once cs) as [|y l IHl]; [reflexivity|]. cbn [filter]. destruct (name_dec y x) as [->|NE].
        -- rewrite (proj2 (mem_in x (map fst m)) J). exact IHl.
        -- cbn [filter]. destruct (negb (mem y (map fst m))); [f_equal|]; exact IHl.
      * rewrite dset_fresh by exact J. rewrite map_app. cbn [map fst filter]. rewrite (proj2 (mem_not x (map fst m)) J). cbn [negb]. rewrite <- app_assoc. cbn [app]. do 2 f_equal. clear. induction (once cs) as [|y l IHl]; [reflexivity|]. cbn [filter]. destruct (name_dec y x) as [->|NE].
        -- rewrite (proj2 (mem_in x (map fst m ++ [x]))) by (apply in_or_app; right; now left). exact IHl.
        -- cbn [filter]. assert (M : mem y (map fst m ++ [x]) = mem y (map fst m)).
           { destruct (mem y (map fst m)) eqn:Q; [apply mem_in, in_or_app; left; now apply mem_in|]. apply mem_not. intros J. apply in_app_or in J. destruct J as [J|[J|[]]]; [apply mem_not in Q; contradiction|congruence]. }
           rewrite M. destruct (negb (mem y (map fst m))); [f_equal|]; exact IHl.
    + intros c. rewrite B, dget_dset. destruct (mem c (x :: cs)) eqn:M.
      * apply mem_in in M. destruct (mem c cs) eqn:Q; [reflexivity|]. apply mem_not in Q. destruct M as [->|M]; [|contradiction]. destruct (name_dec c c); congruence.
      * apply mem_not in M. rewrite (proj2 (mem_not c cs)) by (intros J; apply M; now right). destruct (name_dec x c) as [->|]; [exfalso; apply M; now left|reflexivity].
Qed.
End P.
