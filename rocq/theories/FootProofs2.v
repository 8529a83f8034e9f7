(** Footers: the invariant of all Datasets together. *)
From Coq Require Import List Arith Bool Lia.
From Verif Require Import FlattenModel FlattenProofs DsModel DsProofs3 AggProofs2 FootModel FootSpec FootProofs.
Import ListNotations.

Lemma nodup_snoc {X} (l : list X) x : NoDup l -> ~ In x l -> NoDup (l ++ [x]).
Proof.
  induction l as [|y l IH]; intros N M; cbn [app]; [repeat constructor; intros []|]. inversion N as [|? ? N1 N2]; subst. constructor; [|apply IH; [exact N2|intros J; apply M; now right]].
  intros J. apply in_app_or in J. destruct J as [J|[<-|[]]]; [contradiction|]. apply M. now left.
Qed.

Section P.
Context {V : Type}.
Notation attr := (attr (V := V)).
Notation items := (list (name * option nat)).
Implicit Types (h : list attr) (it : items) (d : fds).

Record rel h d (s : fstate (V := V)) : Prop := {
  r_cols : s_cols s = map fst (d_items d);
  r_labels : s_labels s = match d_footers d with None => [] | Some l => l end;
  r_some : d_footers d <> Some [];
  r_val : forall l c, s_val s l c = val h (d_items d) l c;
  r_nodup : NoDup (map fst (d_items d));
  r_lnodup : NoDup (s_labels s);
  r_in : forall l c v, s_val s l c = Some v -> In l (s_labels s) }.
Record winv (w : world) (ss : list (fstate (V := V))) : Prop := {
  w_len : length (w_ds w) = length ss;
  w_rel : forall i d s, nth_error (w_ds w) i = Some d -> nth_error ss i = Some s -> rel (w_heap w) d s;
  w_own : forall i j d d' c c' r, nth_error (w_ds w) i = Some d -> nth_error (w_ds w) j = Some d' ->
            dget c (d_items d) = Some (Some r) -> dget c' (d_items d') = Some (Some r) -> i = j /\ c = c';
  w_bound : forall i d c r, nth_error (w_ds w) i = Some d -> dget c (d_items d) = Some (Some r) -> r < length (w_heap w);
  w_ok : heapok (w_heap w) }.

Lemma winv_loc w ss i d : winv w ss -> nth_error (w_ds w) i = Some d -> loc (w_heap w) (d_items d).
Proof.
  intros W E. split; [intros c r G; exact (w_bound w ss W i d c r E G)|]. split; [|exact (w_ok w ss W)]. intros c c' r G G'. now destruct (w_own w ss W i i d d c c' r E E G G').
Qed.
Lemma rel_frame h h' d s : rel h d s -> (forall c r, dget c (d_items d) = Some (Some r) -> nth_error h' r = nth_error h r) -> rel h' d s.
Proof.
  intros R F. destruct R as [A B C D E G I]. constructor; auto. intros l c. rewrite D. unfold val, footer_of. destruct (dget c (d_items d)) as [[r|]|] eqn:Q; try reflexivity. now rewrite (F c r Q).
Qed.
Lemma winv_upd w ss i d s h' d' s' : winv w ss -> nth_error (w_ds w) i = Some d -> nth_error ss i = Some s ->
  frame (w_heap w) (d_items d) h' (d_items d') -> loc h' (d_items d') -> rel h' d' s' ->
  winv (mkW h' (upd (w_ds w) i d')) (s_upd ss i s').
Proof.
  intros W Ed Es (F1 & F2 & F3) (L1 & L2 & L3) R. assert (Hi : i < length (w_ds w)) by (apply nth_error_Some; congruence). assert (Hi' : i < length ss) by (apply nth_error_Some; congruence).
  constructor; cbn [w_heap w_ds]; unfold upd, s_upd.
  - rewrite !length_upd by assumption. exact (w_len w ss W).
  - intros j x y E1 E2. rewrite nth_upd in E1 by exact Hi. rewrite nth_upd in E2 by exact Hi'. destruct (Nat.eqb_spec j i) as [->|NE]; [congruence|]. apply rel_frame with (w_heap w); [exact (w_rel w ss W j x y E1 E2)|].
    intros c r G. apply F2; [exact (w_bound w ss W j x c r E1 G)|]. intros c0 G0. destruct (w_own w ss W j i x d c c0 r E1 Ed G G0). congruence.
  - intros a b x y c c' r E1 E2 G1 G2. rewrite nth_upd in E1 by exact Hi. rewrite nth_upd in E2 by exact Hi.
    assert (X : forall z k c1, nth_error (w_ds w) k = Some z -> k <> i -> dget c1 (d_items z) = Some (Some r) -> forall c2, dget c2 (d_items d') = Some (Some r) -> False).
    { intros z k c1 Ez NK G c2 G'. destruct (F3 c2 r G') as [[c0 G0]|Q]; [destruct (w_own w ss W k i z d c1 c0 r Ez Ed G G0); congruence|]. pose proof (w_bound w ss W k z c1 r Ez G). lia. }
    destruct (Nat.eqb_spec a i) as [->|Na]; destruct (Nat.eqb_spec b i) as [->|Nb].
    + split; [reflexivity|]. injection E1 as <-. injection E2 as <-. exact (L2 c c' r G1 G2).
    + injection E1 as <-. exfalso. exact (X y b c' E2 Nb G2 c G1).
    + injection E2 as <-. exfalso. exact (X x a c E1 Na G1 c' G2).
    + exact (w_own w ss W a b x y c c' r E1 E2 G1 G2).
  - intros j x c r E1 G. rewrite nth_upd in E1 by exact Hi. destruct (Nat.eqb_spec j i) as [->|NE]; [injection E1 as <-; exact (L1 c r G)|]. pose proof (w_bound w ss W j x c r E1 G). lia.
  - exact L3.
Qed.
Lemma winv_add w ss h' d' s' : winv w ss -> length (w_heap w) <= length h' -> (forall r, r < length (w_heap w) -> nth_error h' r = nth_error (w_heap w) r) ->
  (forall c r, dget c (d_items d') = Some (Some r) -> length (w_heap w) <= r < length h') ->
  (forall c c' r, dget c (d_items d') = Some (Some r) -> dget c' (d_items d') = Some (Some r) -> c = c') -> heapok h' -> rel h' d' s' ->
  winv (mkW h' (w_ds w ++ [d'])) (ss ++ [s']).
Proof.
  intros W H1 H2 H3 H4 H5 R. pose proof (w_len w ss W) as LEN.
  assert (N : forall j x, nth_error (w_ds w ++ [d']) j = Some x -> (j < length (w_ds w) /\ nth_error (w_ds w) j = Some x) \/ (j = length (w_ds w) /\ x = d')).
  { intros j x E. destruct (Nat.lt_ge_cases j (length (w_ds w))) as [Hj|Hj]; [left; rewrite nth_error_app1 in E by exact Hj; auto|right]. rewrite nth_error_app2 in E by exact Hj. destruct (j - length (w_ds w)) as [|k] eqn:Q; cbn [nth_error] in E; [injection E as <-; split; [lia|reflexivity]|destruct k; discriminate]. }
  constructor; cbn [w_heap w_ds].
  - rewrite !app_length. cbn [length]. lia.
  - intros j x y E1 E2. destruct (N j x E1) as [[Hj E]|[-> ->]].
    + rewrite nth_error_app1 in E2 by lia. apply rel_frame with (w_heap w); [exact (w_rel w ss W j x y E E2)|]. intros c r G. apply H2. exact (w_bound w ss W j x c r E G).
    + rewrite nth_error_app2 in E2 by lia. rewrite LEN, Nat.sub_diag in E2. cbn [nth_error] in E2. injection E2 as <-. exact R.
  - intros a b x y c c' r E1 E2 G1 G2. destruct (N a x E1) as [[Ha E]|[-> ->]]; destruct (N b y E2) as [[Hb E']|[-> ->]].
    + exact (w_own w ss W a b x y c c' r E E' G1 G2).
    + pose proof (w_bound w ss W a x c r E G1). specialize (H3 c' r G2). lia.
    + pose proof (w_bound w ss W b y c' r E' G2). specialize (H3 c r G1). lia.
    + split; [reflexivity|]. exact (H4 c c' r G1 G2).
  - intros j x c r E1 G. destruct (N j x E1) as [[Hj E]|[-> ->]]; [pose proof (w_bound w ss W j x c r E G); lia|]. specialize (H3 c r G). lia.
  - exact H5.
Qed.

Lemma all_exist_have cs it (s : fstate (V := V)) : s_cols s = map fst it -> all_exist cs it = have cs s.
Proof. intros E. unfold all_exist, have. now rewrite E. Qed.
Lemma have_in cs (s : fstate (V := V)) : have cs s = true -> forall c, In c cs -> In c (s_cols s).
Proof. intros H c I. unfold have in H. rewrite forallb_forall in H. apply mem_in. now apply H. Qed.
Lemma val_none h it l c : ~ In c (map fst it) -> val h it l c = None.
Proof. intros N. unfold val, footer_of. rewrite (proj2 (dget_none c it)); [reflexivity|exact N]. Qed.

(** *** footer_set_values *)
Lemma set_ok h d s label vals : rel h d s -> loc h (d_items d) -> NoDup (map fst vals) ->
  if have (map fst vals) s
  then exists h' d', footer_set_values h d label vals = inl (h', d') /\ frame h (d_items d) h' (d_items d') /\ loc h' (d_items d') /\ rel h' d' (s_set label vals s)
  else footer_set_values h d label vals = inr EIndex.
Proof.
  intros R L ND. destruct (have (map fst vals) s) eqn:H; unfold footer_set_values; rewrite (all_exist_have _ _ s (r_cols h d s R)), H; [|reflexivity].
  change (fold_left _ vals (h, d_items d)) with (fold_left (set_one label) vals (h, d_items d)). destruct (fold_left (set_one label) vals (h, d_items d)) as [h' it'] eqn:E.
  assert (HI : forall c, In c (map fst vals) -> In c (map fst (d_items d))) by (intros c I; rewrite <- (r_cols h d s R); exact (have_in _ s H c I)).
  destruct (set_all_ok label vals h (d_items d) h' it' L HI ND E) as (P1 & P2 & P3 & P4).
  eexists. eexists. split; [reflexivity|]. cbn [d_items]. split; [exact P2|]. split; [exact P1|].
  assert (LB : s_labels (s_set label vals s) = (if mem label (s_labels s) then s_labels s else s_labels s ++ [label])) by reflexivity.
  constructor; cbn [d_items d_footers].
  - cbn [s_set s_cols]. rewrite P3. exact (r_cols h d s R).
  - rewrite LB. now rewrite (r_labels h d s R).
  - intros Q. injection Q as Q. rewrite <- (r_labels h d s R) in Q. destruct (mem label (s_labels s)) eqn:M; [apply mem_in in M; rewrite Q in M; destruct M|]. destruct (s_labels s); discriminate.
  - intros l c. cbn [s_set s_val]. rewrite P4, !(r_val h d s R). reflexivity.
  - rewrite P3. exact (r_nodup h d s R).
  - rewrite LB. destruct (mem label (s_labels s)) eqn:M; [exact (r_lnodup h d s R)|]. apply mem_not in M. apply nodup_snoc; [exact (r_lnodup h d s R)|exact M].
  - intros l c v. rewrite LB. cbn [s_set s_val]. intros Q.
    assert (K : eqn l label = true \/ s_val s l c = Some v) by (destruct (eqn l label); auto). destruct K as [K|K].
    + apply eqn_spec in K. subst l. destruct (mem label (s_labels s)) eqn:M; [now apply mem_in|apply in_or_app; right; now left].
    + pose proof (r_in h d s R l c v K). destruct (mem label (s_labels s)); [assumption|apply in_or_app; now left].
Qed.

(** *** footer_remove *)
Lemma rem_ok h d s labels columns : rel h d s -> loc h (d_items d) -> (columns = None -> forall l, labels = Some l -> NoDup l) ->
  exists h' d' e, footer_remove h d labels columns = (h', d', e) /\ frame h (d_items d) h' (d_items d') /\ loc h' (d_items d') /\
    match chosen labels s, columns with
    | [], _ => e = None /\ rel h' d' s
    | _, Some cs => if have cs s then e = None /\ rel h' d' (s_remove labels columns s) else e = Some EIndex /\ rel h' d' s
    | _, None => e = None /\ rel h' d' (s_remove labels columns s)
    end.
Proof.
  intros R L NL. unfold footer_remove. pose proof (r_labels h d s R) as LB. destruct (d_footers d) as [fs|] eqn:EF.
  2:{ exists h, d, None. split; [reflexivity|]. split; [apply frame_refl|]. split; [exact L|]. assert (C : chosen labels s = []). { unfold chosen. rewrite LB. destruct labels as [l|]; [|reflexivity]. clear. induction l; [reflexivity|exact IHl]. } rewrite C. split; [reflexivity|exact R]. }
  assert (FE : footers_exist fs labels = match chosen labels s with [] => None | r => Some r end).
  { unfold footers_exist, chosen. rewrite LB. destruct labels as [l|]; [reflexivity|]. pose proof (r_some h d s R) as NS. destruct fs; [congruence|reflexivity]. }
  rewrite FE. destruct (chosen labels s) as [|l0 lr] eqn:EC.
  { exists h, d, None. split; [reflexivity|]. split; [apply frame_refl|]. split; [exact L|]. split; [reflexivity|exact R]. }
  cbn iota beta. remember (l0 :: lr) as ls eqn:ELS. clear ELS l0 lr.
  assert (SUB : forall l, In l ls -> In l fs). { intros l I. rewrite <- EC in I. unfold chosen in I. rewrite LB in I. destruct labels as [lb|]; [|exact I]. apply filter_In in I. destruct I as [_ I]. now apply mem_in. }
  change (fun h0 c => match footer_of h0 (d_items d) c with Some cd => change_footer h0 (d_items d) c (fold_left (fun cd0 l => pop l cd0) ls cd) | None => h0 end) with (rem_one (V := V) (d_items d) ls).
  destruct columns as [cs|].
  - rewrite (all_exist_have _ _ s (r_cols h d s R)). destruct (have cs s) eqn:H.
    + destruct (rem_all_ok (d_items d) ls cs h L) as (P1 & P2 & P3). exists (fold_left (rem_one (d_items d) ls) cs h), d, None. split; [reflexivity|]. split; [exact P2|]. split; [exact P1|].
      split; [reflexivity|]. constructor; cbn [s_remove s_cols s_labels s_val].
      * exact (r_cols h d s R).
      * rewrite EF. exact LB.
      * rewrite EF. pose proof (r_some h d s R) as NS. rewrite EF in NS. exact NS.
      * intros l c. rewrite EC. rewrite P3, (r_val h d s R). reflexivity.
      * exact (r_nodup h d s R).
      * exact (r_lnodup h d s R).
      * intros l c v. rewrite EC. destruct (mem l ls && mem c cs); [discriminate|]. exact (r_in h d s R l c v).
    + exists h, d, (Some EIndex). split; [reflexivity|]. split; [apply frame_refl|]. split; [exact L|]. split; [reflexivity|exact R].
  - destruct (rem_all_ok (d_items d) ls (map fst (d_items d)) h L) as (P1 & P2 & P3).
    assert (NDL : NoDup ls). { rewrite <- EC. unfold chosen. destruct labels as [l|]; [apply NoDup_filter, (NL eq_refl l eq_refl)|exact (r_lnodup h d s R)]. }
    rewrite (del_all_ok ls fs NDL SUB). eexists. eexists. eexists. split; [reflexivity|]. cbn [d_items]. split; [exact P2|]. split; [exact P1|]. split; [reflexivity|].
    constructor; cbn [s_remove s_cols s_labels s_val d_items d_footers].
    + exact (r_cols h d s R).
    + rewrite EC. rewrite LB. destruct (filter (fun n => negb (mem n ls)) fs); reflexivity.
    + destruct (filter (fun n => negb (mem n ls)) fs); discriminate.
    + intros l c. rewrite EC. rewrite P3, (r_val h d s R). destruct (mem l ls); [|reflexivity]. cbn [andb]. destruct (mem c (map fst (d_items d))) eqn:M; [reflexivity|]. apply mem_not in M. now rewrite val_none.
    + exact (r_nodup h d s R).
    + apply NoDup_filter. exact (r_lnodup h d s R).
    + intros l c v. rewrite EC. destruct (mem l ls) eqn:M; [discriminate|]. intros Q. apply filter_In. split; [exact (r_in h d s R l c v Q)|]. now rewrite M.
Qed.

(** *** copies *)
Lemma copy_ok h d s cols : rel h d s -> loc h (d_items d) ->
  if match cols with Some cs => have cs s | None => true end
  then exists h' d', ds_copy h d cols true = inl (h', d') /\ length h <= length h' /\ (forall r, r < length h -> nth_error h' r = nth_error h r) /\
    (forall c r, dget c (d_items d') = Some (Some r) -> length h <= r < length h') /\
    (forall c c' r, dget c (d_items d') = Some (Some r) -> dget c' (d_items d') = Some (Some r) -> c = c') /\ heapok h' /\ rel h' d' (s_copy cols s)
  else ds_copy h d cols true = inr EKey.
Proof.
  intros R (L1 & L2 & L3). destruct cols as [cs|].
  - destruct (have cs s) eqn:H; unfold ds_copy, copy_items; rewrite (all_exist_have _ _ s (r_cols h d s R)), H; [|reflexivity].
    assert (HI : forall c, In c cs -> In c (map fst (d_items d))) by (intros c I; rewrite <- (r_cols h d s R); exact (have_in _ s H c I)).
    destruct (copy_cols_ok (d_items d) cs HI [] (NoDup_nil _)) as [A B]. set (it := fold_left _ cs []) in *. destruct (copy_attrs h it) as [h' it'] eqn:E. cbn [map fst app] in A.
    assert (A' : map fst it = once cs). { rewrite A. clear. induction (once cs) as [|x l IH]; [reflexivity|]. cbn [filter mem existsb negb]. now f_equal. }
    destruct (copy_attrs_ok it h h' it') as (P1 & P2 & P3 & P4 & P5 & P6 & P7); [rewrite A'; apply once_nodup|exact L3|intros c r G; rewrite B in G; destruct (mem c cs); [exact (L1 c r G)|discriminate]|exact E|].
    exists h', (mkF it' (d_footers d)). split; [reflexivity|]. cbn [d_items]. split; [exact P1|]. split; [exact P2|]. split; [exact P4|]. split; [exact P5|]. split; [exact P6|].
    constructor; cbn [s_copy s_cols s_labels s_val d_items d_footers].
    + congruence.
    + exact (r_labels h d s R).
    + exact (r_some h d s R).
    + intros l c. unfold val. rewrite P7. unfold footer_of. rewrite B. destruct (mem c cs); [|reflexivity]. rewrite (r_val h d s R). reflexivity.
    + rewrite P3, A'. apply once_nodup.
    + exact (r_lnodup h d s R).
    + intros l c v. destruct (mem c cs); [exact (r_in h d s R l c v)|discriminate].
  - unfold ds_copy, copy_items. destruct (copy_attrs h (d_items d)) as [h' it'] eqn:E.
    destruct (copy_attrs_ok (d_items d) h h' it' (r_nodup h d s R) L3 L1 E) as (P1 & P2 & P3 & P4 & P5 & P6 & P7).
    exists h', (mkF it' (d_footers d)). split; [reflexivity|]. cbn [d_items]. split; [exact P1|]. split; [exact P2|]. split; [exact P4|]. split; [exact P5|]. split; [exact P6|].
    constructor; cbn [s_copy d_items d_footers].
    + rewrite P3. exact (r_cols h d s R).
    + exact (r_labels h d s R).
    + exact (r_some h d s R).
    + intros l c. unfold val. rewrite P7. exact (r_val h d s R l c).
    + rewrite P3. exact (r_nodup h d s R).
    + exact (r_lnodup h d s R).
    + exact (r_in h d s R).
Qed.

(** *** every operation *)
Lemma winv_same w ss i d s : winv w ss -> nth_error (w_ds w) i = Some d -> nth_error ss i = Some s -> winv (mkW (w_heap w) (w_ds w ++ [])) (ss ++ []).
Proof. intros W _ _. rewrite !app_nil_r. now destruct w. Qed.
Lemma dget_filter_ne c c' it : dget c' (filter (fun p => if name_dec (fst p) c then false else true) it) = if eqn c' c then None else dget c' it.
Proof.
  induction it as [|[k a] it IH]; cbn [filter dget fst]; [now destruct (eqn c' c)|]. destruct (name_dec k c) as [->|NE].
  - rewrite IH. destruct (eqn c' c) eqn:Q; [reflexivity|]. destruct (name_dec c c') as [->|]; [rewrite eqn_refl in Q; discriminate|reflexivity].
  - cbn [dget]. rewrite IH. destruct (name_dec k c') as [->|]; [now rewrite (eqn_neq c' c) by exact NE|reflexivity].
Qed.
Lemma dget_rename old new it c : ~ In new (map fst it) -> old <> new ->
  dget c (rename_items old new it) = if eqn c new then dget old it else if eqn c old then None else dget c it.
Proof.
  intros NI ON. induction it as [|[k a] it IH]; [cbn; destruct (eqn c new), (eqn c old); reflexivity|]. cbn [map fst] in NI.
  unfold rename_items in *. cbn [map fst snd dget]. rewrite IH by (intros I; apply NI; now right). unfold eqn. destruct (name_dec k old) as [->|NE].
  - destruct (name_dec new c) as [->|N1].
    + destruct (name_dec c c); [|congruence]. reflexivity.
    + destruct (name_dec c new); [congruence|]. destruct (name_dec c old) as [->|]; [reflexivity|]. destruct (name_dec old c); congruence.
  - destruct (name_dec k c) as [->|N1].
    + destruct (name_dec c new) as [->|]; [exfalso; apply NI; now left|]. destruct (name_dec c old); congruence.
    + reflexivity.
Qed.
Lemma step_ok w ss o : winv w ss -> ok_op ss o ->
  winv (fst (wstep w o)) (fst (s_step ss o)) /\ snd (wstep w o) = snd (s_step ss o).
Proof.
  intros W OK. destruct o as [cols|i label vals|i labels columns|i cols deep|i|i c|i c|i old new|i c].
  { (* new *) cbn [wstep s_step fst snd]. split; [|reflexivity].
    assert (G : forall c (r : nat), dget c (map (fun c : name => (c, @None nat)) (once cols)) <> Some (Some r)).
    { intros c r E. apply dget_some_in in E. apply in_map_iff in E. destruct E as (x & E & _). discriminate. }
    apply winv_add; cbn [d_items]; auto.
    - intros c r E. exfalso. exact (G c r E).
    - intros c c' r E. exfalso. exact (G c r E).
    - exact (w_ok w ss W).
    - assert (M : map fst (map (fun c : name => (c, @None nat)) (once cols)) = once cols) by (rewrite map_map; cbn [fst]; apply map_id).
      constructor; cbn [s_cols s_labels s_val d_items d_footers]; auto; try discriminate.
      + intros l c. unfold val, footer_of. destruct (dget c (map (fun c0 => (c0, None)) (once cols))) as [[r|]|] eqn:E; try reflexivity. exfalso. exact (G c r E).
      + rewrite M. apply once_nodup.
      + constructor. }
  all: cbn [wstep s_step target]; unfold on; destruct (nth_error (w_ds w) i) as [d|] eqn:Ed;
    [|assert (Es : nth_error ss i = None) by (apply nth_error_None; rewrite <- (w_len w ss W); now apply nth_error_None); rewrite Es; split; [exact W|reflexivity]].
  all: assert (XE : exists s, nth_error ss i = Some s) by
    (destruct (nth_error ss i) as [s|] eqn:Es; [now exists s|]; apply nth_error_None in Es; rewrite <- (w_len w ss W) in Es; apply nth_error_None in Es; congruence).
  all: destruct XE as [s Es]; rewrite Es; pose proof (w_rel w ss W i d s Ed Es) as R; pose proof (winv_loc w ss i d W Ed) as L; cbn [s_at].
  - (* set *) pose proof (set_ok (w_heap w) d s label vals R L OK) as H. destruct (have (map fst vals) s).
    + destruct H as (h' & d' & -> & F & L' & R'). cbn [fst snd]. split; [|reflexivity]. rewrite !app_nil_r. now apply (winv_upd w ss i d s).
    + rewrite H. cbn [fst snd]. split; [|reflexivity]. now apply (winv_same w ss i d s).
  - (* remove *) destruct (rem_ok (w_heap w) d s labels columns R L) as (h' & d' & e & -> & F & L' & H).
    { intros -> l ->. exact OK. }
    cbn [fst snd]. rewrite app_nil_r.
    assert (SAME : rel h' d' s -> winv (mkW h' (upd (w_ds w) i d')) ss).
    { intros R'. assert (Q := winv_upd w ss i d s h' d' s W Ed Es F L' R'). replace (s_upd ss i s) with ss in Q; [exact Q|]. unfold s_upd. symmetry.
      clear -Es. revert i Es. induction ss as [|x l IH]; intros [|i] E; cbn in E; try discriminate; [injection E as ->; reflexivity|]. cbn [firstn skipn app]. f_equal. now apply IH. }
    destruct (chosen labels s) as [|l0 lr].
    + destruct H as [-> H]. cbn [fst snd]. rewrite app_nil_r. split; [now apply SAME|reflexivity].
    + destruct columns as [cs|].
      * destruct (have cs s); destruct H as [-> H]; cbn [fst snd]; rewrite app_nil_r; (split; [|reflexivity]); [now apply (winv_upd w ss i d s)|now apply SAME].
      * destruct H as [-> H]. cbn [fst snd]. rewrite app_nil_r. split; [|reflexivity]. now apply (winv_upd w ss i d s).
  - (* copy *) cbn [ok_op] in OK. subst deep. pose proof (copy_ok (w_heap w) d s cols R L) as H. destruct (match cols with Some cs => have cs s | None => true end).
    + destruct H as (h' & d' & -> & H1 & H2 & H3 & H4 & H5 & H6). cbn [fst snd]. split; [|reflexivity]. now apply winv_add.
    + rewrite H. cbn [fst snd]. split; [|reflexivity]. now apply (winv_same w ss i d s).
  - (* sort_copy *) specialize (OK s Es). unfold ds_sort_copy. pose proof (r_labels _ d s R) as LB. rewrite OK in LB.
    assert (EF : d_footers d = None). { pose proof (r_some _ d s R). destruct (d_footers d) as [[|x l]|]; [congruence|discriminate|reflexivity]. }
    rewrite EF. cbn [fst snd]. split; [|reflexivity].
    assert (G : forall c (r : nat), dget c (map (fun p : name * option nat => (fst p, @None nat)) (d_items d)) <> Some (Some r)).
    { intros c r E. apply dget_some_in in E. apply in_map_iff in E. destruct E as (x & E & _). discriminate. }
    assert (M : map fst (map (fun p : name * option nat => (fst p, @None nat)) (d_items d)) = map fst (d_items d)) by (rewrite map_map; reflexivity).
    apply winv_add; cbn [d_items]; auto.
    + intros c r E. exfalso. exact (G c r E).
    + intros c c' r E. exfalso. exact (G c r E).
    + exact (w_ok w ss W).
    + constructor; cbn [d_items d_footers].
      * rewrite M. exact (r_cols _ d s R).
      * now rewrite OK.
      * discriminate.
      * intros l c. unfold val, footer_of. destruct (s_val s l c) as [v|] eqn:Q; [exfalso; pose proof (r_in _ d s R l c v Q) as I; rewrite OK in I; destruct I|]. destruct (dget c (map _ (d_items d))) as [[r|]|] eqn:E; try reflexivity. exfalso. exact (G c r E).
      * rewrite M. exact (r_nodup _ d s R).
      * exact (r_lnodup _ d s R).
      * exact (r_in _ d s R).
  - (* assign *) cbn [fst snd]. split; [|reflexivity]. rewrite !app_nil_r. rewrite (r_cols _ d s R). destruct (mem c (map fst (d_items d))) eqn:M.
    + apply (winv_upd w ss i d s); auto. apply frame_refl.
    + apply mem_not in M.
      assert (G : forall c', dget c' (d_items d ++ [(c, None)]) = if eqn c' c then Some None else dget c' (d_items d)).
      { intros c'. rewrite <- (dset_fresh c None (d_items d) M). rewrite dget_dset. unfold eqn. destruct (name_dec c c'); destruct (name_dec c' c); congruence. }
      apply (winv_upd w ss i d s); cbn [d_items]; auto.
      * split; [lia|]. split; [reflexivity|]. intros c' r E. rewrite G in E. destruct (eqn c' c); [discriminate|]. left. now exists c'.
      * destruct L as (L1 & L2 & L3). split; [|split; [|exact L3]].
        -- intros c' r E. rewrite G in E. destruct (eqn c' c); [discriminate|]. exact (L1 c' r E).
        -- intros c1 c2 r E1 E2. rewrite G in E1, E2. destruct (eqn c1 c); [discriminate|]. destruct (eqn c2 c); [discriminate|]. exact (L2 c1 c2 r E1 E2).
      * constructor; cbn [s_cols s_labels s_val d_items d_footers].
        -- now rewrite map_app.
        -- exact (r_labels _ d s R).
        -- exact (r_some _ d s R).
        -- intros l c'. rewrite (r_val _ d s R). unfold val, footer_of. rewrite G. destruct (eqn c' c) eqn:Q; [|reflexivity]. apply eqn_spec in Q. subst c'. now rewrite (proj2 (dget_none c (d_items d)) M).
        -- rewrite map_app. cbn [map fst]. apply nodup_snoc; [exact (r_nodup _ d s R)|exact M].
        -- exact (r_lnodup _ d s R).
        -- exact (r_in _ d s R).
  - (* delete *) cbn [fst snd]. split; [|reflexivity]. rewrite !app_nil_r. apply (winv_upd w ss i d s); cbn [d_items]; auto.
    + split; [lia|]. split; [reflexivity|]. intros c' r E. rewrite dget_filter_ne in E. destruct (eqn c' c); [discriminate|]. left. now exists c'.
    + destruct L as (L1 & L2 & L3). split; [|split; [|exact L3]].
      * intros c' r E. rewrite dget_filter_ne in E. destruct (eqn c' c); [discriminate|]. exact (L1 c' r E).
      * intros c1 c2 r E1 E2. rewrite dget_filter_ne in E1, E2. destruct (eqn c1 c); [discriminate|]. destruct (eqn c2 c); [discriminate|]. exact (L2 c1 c2 r E1 E2).
    + assert (M : map fst (filter (fun p : name * option nat => if name_dec (fst p) c then false else true) (d_items d)) = filter (fun n => negb (eqn n c)) (map fst (d_items d))).
      { clear. induction (d_items d) as [|[k a] l IH]; [reflexivity|]. cbn [filter map fst]. unfold eqn at 1. destruct (name_dec k c); cbn [negb map fst]; now rewrite IH. }
      constructor; cbn [s_delete s_cols s_labels s_val d_items d_footers].
      * rewrite M. now rewrite (r_cols _ d s R).
      * exact (r_labels _ d s R).
      * exact (r_some _ d s R).
      * intros l c'. unfold val, footer_of. rewrite dget_filter_ne. destruct (eqn c' c); [reflexivity|]. rewrite (r_val _ d s R). reflexivity.
      * rewrite M. apply NoDup_filter. exact (r_nodup _ d s R).
      * exact (r_lnodup _ d s R).
      * intros l c' v. destruct (eqn c' c); [discriminate|]. exact (r_in _ d s R l c' v).
  - (* rename *) destruct (name_dec old new) as [->|ON].
    { rewrite eqn_refl. cbn [fst snd]. split; [|reflexivity]. now apply (winv_same w ss i d s). }
    rewrite (eqn_neq old new ON). rewrite (r_cols _ d s R). destruct (mem old (map fst (d_items d))) eqn:MO; cbn [negb orb andb].
    2:{ cbn [fst snd]. split; [|reflexivity]. now apply (winv_same w ss i d s). }
    destruct (mem new (map fst (d_items d))) eqn:MN; cbn [negb].
    { cbn [fst snd]. split; [|reflexivity]. now apply (winv_same w ss i d s). }
    apply mem_in in MO. apply mem_not in MN. cbn [fst snd]. split; [|reflexivity]. rewrite !app_nil_r.
    assert (G : forall c, dget c (rename_items old new (d_items d)) = if eqn c new then dget old (d_items d) else if eqn c old then None else dget c (d_items d)) by (intros c; now apply dget_rename).
    assert (B : forall c r, dget c (rename_items old new (d_items d)) = Some (Some r) -> (c = new /\ dget old (d_items d) = Some (Some r)) \/ (c <> new /\ c <> old /\ dget c (d_items d) = Some (Some r))).
    { intros c r E. rewrite G in E. destruct (eqn c new) eqn:Q; [left; apply eqn_spec in Q; auto|]. destruct (eqn c old) eqn:Q'; [discriminate|]. right. split; [intros ->; rewrite eqn_refl in Q; discriminate|]. split; [intros ->; rewrite eqn_refl in Q'; discriminate|exact E]. }
    apply (winv_upd w ss i d s); cbn [d_items]; auto.
    + split; [lia|]. split; [reflexivity|]. intros c r E. left. destruct (B c r E) as [[_ E']|(_ & _ & E')]; eauto.
    + destruct L as (L1 & L2 & L3). split; [|split; [|exact L3]].
      * intros c r E. destruct (B c r E) as [[_ E']|(_ & _ & E')]; eauto.
      * intros c1 c2 r E1 E2. destruct (B c1 r E1) as [[-> E1']|(N1 & N1' & E1')]; destruct (B c2 r E2) as [[-> E2']|(N2 & N2' & E2')]; auto.
        -- exfalso. apply N2'. exact (L2 c2 old r E2' E1').
        -- exfalso. apply N1'. exact (L2 c1 old r E1' E2').
        -- exact (L2 c1 c2 r E1' E2').
    + constructor; cbn [s_rename s_cols s_labels s_val d_items d_footers].
      * rewrite (r_cols _ d s R). unfold rename_items. rewrite !map_map. reflexivity.
      * exact (r_labels _ d s R).
      * exact (r_some _ d s R).
      * intros l c. unfold val, footer_of. rewrite G. destruct (eqn c new); [rewrite (r_val _ d s R); reflexivity|]. destruct (eqn c old); [reflexivity|]. rewrite (r_val _ d s R). reflexivity.
      * unfold rename_items. rewrite map_map. cbn [fst]. pose proof (r_nodup _ d s R) as N. clear -N MN. rewrite <- (map_map fst (fun c => if name_dec c old then new else c)). induction (map fst (d_items d)) as [|x l IH]; [constructor|]. inversion N as [|? ? N1 N2]; subst. cbn [map]. constructor; [|apply IH; [intros J; apply MN; now right|exact N2]].
        intros J. apply in_map_iff in J. destruct J as (y & E & J). destruct (name_dec y old) as [->|NE]; destruct (name_dec x old) as [->|NE']; try congruence. subst x. apply MN. now left. subst y. apply MN. now right.
      * exact (r_lnodup _ d s R).
      * intros l c v. destruct (eqn c new); [exact (r_in _ d s R l old v)|]. destruct (eqn c old); [discriminate|]. exact (r_in _ d s R l c v).
  - (* mark *) rewrite (r_cols _ d s R). destruct (dget c (d_items d)) as [[r|]|] eqn:G.
    + cbn [fst snd]. assert (I : In c (map fst (d_items d))) by (apply in_map_iff; exists (c, Some r); split; [reflexivity|now apply dget_some_in]). rewrite (proj2 (mem_in c _) I). split; [|reflexivity]. now apply (winv_same w ss i d s).
    + cbn [fst snd]. assert (I : In c (map fst (d_items d))) by (apply in_map_iff; exists (c, None); split; [reflexivity|now apply dget_some_in]). rewrite (proj2 (mem_in c _) I). split; [|reflexivity]. rewrite !app_nil_r.
      destruct (new_loc (w_heap w) (d_items d) c None L) as (P1 & P2 & P3 & P4); [intros r X; congruence|exact I|discriminate|].
      assert (Q := winv_upd w ss i d s (w_heap w ++ [None]) (mkF (dset c (Some (length (w_heap w))) (d_items d)) (d_footers d)) s W Ed Es). cbn [d_items] in Q.
      replace (s_upd ss i s) with ss in Q.
      * apply Q; [exact P2|exact P1|]. constructor; cbn [d_items d_footers].
        -- rewrite P3. exact (r_cols _ d s R).
        -- exact (r_labels _ d s R).
        -- exact (r_some _ d s R).
        -- intros l c'. rewrite P4. rewrite (r_val _ d s R). destruct (eqn c' c) eqn:QQ; [|reflexivity]. apply eqn_spec in QQ. subst c'. unfold val, footer_of. now rewrite G.
        -- rewrite P3. exact (r_nodup _ d s R).
        -- exact (r_lnodup _ d s R).
        -- exact (r_in _ d s R).
      * unfold s_upd. clear -Es. revert i Es. induction ss as [|x l IH]; intros [|i] E; cbn in E; try discriminate; [injection E as ->; reflexivity|]. cbn [firstn skipn app]. f_equal. now apply IH.
    + cbn [fst snd]. apply dget_none in G. rewrite (proj2 (mem_not c _) G). split; [|reflexivity]. now apply (winv_same w ss i d s).
Qed.
Lemma run_ok ops : forall w ss, winv w ss -> ok_ops ss ops -> winv (fold_left (fun w o => fst (wstep w o)) ops w) (fold_left (fun w o => fst (s_step w o)) ops ss).
Proof.
  induction ops as [|o ops IH]; intros w ss W OK; cbn [fold_left]; [exact W|]. destruct OK as [O1 O2]. apply IH; [now apply step_ok|exact O2].
Qed.
Lemma winv_init : winv (mkW [] []) [].
Proof.
  constructor; cbn [w_ds w_heap]; auto.
  - intros [|i] d s E; discriminate.
  - intros [|i] j d d' c c' r E; discriminate.
  - intros [|i] d c r E; discriminate.
  - intros [|r] cd E; discriminate.
Qed.

(** *** the answers *)
Lemma exist_chosen h d s fs labels : rel h d s -> d_footers d = Some fs -> footers_exist fs labels = match chosen labels s with [] => None | r => Some r end.
Proof.
  intros R EF. pose proof (r_labels h d s R) as LB. rewrite EF in LB. unfold footers_exist, chosen. rewrite LB. destruct labels as [l|]; [reflexivity|]. pose proof (r_some h d s R) as NS. destruct fs; [congruence|reflexivity].
Qed.
Lemma chosen_none h d s labels : rel h d s -> d_footers d = None -> chosen labels s = [].
Proof.
  intros R EF. pose proof (r_labels h d s R) as LB. rewrite EF in LB. unfold chosen. rewrite LB. destruct labels as [l|]; [|reflexivity]. clear. induction l; [reflexivity|exact IHl].
Qed.
Lemma get_values_ok h d s labels columns fill : rel h d s -> footer_get_values h d labels columns fill = s_get_values s labels columns fill.
Proof.
  intros R. unfold footer_get_values, s_get_values. destruct (d_footers d) as [fs|] eqn:EF; [|now rewrite (chosen_none h d s labels R EF)].
  rewrite (exist_chosen h d s fs labels R EF).
  assert (E : forall ls, map (fun l => (l, map (fun c => match footer_of h (d_items d) c with Some cd => match dget l cd with Some v => v | None => fill end | None => fill end) (match columns with Some cs => cs | None => map fst (d_items d) end))) ls
    = map (fun l => (l, map (fun c => match s_val s l c with Some v => v | None => fill end) (match columns with Some cs => cs | None => s_cols s end))) ls).
  { intros ls. apply map_ext. intros l. f_equal. rewrite (r_cols h d s R). apply map_ext. intros c. rewrite (r_val h d s R). unfold val. destruct (footer_of h (d_items d) c); reflexivity. }
  destruct (chosen labels s) as [|x l]; [reflexivity|]. apply E.
Qed.
Lemma fold_dict (f : name -> option V) cs : forall m, (forall c, In c (map fst m) -> dget c m = f c) -> NoDup (map fst m) ->
  fold_left (fun m c => match f c with Some v => dset c v m | None => m end) cs m
  = m ++ flat_map (fun c => match f c with Some v => [(c, v)] | None => [] end) (filter (fun c => negb (mem c (map fst m))) (once cs)).
Proof.
  induction cs as [|c cs IH]; intros m HM ND; cbn [fold_left once].
  - cbn [filter flat_map]. now rewrite app_nil_r.
  - destruct (f c) as [v|] eqn:F.
    + destruct (in_dec name_dec c (map fst m)) as [I|I].
      * assert (D : dset c v m = m). { specialize (HM c I). rewrite F in HM. clear -HM. induction m as [|[k x] m IHm]; cbn [dget dset] in *; [discriminate|]. destruct (name_dec k c) as [->|]; [congruence|]. f_equal. now apply IHm. }
        rewrite D, IH by assumption. f_equal. cbn [filter]. rewrite (proj2 (mem_in c (map fst m)) I). cbn [negb]. f_equal. clear -I. induction (once cs) as [|y l IHl]; [reflexivity|]. cbn [filter]. destruct (name_dec y c) as [->|NE].
        -- rewrite (proj2 (mem_in c (map fst m)) I). exact IHl.
        -- cbn [filter]. destruct (negb (mem y (map fst m))); [f_equal|]; exact IHl.
      * rewrite dset_fresh by exact I. rewrite IH.
        -- rewrite <- app_assoc. f_equal. cbn [filter]. rewrite (proj2 (mem_not c (map fst m)) I). cbn [negb flat_map]. rewrite F. cbn [app]. f_equal. rewrite map_app. cbn [map fst]. f_equal. clear. induction (once cs) as [|y l IHl]; [reflexivity|]. cbn [filter]. destruct (name_dec y c) as [->|NE].
           ++ rewrite (proj2 (mem_in c (map fst m ++ [c]))) by (apply in_or_app; right; now left). exact IHl.
           ++ cbn [filter]. assert (M : mem y (map fst m ++ [c]) = mem y (map fst m)).
              { destruct (mem y (map fst m)) eqn:Q; [apply mem_in, in_or_app; left; now apply mem_in|]. apply mem_not. intros J. apply in_app_or in J. destruct J as [J|[J|[]]]; [apply mem_not in Q; contradiction|congruence]. }
              rewrite M. destruct (negb (mem y (map fst m))); [f_equal|]; exact IHl.
        -- intros c' I'. rewrite <- (dset_fresh c v m I). rewrite dget_dset. destruct (name_dec c c') as [<-|NE]; [congruence|]. apply HM. rewrite map_app in I'. apply in_app_or in I'. destruct I' as [I'|[I'|[]]]; [exact I'|cbn in I'; congruence].
        -- rewrite map_app. cbn [map fst]. now apply nodup_snoc.
    + rewrite IH by assumption. f_equal. cbn [filter].
      assert (E : forall l, flat_map (fun c => match f c with Some v => [(c, v)] | None => [] end) (filter (fun c0 => negb (mem c0 (map fst m))) l) = flat_map (fun c => match f c with Some v => [(c, v)] | None => [] end) (filter (fun c0 => negb (mem c0 (map fst m))) (filter (fun n => if name_dec n c then false else true) l))).
      { induction l as [|y l IHl]; [reflexivity|]. cbn [filter]. destruct (name_dec y c) as [->|NE]; cbn [filter]; destruct (negb (mem _ (map fst m))); cbn [flat_map]; rewrite ?F; cbn [app]; rewrite ?IHl; reflexivity. }
      rewrite (E (once cs)). destruct (negb (mem c (map fst m))); [|reflexivity]. cbn [flat_map]. now rewrite F.
Qed.
Lemma get_dict_ok isnone h d s labels columns : rel h d s -> footer_get_dict isnone h d labels columns = s_get_dict isnone s labels columns.
Proof.
  intros R. unfold footer_get_dict, s_get_dict. destruct (d_footers d) as [fs|] eqn:EF; [|now rewrite (chosen_none h d s labels R EF)].
  rewrite (exist_chosen h d s fs labels R EF). rewrite <- (r_cols h d s R). set (cs := match columns with Some cs => cs | None => s_cols s end). set (q := fun _ : name => _) at 1.
  assert (E : forall ls, map q ls = map (fun l => (l, flat_map (fun c => match s_val s l c with Some v => if isnone v then [] else [(c, v)] | None => [] end) (once cs))) ls).
  { intros ls. apply map_ext. intros l. unfold q. f_equal.
    assert (X := fold_dict (fun c => match s_val s l c with Some v => if isnone v then None else Some v | None => None end) cs [] (fun c I => match I with end) (NoDup_nil _)). cbn [app map fst] in X.
    etransitivity; [|etransitivity; [exact X|]].
    - set (g := fun (m : list (name * V)) c => match match s_val s l c with Some v => if isnone v then None else Some v | None => None end with Some v => dset c v m | None => m end).
      assert (G : forall cs m, fold_left (fun m c => match footer_of h (d_items d) c with Some cd => match dget l cd with Some v => if isnone v then m else dset c v m | None => m end | None => m end) cs m = fold_left g cs m).
      { induction cs0 as [|c cs0 IH]; intros m; [reflexivity|]. cbn [fold_left]. rewrite IH. f_equal. unfold g. rewrite (r_val h d s R). unfold val. destruct (footer_of h (d_items d) c) as [cd|]; [|reflexivity]. destruct (dget l cd) as [v|]; [|reflexivity]. destruct (isnone v); reflexivity. }
      apply G.
    - assert (FT : filter (fun c => negb (mem c [])) (once cs) = once cs) by (clear; induction (once cs) as [|x l IH]; [reflexivity|]; cbn [filter mem existsb negb]; now f_equal). rewrite FT. clear. induction (once cs) as [|c l' IH]; [reflexivity|]. cbn [flat_map]. rewrite IH. destruct (s_val s l c) as [v|]; [|reflexivity]. destruct (isnone v); reflexivity. }
  destruct (chosen labels s) as [|x l]; [reflexivity|]. apply E.
Qed.
End P.
