(** flattening a Multiset horizontally *)
From Coq Require Import List Arith Bool Lia.
From Verif Require Import FlattenModel FlattenProofs MergeModel MergeColsProofs2 DsModel DsSpec DsProofs DsProofs3 DsProofs5 MuSpec MuModel.
Import ListNotations.

Section Trees.
Context {V : Type}.
Notation ds := (ds V).
Notation tree := (tree V).
Notation table := (table V).
Lemma tree_rect' (P : tree -> Prop) : (forall d, P (Leaf d)) -> (forall l, Forall (fun p => P (snd p)) l -> P (Node l)) -> forall t, P t.
Proof.
  intros HL HN. fix IH 1. intros [d|l]; [apply HL|]. apply HN. induction l as [|p l IHl]; constructor; [apply IH|exact IHl].
Qed.
Lemma leaves_cons (p : name * tree) l : leaves (Node (p :: l)) = map (fun q => (fst p :: fst q, snd q)) (leaves (snd p)) ++ leaves (Node l).
Proof. reflexivity. Qed.
Lemma leaves_app (l l' : list (name * tree)) : leaves (Node (l ++ l')) = leaves (Node l) ++ leaves (Node l').
Proof. cbn [leaves]. apply flat_map_app. Qed.

Lemma nodup_app_inv {X} (l l' : list X) : NoDup (l ++ l') -> NoDup l /\ NoDup l' /\ forall x, In x l -> ~ In x l'.
Proof.
  induction l as [|a l IH]; cbn; intros H; [repeat split; [constructor|exact H|intros x []]|]. inversion H as [|? ? N H']; subst. destruct (IH H') as (A & B & C). rewrite in_app_iff in N.
  split; [constructor; tauto|]. split; [exact B|]. intros x [<-|Hx]; [tauto|now apply C].
Qed.
Lemma mem_true n l : mem n l = true <-> In n l.
Proof.
  unfold mem. rewrite existsb_exists. split.
  - intros (m & Hm & E). destruct (name_dec m n); [now subst|discriminate].
  - intros H. exists n. split; [exact H|]. destruct (name_dec n n); congruence.
Qed.
Lemma mem_false n l : mem n l = false <-> ~ In n l.
Proof. rewrite <- mem_true. destruct (mem n l); split; congruence. Qed.

(** *** picking columns *)
Lemma dget_some_in {X} n (t : list (name * X)) c : dget n t = Some c -> In (n, c) t.
Proof.
  induction t as [|[m d] t IH]; cbn; [discriminate|]. destruct (name_dec m n) as [->|]; [intros [= ->]; now left|]. intros H. right. now apply IH.
Qed.
Lemma dget_none {X} n (t : list (name * X)) : dget n t = None <-> ~ In n (map fst t).
Proof.
  induction t as [|[m d] t IH]; cbn; [tauto|]. destruct (name_dec m n) as [->|N].
  - split; [discriminate|]. intros H. elim H. now left.
  - rewrite IH. split; [intros H [E|E]; [congruence|tauto]|tauto].
Qed.
Lemma pick_go_ok ns (t : table) : forall acc, NoDup (names acc ++ ns) -> incl ns (names t) ->
  pick_go ns t acc = Some (acc ++ flat_map (fun l => match dget l t with Some c => [(l, c)] | None => [] end) ns).
Proof.
  induction ns as [|n ns IH]; intros acc ND I; cbn [pick_go flat_map]; [now rewrite app_nil_r|].
  destruct (dget n t) as [c|] eqn:E; [|apply dget_none in E; elim E; apply I; now left].
  assert (Hn : ~ In n (names acc)) by (apply NoDup_remove_2 in ND; rewrite in_app_iff in ND; tauto).
  rewrite dset_fresh by exact Hn. rewrite IH.
  - now rewrite <- app_assoc.
  - unfold names. rewrite map_app, <- app_assoc. exact ND.
  - intros x Hx. apply I. now right.
Qed.
Lemma filter_none {X} (f : X -> bool) l : (forall x, In x l -> f x = false) -> filter f l = [].
Proof. induction l as [|a l IH]; cbn; intros H; [reflexivity|]. rewrite H by (now left). apply IH. intros x Hx. apply H. now right. Qed.
Lemma filter_all {X} (f : X -> bool) l : (forall x, In x l -> f x = true) -> filter f l = l.
Proof. induction l as [|a l IH]; cbn; intros H; [reflexivity|]. rewrite H by (now left). f_equal. apply IH. intros x Hx. apply H. now right. Qed.
Lemma names_filter (P : name -> bool) (t : table) : filter P (names t) = names (filter (fun c => P (fst c)) t).
Proof. induction t as [|[n c] t IH]; cbn; [reflexivity|]. destruct (P n); cbn; [f_equal|]; exact IH. Qed.
Lemma flat_dget (t : table) : NoDup (names t) -> forall s : table, incl s t ->
  flat_map (fun l => match dget l t with Some c => [(l, c)] | None => [] end) (names s) = s.
Proof.
  intros ND. induction s as [|[n c] s IH]; intros I; cbn [names map flat_map]; [reflexivity|]. cbn [fst].
  rewrite (dget_in n c t ND (I _ (or_introl eq_refl))). cbn [app]. f_equal. apply IH. intros x Hx. apply I. now right.
Qed.
Lemma nodup_filter {X} (f : X -> bool) l : NoDup l -> NoDup (filter f l).
Proof. induction 1; cbn; [constructor|]. destruct (f x); [|exact IHNoDup]. constructor; [|exact IHNoDup]. rewrite filter_In. tauto. Qed.
Lemma pick_values ls (t : table) : NoDup (names t) -> pick_go (not_in ls t) t [] = Some (filter (fun c => negb (mem (fst c) ls)) t).
Proof.
  intros ND. unfold not_in. rewrite pick_go_ok.
  - cbn [app]. rewrite names_filter, flat_dget; [reflexivity|exact ND|]. intros x Hx. apply filter_In in Hx. tauto.
  - cbn [names map app]. now apply nodup_filter.
  - intros x Hx. apply filter_In in Hx. tauto.
Qed.
Lemma label_cols_names (d : ds) : incl (labels d) (names (cols d)) -> names (label_cols d) = labels d.
Proof.
  unfold label_cols. destruct d as [ls t]. cbn. induction ls as [|l ls IH]; intros I; [reflexivity|]. cbn [flat_map].
  destruct (dget l t) as [c|] eqn:E; [|apply dget_none in E; elim E; apply I; now left].
  cbn. f_equal. apply IH. intros x Hx. apply I. now right.
Qed.
Lemma label_cols_in (d : ds) c : In c (label_cols d) -> In c (cols d).
Proof.
  unfold label_cols. rewrite in_flat_map. intros (l & Hl & H). destruct (dget l (cols d)) as [x|] eqn:E; [|destruct H]. destruct H as [<-|[]]. now apply dget_some_in.
Qed.

(** *** joining columns *)
Lemma concat2_ok (a b : table) : NoDup (names a) ->
  (concat2 a b = Some (a ++ b) /\ shape0 a = shape0 b /\ NoDup (names (a ++ b))) \/
  (concat2 a b = None /\ ~ (shape0 a = shape0 b /\ NoDup (names (a ++ b)))).
Proof.
  intros NA. unfold concat2, concat_columns. cbn [length Nat.eqb andb forallb fst map snd concat]. rewrite app_nil_r, andb_true_r.
  destruct (shape0 b =? shape0 a) eqn:E; cbn [negb].
  - apply Nat.eqb_eq in E. destruct (cc_raise MisWarn (a ++ b) [] [] (NoDup_nil _)) as (R1 & R2). cbn [names map app] in R1, R2.
    destruct (nodup_names_dec (names (a ++ b))) as [N|N].
    + left. destruct (R1 N) as (t & -> & ->). auto.
    + right. rewrite (R2 N). split; [reflexivity|]. tauto.
  - right. apply Nat.eqb_neq in E. split; [reflexivity|]. intros (? & _). lia.
Qed.

(** *** renaming *)
Variable valid : name -> bool.
Variable delim : name.
Notation put nm := (fun c : name * list V => (nm ++ delim ++ fst c, snd c)).
Lemma rename_mid old new (A w : table) c : NoDup (names (A ++ (old, c) :: w)) ->
  (rename valid old new (A ++ (old, c) :: w) = Some (A ++ (new, c) :: w) /\ NoDup (names (A ++ (new, c) :: w))) \/
  (rename valid old new (A ++ (old, c) :: w) = None /\ old <> new /\ (valid new = false \/ In new (names (A ++ (old, c) :: w)))).
Proof.
  intros ND. unfold rename. destruct (name_dec old new) as [->|N]; [now left|].
  destruct (valid new) eqn:EV; cbn [negb]; [|right; auto].
  replace (mem old (names (A ++ (old, c) :: w))) with true by (symmetry; apply mem_true; unfold names; rewrite map_app; apply in_or_app; right; now left).
  cbn [negb]. destruct (mem new (names (A ++ (old, c) :: w))) eqn:EM; [right; apply mem_true in EM; auto|]. left. apply mem_false in EM.
  unfold names in *. rewrite map_app in ND, EM. cbn [map fst] in ND, EM.
  pose proof (NoDup_remove_2 _ _ _ ND) as NR. rewrite in_app_iff in NR, EM. cbn [In] in EM. split.
  - f_equal. rewrite map_app. cbn [map fst snd]. destruct (name_dec old old) as [_|]; [|congruence].
    assert (id : forall s : table, ~ In old (map fst s) -> map (fun c0 => if name_dec (fst c0) old then (new, snd c0) else c0) s = s).
    { induction s as [|[x y] s IH]; cbn [map fst snd In]; intros H; [reflexivity|]. destruct (name_dec x old) as [->|]; [elim H; now left|]. f_equal. apply IH. tauto. }
    rewrite !id by tauto. reflexivity.
  - rewrite map_app. cbn [map fst]. apply NoDup_remove_1 in ND. apply NoDup_Add with (a := new) (l := map fst A ++ map fst w); [apply Add_app|]. split; [exact ND|]. rewrite in_app_iff. tauto.
Qed.
Lemma rename_all_sound nm : forall (w A : table), NoDup (names (A ++ w)) -> forall t,
  rename_all valid delim nm (names w) (A ++ w) = Some t -> t = A ++ map (put nm) w /\ NoDup (names t).
Proof.
  induction w as [|[c v] w IH]; intros A ND t; cbn [names map rename_all].
  - intros [= <-]. auto.
  - cbn [fst]. destruct (rename_mid c (nm ++ delim ++ c) A w v ND) as [(-> & ND')|(-> & _)]; [|discriminate].
    intros H. destruct (IH (A ++ [(nm ++ delim ++ c, v)])) with (t := t) as (-> & N); [rewrite <- app_assoc; exact ND'|rewrite <- app_assoc; exact H|]. split; [rewrite <- app_assoc; reflexivity|exact N].
Qed.
Lemma rename_all_works nm : forall (w A : table), NoDup (names (A ++ w)) ->
  (forall c, In c (names w) -> valid (nm ++ delim ++ c) = true) ->
  (forall c, In c (names w) -> ~ In (nm ++ delim ++ c) (names A) /\ ~ In (nm ++ delim ++ c) (names w)) ->
  exists t, rename_all valid delim nm (names w) (A ++ w) = Some t.
Proof.
  induction w as [|[c v] w IH]; intros A ND HV HN; cbn [names map rename_all]; [eauto|].
  cbn [fst]. destruct (rename_mid c (nm ++ delim ++ c) A w v ND) as [(-> & ND')|(_ & NE & [H|H])].
  - destruct (IH (A ++ [(nm ++ delim ++ c, v)])) as (t & Et); [rewrite <- app_assoc; exact ND'| | |exists t; rewrite <- app_assoc in Et; exact Et]; [intros x Hx; apply HV; now right|].
    intros x Hx. destruct (HN x (or_intror Hx)) as (H1 & H2). split; [|intros Q; apply H2; now right].
    unfold names. rewrite map_app, in_app_iff. cbn [map fst In]. intros [Q|[Q|[]]]; [tauto|].
    apply app_inv_head in Q. apply app_inv_head in Q. subst x. unfold names in ND. rewrite map_app in ND. apply NoDup_remove_2 in ND. rewrite in_app_iff in ND. tauto.
  - rewrite HV in H by (now left). discriminate.
  - destruct (HN c (or_introl eq_refl)) as (H1 & H2). unfold names in H. rewrite map_app, in_app_iff in H. destruct H as [H|H]; [tauto|]. elim H2. exact H.
Qed.
End Trees.
Arguments concat2_ok {V}.

(** ** soundness *)
Section Horizontal.
Context {V : Type}.
Notation ds := (ds V).
Notation tree := (tree V).
Notation table := (table V).
Variable valid : name -> bool.
Variable delim : name.
Variable n : nat.
Definition full (ls : list (list name * ds)) : table :=
  flat_map (fun q => map (fun c => (joined delim (fst q ++ [fst c]), snd c)) (values_of (snd q))) ls.
Definition under (nm : name) (ls : list (list name * ds)) : list (list name * ds) := map (fun q => (nm :: fst q, snd q)) ls.
Lemma joined_cons nm p : p <> [] -> joined delim (nm :: p) = nm ++ delim ++ joined delim p.
Proof. destruct p; [congruence|reflexivity]. Qed.
Lemma full_under nm ls : full (under nm ls) = map (fun c => (nm ++ delim ++ fst c, snd c)) (full ls).
Proof.
  unfold full, under. induction ls as [|[p d] ls IH]; [reflexivity|]. cbn [map flat_map fst snd]. rewrite map_app, IH. f_equal. rewrite map_map. apply map_ext. intros [c v]. cbn [fst snd].
  f_equal. change ((nm :: p) ++ [c]) with (nm :: (p ++ [c])). apply joined_cons. destruct p; discriminate.
Qed.
Lemma full_app a b : full (a ++ b) = full a ++ full b.
Proof. apply flat_map_app. Qed.
(** what is known of the Dataset a part is flattened to *)
Record flat_ok (ls : list (list name * ds)) (d : ds) : Prop := {
  fo_sound : sound n d;
  fo_labels : forall q, In q ls -> labels (snd q) = labels d;
  fo_first : exists q r, ls = q :: r /\ label_cols d = label_cols (snd q);
  fo_values : values_of d = full ls }.
Definition lens (t : table) : Prop := forall c, In c t -> length (snd c) = n.
Record state_ok (ls : list (list name * ds)) (labs : list name) (dsr : table) : Prop := {
  so_labels : forall q, In q ls -> labels (snd q) = labs;
  so_table : dsr = side_by_side delim ls;
  so_first : exists q r, ls = q :: r;
  so_names : names dsr = labs ++ names (full ls);
  so_nodup : NoDup (names dsr);
  so_lens : lens dsr;
  so_vals : full ls <> [] }.
Lemma values_lens d : sound n d -> lens (values_of d).
Proof. intros (_ & _ & _ & _ & H) c Hc. unfold values_of in Hc. apply filter_In in Hc. apply H. tauto. Qed.
Lemma pick_some ns (t : table) r : pick ns t = Some r -> ns <> [] /\ pick_go ns t [] = Some r.
Proof. destruct ns; cbn [pick]; [discriminate|]. intros H. split; [discriminate|exact H]. Qed.
Lemma lens_put nm t : lens t -> lens (map (fun c : name * list V => (nm ++ delim ++ fst c, snd c)) t).
Proof. intros H c Hc. apply in_map_iff in Hc. destruct Hc as (x & <- & Hx). cbn. now apply H. Qed.
Lemma label_pick (d : ds) dsr : sound n d -> match labels d with [] => Some [] | _ => pick (labels d) (cols d) end = Some dsr -> dsr = label_cols d.
Proof.
  intros (_ & ND & NL & I & _). unfold label_cols. destruct (labels d) as [|l ls] eqn:E; [now intros [= <-]|]. cbn [pick]. rewrite pick_go_ok; [now intros [= <-]|exact NL|exact I].
Qed.
Lemma values_names d : names (values_of d) = not_in (labels d) (@cols V d).
Proof. unfold values_of, not_in. now rewrite names_filter. Qed.
Lemma step_sound st prefix nm elem ls r :
  match st with None => prefix = [] | Some (labs, dsr) => state_ok prefix labs dsr end ->
  flat_ok ls elem -> h_step valid delim st nm elem = Some r -> state_ok (prefix ++ under nm ls) (fst r) (snd r).
Proof.
  intros ST FO. unfold h_step. destruct (list_eq_dec name_dec _ _) as [EL|]; [|discriminate].
  set (labs := match st with None => labels elem | Some s => fst s end) in *.
  pose proof (fo_sound _ _ FO) as SD. pose proof SD as (NE & ND & NL & I & LN).
  match goal with |- (match ?x with Some _ => _ | None => _ end) = _ -> _ => destruct x as [dsr|] eqn:E0; [|discriminate] end.
  destruct (pick (not_in labs (cols elem)) (cols elem)) as [v|] eqn:EP; [|discriminate].
  destruct (pick_some _ _ _ EP) as (NV & EP'). rewrite (pick_values labs (cols elem) ND) in EP'.
  assert (Ev : v = values_of elem) by (unfold values_of; rewrite <- EL; congruence). subst v. clear EP'.
  assert (D : NoDup (names dsr) /\ lens dsr /\ names dsr = labs ++ names (full prefix) /\ dsr ++ full (under nm ls) = side_by_side delim (prefix ++ under nm ls) /\
              (forall q, In q prefix -> labels (snd q) = labs)).
  { destruct st as [[l0 t0]|]; cbn [fst snd] in labs.
    - injection E0 as <-. cbn [snd]. destruct ST as [A1 A2 (q0 & r0 & A3) A4 A5 A6 A7]. repeat split; try assumption. rewrite A2. unfold side_by_side. rewrite A3. cbn [app]. rewrite <- app_assoc. f_equal.
      symmetry. apply (full_app (q0 :: r0)).
    - assert (dsr = label_cols elem) by (apply (label_pick elem dsr SD); exact E0). clear E0. subst dsr prefix. rewrite label_cols_names by exact I. split; [exact NL|]. split; [intros c Hc; apply LN; now apply label_cols_in|].
      split; [unfold labs; cbn; now rewrite app_nil_r|]. split; [|intros q []].
      destruct (fo_first _ _ FO) as (q & rr & EQ & LC). unfold side_by_side. cbn [app]. rewrite EQ at 2. unfold under at 2. cbn [map]. cbn [fst snd]. rewrite LC. reflexivity. }
  destruct D as (D1 & D2 & D3 & D4 & D5).
  destruct (concat2_ok dsr (values_of elem) D1) as [(EC & SH & NC)|(EC & _)]; rewrite EC; [|discriminate].
  assert (VN : not_in labs (cols elem) = names (values_of elem)) by (rewrite values_names; now rewrite EL). rewrite VN.
  destruct (rename_all valid delim nm (names (values_of elem)) (dsr ++ values_of elem)) as [t'|] eqn:ER; [|discriminate].
  intros [= <-]. cbn [fst snd]. destruct (rename_all_sound valid delim nm (values_of elem) dsr NC t' ER) as (ET & NT).
  rewrite (fo_values _ _ FO), <- full_under in ET. 
  constructor.
  - intros q Hq. apply in_app_or in Hq. destruct Hq as [Hq|Hq]; [now apply D5|]. unfold under in Hq. apply in_map_iff in Hq. destruct Hq as (x & <- & Hx). cbn [snd]. rewrite (fo_labels _ _ FO x Hx). now symmetry.
  - rewrite ET. exact D4.
  - destruct (fo_first _ _ FO) as (q & rr & EQ & _). rewrite EQ. unfold under. cbn [map]. destruct prefix as [|a b]; cbn [app]; eauto.
  - rewrite ET. unfold names at 1. rewrite map_app. unfold names in D3. rewrite D3, <- app_assoc. f_equal. rewrite full_app. unfold names. rewrite map_app. reflexivity.
  - exact NT.
  - rewrite ET. intros c Hc. apply in_app_or in Hc. destruct Hc as [Hc|Hc]; [now apply D2|]. rewrite full_under in Hc. revert c Hc. apply lens_put. rewrite <- (fo_values _ _ FO). now apply values_lens.
  - rewrite full_app, full_under, <- (fo_values _ _ FO). intros Q. apply app_eq_nil in Q. destruct Q as (_ & Q). apply map_eq_nil in Q. rewrite VN, Q in NV. now elim NV.
Qed.
Lemma loop_sound (flat : tree -> option ds) l : (forall p d, In p l -> flat (snd p) = Some d -> flat_ok (leaves (snd p)) d) ->
  forall st prefix r, match st with None => prefix = [] | Some (labs, dsr) => state_ok prefix labs dsr end ->
  loop flat (fun st n _ d => h_step valid delim st n d) l st = Some r ->
  match r with None => prefix ++ leaves (Node l) = [] | Some (labs, dsr) => state_ok (prefix ++ leaves (Node l)) labs dsr end.
Proof.
  induction l as [|[nm t] l IH]; intros F st prefix r ST; cbn [loop].
  - intros [= <-]. cbn [leaves flat_map]. destruct st as [[labs dsr]|]; rewrite app_nil_r; exact ST.
  - destruct (flat t) as [d|] eqn:ET; [|discriminate]. destruct (h_step valid delim st nm d) as [s|] eqn:ES; [|discriminate].
    pose proof (step_sound st prefix nm d (leaves t) s ST (F (nm, t) d (or_introl eq_refl) ET) ES) as NS. intros H.
    rewrite leaves_cons. cbn [fst snd]. rewrite app_assoc. apply IH with (st := Some s); [|destruct s; exact NS|exact H].
    intros p x Hp. apply F. now right.
Qed.
Lemma side_values ls labs : state_ok ls labs (side_by_side delim ls) -> exists q r, ls = q :: r /\
  side_by_side delim ls = label_cols (snd q) ++ full ls /\ names (label_cols (snd q)) = labs.
Proof.
  intros [A1 _ (q & r & A3) A4 A5 A6 A7]. exists q, r. split; [exact A3|]. assert (E : side_by_side delim ls = label_cols (snd q) ++ full ls) by (rewrite A3; destruct q; reflexivity).
  split; [exact E|]. rewrite E in A4. unfold names in *. rewrite map_app in A4. now apply app_inv_tail in A4.
Qed.
Theorem horizontal_flat t d : all_sound n t -> flatten_h valid delim t = Some d -> flat_ok (leaves t) d.
Proof.
  revert d. induction t as [d0|l IH] using tree_rect'; intros d AS; cbn [flatten_h].
  - intros [= <-]. specialize (AS [] d0 (or_introl eq_refl)). constructor; [exact AS|intros q [<-|[]]; reflexivity|exists ([], d0), []; auto|].
    cbn [leaves full flat_map]. unfold full. cbn [flat_map fst snd app]. rewrite app_nil_r. symmetry. erewrite map_ext; [apply map_id|]. intros [a b]. reflexivity.
  - destruct (loop _ _ l None) as [[[labs dsr]|]|] eqn:EL; try discriminate. intros [= <-].
    assert (ST : state_ok (leaves (Node l)) labs dsr).
    { apply (loop_sound (flatten_h valid delim) l) with (st := None) (prefix := []) (r := Some (labs, dsr)); [|reflexivity|exact EL].
      intros p x Hp. rewrite Forall_forall in IH. apply (IH p Hp). intros q e Hq. apply (AS (fst p :: q) e). cbn [leaves]. apply in_flat_map. exists p. split; [exact Hp|]. apply in_map_iff. exists (q, e). auto. }
    pose proof (so_table _ _ _ ST) as ET. pose proof ST as ST'. rewrite ET in ST'. destruct (side_values _ _ ST') as (q & r & EQ & EC & NL). destruct ST as [A1 _ A3 A4 A5 A6 A7].
    assert (FL : filter (fun l => mem l (names dsr)) labs = labs).
    { apply filter_all. intros x Hx. apply mem_true. rewrite A4. apply in_or_app. now left. }
    unfold set_labels. rewrite FL. pose proof A5 as A5'. rewrite A4 in A5'.
    assert (NDL : NoDup labs) by (apply nodup_app_inv in A5'; tauto).
    constructor; cbn [labels cols].
    + split; [|split; [exact A5|split; [exact NDL|split; [|exact A6]]]].
      * rewrite ET, EC. intros Q. apply app_eq_nil in Q. tauto.
      * intros x Hx. cbn [labels cols] in *. unfold names in A4. rewrite A4. apply in_or_app. now left.
    + exact A1.
    + exists q, r. split; [exact EQ|]. unfold label_cols at 1. cbn [labels cols]. rewrite <- NL at 1. apply flat_dget; [exact A5|]. rewrite ET, EC. intros x Hx. apply in_or_app. now left.
    + unfold values_of. cbn [labels cols]. rewrite ET, EC, filter_app.
      rewrite filter_none; [|intros x Hx; apply negb_false_iff, mem_true; rewrite <- NL; unfold names; now apply in_map]. cbn [app]. apply filter_all.
      intros x Hx. apply negb_true_iff, mem_false. intros Q. apply nodup_app_inv in A5'. destruct A5' as (_ & _ & DJ). apply (DJ (fst x) Q). unfold names. now apply in_map.
Qed.
Theorem horizontal_sound (l : list (name * tree)) (d : ds) : all_sound n (Node l) -> flatten_h valid delim (Node l) = Some d ->
  (forall q, In q (leaves (Node l)) -> labels (snd q) = labels d) /\ cols d = side_by_side delim (leaves (Node l)) /\ NoDup (map fst (cols d)).
Proof.
  intros AS H. pose proof (horizontal_flat _ _ AS H) as FO. split; [apply (fo_labels _ _ FO)|]. split; [|apply (fo_sound _ _ FO)].
  cbn [flatten_h] in H. destruct (loop _ _ l None) as [[[labs dsr]|]|] eqn:EL; try discriminate. injection H as <-. cbn [cols set_labels].
  assert (ST : state_ok (leaves (Node l)) labs dsr); [|apply (so_table _ _ _ ST)].
  apply (loop_sound (flatten_h valid delim) l) with (st := None) (prefix := []) (r := Some (labs, dsr)); [|reflexivity|exact EL].
  intros p x Hp. apply horizontal_flat. intros q e Hq. apply (AS (fst p :: q) e). cbn [leaves]. apply in_flat_map. exists p. split; [exact Hp|]. apply in_map_iff. exists (q, e). auto.
Qed.
End Horizontal.
