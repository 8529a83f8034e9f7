(** display headers, reading and copying of Multisets *)
From Coq Require Import List Arith Bool Lia.
From Verif Require Import FlattenModel FlattenProofs MergeModel MergeColsProofs2 DsModel DsSpec DsProofs DsProofs3 DsProofs4 DsProofs5 MuSpec MuModel MuProofs MuProofs2 MuProofs3.
Import ListNotations.

Lemma filter_twice {A} (f g : A -> bool) l : filter f (filter g l) = filter (fun x => f x && g x) l.
Proof. induction l as [|x l IH]; [reflexivity|]. cbn [filter]. destruct (g x) eqn:E; cbn [filter]; rewrite ?andb_true_r, ?andb_false_r; [destruct (f x)|]; now rewrite IH. Qed.
Lemma fs_filter p l : filter p (first_seen l) = first_seen (filter p l).
Proof.
  induction l as [|x l IH]; [reflexivity|]. cbn [first_seen filter]. rewrite filter_twice. destruct (p x) eqn:E.
  - cbn [first_seen]. f_equal. rewrite <- IH, filter_twice. apply filter_ext. intros y. apply andb_comm.
  - rewrite <- IH. apply filter_ext_in. intros y _. destruct (name_dec y x) as [->|]; [rewrite E; reflexivity|apply andb_true_r].
Qed.
Lemma fs_app a b : NoDup a -> first_seen (a ++ b) = a ++ first_seen (filter (fun x => negb (mem x a)) b).
Proof.
  revert b. induction a as [|x a IH]; intros b ND; cbn [app first_seen].
  - f_equal. symmetry. apply filter_all. reflexivity.
  - inversion ND as [|? ? N1 N2]; subst. f_equal. rewrite fs_filter, filter_app, filter_all by (intros y Hy; destruct (name_dec y x) as [->|]; [contradiction|reflexivity]).
    rewrite IH by exact N2. f_equal. f_equal. rewrite filter_twice. apply filter_ext. intros y. unfold mem. cbn [existsb]. destruct (name_dec x y) as [->|NE]; cbn [orb negb].
    + destruct (name_dec y y); [apply andb_false_r|congruence].
    + destruct (name_dec y x); [congruence|apply andb_true_r].
Qed.

Lemma in_all_dec (a b : list name) : {incl a b} + {~ incl a b}.
Proof.
  induction a as [|x a IH]; [left; intros y []|]. destruct (in_dec name_dec x b) as [H|H]; [|right; intros Q; apply H, Q; now left].
  destruct IH as [I|I]; [left; intros y [<-|Hy]; [exact H|now apply I]|right; intros Q; apply I; intros y Hy; apply Q; now right].
Qed.

Section Display.
Context {V : Type}.
Notation ds := (ds V).
Notation tree := (tree V).
Notation table := (table V).
Definition fd (k : name) (l : list (name * table)) : list (name * list V) :=
  flat_map (fun m => match dget k (snd m) with Some c => [(fst m, c)] | None => [] end) l.
Definition drop1 (k : name) (t : table) : table := filter (fun c => if name_dec (fst c) k then false else true) t.
Lemma drop_none k (t : table) : dget k t = None -> drop1 k t = t.
Proof. intros H. apply dget_none in H. apply filter_all. intros [a b] Hx. cbn [fst]. destruct (name_dec a k) as [->|]; [|reflexivity]. elim H. now apply (in_map fst) in Hx. Qed.
Lemma inner_ok k ns dicts : length ns = length dicts -> inner k ns dicts = Some (fd k (combine ns dicts), map (drop1 k) dicts).
Proof.
  revert dicts. induction ns as [|n ns IH]; intros [|d dicts] L; cbn [length] in L; try discriminate; [reflexivity|]. cbn [inner combine map]. rewrite IH by lia. unfold fd. cbn [flat_map fst snd]. destruct (dget k d) as [c|] eqn:E; [reflexivity|].
  cbn [app]. now rewrite drop_none.
Qed.
Lemma dget_drop k k' (t : table) : k <> k' -> dget k (drop1 k' t) = dget k t.
Proof. intros N. unfold drop1. apply (dget_filter (fun x => if name_dec x k' then false else true)). destruct (name_dec k k'); congruence. Qed.
Lemma fd_map f k ns (dicts : list table) : (forall t, dget k (f t) = dget k t) -> fd k (combine ns (map f dicts)) = fd k (combine ns dicts).
Proof.
  intros H. revert dicts. induction ns as [|n ns IH]; intros [|d dicts]; try reflexivity. cbn [map combine]. unfold fd in *. cbn [flat_map fst snd]. now rewrite H, IH.
Qed.
Lemma outer_one_ok n its : NoDup (names its) -> forall ns dicts, length ns = length dicts ->
  outer_one n its ns dicts = Some (map (fun c => (fst c, (n, snd c) :: fd (fst c) (combine ns dicts))) its, map (without (names its)) dicts).
Proof.
  induction its as [|[k v] its IH]; intros ND ns dicts L; cbn [outer_one map].
  - f_equal. f_equal. symmetry. erewrite map_ext; [apply map_id|]. intros t. apply filter_all. reflexivity.
  - inversion ND as [|? ? N1 N2]; subst. rewrite inner_ok by exact L. rewrite IH by (try exact N2; rewrite map_length; exact L). cbn [fst snd]. f_equal. f_equal; [f_equal|].
    + apply map_ext_in. intros c Hc. f_equal. f_equal. apply fd_map. intros t. apply dget_drop. intros Q. apply N1. rewrite <- Q. now apply (in_map fst).
    + rewrite map_map. apply map_ext. intros t. unfold without, drop1. rewrite filter_twice. apply filter_ext. intros [a b]. cbn [fst names map]. unfold mem. cbn [existsb]. destruct (name_dec a k) as [->|NE].
      * destruct (name_dec k k); [|congruence]. apply andb_false_r.
      * destruct (name_dec k a); [congruence|]. apply andb_true_r.
Qed.
Lemma names_without ks (t : table) : map fst (without ks t) = filter (fun x => negb (mem x ks)) (map fst t).
Proof. symmetry. apply (names_filter (fun x => negb (mem x ks))). Qed.
Lemma dget_without ks k (t : table) : ~ In k ks -> dget k (without ks t) = dget k t.
Proof. intros N. unfold without. apply (dget_filter (fun x => negb (mem x ks))). apply negb_true_iff. now apply mem_false. Qed.
Lemma outer_ok ns : forall dicts : list table, length ns = length dicts -> Forall (fun t => NoDup (names t)) dicts -> outer ns dicts = Some (interleaved (combine ns dicts)).
Proof.
  induction ns as [|n ns IH]; intros [|d dicts] L F; cbn [length] in L; try discriminate; [reflexivity|]. inversion F as [|? ? F1 F2]; subst. cbn [outer]. rewrite outer_one_ok by (try exact F1; lia).
  rewrite IH.
  - f_equal. cbn [combine]. unfold interleaved. cbn [map concat fst snd]. fold (names d).
    rewrite fs_app by exact F1. rewrite map_app. f_equal.
    + unfold names. rewrite map_map. apply map_ext_in. intros [k v] Hc. cbn [fst snd]. f_equal. cbn [flat_map fst snd]. rewrite (dget_in k v d F1 Hc). reflexivity.
    + assert (E : concat (map (fun m => map fst (snd m)) (combine ns (map (without (names d)) dicts))) = filter (fun x => negb (mem x (names d))) (concat (map (fun m : name * table => map fst (snd m)) (combine ns dicts)))).
      { clear. revert dicts. induction ns as [|m ns IH]; intros [|t dicts]; try reflexivity. cbn [map combine concat snd]. rewrite filter_app, IH. f_equal. apply names_without. }
      rewrite E. apply map_ext_in. intros k Hk. rewrite first_seen_in in Hk. apply filter_In in Hk. destruct Hk as (_ & Hk). apply negb_true_iff, mem_false in Hk. f_equal. cbn [flat_map fst snd].
      destruct (dget k d) as [c|] eqn:Ed; [apply dget_some_in in Ed; elim Hk; now apply (in_map fst) in Ed|]. cbn [app].
      clear - Hk. revert dicts. induction ns as [|m ns IH]; intros [|t dicts]; try reflexivity. cbn [map combine flat_map fst snd]. now rewrite dget_without, IH.
  - rewrite map_length. lia.
  - apply Forall_map. eapply Forall_impl; [|exact F2]. intros t Ht. cbn beta. change (NoDup (map fst (without (names d) t))). rewrite names_without. now apply nodup_filter.
Qed.
Lemma del_keys_ok ks : forall t : table, NoDup ks -> incl ks (names t) -> del_keys ks t = Some (without ks t).
Proof.
  induction ks as [|k ks IH]; intros t ND I; cbn [del_keys]; [f_equal; symmetry; apply filter_all; reflexivity|]. inversion ND as [|? ? N1 N2]; subst.
  replace (mem k (names t)) with true by (symmetry; apply mem_true; apply I; now left). rewrite IH; [|exact N2|].
  - f_equal. unfold without. rewrite filter_twice. apply filter_ext. intros [a b]. cbn [fst]. unfold mem. cbn [existsb]. destruct (name_dec a k) as [->|NE].
    + destruct (name_dec k k); [|congruence]. apply andb_false_r.
    + destruct (name_dec k a); [congruence|]. apply andb_true_r.
  - intros x Hx. assert (Q : In x (names t)) by (apply I; now right). unfold names in *. apply in_map_iff in Q. destruct Q as (c & <- & Hc). apply in_map. apply filter_In. split; [exact Hc|]. destruct (name_dec (fst c) k) as [Q|]; [rewrite Q in Hx; contradiction|reflexivity].
Qed.
Lemma del_keys_none ks : forall t : table, del_keys ks t <> None -> NoDup ks -> incl ks (names t).
Proof.
  induction ks as [|k ks IH]; intros t H ND; [intros x []|]. cbn [del_keys] in H. destruct (mem k (names t)) eqn:E; [|congruence]. apply mem_true in E. inversion ND; subst. apply IH in H; [|assumption]. intros x [<-|Hx]; [exact E|]. apply H in Hx. unfold names in *. apply in_map_iff in Hx. destruct Hx as (c & <- & Hc). apply filter_In in Hc. apply in_map. tauto.
Qed.
Lemma all_some_map {X Y} (f : X -> option Y) g l : (forall x, In x l -> f x = Some (g x)) -> all_some f l = Some (map g l).
Proof. induction l as [|x l IH]; intros H; [reflexivity|]. cbn [all_some map]. rewrite H by now left. rewrite IH; [reflexivity|]. intros y Hy. apply H. now right. Qed.
Lemma all_some_none {X Y} (f : X -> option Y) l x : In x l -> f x = None -> all_some f l = None.
Proof. induction l as [|y l IH]; [intros []|]. intros [->|H] E; cbn [all_some]; [now rewrite E|]. rewrite (IH H E). now destruct (f y). Qed.
Lemma all_some_inv {X Y} (f : X -> option Y) l r : all_some f l = Some r -> Forall2 (fun x y => f x = Some y) l r.
Proof.
  revert r. induction l as [|x l IH]; intros r; cbn [all_some]; [intros [= <-]; constructor|]. destruct (f x) as [y|] eqn:E; [|discriminate]. destruct (all_some f l) as [ys|]; [|discriminate]. intros [= <-]. constructor; [exact E|now apply IH].
Qed.

(** the header lines of some groups *)
Lemma headers_ok gs : forall g, upper (headers g gs) = map (fun i => (fst (snd i), length (snd (snd i)), fst i)) (combine (seq g (length gs)) gs) /\
  lower (headers g gs) = flat_map (fun i => map (fun p => (fst p, 1, fst i)) (snd (snd i))) (combine (seq g (length gs)) gs) /\
  arrays (@headers V g gs) = flat_map (fun i => map (fun p => Col_ (snd p)) (snd i)) gs.
Proof.
  induction gs as [|[k l] gs IH]; intros g; [repeat split|]. destruct (IH (S g)) as (A & B & D). cbn [headers upper lower arrays length seq combine map flat_map fst snd]. rewrite A, B, D. repeat split.
Qed.
Theorem flat_headers (l : list (name * ds)) gb : 2 <= length l -> NoDup gb -> (forall p, In p l -> NoDup (names (cols (snd p)))) ->
  (exists p, In p l /\ cols (snd p) <> []) -> (forall p, In p l -> incl gb (names (cols (snd p)))) -> forall ks, gb = match ks with Some k => k | None => [] end ->
  build_col_headers (map (fun p => (fst p, Leaf (snd p))) l) ks = Some (headers 0 (interleaved (map (fun p => (fst p, without gb (cols (snd p)))) l))).
Proof.
  intros L2 NG ND (p0 & H0 & C0) GB ks EK. unfold build_col_headers.
  assert (E1 : depth_first (Node (map (fun p => (fst p, Leaf (snd p))) l)) = map (fun p => cols (snd p)) l).
  { cbn [depth_first]. clear. induction l as [|p l IH]; [reflexivity|]. cbn [map flat_map snd depth_first app]. now rewrite IH. }
  rewrite <- EK. destruct l as [|p1 [|p2 r]]; [cbn in L2; lia|cbn in L2; lia|]. set (l := p1 :: p2 :: r) in *. change (map _ l) with ((fst p1, Leaf (snd p1)) :: (fst p2, Leaf (snd p2)) :: map (fun p : name * ds => (fst p, Leaf (snd p))) r) at 1. cbn iota.
  change ((fst p1, Leaf (snd p1)) :: (fst p2, Leaf (snd p2)) :: map (fun p : name * ds => (fst p, Leaf (snd p))) r) with (map (fun p : name * ds => (fst p, Leaf (snd p))) l). rewrite E1.
  rewrite (all_some_map _ (without gb)) by (intros t Ht; apply in_map_iff in Ht; destruct Ht as (p & <- & Hp); apply del_keys_ok; [exact NG|now apply GB]).
  destruct (list_sum _ =? 0) eqn:ES.
  - exfalso. apply Nat.eqb_eq in ES. clear - ES H0 C0. induction l as [|p l IH]; [destruct H0|]. cbn [map list_sum fold_right] in ES. unfold list_sum in *. cbn [map fold_right] in ES. destruct H0 as [->|H0]; [destruct (cols (snd p0)); [congruence|cbn in ES; lia]|]. apply IH; [exact H0|lia].
  - rewrite map_map. cbn [fst]. rewrite map_map. rewrite outer_ok.
    + f_equal. f_equal. f_equal. clear. induction l as [|p l IH]; [reflexivity|]. cbn [map combine]. now rewrite IH.
    + now rewrite !map_length.
    + apply Forall_forall. intros t Ht. apply in_map_iff in Ht. destruct Ht as (p & <- & Hp). change (NoDup (map fst (without gb (cols (snd p))))). rewrite names_without. apply nodup_filter. now apply ND.
Qed.
End Display.

Section Reading.
Context {V : Type}.
Notation ds := (ds V).
Notation tree := (tree V).
Notation table := (table V).
Lemma req_rows_all (n : nat) k : req_rows (repeat (Some n) k) (Some n) = Some (Some n).
Proof. induction k as [|k IH]; [reflexivity|]. cbn [repeat req_rows]. destruct n as [|m]; [exact IH|]. now rewrite Nat.eqb_refl. Qed.
Lemma rows_all (n : nat) (l : list (name * tree)) : l <> [] -> (forall p, In p l -> nrows_tree (snd p) = Some n) -> req_rows (map (fun p => nrows_tree (snd p)) l) (Some 0) = Some (Some n).
Proof.
  intros NE H. assert (E : map (fun p => nrows_tree (snd p)) l = repeat (Some n) (length l)).
  { clear NE. induction l as [|p l IH]; [reflexivity|]. cbn [map length repeat]. rewrite H by now left. f_equal. apply IH. intros q Hq. apply H. now right. }
  rewrite E. destruct l as [|p l]; [congruence|]. cbn [length repeat req_rows]. apply req_rows_all.
Qed.
Lemma make_ok (n : nat) (l : list (name * tree)) : l <> [] -> (forall p, In p l -> nrows_tree (snd p) = Some n) -> make l = Some (Node l) /\ nrows_tree (Node l) = Some n.
Proof. intros NE H. unfold make. cbn [nrows_tree]. rewrite (rows_all n) by assumption. split; [reflexivity|]. destruct l; [congruence|reflexivity]. Qed.
Variable n : nat.
Lemma sound_member (l : list (name * tree)) p : all_sound n (Node l) -> In p l -> all_sound n (snd p).
Proof. intros AS Hp q e Hq. apply (AS (fst p :: q) e). cbn [leaves]. apply in_flat_map. exists p. split; [exact Hp|]. apply in_map_iff. exists (q, e). auto. Qed.
Lemma having_app c (a b : list (list name * ds)) : having c (a ++ b) = having c a ++ having c b.
Proof. apply flat_map_app. Qed.
Lemma having_under c nm (a : list (list name * ds)) : having c (map (fun q => (nm :: fst q, snd q)) a) = map (fun q => (nm :: fst q, snd q)) (having c a).
Proof. induction a as [|q a IH]; [reflexivity|]. unfold having in *. cbn [map flat_map fst snd]. rewrite map_app, IH. f_equal. destruct (dget c (cols (snd q))); reflexivity. Qed.
Theorem get_col_ok c (t : tree) : no_member c t -> all_sound n t ->
  match get_col c t with
  | None => having c (leaves t) = []
  | Some t' => having c (leaves t) <> [] /\ leaves t' = having c (leaves t) /\ nrows_tree t' = Some n
  end.
Proof.
  induction t as [d|l IH] using tree_rect'; intros NM AS; cbn [get_col leaves].
  - unfold having. cbn [flat_map fst snd]. destruct (dget c (cols d)) as [v|] eqn:E; cbn [app]; [|reflexivity]. split; [discriminate|]. split; [reflexivity|]. cbn [nrows_tree cols nrows_of]. f_equal.
    assert (SD : sound n d) by (apply (AS []); now left). destruct SD as (_ & _ & _ & _ & LN). apply (LN (c, v)). now apply dget_some_in.
  - cbn [no_member] in NM. destruct NM as (NM & NS). destruct (dget c l) as [m|] eqn:ED; [apply dget_some_in in ED; elim NM; now apply (in_map fst) in ED|].
    set (ms := flat_map (fun p => match get_col c (snd p) with Some m => [(fst p, m)] | None => [] end) l).
    assert (G : leaves (Node ms) = having c (flat_map (fun p => map (fun q => (fst p :: fst q, snd q)) (leaves (snd p))) l) /\ (forall p, In p ms -> nrows_tree (snd p) = Some n) /\ (ms = [] -> having c (flat_map (fun p => map (fun q => (fst p :: fst q, snd q)) (leaves (snd p))) l) = []) /\ (ms <> [] -> leaves (Node ms) <> [])).
    { unfold ms. clear ms NM ED. rewrite Forall_forall in IH. assert (AM : forall p, In p l -> all_sound n (snd p)) by (intros p Hp; now apply (sound_member l)). clear AS.
      induction l as [|p l IHl]; [repeat split; try reflexivity; [intros p []|intros Q; now elim Q]|].
      cbn [fold_right] in NS. destruct NS as (NP & NS). destruct IHl as (A & B & D & E); [intros q Hq; apply IH; now right|exact NS|intros q Hq; apply AM; now right|].
      specialize (IH p (or_introl eq_refl) NP (AM p (or_introl eq_refl))). cbn [flat_map]. rewrite leaves_app, having_app, having_under, A. destruct (get_col c (snd p)) as [m|].
      - destruct IH as (I1 & I2 & I3). rewrite <- I2. cbn [leaves flat_map app fst snd]. rewrite app_nil_r. split; [reflexivity|]. split; [|split].
        + intros q [<-|Hq]; [exact I3|now apply B].
        + intros Q. discriminate.
        + intros _ Q. apply app_eq_nil in Q. destruct Q as (Q & _). apply map_eq_nil in Q. now rewrite I2 in Q.
      - rewrite IH. cbn [leaves flat_map app map]. split; [reflexivity|]. split; [exact B|]. split; [exact D|]. intros Q. rewrite <- A. exact (E Q). }
    destruct G as (A & B & D & E). destruct ms as [|m0 mr] eqn:EM; [now apply D|]. rewrite <- EM in *. destruct (make_ok n ms) as (M1 & M2); [congruence|exact B|].
    rewrite M1. split; [rewrite <- A; apply E; congruence|]. split; [exact A|exact M2].
Qed.
(** *** rows and columns *)
Lemma take_ok rows (c : list V) : (forall r, In r rows -> r < length c) -> take rows c = Some (rows_at (Some rows) c) /\ length (rows_at (Some rows) c) = length rows.
Proof.
  induction rows as [|r rows IH]; intros H; [split; reflexivity|]. destruct IH as (A & B); [intros x Hx; apply H; now right|]. unfold take in *. cbn [all_some]. unfold rows_at in *. cbn [flat_map length].
  destruct (nth_error c r) as [v|] eqn:E; [|apply nth_error_None in E; specialize (H r (or_introl eq_refl)); lia]. rewrite A. cbn [app length]. split; [reflexivity|]. now rewrite B.
Qed.
Definition left_ (rows : option (list nat)) : nat := match rows with None => n | Some rs => length rs end.
Lemma flat_column ns (d : ds) : incl ns (names (cols d)) -> flat_map (fun l => match dget l (cols d) with Some c => [(l, c)] | None => [] end) ns = map (fun c => (c, column c d)) ns.
Proof.
  induction ns as [|k ns IH]; intros I; [reflexivity|]. cbn [flat_map map]. unfold column at 1. destruct (dget k (cols d)) as [c|] eqn:E; [|apply dget_none in E; elim E; apply I; now left]. cbn [app]. f_equal. apply IH. intros x Hx. apply I. now right.
Qed.
Lemma sel_names rows ns (d : ds) : names (cols (selected rows ns d)) = ns.
Proof. unfold selected. cbn [cols]. unfold names. rewrite map_map. cbn [fst]. apply map_id. Qed.
Lemma copy_ds_ok rows ns (d : ds) : sound n d -> NoDup ns -> incl ns (names (cols d)) -> (forall rs r, rows = Some rs -> In r rs -> r < n) ->
  copy_ds rows (Some ns) d = Some (selected rows ns d) /\ (ns <> [] -> nrows_of (cols (selected rows ns d)) = Some (left_ rows)).
Proof.
  intros (_ & ND & _ & _ & LN) NN I RG. unfold copy_ds. rewrite pick_go_ok by assumption. cbn [app]. rewrite flat_column by exact I.
  assert (LC : forall c, In c ns -> length (column c d) = n).
  { intros c Hc. unfold column. destruct (dget c (cols d)) as [v|] eqn:E; [|apply dget_none in E; elim E; now apply I]. apply (LN (c, v)). now apply dget_some_in. }
  assert (T : match rows with None => Some (map (fun c => (c, column c d)) ns) | Some rs => take_rows rs (map (fun c => (c, column c d)) ns) end = Some (cols (selected rows ns d))).
  { destruct rows as [rs|]; [|reflexivity]. unfold take_rows. rewrite (all_some_map _ (fun c => (fst c, rows_at (Some rs) (snd c)))).
    - f_equal. rewrite map_map. reflexivity.
    - intros x Hx. apply in_map_iff in Hx. destruct Hx as (c & <- & Hc). cbn [fst snd]. destruct (take_ok rs (column c d)) as (-> & _); [|reflexivity]. intros r Hr. rewrite LC by exact Hc. now apply (RG rs). }
  match goal with |- (match ?x with Some _ => _ | None => _ end) = _ /\ _ => replace x with (Some (cols (selected rows ns d))) by (symmetry; exact T) end. split.
  - f_equal. unfold set_labels. rewrite sel_names. unfold selected. reflexivity.
  - intros NE. destruct ns as [|c ns]; [congruence|]. cbn [selected cols map nrows_of]. f_equal. destruct rows as [rs|]; cbn [left_]; [|apply LC; now left]. apply take_ok. intros r Hr. rewrite LC by now left. now apply (RG rs).
Qed.
Lemma copy_ds_raises rows ns (d : ds) : ~ incl ns (names (cols d)) -> copy_ds rows (Some ns) d = None.
Proof.
  intros H. unfold copy_ds. assert (E : forall acc, pick_go ns (cols d) acc = None); [|now rewrite E].
  induction ns as [|k ns IH]; intros acc; [elim H; intros x []|]. cbn [pick_go]. destruct (dget k (cols d)) as [c|] eqn:E; [|reflexivity]. apply IH. intros Q. apply H. intros x [<-|Hx]; [|now apply Q]. apply dget_some_in in E. now apply (in_map fst) in E.
Qed.
Theorem copy_tree_ok rows ns (t : tree) : proper t -> all_sound n t -> NoDup ns -> ns <> [] -> (forall rs r, rows = Some rs -> In r rs -> r < n) ->
  match copy_tree rows (Some ns) t with
  | Some t' => (forall q, In q (leaves t) -> incl ns (names (cols (snd q)))) /\ leaves t' = map (fun q => (fst q, selected rows ns (snd q))) (leaves t) /\ nrows_tree t' = Some (left_ rows)
  | None => exists q, In q (leaves t) /\ ~ incl ns (names (cols (snd q)))
  end.
Proof.
  intros PR AS NN NE RG. induction t as [d|l IH] using tree_rect'; cbn [copy_tree leaves].
  - destruct (in_all_dec ns (names (cols d))) as [I|I].
    + destruct (copy_ds_ok rows ns d) as (-> & B); try assumption; [apply (AS []); now left|]. split; [intros q [<-|[]]; exact I|]. split; [reflexivity|]. now apply B.
    + rewrite copy_ds_raises by exact I. exists ([], d). split; [now left|exact I].
  - set (f := fun p : name * tree => match copy_tree rows (Some ns) (snd p) with Some m => Some (fst p, m) | None => None end).
    destruct PR as (NL & _ & PF). assert (NLl := NL). clear NL.
    assert (G : match all_some f l with
                | Some l' => (forall q, In q (leaves (Node l)) -> incl ns (names (cols (snd q)))) /\ leaves (Node l') = map (fun q => (fst q, selected rows ns (snd q))) (leaves (Node l)) /\ (forall p, In p l' -> nrows_tree (snd p) = Some (left_ rows)) /\ length l' = length l
                | None => exists q, In q (leaves (Node l)) /\ ~ incl ns (names (cols (snd q)))
                end).
    { clear NLl. rewrite Forall_forall in IH. assert (AM : forall p, In p l -> all_sound n (snd p)) by (intros p Hp; now apply (sound_member l)). clear AS.
      induction l as [|p l IHl]; cbn [all_some].
      - split; [intros q []|]. split; [reflexivity|]. split; [intros p []|reflexivity].
      - cbn [fold_right] in PF. destruct PF as (PP & PF). specialize (IHl PF (fun q Hq => IH q (or_intror Hq)) (fun q Hq => AM q (or_intror Hq))). specialize (IH p (or_introl eq_refl) PP (AM p (or_introl eq_refl))). rewrite leaves_cons. unfold f at 1.
        destruct (copy_tree rows (Some ns) (snd p)) as [m|].
        + destruct IH as (I1 & I2 & I3). destruct (all_some f l) as [l'|].
          * destruct IHl as (J1 & J2 & J3 & J4). split; [|split; [|split]].
            -- intros q Hq. apply in_app_or in Hq. destruct Hq as [Hq|Hq]; [|now apply J1]. apply in_map_iff in Hq. destruct Hq as (x & <- & Hx). cbn [snd]. now apply I1.
            -- rewrite leaves_cons. cbn [fst snd]. rewrite map_app, J2, I2, !map_map. reflexivity.
            -- intros q [<-|Hq]; [exact I3|now apply J3].
            -- cbn [length]. now rewrite J4.
          * destruct IHl as (q & Hq & Q). exists q. split; [apply in_or_app; now right|exact Q].
        + destruct IH as (q & Hq & Q). exists (fst p :: fst q, snd q). split; [apply in_or_app; left; apply in_map_iff; exists q; auto|exact Q]. }
    destruct (all_some f l) as [l'|]; [|exact G]. destruct G as (G1 & G2 & G3 & G4). 
    assert (NL' : l' <> []) by (intros ->; destruct l; [congruence|discriminate]).
    destruct (make_ok (left_ rows) l' NL' G3) as (-> & M). split; [exact G1|]. split; [exact G2|exact M].
Qed.
End Reading.
