(** flattening a Multiset vertically *)
From Coq Require Import List Arith Bool Lia.
From Verif Require Import FlattenModel FlattenProofs MergeModel MergeColsProofs2 DsModel DsSpec DsProofs DsProofs3 DsProofs4 DsProofs5 MuSpec MuModel MuProofs MuProofs2.
Import ListNotations.

Lemma table_ext {X} (t t' : list (name * X)) : NoDup (map fst t) -> map fst t = map fst t' -> (forall k, In k (map fst t) -> dget k t = dget k t') -> t = t'.
Proof.
  revert t'. induction t as [|[k v] t IH]; intros [|[k' v'] t'] ND E H; cbn [map fst] in *; try discriminate; [reflexivity|].
  assert (k = k') by congruence. subst k'. inversion ND as [|? ? N1 N2]; subst. pose proof (H k (or_introl eq_refl)) as G. cbn [dget] in G. destruct (name_dec k k); [|congruence]. injection G as ->. f_equal.
  apply IH; [exact N2|congruence|]. intros x Hx. pose proof (H x (or_intror Hx)) as G. cbn [dget] in G. destruct (name_dec k x) as [->|]; [contradiction|exact G].
Qed.

Lemma map_rep {A B} (f : A -> B) x k : map f (repeat x k) = repeat (f x) k.
Proof. induction k as [|k IH]; [reflexivity|]. cbn [repeat map]. now rewrite IH. Qed.

Section Vertical.
Context {V : Type}.
Notation ds := (ds V).
Notation tree := (tree V).
Notation table := (table V).
Variable valid : name -> bool.
Variable delim : name.
Variable of_name : name -> V.
Variable decode : V -> name.
Variable inv : name -> V.
Variable col : name.
Hypothesis RT : forall x, decode (of_name x) = x.
Variable n : nat.
Notation flatten_v := (flatten_v valid delim of_name decode inv col).
Notation v_step := (v_step valid delim of_name decode inv col).

Definition ccol (ls : list (list name * ds)) (c : name) : list V := flat_map (fun q => column c (snd q)) ls.
Definition ncol (ls : list (list name * ds)) : list V := flat_map (fun q => repeat (of_name (joined delim (fst q))) (height (snd q))) ls.
Definition part (ls : list (list name * ds)) (cs : list name) : table := map (fun c => (c, ccol ls c)) cs.
Definition stk (L C : list name) (ls : list (list name * ds)) : table := part ls L ++ (col, ncol ls) :: part ls C.
Definition agree (L C : list name) (ls : list (list name * ds)) : Prop := forall q, In q ls -> labels (snd q) = L /\ names (values_of (snd q)) = C.
Lemma part_names ls cs : names (part ls cs) = cs.
Proof. unfold names, part. rewrite map_map. cbn [fst]. apply map_id. Qed.
Lemma stk_names L C ls : names (stk L C ls) = L ++ col :: C.
Proof. unfold stk, names. rewrite map_app. cbn [map fst]. pose proof (part_names ls L). pose proof (part_names ls C). unfold names in *. now rewrite H, H0. Qed.
Lemma stacked_stk L C ls : ls <> [] -> agree L C ls -> stacked of_name delim col ls = stk L C ls.
Proof.
  destruct ls as [|[p d] ls]; [congruence|]. intros _ A. destruct (A (p, d) (or_introl eq_refl)) as (E1 & E2). cbn [snd] in *. unfold stacked, stk, part. rewrite E1. f_equal. f_equal.
  rewrite <- E2. unfold names. now rewrite map_map.
Qed.
Lemma names_part (t s : table) : NoDup (names t) -> incl s t -> s = map (fun c => (c, match dget c t with Some v => v | None => [] end)) (names s).
Proof.
  intros ND. induction s as [|[k v] s IH]; intros I; [reflexivity|]. cbn [names map fst]. rewrite (dget_in k v t ND (I _ (or_introl eq_refl))). f_equal. apply IH. intros x Hx. apply I. now right.
Qed.
Lemma values_part (d : ds) : NoDup (names (cols d)) -> values_of d = map (fun c => (c, column c d)) (names (values_of d)).
Proof. intros ND. unfold column. apply names_part; [exact ND|]. intros x Hx. unfold values_of in Hx. apply filter_In in Hx. tauto. Qed.
Lemma labels_part (d : ds) : incl (labels d) (names (cols d)) -> label_cols d = map (fun c => (c, column c d)) (labels d).
Proof.
  unfold label_cols, column. destruct d as [ls t]. cbn [labels cols]. induction ls as [|l ls IH]; intros I; [reflexivity|]. cbn [flat_map map].
  destruct (dget l t) as [c|] eqn:E; [|apply dget_none in E; elim E; apply I; now left]. cbn [app]. f_equal. apply IH. intros x Hx. apply I. now right.
Qed.
Lemma one_part (q : list name * ds) cs : part [q] cs = map (fun c => (c, column c (snd q))) cs.
Proof. unfold part, ccol. apply map_ext. intros c. cbn [flat_map]. now rewrite app_nil_r. Qed.
Lemma shape_height (d : ds) : shape0 (cols d) = height d.
Proof. unfold shape0, height, nrows_of. destruct (cols d) as [|[a b] t]; reflexivity. Qed.
Lemma dget_mid (A B : table) k v : ~ In k (names A) -> dget k (A ++ (k, v) :: B) = Some v.
Proof.
  induction A as [|[a b] A IH]; cbn [app dget names map fst In]; intros H; [destruct (name_dec k k); congruence|]. destruct (name_dec a k) as [->|]; [elim H; now left|]. apply IH. intros Q. apply H. now right.
Qed.
Lemma dset_mid (A B : table) k v w : ~ In k (names A) -> dset k w (A ++ (k, v) :: B) = A ++ (k, w) :: B.
Proof.
  induction A as [|[a b] A IH]; cbn [app dset names map fst In]; intros H; [destruct (name_dec k k); congruence|]. destruct (name_dec a k) as [->|]; [elim H; now left|]. f_equal. apply IH. intros Q. apply H. now right.
Qed.
(** *** rows on top of each other *)
Lemma first_seen_twice (a : list name) : NoDup a -> first_seen (a ++ a) = a.
Proof.
  intros ND.
  assert (G : forall a b, NoDup a -> incl b a -> first_seen (a ++ b) = a); [|apply G; [exact ND|apply incl_refl]].
  clear a ND. induction a as [|x a IH]; intros b ND I; cbn [app first_seen].
  - destruct b as [|y b]; [reflexivity|]. elim (I y). now left.
  - inversion ND as [|? ? N1 N2]; subst. f_equal.
    assert (F : forall l, filter (fun m => if name_dec m x then false else true) (first_seen l) = first_seen (filter (fun m => if name_dec m x then false else true) l)).
    { clear. induction l as [|y l IHl]; [reflexivity|]. cbn [first_seen filter]. destruct (name_dec y x) as [->|NE].
      - rewrite <- IHl. clear. induction (first_seen l) as [|z s IHs]; [reflexivity|]. cbn [filter]. destruct (name_dec z x); cbn [filter]; [exact IHs|]. destruct (name_dec z x); [congruence|]. now f_equal.
      - cbn [first_seen]. f_equal. rewrite <- IHl. clear. induction (first_seen l) as [|z s IHs]; [reflexivity|]. cbn [filter]. destruct (name_dec z x) as [E1|E1], (name_dec z y) as [E2|E2]; cbn [filter]; try (destruct (name_dec z x); [|congruence]); try (destruct (name_dec z y); [|congruence]); try exact IHs.
        destruct (name_dec z x); [congruence|]. destruct (name_dec z y); [congruence|]. now f_equal. }
    rewrite F, filter_app. rewrite (filter_all _ a); [|intros m Hm; destruct (name_dec m x) as [->|]; [contradiction|reflexivity]].
    apply IH; [exact N2|]. intros m Hm. apply filter_In in Hm. destruct Hm as (Hm & Q). destruct (name_dec m x); [discriminate|]. destruct (I m Hm) as [E|E]; [congruence|exact E].
Qed.
Lemma dget_part ls cs c : In c cs -> dget c (part ls cs) = Some (ccol ls c).
Proof.
  induction cs as [|x cs IH]; [intros []|]. intros H. unfold part. cbn [map dget]. destruct (name_dec x c) as [->|N]; [reflexivity|]. apply IH. destruct H; [contradiction|exact H].
Qed.
Lemma dget_app_l (A B : table) k : In k (names A) -> dget k (A ++ B) = dget k A.
Proof. induction A as [|[a b] A IH]; [intros []|]. cbn [names map fst app dget In]. intros H. destruct (name_dec a k) as [->|N]; [reflexivity|]. apply IH. destruct H; [contradiction|exact H]. Qed.
Lemma dget_app_r (A B : table) k : ~ In k (names A) -> dget k (A ++ B) = dget k B.
Proof. induction A as [|[a b] A IH]; [reflexivity|]. cbn [names map fst app dget In]. intros H. destruct (name_dec a k) as [->|N]; [elim H; now left|]. apply IH. intros Q. apply H. now right. Qed.
Definition scol (L C : list name) (ls : list (list name * ds)) (k : name) : list V := if name_dec k col then ncol ls else ccol ls k.
Lemma dget_stk L C ls k : NoDup (L ++ col :: C) -> In k (L ++ col :: C) -> dget k (stk L C ls) = Some (scol L C ls k).
Proof.
  intros ND H. unfold stk, scol. destruct (nodup_app_inv _ _ ND) as (N1 & N2 & DJ). apply in_app_or in H. destruct H as [H|H].
  - rewrite dget_app_l by (now rewrite part_names). rewrite dget_part by exact H. destruct (name_dec k col) as [->|]; [|reflexivity]. elim (DJ col H). now left.
  - rewrite dget_app_r by (rewrite part_names; intros Q; now apply (DJ k Q)). cbn [dget]. inversion N2 as [|? ? N3 N4]; subst. destruct (name_dec col k) as [->|NE].
    + destruct (name_dec k k); [reflexivity|congruence].
    + destruct (name_dec k col); [congruence|]. destruct H as [H|H]; [contradiction|]. now apply dget_part.
Qed.
Lemma stk_app L C a b : NoDup (L ++ col :: C) -> concat_rows2 inv (stk L C a) (stk L C b) = stk L C (a ++ b).
Proof.
  intros ND. unfold concat_rows2. set (l := [mkD _ _; mkD _ _]).
  destruct (hstack_ok inv l) as (HN & HG).
  { unfold l. cbn. lia. }
  { intros d [<-|[<-|[]]]; unfold no_cols; cbn [d_nrows d_cols]; [destruct (stk L C a)|destruct (stk L C b)]; intros; try reflexivity; destruct p; discriminate. }
  assert (NM : names (d_cols (hstack_datasets inv l)) = L ++ col :: C).
  { rewrite HN. unfold l. cbn [map concat d_cols]. rewrite !stk_names, app_nil_r. now apply first_seen_twice. }
  apply table_ext.
  - unfold names in NM. rewrite NM. exact ND.
  - pose proof (stk_names L C (a ++ b)) as E. unfold names in *. now rewrite NM, E.
  - intros k Hk. unfold names in HG. rewrite HG by exact Hk. unfold names in NM. rewrite NM in Hk. rewrite dget_stk by assumption. f_equal. unfold l. cbn [map concat]. unfold piece. cbn [d_cols]. rewrite !dget_stk by assumption. rewrite app_nil_r.
    unfold scol, ncol, ccol. destruct (name_dec k col); now rewrite flat_map_app.
Qed.
Lemma front_ok L C ls : NoDup (L ++ col :: C) -> move_front L (stk L C ls) = stk L C ls.
Proof.
  intros ND. unfold move_front. destruct (nodup_app_inv _ _ ND) as (N1 & N2 & DJ).
  assert (E : flat_map (fun l => match dget l (stk L C ls) with Some c => [(l, c)] | None => [] end) L = part ls L).
  { assert (G : forall K, incl K L -> flat_map (fun l => match dget l (stk L C ls) with Some c => [(l, c)] | None => [] end) K = part ls K).
    { induction K as [|k K IH]; intros I; [reflexivity|]. cbn [flat_map]. rewrite dget_stk; [|exact ND|apply in_or_app; left; apply I; now left]. unfold scol. destruct (name_dec k col) as [->|].
      - elim (DJ col); [apply I; now left|now left].
      - cbn [app]. unfold part. cbn [map]. f_equal. apply IH. intros x Hx. apply I. now right. }
    apply G, incl_refl. }
  rewrite E, part_names. unfold stk at 1. rewrite filter_app.
  rewrite filter_none.
  - cbn [app]. unfold stk. f_equal. rewrite <- (part_names ls C) in DJ, ND. apply filter_all. intros x Hx. apply negb_true_iff, mem_false. intros Q. apply (DJ (fst x) Q). destruct Hx as [<-|Hx]; [now left|]. right. unfold names. now apply in_map.
  - intros x Hx. apply negb_false_iff, mem_true. rewrite <- (part_names ls L). unfold names. now apply in_map.
Qed.

(** *** one member *)
Lemma not_in_values (d : ds) : not_in (labels d) (cols d) = names (values_of d).
Proof. unfold not_in, values_of. apply (names_filter (fun x => negb (mem x (labels d)))). Qed.
Lemma not_in_col (d : ds) L : ~ In col (names (cols d)) -> not_in (col :: L) (cols d) = not_in L (cols d).
Proof.
  intros H. unfold not_in. apply filter_ext_in. intros x Hx. f_equal. unfold mem. cbn [existsb]. destruct (name_dec col x) as [->|]; [contradiction|reflexivity].
Qed.
Definition new_part (nm : name) (from_ms : bool) (elem : ds) : option table :=
  match match labels elem with [] => Some [] | _ => pick (labels elem) (cols elem) end with
  | None => None
  | Some inds =>
      match (if from_ms then
               match dget col (cols elem) with
               | Some c => Some (inds, dset col (map (fun cn => of_name (nm ++ delim ++ decode cn)) c) (cols elem))
               | None => None
               end
             else
               if mem col (names (cols elem)) then None
               else if negb (valid col) then None
               else Some (dset col (repeat (of_name nm) (shape0 (cols elem))) inds, cols elem)) with
      | None => None
      | Some (inds, ecols) => match pick (not_in (labels elem) (cols elem)) ecols with
                              | None => None
                              | Some v => concat2 inds v
                              end
      end
  end.
Lemma v_step_eq st nm from_ms elem : v_step st nm from_ms elem =
  if list_eq_dec name_dec (match st with None => labels elem | Some s => fst (fst s) end) (labels elem) then
    if list_eq_dec name_dec (match st with None => not_in (col :: labels elem) (cols elem) | Some s => snd (fst s) end) (not_in (col :: labels elem) (cols elem)) then
      match new_part nm from_ms elem with
      | None => None
      | Some t => Some (labels elem, not_in (col :: labels elem) (cols elem), move_front (labels elem) (match st with None => t | Some s => concat_rows2 inv (snd s) t end))
      end
    else None
  else None.
Proof.
  unfold MuModel.v_step, new_part. destruct (list_eq_dec name_dec _ (labels elem)) as [->|]; [|reflexivity]. destruct (list_eq_dec name_dec _ _) as [->|]; [|reflexivity].
  destruct (match labels elem with [] => _ | _ => _ end) as [inds|]; [|reflexivity]. destruct (if from_ms then _ else _) as [[i e]|]; [|reflexivity]. destruct (pick _ e) as [v|]; [|reflexivity]. destruct (concat2 i v); reflexivity.
Qed.
Definition node_ok (ls : list (list name * ds)) (d : ds) : Prop :=
  exists L C, ls <> [] /\ agree L C ls /\ NoDup (L ++ col :: C) /\ d = mkDs L (stk L C ls).
(** what a member is flattened to *)
Definition member_ok (t : tree) (d : ds) : Prop :=
  match t with Leaf d0 => d = d0 /\ sound n d0 | Node l => node_ok (leaves t) d end.
Definition is_node (t : tree) : bool := match t with Leaf _ => false | Node _ => true end.
Lemma leaf_part (d : ds) : sound n d -> ~ In col (names (cols d)) ->
  NoDup (labels d ++ col :: names (values_of d)).
Proof.
  intros (_ & ND & NL & I & _) H. apply NoDup_app_d; [exact NL| |].
  - constructor.
    + rewrite <- not_in_values. unfold not_in. rewrite filter_In. tauto.
    + rewrite <- not_in_values. now apply nodup_filter.
  - intros x Hx [<-|Q]; [apply H; now apply I|]. rewrite <- not_in_values in Q. unfold not_in in Q. apply filter_In in Q. destruct Q as (_ & Q). apply negb_true_iff, mem_false in Q. contradiction.
Qed.
Lemma label_pick_ok (d : ds) : NoDup (labels d) -> incl (labels d) (names (cols d)) ->
  match labels d with [] => Some [] | _ => pick (labels d) (cols d) end = Some (label_cols d).
Proof.
  intros NL I. destruct (labels d) as [|l ls] eqn:E; [unfold label_cols; now rewrite E|]. cbn [pick]. rewrite pick_go_ok; [unfold label_cols; now rewrite E|exact NL|exact I].
Qed.
Lemma leaf_new (nm : name) (d : ds) : sound n d ->
  new_part nm false d = if mem col (names (cols d)) then None else if negb (valid col) then None else
                        match names (values_of d) with [] => None | _ => Some (stk (labels d) (names (values_of d)) [([nm], d)]) end.
Proof.
  intros SD. pose proof SD as (NE & ND & NL & I & LN). unfold new_part. rewrite (label_pick_ok d NL I). destruct (mem col (names (cols d))) eqn:EM; [reflexivity|]. apply mem_false in EM. destruct (negb (valid col)); [reflexivity|].
  assert (EQ : names (label_cols d) = labels d) by now apply label_cols_names.
  rewrite dset_fresh by (unfold names in EQ; rewrite EQ; intros Q; apply EM; now apply I). rewrite not_in_values.
  destruct (names (values_of d)) as [|c cs] eqn:EV; [reflexivity|]. rewrite <- EV. rewrite pick_ne by congruence. rewrite <- not_in_values, pick_values by exact ND. fold (values_of d).
  destruct (concat2_ok (label_cols d ++ [(col, repeat (of_name nm) (shape0 (cols d)))]) (values_of d)) as [(-> & _)|(_ & Q)].
  - unfold names. rewrite map_app. cbn [map fst]. unfold names in EQ. rewrite EQ. apply NoDup_app_d; [exact NL|repeat constructor; intros []|]. intros x Hx [<-|[]]. apply EM. now apply I.
  - f_equal. unfold stk. rewrite !one_part. cbn [snd]. rewrite not_in_values, <- (labels_part d I), <- (values_part d ND). unfold ncol. cbn [flat_map fst snd joined]. rewrite app_nil_r, shape_height, <- app_assoc. reflexivity.
  - elim Q. split.
    + assert (VN : values_of d <> []) by (intros Z; rewrite Z in EV; discriminate). rewrite (shape0_lens n (values_of d) VN (values_lens valid delim n d SD)). apply shape0_lens; [destruct (label_cols d); discriminate|].
      intros x Hx. apply in_app_or in Hx. destruct Hx as [Hx|[<-|[]]]; [apply LN; now apply label_cols_in|]. cbn [snd]. rewrite repeat_length. apply shape0_lens; [exact NE|exact LN].
    + unfold names. rewrite map_app, map_app. cbn [map fst]. rewrite <- app_assoc. unfold names in EQ. rewrite EQ. cbn [app]. apply (leaf_part d SD EM).
Qed.
Lemma ncol_under nm ls : (forall q, In q ls -> fst q <> []) -> map (fun cn => of_name (nm ++ delim ++ decode cn)) (ncol ls) = ncol (under nm ls).
Proof.
  intros H. unfold ncol, under. induction ls as [|[p d] ls IH]; [reflexivity|]. cbn [flat_map map fst snd]. rewrite map_app, IH by (intros q Hq; apply H; now right). f_equal.
  rewrite map_rep, RT. now rewrite joined_cons by (apply (H (p, d)); now left).
Qed.
Lemma part_under nm ls cs : part (under nm ls) cs = part ls cs.
Proof. unfold part, ccol, under. apply map_ext. intros c. f_equal. induction ls as [|q ls IH]; [reflexivity|]. cbn [map flat_map snd]. now rewrite IH. Qed.
Lemma agree_under nm L C ls : agree L C ls -> agree L C (under nm ls).
Proof. intros H q Hq. unfold under in Hq. apply in_map_iff in Hq. destruct Hq as (x & <- & Hx). cbn [snd]. now apply H. Qed.
Lemma node_new (nm : name) L C ls : NoDup (L ++ col :: C) -> (forall q, In q ls -> fst q <> []) ->
  (new_part nm true (mkDs L (stk L C ls)) = Some (stk L C (under nm ls)) \/
   new_part nm true (mkDs L (stk L C ls)) = None /\ shape0 (part ls L) <> shape0 [(col, ncol (under nm ls))]).
Proof.
  intros ND P. set (d := mkDs L (stk L C ls)). destruct (nodup_app_inv _ _ ND) as (N1 & N2 & DJ).
  assert (I : incl (labels d) (names (cols d))) by (unfold d; cbn [labels cols]; rewrite stk_names; intros x Hx; apply in_or_app; now left).
  assert (EL : label_cols d = part ls L).
  { rewrite (labels_part d I). unfold d, part, column. cbn [labels cols]. apply map_ext_in. intros c Hc. f_equal. rewrite dget_stk; [|exact ND|apply in_or_app; now left]. unfold scol. destruct (name_dec c col) as [->|]; [|reflexivity]. elim (DJ col Hc). now left. }
  assert (DS : dset col (ncol (under nm ls)) (stk L C ls) = stk L C (under nm ls)).
  { unfold stk. rewrite !part_under. apply dset_mid. rewrite part_names. intros Q. apply (DJ col Q). now left. }
  assert (NI : forall x, not_in L (stk L C x) = col :: C).
  { intros x. unfold not_in. rewrite stk_names, filter_app, filter_none; [|intros y Hy; apply negb_false_iff, mem_true; exact Hy]. cbn [app]. apply filter_all. intros y Hy. apply negb_true_iff, mem_false. intros Q. now apply (DJ y Q). }
  assert (FV : filter (fun c => negb (mem (fst c) L)) (stk L C (under nm ls)) = (col, ncol (under nm ls)) :: part (under nm ls) C).
  { unfold stk. rewrite filter_app, filter_none; [|intros y Hy; apply negb_false_iff, mem_true; rewrite <- (part_names (under nm ls) L); unfold names; now apply in_map]. cbn [app].
    apply filter_all. intros y Hy. apply negb_true_iff, mem_false. intros Q. apply (DJ (fst y) Q). destruct Hy as [<-|Hy]; [now left|]. right. rewrite <- (part_names (under nm ls) C). unfold names. now apply in_map. }
  assert (EN : new_part nm true d = concat2 (part ls L) ((col, ncol (under nm ls)) :: part (under nm ls) C)).
  { unfold new_part. rewrite (label_pick_ok d N1 I), EL. unfold d. cbn [labels cols]. rewrite dget_stk; [|exact ND|apply in_or_app; right; now left]. unfold scol. destruct (name_dec col col) as [_|]; [|congruence].
    rewrite (ncol_under nm ls P), DS, NI, pick_ne by discriminate. rewrite <- (NI (under nm ls)), pick_values by (rewrite stk_names; exact ND). now rewrite FV. }
  rewrite EN. assert (PN : NoDup (names (part ls L))) by (rewrite part_names; exact N1).
  destruct (concat2_ok (part ls L) ((col, ncol (under nm ls)) :: part (under nm ls) C) PN) as [(-> & _)|(-> & Q)]; [left|right].
  - unfold stk. now rewrite !part_under.
  - split; [reflexivity|]. intros SH. apply Q. split; [exact SH|]. rewrite <- (part_under nm ls L). change (NoDup (names (stk L C (under nm ls)))). now rewrite stk_names.
Qed.
Definition vstate_ok (ls : list (list name * ds)) (labs C : list name) (dsr : table) : Prop :=
  ls <> [] /\ agree labs C ls /\ NoDup (labs ++ col :: C) /\ dsr = stk labs C ls.
Lemma leaves_paths (l : list (name * tree)) q : In q (leaves (Node l)) -> fst q <> [].
Proof. cbn [leaves]. intros H. apply in_flat_map in H. destruct H as (p & _ & H). apply in_map_iff in H. destruct H as (x & <- & _). discriminate. Qed.
Lemma mset_part (t : tree) (d : ds) nm new : member_ok t d -> new_part nm (is_node t) d = Some new -> exists C,
  not_in (col :: labels d) (cols d) = C /\ agree (labels d) C (under nm (leaves t)) /\ NoDup (labels d ++ col :: C) /\ new = stk (labels d) C (under nm (leaves t)) /\ leaves t <> [].
Proof.
  destruct t as [d0|l]; cbn [member_ok is_node].
  - intros (-> & SD). rewrite (leaf_new nm d0 SD). destruct (mem col (names (cols d0))) eqn:EM; [discriminate|]. apply mem_false in EM. destruct (negb (valid col)); [discriminate|].
    destruct (names (values_of d0)) as [|c cs] eqn:EV; [discriminate|]. rewrite <- EV. intros [= <-]. exists (names (values_of d0)). split; [rewrite not_in_col by exact EM; apply not_in_values|]. 
    split; [intros q [<-|[]]; auto|]. split; [now apply leaf_part|]. split; [reflexivity|discriminate].
  - intros (L & C & NE & AG & ND & ->) H. destruct (node_new nm L C (leaves (Node l)) ND (leaves_paths l)) as [E|(E & _)]; rewrite E in H; [|discriminate]. injection H as <-.
    exists C. cbn [labels cols]. split; [|split; [now apply agree_under|split; [exact ND|split; [reflexivity|exact NE]]]].
    destruct (nodup_app_inv _ _ ND) as (N1 & N2 & DJ). inversion N2 as [|? ? N3 N4]; subst. unfold not_in. rewrite stk_names, filter_app, filter_none; [|intros y Hy; apply negb_false_iff, mem_true; now right].
    cbn [app filter]. replace (mem col (col :: L)) with true by (symmetry; apply mem_true; now left). cbn [negb]. apply filter_all. intros y Hy. apply negb_true_iff, mem_false. intros [<-|Q]; [contradiction|]. apply (DJ y Q). now right.
Qed.
Lemma v_step_sound st prefix nm t elem r :
  match st with None => prefix = [] | Some (labs, C, dsr) => vstate_ok prefix labs C dsr end ->
  member_ok t elem -> v_step st nm (is_node t) elem = Some r -> vstate_ok (prefix ++ under nm (leaves t)) (fst (fst r)) (snd (fst r)) (snd r).
Proof.
  intros ST MO. rewrite v_step_eq. destruct (list_eq_dec name_dec _ (labels elem)) as [EL|]; [|discriminate]. destruct (list_eq_dec name_dec _ _) as [EC|]; [|discriminate].
  destruct (new_part nm (is_node t) elem) as [new|] eqn:EN; [|discriminate]. intros [= <-]. cbn [fst snd]. destruct (mset_part t elem nm new MO EN) as (C & EC' & AG & ND & -> & NE). rewrite EC' in *.
  destruct st as [[[labs C0] dsr]|]; cbn [fst snd] in *.
  - subst labs C0. destruct ST as (P1 & P2 & P3 & ->). rewrite stk_app, front_ok by assumption. split; [destruct prefix; [congruence|discriminate]|]. split; [|split; [exact ND|reflexivity]].
    intros q Hq. apply in_app_or in Hq. destruct Hq; [now apply P2|now apply AG].
  - subst prefix. cbn [app]. rewrite front_ok by assumption. split; [unfold under; destruct (leaves t); [congruence|discriminate]|]. split; [exact AG|split; [exact ND|reflexivity]].
Qed.
Lemma v_loop_sound (flat : tree -> option ds) l : (forall p d, In p l -> flat (snd p) = Some d -> member_ok (snd p) d) ->
  forall st prefix r, match st with None => prefix = [] | Some (labs, C, dsr) => vstate_ok prefix labs C dsr end ->
  loop flat v_step l st = Some r ->
  match r with None => prefix ++ leaves (Node l) = [] | Some (labs, C, dsr) => vstate_ok (prefix ++ leaves (Node l)) labs C dsr end.
Proof.
  induction l as [|[nm t] l IH]; intros F st prefix r ST; cbn [loop].
  - intros [= <-]. cbn [leaves flat_map]. destruct st as [[[labs C] dsr]|]; rewrite app_nil_r; exact ST.
  - destruct (flat t) as [d|] eqn:ET; [|discriminate]. fold (is_node t). destruct (v_step st nm (is_node t) d) as [s|] eqn:ES; [|discriminate].
    pose proof (v_step_sound st prefix nm t d s ST (F (nm, t) d (or_introl eq_refl) ET) ES) as NS. intros H.
    rewrite leaves_cons. cbn [fst snd]. rewrite app_assoc. apply IH with (st := Some s); [|destruct s as [[? ?] ?]; exact NS|exact H].
    intros p x Hp. apply F. now right.
Qed.
Theorem vertical_member t d : all_sound n t -> flatten_v t = Some d -> member_ok t d.
Proof.
  revert d. induction t as [d0|l IH] using tree_rect'; intros d AS; cbn [MuModel.flatten_v].
  - intros [= <-]. split; [reflexivity|]. apply (AS [] d0). now left.
  - destruct (loop _ _ l None) as [[[[labs C] dsr]|]|] eqn:EL; try discriminate. intros [= <-].
    assert (ST : vstate_ok (leaves (Node l)) labs C dsr).
    { apply (v_loop_sound flatten_v l) with (st := None) (prefix := []) (r := Some (labs, C, dsr)); [|reflexivity|exact EL].
      intros p x Hp. rewrite Forall_forall in IH. apply (IH p Hp). intros q e Hq. apply (AS (fst p :: q) e). cbn [leaves]. apply in_flat_map. exists p. split; [exact Hp|]. apply in_map_iff. exists (q, e). auto. }
    destruct ST as (P1 & P2 & P3 & ->). cbn [member_ok]. exists labs, C. split; [exact P1|]. split; [exact P2|]. split; [exact P3|]. unfold set_labels. f_equal. apply filter_all. intros x Hx. apply mem_true. rewrite stk_names. apply in_or_app. now left.
Qed.
Theorem vertical_sound (l : list (name * tree)) (d : ds) : all_sound n (Node l) -> flatten_v (Node l) = Some d ->
  (forall q q', In q (leaves (Node l)) -> In q' (leaves (Node l)) -> labels (snd q) = labels d /\ map fst (values_of (snd q)) = map fst (values_of (snd q')) /\ ~ In col (map fst (cols (snd q)))) /\
  cols d = stacked of_name delim col (leaves (Node l)) /\ NoDup (map fst (cols d)).
Proof.
  intros AS H. destruct (vertical_member _ _ AS H) as (L & C & NE & AG & ND & ->). cbn [labels cols]. split; [|split].
  - intros q q' Hq Hq'. destruct (AG q Hq) as (A1 & A2). destruct (AG q' Hq') as (B1 & B2). split; [exact A1|]. split; [unfold names in *; congruence|].
    intros Q. apply NoDup_remove_2 in ND. apply ND. apply in_or_app. destruct (in_dec name_dec col L) as [HL|HL]; [now left|right]. rewrite <- A2, <- not_in_values. unfold not_in. apply filter_In. split; [exact Q|]. apply negb_true_iff, mem_false. now rewrite A1.
  - symmetry. now apply stacked_stk.
  - pose proof (stk_names L C (leaves (Node l))) as E. unfold names in E. now rewrite E.
Qed.

(** *** when it works *)
Section Works.
Variables L C : list name.
Hypothesis VC : valid col = true.
Hypothesis NC : C <> [].
Hypothesis FRESH : ~ In col (L ++ C).
Definition vfit (t : tree) : Prop := proper t /\ all_sound n t /\ agree L C (leaves t).
Lemma vfit_member l p : vfit (Node l) -> In p l -> vfit (snd p).
Proof.
  intros (B & A & E) Hp. assert (SUB : forall q d, In (q, d) (leaves (snd p)) -> In (fst p :: q, d) (leaves (Node l))).
  { intros q d H. cbn [leaves]. apply in_flat_map. exists p. split; [exact Hp|]. apply in_map_iff. exists (q, d). auto. }
  split; [|split].
  - clear - B Hp. cbn [proper] in B. destruct B as (_ & _ & B). induction l as [|a l IH]; [destruct Hp|]. cbn [fold_right] in B. destruct Hp as [->|Hp]; [tauto|]. apply IH; tauto.
  - intros q d H. apply (A (fst p :: q)). now apply SUB.
  - intros [q d] H. apply (E (fst p :: q, d)). now apply SUB.
Qed.
Lemma ccol_length ls c : (forall q, In q ls -> sound n (snd q) /\ In c (names (cols (snd q)))) -> length (ccol ls c) = n * length ls.
Proof.
  induction ls as [|[p d] ls IH]; intros H; [cbn; lia|]. unfold ccol. cbn [flat_map length]. rewrite app_length. fold (ccol ls c). rewrite IH by (intros q Hq; apply H; now right).
  destruct (H (p, d) (or_introl eq_refl)) as (SD & Hc). cbn [snd] in *. assert (length (column c d) = n); [|lia]. unfold column. destruct (dget c (cols d)) as [v|] eqn:E; [|apply dget_none in E; contradiction].
  apply dget_some_in in E. destruct SD as (_ & _ & _ & _ & LN). apply (LN (c, v) E).
Qed.
Lemma ncol_length ls : (forall q, In q ls -> sound n (snd q)) -> length (ncol ls) = n * length ls.
Proof.
  induction ls as [|[p d] ls IH]; intros H; [cbn; lia|]. unfold ncol. cbn [flat_map length]. rewrite app_length, repeat_length. fold (ncol ls). rewrite IH by (intros q Hq; apply H; now right).
  assert (height (snd (p, d)) = n); [|lia]. rewrite <- shape_height. destruct (H (p, d) (or_introl eq_refl)) as (NE & _ & _ & _ & LN). apply shape0_lens; [exact NE|exact LN].
Qed.
Lemma member_new (t : tree) (d : ds) nm : vfit t -> (is_node t = true -> L <> []) -> member_ok t d -> labels d = L /\ not_in (col :: L) (cols d) = C /\ exists new, new_part nm (is_node t) d = Some new.
Proof.
  intros (PR & AS & AG) NL. destruct t as [d0|l]; cbn [member_ok is_node].
  - intros (-> & SD). destruct (AG ([], d0) (or_introl eq_refl)) as (EL & EV). cbn [snd] in *.
    assert (NI : ~ In col (names (cols d0))).
    { intros Q. apply FRESH, in_or_app. destruct (in_dec name_dec col L) as [HL|HL]; [now left|right]. rewrite <- EV, <- not_in_values. unfold not_in. apply filter_In. split; [exact Q|]. apply negb_true_iff, mem_false. now rewrite EL. }
    split; [exact EL|]. split; [rewrite <- EL, not_in_col, not_in_values by exact NI; exact EV|]. rewrite (leaf_new nm d0 SD). replace (mem col (names (cols d0))) with false by (symmetry; now apply mem_false). rewrite VC. cbn [negb].
    rewrite EV. destruct C; [congruence|eauto].
  - intros NO. pose proof NO as (L' & C' & NE & AG' & ND & ->). cbn [labels cols].
    assert (E : L' = L /\ C' = C).
    { destruct (leaves (Node l)) as [|q r] eqn:EQ; [congruence|]. assert (Hq : In q (q :: r)) by now left. destruct (AG' q Hq) as (A1 & A2). destruct (AG q Hq) as (B1 & B2). split; congruence. }
    destruct E as (-> & ->).
    assert (X : exists new, new_part nm true (mkDs L (stk L C (leaves (Node l)))) = Some new).
    { destruct (node_new nm L C (leaves (Node l)) ND (leaves_paths l)) as [E|(_ & Q)]; [eauto|]. elim Q. specialize (NL eq_refl). destruct L as [|a b]; [congruence|].
      unfold shape0, nrows_of, part. cbn [map]. rewrite ccol_length, ncol_length.
      - unfold under. now rewrite map_length.
      - intros q Hq. unfold under in Hq. apply in_map_iff in Hq. destruct Hq as ([x e] & <- & Hx). cbn [snd]. now apply (AS x).
      - intros [x e] Hq. cbn [snd]. pose proof (AS x e Hq) as SD. split; [exact SD|]. destruct SD as (_ & _ & _ & I & _). apply I. destruct (AG (x, e) Hq) as (B1 & _). cbn [snd] in B1. rewrite B1. now left. }
    split; [reflexivity|]. split; [|exact X]. destruct X as (new & EN). destruct (mset_part (Node l) (mkDs L (stk L C (leaves (Node l)))) nm new NO EN) as (C'' & E1 & E2 & _). cbn [labels cols] in *. rewrite E1.
    destruct (leaves (Node l)) as [|q r] eqn:EQ; [congruence|]. destruct (AG q (or_introl eq_refl)) as (_ & <-). symmetry. apply (E2 (nm :: fst q, snd q)). now left.
Qed.
Theorem vertical_works : forall t, vfit t -> (L <> [] \/ level 1 t) -> exists d, flatten_v t = Some d.
Proof.
  induction t as [d0|l IH] using tree_rect'; intros FT OR; cbn [MuModel.flatten_v]; [eauto|]. rewrite Forall_forall in IH.
  assert (NODE : forall p, In p l -> is_node (snd p) = true -> L <> []).
  { intros p Hp Q. destruct OR as [NL|LV]; [exact NL|]. exfalso. clear - Hp Q LV. cbn [level] in LV. induction l as [|a l IH]; [destruct Hp|]. cbn [fold_right] in LV. destruct LV as (A & B). destruct Hp as [->|Hp]; [destruct (snd p); [discriminate|destruct A]|now apply IH]. }
  assert (G : forall l2 st, incl l2 l -> (st = None -> l2 <> []) -> match st with None => True | Some s => fst (fst s) = L /\ snd (fst s) = C end ->
     exists r, loop flatten_v v_step l2 st = Some (Some r)).
  { induction l2 as [|[nm t] l2 IH2]; intros st I NE SS; cbn [loop].
    - destruct st; [eauto|]. now elim (NE eq_refl).
    - assert (Hp : In (nm, t) l) by (apply I; now left). pose proof (vfit_member l (nm, t) FT Hp) as FM. cbn [snd] in FM.
      assert (EE : exists e, flatten_v t = Some e).
      { destruct t as [d0|l0]; [cbn [MuModel.flatten_v]; eauto|]. apply (IH (nm, Node l0) Hp FM). left. now apply (NODE _ Hp). }
      destruct EE as (e & Ee). rewrite Ee. fold (is_node t).
      pose proof (vertical_member t e (proj1 (proj2 FM)) Ee) as MO.
      destruct (member_new t e nm FM (NODE _ Hp) MO) as (E1 & E2 & new & E3).
      rewrite v_step_eq, E1, E2, E3. destruct (list_eq_dec name_dec _ L) as [_|NQ]; [|elim NQ; destruct st; [exact (proj1 SS)|reflexivity]].
      destruct (list_eq_dec name_dec _ C) as [_|NQ]; [|elim NQ; destruct st; [exact (proj2 SS)|reflexivity]].
      apply IH2; [intros x Hx; apply I; now right|discriminate|]. cbn [fst snd]. auto. }
  destruct (G l None (incl_refl l)) as (r & Er); [|exact Logic.I|].
  - intros _. destruct FT as ((NE & _) & _). exact NE.
  - rewrite Er. destruct r as [[? ?] ?]. eauto.
Qed.
End Works.
End Vertical.
