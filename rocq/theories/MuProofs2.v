(** when flattening horizontally works *)
From Coq Require Import List Arith Bool Lia.
From Verif Require Import FlattenModel FlattenProofs MergeModel MergeColsProofs2 DsModel DsSpec DsProofs DsProofs3 DsProofs5 MuSpec MuModel MuProofs.
Import ListNotations.

Lemma cut_at (x : nat) : forall a a' b b' : list nat, ~ In x a -> ~ In x a' -> a ++ x :: b = a' ++ x :: b' -> a = a' /\ b = b'.
Proof.
  induction a as [|y a IH]; intros [|y' a'] b b' H H' E; cbn in *.
  - injection E as ->. auto.
  - injection E as E1 E2. elim H'. now left.
  - injection E as E1 E2. elim H. now left.
  - injection E as -> E2. destruct (IH a' b b') as (-> & ->); [tauto|tauto|exact E2|auto].
Qed.
Lemma joined_inj delim p : forall p', delim <> [] -> p <> [] -> p' <> [] ->
  (forall n, In n p -> forall x, In x n -> ~ In x delim) -> (forall n, In n p' -> forall x, In x n -> ~ In x delim) ->
  joined delim p = joined delim p' -> p = p'.
Proof.
  intros p' ND. revert p'. destruct delim as [|x delim]; [congruence|]. clear ND.
  induction p as [|n p IH]; intros p' NE NE' F F' E; [congruence|]. destruct p' as [|n' p']; [congruence|].
  assert (Fx : ~ In x n) by (intros Q; apply (F n (or_introl eq_refl) x Q); now left).
  assert (Fx' : ~ In x n') by (intros Q; apply (F' n' (or_introl eq_refl) x Q); now left).
  destruct p as [|m p], p' as [|m' p'].
  - cbn in E. now subst.
  - cbn [joined] in E. elim Fx. rewrite E. apply in_or_app. right. now left.
  - cbn [joined] in E. elim Fx'. rewrite <- E. apply in_or_app. right. now left.
  - rewrite !joined_cons in E by discriminate. cbn [app] in E. destruct (cut_at x n n' _ _ Fx Fx' E) as (-> & E2). apply app_inv_head in E2. f_equal.
    apply IH; [discriminate|discriminate|intros k Hk; apply F; now right|intros k Hk; apply F'; now right|exact E2].
Qed.

Section Works.
Context {V : Type}.
Notation ds := (ds V).
Notation tree := (tree V).
Notation table := (table V).
Variable valid : name -> bool.
Variable delim : name.
Variable n : nat.
Variable L : list name.
Hypothesis NL : L <> [].
(** what is asked of a part *)
Definition fit (k : nat) (t : tree) : Prop :=
  level k t /\ proper t /\ all_sound n t /\ delimited delim t /\
  (forall p d, In (p, d) (leaves t) -> labels d = L /\ values_of d <> []) /\
  (forall p d c q, In (p, d) (leaves t) -> In c (values_of d) -> tail_of q p ->
     ~ In (joined delim (q ++ [fst c])) L /\ (q <> [] -> valid (joined delim (q ++ [fst c])) = true)).
Lemma fit_member k l p : fit (S k) (Node l) -> In p l -> fit k (snd p).
Proof.
  intros (A & B & C & (D0 & D) & E & F) Hp.
  assert (SUB : forall q d, In (q, d) (leaves (snd p)) -> In (fst p :: q, d) (leaves (Node l))).
  { intros q d H. cbn [leaves]. apply in_flat_map. exists p. split; [exact Hp|]. apply in_map_iff. exists (q, d). auto. }
  split; [|split; [|split; [|split; [|split]]]].
  - clear - A Hp. cbn [level] in A. induction l as [|a l IH]; [destruct Hp|]. cbn [fold_right] in A. destruct Hp as [->|Hp]; [tauto|]. apply IH; tauto.
  - clear - B Hp. cbn [proper] in B. destruct B as (_ & _ & B). induction l as [|a l IH]; [destruct Hp|]. cbn [fold_right] in B. destruct Hp as [->|Hp]; [tauto|]. apply IH; tauto.
  - intros q d H. apply (C (fst p :: q)). now apply SUB.
  - split; [exact D0|]. intros q d c H Hc m Hm. apply (D (fst p :: q) d c); [now apply SUB|exact Hc|now right].
  - intros q d H. apply (E (fst p :: q)). now apply SUB.
  - intros q d c r H Hc (z & Hz). apply (F (fst p :: q) d c); [now apply SUB|exact Hc|]. exists (fst p :: z). now rewrite Hz.
Qed.
Lemma level_length k (t : tree) : level k t -> forall p d, In (p, d) (leaves t) -> length p = k.
Proof.
  revert k. induction t as [d0|l IH] using tree_rect'; intros k HL p d H.
  - destruct k; [|destruct HL]. destruct H as [[= <- _]|[]]. reflexivity.
  - destruct k; [destruct HL|]. cbn [leaves] in H. apply in_flat_map in H. destruct H as (x & Hx & H). apply in_map_iff in H. destruct H as ([q e] & [= <- <-] & Hq). cbn [length fst]. f_equal.
    rewrite Forall_forall in IH. apply (IH x Hx k) with (d := e); [|exact Hq]. clear - HL Hx. cbn [level] in HL. induction l as [|a l IH]; [destruct Hx|]. cbn [fold_right] in HL. destruct Hx as [->|Hx]; [tauto|]. apply IH; tauto.
Qed.
Lemma full_names (ls : list (list name * ds)) m : In m (names (full delim ls)) <-> exists p d c, In (p, d) ls /\ In c (values_of d) /\ m = joined delim (p ++ [fst c]).
Proof.
  unfold full, names. rewrite in_map_iff. setoid_rewrite in_flat_map. split.
  - intros (x & <- & ((p & d) & Hq & H)). apply in_map_iff in H. destruct H as (c & <- & Hc). exists p, d, c. auto.
  - intros (p & d & c & Hq & Hc & ->). exists (joined delim (p ++ [fst c]), snd c). split; [reflexivity|]. exists (p, d). split; [exact Hq|]. apply in_map_iff. exists c. auto.
Qed.
Lemma shape0_lens (t : table) : t <> [] -> lens n t -> shape0 t = n.
Proof. destruct t as [|[a b] t]; [congruence|]. intros _ H. unfold shape0, nrows_of. apply (H (a, b)). now left. Qed.
Lemma pick_ne ns (t : table) : ns <> [] -> pick ns t = pick_go ns t [].
Proof. destruct ns; [congruence|reflexivity]. Qed.
Lemma step_works k l1 nm t elem st :
  fit (S k) (Node (l1 ++ [(nm, t)])) -> ~ In nm (map fst l1) ->
  match st with None => l1 = [] | Some (labs, dsr) => state_ok delim n (leaves (Node l1)) labs dsr end ->
  flat_ok delim n (leaves t) elem -> exists r, h_step valid delim st nm elem = Some r.
Proof.
  intros FT NM ST FO. set (nd := Node (l1 ++ [(nm, t)])) in *.
  pose proof FT as (LV & PR & AS & (DL0 & DL) & LB & TL). 
  assert (SUB : forall q d, In (q, d) (leaves t) -> In (nm :: q, d) (leaves nd)).
  { intros q d H. unfold nd. rewrite leaves_app. apply in_or_app. right. cbn [leaves flat_map]. rewrite app_nil_r. apply in_map_iff. exists (q, d). auto. }
  assert (SUB1 : forall q d, In (q, d) (leaves (Node l1)) -> In (q, d) (leaves nd)).
  { intros q d H. unfold nd. rewrite leaves_app. apply in_or_app. now left. }
  assert (EL : labels elem = L).
  { destruct (fo_first _ _ _ _ FO) as ((q & d) & rr & EQ & _). assert (Hq : In (q, d) (leaves t)) by (rewrite EQ; now left). rewrite <- (fo_labels _ _ _ _ FO (q, d) Hq). cbn [snd]. apply (LB (nm :: q)). now apply SUB. }
  assert (VNE : values_of elem <> []).
  { rewrite (fo_values _ _ _ _ FO). destruct (fo_first _ _ _ _ FO) as ((q & d) & rr & EQ & _). assert (Hq : In (q, d) (leaves t)) by (rewrite EQ; now left). destruct (LB _ _ (SUB _ _ Hq)) as (_ & VN).
    rewrite EQ. unfold full. cbn [flat_map fst snd]. intros Q. apply app_eq_nil in Q. destruct Q as (Q & _). apply map_eq_nil in Q. congruence. }
  pose proof (fo_sound _ _ _ _ FO) as SD. pose proof SD as (NE & ND & NLb & I & LN).
  unfold h_step.
  assert (LABS : match st with None => labels elem | Some s => fst s end = L).
  { destruct st as [[labs dsr]|]; [|exact EL]. cbn [fst]. destruct (so_first _ _ _ _ _ ST) as ((q & d) & rr & EQ). assert (Hq : In (q, d) (leaves (Node l1))) by (rewrite EQ; now left).
    rewrite <- (so_labels _ _ _ _ _ ST (q, d) Hq). cbn [snd]. apply (LB q). now apply SUB1. }
  rewrite LABS, EL. destruct (list_eq_dec name_dec L L) as [_|]; [|congruence].
  assert (VN : not_in L (cols elem) = names (values_of elem)) by (rewrite values_names; now rewrite EL).
  assert (D : exists dsr, match st with None => match L with [] => Some [] | _ :: _ => pick L (cols elem) end | Some s => Some (snd s) end = Some dsr /\
     NoDup (names dsr) /\ lens n dsr /\ names dsr = L ++ names (full delim (leaves (Node l1))) /\ dsr <> []).
  { destruct st as [[labs dsr]|].
    - exists dsr. cbn [snd fst] in *. subst labs. destruct ST as [A1 A2 A3 A4 A5 A6 A7]. split; [reflexivity|]. split; [exact A5|]. split; [exact A6|]. split; [exact A4|]. intros ->. destruct L; [congruence|discriminate].
    - subst l1. exists (label_cols elem). assert (LCN := label_cols_names elem I). rewrite EL in LCN. split.
      + destruct L as [|a b] eqn:EEL; [congruence|]. cbn [pick]. rewrite pick_go_ok; [unfold label_cols; now rewrite EL|cbn; now rewrite <- EL|now rewrite <- EL].
      + rewrite LCN. split; [now rewrite <- EL|]. split; [intros c Hc; apply LN; now apply label_cols_in|]. cbn [leaves flat_map full names map]. rewrite app_nil_r. split; [reflexivity|]. intros Q. rewrite Q in LCN. now destruct L. }
  destruct D as (dsr & -> & D1 & D2 & D3 & D4).
  assert (PK : pick (not_in L (cols elem)) (cols elem) = Some (values_of elem)).
  { rewrite pick_ne; [|rewrite VN; intros Q; apply map_eq_nil in Q; congruence]. rewrite pick_values by exact ND. unfold values_of. now rewrite EL. }
  rewrite PK. clear PK.
  (* members of the two lists of names *)
  assert (LEN : forall q d, In (q, d) (leaves nd) -> length q = S k) by (apply level_length; exact LV).
  assert (FREE : forall q d c, In (q, d) (leaves nd) -> In c (values_of d) -> forall m, In m (q ++ [fst c]) -> forall x, In x m -> ~ In x delim) by exact DL.
  assert (VALS : forall m, In m (names (values_of elem)) -> exists q d c, In (q, d) (leaves t) /\ In c (values_of d) /\ m = joined delim (q ++ [fst c])).
  { intros m. rewrite (fo_values _ _ _ _ FO). apply full_names. }
  assert (CMP : forall q d c q' d' c', In (q, d) (leaves nd) -> In c (values_of d) -> In (q', d') (leaves nd) -> In c' (values_of d') ->
     forall z z', tail_of z (q ++ [fst c]) -> tail_of z' (q' ++ [fst c']) -> z <> [] -> z' <> [] -> joined delim z = joined delim z' -> z = z').
  { intros q d c q' d' c' Hq Hc Hq' Hc' z z' (r & Hz) (r' & Hz') Z Z' E. apply (joined_inj delim z z' DL0 Z Z'); [| |exact E].
    - intros m Hm. apply (FREE q d c Hq Hc). rewrite Hz. apply in_or_app. now right.
    - intros m Hm. apply (FREE q' d' c' Hq' Hc'). rewrite Hz'. apply in_or_app. now right. }
  assert (NDV : NoDup (names (values_of elem))) by (rewrite values_names; apply nodup_filter; exact ND).
  assert (NAM : forall m, In m (names (values_of elem)) -> ~ In m (names dsr)).
  { intros m Hm Hd. destruct (VALS m Hm) as (q & d & c & Hq & Hc & ->). rewrite D3 in Hd. apply in_app_or in Hd. destruct Hd as [Hd|Hd].
    - destruct (TL (nm :: q) d c q (SUB _ _ Hq) Hc) as (T & _); [exists [nm]; reflexivity|]. now apply T.
    - apply full_names in Hd. destruct Hd as (q' & d' & c' & Hq' & Hc' & E).
      assert (Z : q ++ [fst c] = q' ++ [fst c']).
      { apply (CMP (nm :: q) d c q' d' c' (SUB _ _ Hq) Hc (SUB1 _ _ Hq') Hc'); [exists [nm]; reflexivity|exists []; reflexivity|destruct q; discriminate|destruct q'; discriminate|exact E]. }
      apply (f_equal (@length name)) in Z. rewrite !app_length in Z. cbn [length] in Z. pose proof (LEN _ _ (SUB _ _ Hq)). pose proof (LEN _ _ (SUB1 _ _ Hq')). cbn [length] in *. unfold name in *. lia. }
  destruct (concat2_ok dsr (values_of elem) D1) as [(-> & SH & NC)|(_ & NC)].
  - rewrite VN. destruct (rename_all_works valid delim nm (values_of elem) dsr NC) as (t' & ->); [| |eauto].
    + intros m Hm. destruct (VALS m Hm) as (q & d & c & Hq & Hc & ->). destruct (TL (nm :: q) d c (nm :: q) (SUB _ _ Hq) Hc) as (_ & T); [exists []; reflexivity|].
      rewrite <- joined_cons by (destruct q; discriminate). apply T. discriminate.
    + intros m Hm. destruct (VALS m Hm) as (q & d & c & Hq & Hc & ->). rewrite <- joined_cons by (destruct q; discriminate). change (nm :: q ++ [fst c]) with ((nm :: q) ++ [fst c]). split.
      * rewrite D3. intros Hd. apply in_app_or in Hd. destruct Hd as [Hd|Hd].
        -- destruct (TL (nm :: q) d c (nm :: q) (SUB _ _ Hq) Hc) as (T & _); [exists []; reflexivity|]. now apply T.
        -- apply full_names in Hd. destruct Hd as (q' & d' & c' & Hq' & Hc' & E).
           assert (Z : (nm :: q) ++ [fst c] = q' ++ [fst c']).
           { apply (CMP (nm :: q) d c q' d' c' (SUB _ _ Hq) Hc (SUB1 _ _ Hq') Hc'); [exists []; reflexivity|exists []; reflexivity|discriminate|destruct q'; discriminate|exact E]. }
           cbn [leaves] in Hq'. apply in_flat_map in Hq'. destruct Hq' as (x & Hx & Hq'). apply in_map_iff in Hq'. destruct Hq' as ([q2 d2] & [= <- <-] & _). cbn [fst app] in Z. injection Z as Z1 _. apply NM. rewrite Z1. now apply in_map.
      * intros Hd. destruct (VALS _ Hd) as (q' & d' & c' & Hq' & Hc' & E).
        assert (Z : (nm :: q) ++ [fst c] = q' ++ [fst c']).
        { apply (CMP (nm :: q) d c (nm :: q') d' c' (SUB _ _ Hq) Hc (SUB _ _ Hq') Hc'); [exists []; reflexivity|exists [nm]; reflexivity|discriminate|destruct q'; discriminate|exact E]. }
        apply (f_equal (@length name)) in Z. rewrite !app_length in Z. cbn [length] in Z. pose proof (LEN _ _ (SUB _ _ Hq)). pose proof (LEN _ _ (SUB _ _ Hq')). cbn [length] in *. unfold name in *. lia.
  - elim NC. split.
    + rewrite !shape0_lens; [reflexivity|exact VNE|now apply values_lens|exact D4|exact D2].
    + unfold names. rewrite map_app. apply NoDup_app_d; [exact D1|exact NDV|]. intros x H1 H2. now apply (NAM x).
Qed.
Lemma fit_prefix k l1 l2 : l1 <> [] -> fit (S k) (Node (l1 ++ l2)) -> fit (S k) (Node l1).
Proof.
  intros NE (A & B & C & (D0 & D) & E & F).
  assert (SUB : forall q d, In (q, d) (leaves (Node l1)) -> In (q, d) (leaves (Node (l1 ++ l2)))) by (intros q d H; rewrite leaves_app; apply in_or_app; now left).
  split; [|split; [|split; [|split; [|split]]]].
  - clear - A. cbn [level] in *. induction l1 as [|a l IH]; [exact I|]. cbn [app fold_right] in *. destruct A as (A1 & A2). split; [exact A1|]. now apply IH.
  - clear - B NE. cbn [proper] in *. destruct B as (_ & B1 & B2). split; [exact NE|]. rewrite map_app in B1. apply nodup_app_inv in B1. split; [tauto|]. clear B1 NE. induction l1 as [|a l IH]; [exact I|]. cbn [app fold_right] in *. destruct B2 as (A1 & A2). split; [exact A1|]. now apply IH.
  - intros q d H. apply (C q). now apply SUB.
  - split; [exact D0|]. intros q d c H. apply (D q d c). now apply SUB.
  - intros q d H. apply (E q). now apply SUB.
  - intros q d c r H. apply (F q d c). now apply SUB.
Qed.
Theorem horizontal_works k : forall t, fit k t -> exists d, flatten_h valid delim t = Some d.
Proof.
  intros t. revert k. induction t as [d0|l IH] using tree_rect'; intros k FT; cbn [flatten_h]; [eauto|].
  destruct k as [|k]; [destruct FT as ([] & _)|]. rewrite Forall_forall in IH.
  assert (G : forall l2 l1 st, l = l1 ++ l2 -> match st with None => l1 = [] | Some (labs, dsr) => state_ok delim n (leaves (Node l1)) labs dsr end ->
     (st = None -> l2 <> []) -> exists r, loop (flatten_h valid delim) (fun st n _ d => h_step valid delim st n d) l2 st = Some (Some r)).
  { induction l2 as [|[nm t] l2 IH2]; intros l1 st EL ST NE; cbn [loop].
    - destruct st; [eauto|]. now elim (NE eq_refl).
    - assert (Hp : In (nm, t) l) by (rewrite EL; apply in_or_app; right; now left). pose proof (fit_member k l (nm, t) FT Hp) as FM. cbn [snd] in FM.
      destruct (IH (nm, t) Hp k FM) as (e & Ee). cbn [snd] in Ee. rewrite Ee.
      assert (FO : flat_ok delim n (leaves t) e) by (apply (horizontal_flat valid); [apply FM|exact Ee]).
      assert (EL2 : l = (l1 ++ [(nm, t)]) ++ l2) by (rewrite <- app_assoc; exact EL).
      assert (NM : ~ In nm (map fst l1)).
      { pose proof FT as (_ & PR & _). cbn [proper] in PR. destruct PR as (_ & PR & _). rewrite EL, map_app in PR. cbn [map fst] in PR. apply NoDup_remove_2 in PR. rewrite in_app_iff in PR. tauto. }
      destruct (step_works k l1 nm t e st) as (r & Er); [|exact NM|exact ST|exact FO|].
      + apply (fit_prefix k (l1 ++ [(nm, t)]) l2); [destruct l1; discriminate|]. rewrite <- EL2. exact FT.
      + rewrite Er. apply (IH2 (l1 ++ [(nm, t)])); [exact EL2| |discriminate].
        pose proof (step_sound valid delim n st (match st with None => [] | Some _ => leaves (Node l1) end) nm e (leaves t) r) as SS. destruct r as [labs' dsr'].
        rewrite leaves_app. cbn [leaves] in *. cbn [flat_map]. rewrite app_nil_r. cbn [fst snd] in *. unfold under in SS.
        destruct st as [[labs dsr]|]; [|subst l1]; apply SS; try exact FO; try exact Er; try exact ST; reflexivity. }
  destruct (G l [] None) as ([labs dsr] & ->); [reflexivity|reflexivity| |eauto].
  intros _. pose proof FT as (_ & PR & _). cbn [proper] in PR. tauto.
Qed.
End Works.
