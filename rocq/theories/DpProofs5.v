(* Fitted columns as shown columns, footers, lines, sets of columns, the
   headings of a Multiset and the transposed table. *)
From Coq Require Import List Arith Bool PeanoNat Lia.
From Verif Require Import DpSpec DpModel DpSpec2 DpProofs DpProofs2 DpProofs3 DpProofs4.
Import ListNotations.

Lemma map_eq_app {A B} (f : A -> B) l a b : map f l = a ++ b -> exists x y, l = x ++ y /\ map f x = a /\ map f y = b.
Proof.
  revert l. induction a as [|z a IH]; intros l H; [now exists [], l|].
  destruct l as [|w l]; [discriminate|]. cbn in H. injection H as H1 H2.
  destruct (IH l H2) as (x & y & -> & E1 & E2). exists (w :: x), y. cbn. now rewrite H1, E1.
Qed.

Section F.
  Variable V : Type.
  Variable fmt : V -> text.
  Variable num : nat -> text.
  Variable just : list V -> align.
  Notation mk := (mk fmt num just).
  Notation width := (width fmt num).

  Lemma plain_app (a b : list (column V)) : plain (a ++ b) = plain a ++ plain b.
  Proof. unfold plain. now rewrite map_app. Qed.
  Lemma plain_unhidden (a : list (column V)) : filter (unhidden V) (plain a) = plain a.
  Proof. apply filter_all. intros x X. apply in_map_iff in X. now destruct X as (c & <- & _). Qed.
  Lemma dw_mk g ps p (l : list (shown V)) : map (dw p) (map (mk g ps) l) = map (fun s => width g ps s + p) l.
  Proof. rewrite map_map. apply map_ext. intros s. unfold dw. now rewrite mk_width. Qed.

  Lemma fit_shown g m0 rb p console tot nf (ms : list (column V)) :
    let ps := with_break m0 rb in
    exists M a b, fit_max p console false tot (length m0) rb nf (map (mk g ps) (plain ms)) = (a, b) /\
      a ++ b = map (mk g ps) M /\
      ((console < tot /\ M = []) \/
       (tot <= console /\ exists hidden, abridged ms (repeat dots nf) hidden M /\
          (hidden = false <-> tot + total (map (fun s => width g ps s + p) (plain ms)) <= console) /\
          tot + total (map (fun s => width g ps s + p) (filter (unhidden V) M)) <= console)).
  Proof.
    intros ps. destruct (le_lt_dec tot console) as [LE|LT].
    2:{ exists [], [], []. unfold fit_max. rewrite fit_loop_wide by exact LT. auto. }
    unfold fit_max.
    destruct (fit_loop_spec p console (length (map (mk g ps) (plain ms))) tot (map (mk g ps) (plain ms)) [] [])
      as (pre & hid & suf & brk & F & MM & B & LN & T & W); [lia|exact LE|].
    rewrite F. cbn [app]. rewrite app_nil_r.
    unfold plain in MM. rewrite map_map in MM.
    destruct (map_eq_app _ _ _ _ MM) as (pre' & r' & EQ1 & P1 & R1).
    destruct (map_eq_app _ _ _ _ R1) as (hid' & suf' & EQ2 & P2 & R2).
    assert (PP : pre = map (mk g ps) (plain pre')) by (unfold plain; now rewrite map_map).
    assert (PS' : suf = map (mk g ps) (plain suf')) by (unfold plain; now rewrite map_map).
    assert (HH : hid <> [] <-> hid' <> []) by (rewrite <- P2; destruct hid'; cbn; split; congruence).
    assert (AB : abridged ms (repeat dots nf) brk
                  (plain pre' ++ (if brk then [SDots (repeat dots nf)] else []) ++ plain suf')).
    { exists pre', hid', suf'. split; [now rewrite EQ1, EQ2|]. split; [reflexivity|]. split; [now rewrite B|].
      rewrite PP, PS' in LN. unfold plain in LN. rewrite !map_length in LN. exact LN. }
    assert (HF : brk = false <-> tot + total (map (fun s => width g ps s + p) (plain ms)) <= console).
    { rewrite <- dw_mk. destruct brk.
      - split; [discriminate|]. intros H. specialize (W (proj1 B eq_refl)). lia.
      - split; [intros _|reflexivity]. assert (HN : hid = []) by (destruct hid; [reflexivity|]; destruct B as [_ B]; discriminate B; discriminate).
        replace (map (mk g ps) (plain ms)) with (pre ++ hid ++ suf) by (unfold plain; rewrite map_map; symmetry; exact MM). rewrite HN. exact T. }
    assert (FT : filter (unhidden V) (plain pre' ++ (if brk then [SDots (repeat dots nf)] else []) ++ plain suf')
                 = plain pre' ++ plain suf').
    { rewrite !filter_app, !plain_unhidden. now destruct brk. }
    assert (TT : tot + total (map (fun s => width g ps s + p) (plain pre' ++ plain suf')) <= console).
    { rewrite <- dw_mk, map_app, <- PP, <- PS'. exact T. }
    destruct brk; eexists _, _, _; (split; [reflexivity|]).
    - split; [|right; split; [exact LE|]; exists true; split; [exact AB|]; split; [exact HF|]; now rewrite FT].
      rewrite !map_app. cbn [map]. unfold ps at 2. rewrite break_mk, PP, PS'. now rewrite <- app_assoc.
    - split; [|right; split; [exact LE|]; exists false; split; [exact AB|]; split; [exact HF|]; now rewrite FT].
      rewrite !map_app. cbn [map app]. now rewrite PP, PS'.
  Qed.

  (* ---- footers ---- *)
  Lemma foot_rows (cs : list (list text)) n : cs <> [] -> (forall c, In c cs -> length c = n) ->
    zip_all cs = map (fun j => map (fun c => nth j c []) cs) (seq 0 n).
  Proof.
    intros NE H.
    replace cs with (map (fun f => map f (seq 0 n)) (map (fun c j => nth j c []) cs)) at 1.
    - rewrite zip_all_map by (destruct cs; easy). apply map_ext. intros j. now rewrite map_map.
    - rewrite map_map. transitivity (map (fun c : list text => c) cs); [|apply map_id].
      apply map_ext_in. intros c X. symmetry. apply cells_map. auto.
  Qed.
End F.

(* ---- lines ---- *)
Lemma pad_length al w s : length s <= w -> length (pad al w s) = w.
Proof.
  intros H. unfold pad. destruct al; rewrite !app_length, !repeat_length; try lia.
  assert (K := Nat.div2_decr (w - length s) (w - length s) ltac:(lia)). 
  assert (Nat.div2 (w - length s) <= w - length s) by (destruct (w - length s); [cbn; lia|]; apply Nat.lt_le_incl, Nat.lt_div2; lia). lia.
Qed.
Lemma join_length l : length (join l) = total (map (@length nat) l) + 3 * (length l - 1).
Proof.
  induction l as [|x l IH]; [reflexivity|]. destruct l as [|y l]; [cbn; lia|].
  change (join (x :: y :: l)) with (x ++ spacer ++ join (y :: l)). rewrite !app_length, IH.
  unfold total. cbn [map fold_right length spacer]. lia.
Qed.
Lemma line_length al cs (row : list text) : length row = length cs ->
  (forall i c s, nth_error cs i = Some c -> nth_error row i = Some s -> length s <= d_width c) ->
  length (line al cs row) = total (map d_width cs) + 3 * (length cs - 1).
Proof.
  intros L H. unfold line. rewrite join_length, map_length.
  replace (length (combine cs row)) with (length cs) by (rewrite combine_length; lia).
  apply (f_equal (fun x => x + 3 * (length cs - 1))).
  rewrite map_map. apply (f_equal total). clear -L H.
  revert row L H. induction cs as [|c cs IH]; intros [|s row] L H; try discriminate; [reflexivity|]. cbn.
  rewrite pad_length by (apply (H 0); reflexivity). apply (f_equal (cons (d_width c))). apply IH; [now injection L|].
  intros i c' s' E1 E2. apply (H (S i)); assumption.
Qed.
Lemma border_length cs : length (border cs) = total (map d_width cs) + 3 * (length cs - 1).
Proof. unfold border. rewrite join_length, map_length, map_map. f_equal. f_equal. apply map_ext. intros. apply repeat_length. Qed.

(* ---- sets of columns ---- *)
Lemma column_sets_spec p console off cols : forall cur acc,
  cur = off + total (map (dw p) acc) -> (2 <= length acc -> cur <= console) ->
  concat (column_sets p console off cur acc cols) = acc ++ cols /\
  (forall s, In s (tl (column_sets p console off cur acc cols)) -> s <> []) /\
  (forall s, In s (column_sets p console off cur acc cols) -> 2 <= length s ->
     off + total (map (dw p) s) <= console) /\
  (acc <> [] -> hd [] (column_sets p console off cur acc cols) <> []).
Proof.
  induction cols as [|c r IH]; intros cur acc HC HA; cbn [column_sets].
  - cbn. rewrite app_nil_r. repeat split; auto; try easy. intros s [<-|[]] L. rewrite <- HC. auto.
  - destruct (console <? cur + dw p c) eqn:E.
    + destruct (IH (off + dw p c) [c]) as (C & NE & F & H1).
      { cbn. lia. } { cbn. lia. }
      cbn [concat tl]. rewrite C. split; [reflexivity|]. split; [|split].
      * intros s X. destruct (column_sets p console off (off + dw p c) [c] r) as [|s0 ss] eqn:ES; [easy|].
        destruct X as [->|X]; [|apply NE; exact X]. now specialize (H1 ltac:(discriminate)).
      * intros s [<-|X] L; [rewrite <- HC; auto|auto].
      * cbn. auto.
    + apply Nat.ltb_ge in E. destruct (IH (cur + dw p c) (acc ++ [c])) as (C & NE & F & H1).
      { rewrite map_app, total_app. cbn. lia. } { intros _. exact E. }
      rewrite C, <- app_assoc. cbn. repeat split; auto. intros _. apply H1. destruct acc; discriminate.
Qed.

Lemma column_sets_ne p console off cols : forall cur acc, column_sets p console off cur acc cols <> [].
Proof. induction cols as [|x r IH]; intros cur acc; cbn [column_sets]; [discriminate|]. destruct (_ <? _); [discriminate|]. apply IH. Qed.

(* ---- headings of a Multiset ---- *)
Lemma covered_cons h r : covered (h :: r) = repeat (fst h) (snd h) ++ covered r.
Proof. reflexivity. Qed.
Lemma covered_app a b : covered (a ++ b) = covered a ++ covered b.
Proof. unfold covered. now rewrite map_app, concat_app. Qed.

Lemma firstn_repeat' {A} (x : A) k n : k <= n -> firstn k (repeat x n) = repeat x k.
Proof. revert n. induction k; intros [|n] H; cbn; try reflexivity; try lia. f_equal. apply IHk. lia. Qed.

Lemma left_head_ok top : forall idx k, top <> [] -> idx <= k -> k <= idx + length (covered top) ->
  exists a, left_head top idx (S k) = Some a /\ covered a = firstn (k - idx) (covered top) ++ [[]].
Proof.
  induction top as [|h r IH]; intros idx k NE H1 H2; [easy|]. cbn [left_head]. rewrite covered_cons in *.
  rewrite app_length, repeat_length in H2. replace (S k - 1) with k by lia.
  destruct (idx + snd h <? k) eqn:E1; [apply Nat.ltb_lt in E1|apply Nat.ltb_ge in E1].
  - destruct (IH (idx + snd h) k) as (a & E & C); [destruct r; [cbn in H2; lia|discriminate]|lia|lia|].
    rewrite E. exists (h :: a). split; [reflexivity|]. rewrite covered_cons, C.
    rewrite firstn_app, repeat_length. rewrite (firstn_all2 (repeat _ _)) by (rewrite repeat_length; lia).
    replace (k - idx - snd h) with (k - (idx + snd h)) by lia. now rewrite app_assoc.
  - rewrite firstn_app, repeat_length. destruct (idx + snd h =? k) eqn:E2; [apply Nat.eqb_eq in E2|].
    + exists [h; ([], 1)]. split; [reflexivity|]. replace (k - idx - snd h) with 0 by lia.
      rewrite firstn_all2 by (rewrite repeat_length; lia). cbn. now rewrite !app_nil_r.
    + apply Nat.eqb_neq in E2. exists [(fst h, S k - idx - 1); ([], 1)]. split; [reflexivity|].
      replace (k - idx - snd h) with 0 by lia. replace (S k - idx - 1) with (k - idx) by lia.
      rewrite firstn_repeat' by lia. cbn. now rewrite !app_nil_r.
Qed.

Lemma skipn_repeat' {A} (x : A) k n : skipn k (repeat x n) = repeat x (n - k).
Proof. revert n. induction k; intros [|n]; cbn; try reflexivity. apply IHk. Qed.
Lemma right_head_ok rtop : forall idx k, rtop <> [] -> idx <= k -> k <= idx + length (covered (rev rtop)) ->
  exists b, right_head rtop idx k = Some b /\
    covered b = skipn (length (covered (rev rtop)) - (k - idx)) (covered (rev rtop)).
Proof.
  induction rtop as [|h r IH]; intros idx k NE H1 H2; [easy|]. cbn [right_head rev] in *. rewrite covered_app in *.
  replace (covered [h]) with (repeat (fst h) (snd h)) in * by (cbn; now rewrite app_nil_r).
  rewrite app_length, repeat_length in *.
  destruct (idx + snd h <? k) eqn:E1; [apply Nat.ltb_lt in E1|apply Nat.ltb_ge in E1].
  - destruct (IH (idx + snd h) k) as (b & E & C); [destruct r; [cbn in H2; lia|discriminate]|lia|lia|].
    rewrite E. exists (b ++ [h]). split; [reflexivity|]. rewrite covered_app, C.
    replace (covered [h]) with (repeat (fst h) (snd h)) by (cbn; now rewrite app_nil_r).
    rewrite skipn_app. set (n := length (covered (rev r))) in *.
    replace (n + snd h - (k - idx)) with (n - (k - (idx + snd h))) by lia.
    replace (n - (k - (idx + snd h)) - n) with 0 by lia. reflexivity.
  - rewrite skipn_app. rewrite (skipn_all2 (covered (rev r))) by lia. cbn [app]. rewrite skipn_repeat'.
    destruct (k <? idx + snd h) eqn:E2; [apply Nat.ltb_lt in E2|apply Nat.ltb_ge in E2].
    + exists [(fst h, k - idx)]. split; [reflexivity|]. cbn. rewrite app_nil_r. f_equal. lia.
    + exists [h]. split; [reflexivity|]. cbn. rewrite app_nil_r. f_equal. lia.
Qed.

(* ---- repeated keys ---- *)
Lemma read_hide prev l : ~ In dot l -> read_after prev (hide_after prev l) = l.
Proof.
  revert prev. induction l as [|x r IH]; intros prev H; [reflexivity|]. cbn [hide_after read_after].
  destruct (text_eqb x prev) eqn:E.
  - apply text_eqb_eq in E. subst. replace (text_eqb dot dot) with true by reflexivity.
    f_equal. apply IH. intros X. apply H. now right.
  - replace (text_eqb x dot) with false by (symmetry; apply text_eqb_neq; intros ->; apply H; now left).
    f_equal. apply IH. intros X. apply H. now right.
Qed.
Lemma read_hide_repeats l : ~ In dot (tl l) -> read_repeats (hide_repeats l) = l.
Proof. destruct l as [|x r]; [reflexivity|]. cbn. intros H. f_equal. now apply read_hide. Qed.

(* ---- transposed ---- *)
Lemma fit_rows_le console tot ws : fit_rows console tot ws <= length ws.
Proof. revert tot. induction ws as [|w r IH]; intros tot; cbn [fit_rows length]; [lia|]. destruct (console <? tot + (w + 3)); [lia|]. specialize (IH (tot + (w + 3))). lia. Qed.
Lemma fit_rows_spec console tot ws : tot <= console ->
  tot + total (map (fun w => w + 3) (firstn (fit_rows console tot ws) ws)) <= console /\
  (fit_rows console tot ws < length ws ->
   console < tot + total (map (fun w => w + 3) (firstn (S (fit_rows console tot ws)) ws))).
Proof.
  revert tot. induction ws as [|w r IH]; intros tot H; cbn [fit_rows].
  - cbn. lia.
  - destruct (console <? tot + (w + 3)) eqn:E; [apply Nat.ltb_lt in E|apply Nat.ltb_ge in E].
    + cbn. lia.
    + destruct (IH _ E) as [A B]. cbn [firstn map length] in *. unfold total in *. cbn [fold_right] in *. split; [lia|].
      intros L. specialize (B ltac:(lia)). lia.
Qed.
