(** Proofs about loading several files, continued: gaps, Categoricals, the whole Dataset. *)
From Coq Require Import List Arith ZArith Bool Lia.
From Verif Require Import GroupModel GroupFacts FlattenModel DsModel GroupingModel GroupingSpec GroupingProofs GroupingProofs2 PdsModel DsProofs3 FlattenProofs MsModel MsSpec MsProofs.
Import ListNotations.

Lemma in_cumsum : forall a acc x b, In (acc + list_sum a + x) (cumsum_from acc (a ++ x :: b)).
Proof.
  induction a as [|y a IH]; intros acc x b; cbn [app cumsum_from list_sum fold_right].
  - left. cbn. lia.
  - right. specialize (IH (acc + y) x b). replace (acc + (y + fold_right Nat.add 0 a) + x) with (acc + y + list_sum a + x) by (unfold list_sum; lia). exact IH.
Qed.
Lemma in_tl_cumsum a x b : a <> [] -> In (list_sum a + x) (tl (cumsum (a ++ x :: b))).
Proof.
  destruct a as [|y a]; intros NE; [now destruct NE|]. unfold cumsum. cbn [app cumsum_from tl].
  exact (in_cumsum a (0 + y) x b).
Qed.
Lemma cumsum_len : forall l acc, length (cumsum_from acc l) = length l.
Proof. induction l; intros; cbn; auto. Qed.
Lemma length_concat {X} (l : list (list X)) : length (concat l) = list_sum (map (@length X) l).
Proof. induction l; cbn; auto. rewrite app_length, IHl. reflexivity. Qed.
Lemma flat_one {K X} (h : name * K -> list X) ks k0 : NoDup (map fst ks) -> In k0 ks ->
  (forall k, In k ks -> fst k <> fst k0 -> h k = []) -> flat_map h ks = h k0.
Proof.
  induction ks as [|k ks IH]; intros ND I H; [destruct I|]. cbn [flat_map map] in *. inversion ND as [|? ? N1 N2]; subst.
  destruct I as [->|I].
  - assert (E : flat_map h ks = []).
    { clear IH. assert (H' : forall k, In k ks -> h k = []).
      { intros k Ik. apply H; [now right|]. intros E. apply N1. rewrite <- E. now apply in_map. }
      clear -H'. induction ks as [|k ks IH]; auto. cbn [flat_map]. rewrite (H' k) by now left. apply IH. intros; apply H'; now right. }
    rewrite E. apply app_nil_r.
  - rewrite (H k), IH; auto; [intros; apply H; auto; now right|now left|].
    intros E. apply N1. rewrite E. now apply in_map.
Qed.

Section P.
Context {V B M : Type}.
Variable crc : list B -> Z.
Variable grp : list B -> list B * list nat.
Variable junk : nat.
Notation file := (file V B M). Notation column := (column V B M). Notation cell := (@cell V B).
Implicit Types (f : file) (fs : list file).

Definition codes_or n f : list nat := match dget n (f_cols f) with Some (Cat _ k _) => k | _ => repeat 0 (f_rows f) end.
Definition cats_or n f : list B := match dget n (f_cols f) with Some (Cat _ _ u) => u | _ => [] end.
Definition all_cat n fs : Prop := forall f c, In f fs -> dget n (f_cols f) = Some c -> exists b k u, c = Cat b k u.

Lemma gap_at_app (a b : list cell) i : gap_at (a ++ b) (length a + i) = gap_at b i.
Proof. unfold gap_at. rewrite nth_error_app2 by lia. now replace (length a + i - length a) with i by lia. Qed.
Lemma gap_repeat r i (b : list cell) : i < r -> gap_at (repeat CGap r ++ b) i = true.
Proof. intros H. unfold gap_at. rewrite nth_error_app1 by (now rewrite repeat_length). rewrite nth_error_repeat by auto. reflexivity. Qed.
Lemma gap_seen n fs l1 f l2 : fs = l1 ++ f :: l2 -> (exists g, In g fs /\ dget n (f_cols g) <> None) ->
  Forall (@file_ok V B M) fs -> ~ In bang n -> dget n (f_cols f) = None -> 0 < f_rows f ->
  has_gap (cumsum (map (@length cell) (map (part n true) fs))) (concat (map (part n true) fs)) = true.
Proof.
  intros E [g [Ig G]] F H Gf R.
  assert (Of : file_ok f) by (rewrite Forall_forall in F; apply F; subst fs; apply in_or_app; right; now left).
  assert (Pf : part n true f = repeat CGap (f_rows f)) by (rewrite part_col, Gf; auto).
  unfold has_gap. rewrite andb_true_iff. split.
  - apply Nat.ltb_lt. unfold cumsum. rewrite cumsum_len, !map_length, E, app_length. cbn [length].
    subst fs. apply in_app_or in Ig. destruct l1 as [|? l1]; [|cbn; lia]. destruct l2; [|cbn; lia].
    destruct Ig as [[]|[<-|[]]]. congruence.
  - apply orb_true_iff. rewrite E, !map_app, concat_app. cbn [map concat]. rewrite Pf.
    destruct l1 as [|f1 l1].
    + right. cbn [map concat app]. now apply gap_repeat.
    + left. apply existsb_exists. exists (list_sum (map (@length cell) (map (part n true) (f1 :: l1))) + f_rows f). split.
      * set (a := map (@length cell) (map (part n true) (f1 :: l1))).
        rewrite repeat_length. apply in_tl_cumsum. subst a. discriminate.
      * rewrite <- length_concat.
        destruct (Nat.eqb_spec (length (concat (map (part n true) (f1 :: l1))) + f_rows f) 0); [lia|].
        replace (length (concat (map (part n true) (f1 :: l1))) + f_rows f - 1) with (length (concat (map (part n true) (f1 :: l1))) + (f_rows f - 1)) by lia.
        rewrite gap_at_app. apply gap_repeat. lia.
Qed.
Lemma filled n fs : Forall (@file_ok V B M) fs -> ~ In bang n -> all_cat n fs -> (exists g, In g fs /\ dget n (f_cols g) <> None) ->
  map (code_of junk) (fill_gaps (cumsum (map (@length cell) (map (part n true) fs))) (concat (map (part n true) fs))) = concat (map (codes_or n) fs).
Proof.
  intros F H A E. unfold fill_gaps.
  destruct (has_gap (cumsum (map (@length cell) (map (part n true) fs))) (concat (map (part n true) fs))) eqn:G.
  - rewrite !concat_map, !map_map. f_equal. apply map_ext_in. intros f If.
    assert (O : file_ok f) by (rewrite Forall_forall in F; auto).
    rewrite (part_col f n O H). unfold codes_or. destruct (dget n (f_cols f)) as [c|] eqn:D.
    + destruct (A f c If D) as [b [k [u ->]]]. cbn [data_of]. rewrite !map_map. cbn. apply map_id.
    + rewrite map_map. cbn. induction (f_rows f); cbn; f_equal; auto.
  - rewrite concat_map, map_map. f_equal. apply map_ext_in. intros f If.
    assert (O : file_ok f) by (rewrite Forall_forall in F; auto).
    rewrite (part_col f n O H). unfold codes_or. destruct (dget n (f_cols f)) as [c|] eqn:D.
    + destruct (A f c If D) as [b [k [u ->]]]. cbn [data_of]. rewrite !map_map. cbn. apply map_id.
    + destruct (f_rows f) as [|r] eqn:R; [reflexivity|]. exfalso.
      destruct (in_split f fs If) as [l1 [l2 Q]].
      rewrite (gap_seen n fs l1 f l2 Q E F H D) in G; [discriminate|lia].
Qed.
Lemma codes_or_length n f : file_ok f -> ~ In bang n -> (forall c, dget n (f_cols f) = Some c -> exists b k u, c = Cat b k u) ->
  length (codes_or n f) = length (part n true f).
Proof.
  intros O H A. rewrite part_length by auto. unfold codes_or. destruct (dget n (f_cols f)) as [c|] eqn:D; [|apply repeat_length].
  destruct (A c eq_refl) as [b [k [u ->]]]. destruct (get_ok f n _ O D) as [_ [L _]]. exact L.
Qed.
Lemma cats_or_part n f : file_ok f -> ~ In bang n -> part (cat_item n) false f = map CU (cats_or n f).
Proof. intros O H. rewrite part_cats by auto. unfold cats_or. destruct (dget n (f_cols f)) as [[]|]; reflexivity. Qed.
Lemma cats_of_map (l : list B) : cats_of (map (@CU V B) l) = l.
Proof. induction l; cbn; f_equal; auto. Qed.
Lemma cats_of_app (a b : list cell) : cats_of (a ++ b) = cats_of a ++ cats_of b.
Proof. unfold cats_of. apply flat_map_app. Qed.
Lemma cats_of_concat n fs : Forall (@file_ok V B M) fs -> ~ In bang n ->
  cats_of (concat (map (part (cat_item n) false) fs)) = concat (map (cats_or n) fs).
Proof.
  intros F H. induction F as [|f fs O F IH]; cbn [map concat]; [reflexivity|].
  rewrite cats_of_app, IH, (cats_or_part n f O H), cats_of_map. reflexivity.
Qed.

Hypothesis grp_ok : forall l, grouping_of (map Some l) (fst (grp l)) (snd (grp l)).

Lemma mc1 codes cats : cats <> [] ->
  (forall v w, In v cats -> In w cats -> length v = length w -> crc v = crc w -> v = w) ->
  (forall us, In us cats -> NoDup us) -> Forall2 (@valid_codes B) codes cats ->
  let out := merge_cats junk 1 crc grp codes cats in
  shows (fst out) (snd out) = concat (map (fun p => shows (fst p) (snd p)) (combine codes cats)).
Proof. intros Ne S D F. apply (merge_cats_1 junk crc grp grp_ok codes cats Ne S D). exact F. Qed.
Lemma mc0 codes cats : cats <> [] ->
  (forall v w, In v cats -> In w cats -> length v = length w -> crc v = crc w -> v = w) ->
  (forall us, In us cats -> NoDup us) -> Forall2 (@valid_codes0 B) codes cats ->
  let out := merge_cats junk 0 crc grp codes cats in
  shows0 (fst out) (snd out) = concat (map (fun p => shows0 (fst p) (snd p)) (combine codes cats)).
Proof. intros Ne S D F. apply (merge_cats_0 junk crc grp grp_ok codes cats Ne S D). exact F. Qed.
Lemma combine_map {X Y Z} (f : X -> Y) (g : X -> Z) l : combine (map f l) (map g l) = map (fun x => (f x, g x)) l.
Proof. induction l; cbn; f_equal; auto. Qed.
Lemma Forall2_map {X Y Z} (R : Y -> Z -> Prop) (f : X -> Y) (g : X -> Z) l : (forall x, In x l -> R (f x) (g x)) -> Forall2 R (map f l) (map g l).
Proof. induction l; intros H; cbn; constructor; [apply H; now left|apply IHl; intros; apply H; now right]. Qed.
Lemma forallb_same {X} (p : X -> bool) l : (forall x, In x l -> p x = true) -> forallb p l = true.
Proof. intros. apply forallb_forall. auto. Qed.

Lemma metas_in n fs m : In m (metas n fs) -> Forall (@file_ok V B M) fs ->
  exists f c, In f fs /\ dget n (f_cols f) = Some c /\ match c with Plain (Some m') _ => m = inl m' | Plain None _ => False | Cat b _ _ => m = inr b end.
Proof.
  intros I F. apply in_flat_map in I as [f [If I]]. apply in_flat_map in I as [[k c] [Ic I]]. cbn [fst snd] in I.
  destruct (name_dec k n) as [->|]; [|destruct I]. exists f, c. split; auto. split.
  - rewrite Forall_forall in F. apply dget_in; [apply (F f If)|exact Ic].
  - destruct c as [[m'|] l|b k u]; cbn in I; [| exact I |]; destruct I as [<-|[]]; reflexivity.
Qed.
Lemma metas_has n fs f c : In f fs -> dget n (f_cols f) = Some c ->
  match c with Plain (Some m') _ => In (inl m') (metas n fs) | Plain None _ => True | Cat b _ _ => In (inr b) (metas n fs) end.
Proof.
  intros If D. apply dget_some_in in D.
  assert (Q : forall m, In m (match c with Plain (Some m) _ => [inl m] | Plain None _ => [] | Cat b _ _ => [inr b] end) -> In m (metas n fs)).
  { intros m Im. apply in_flat_map. exists f. split; auto. apply in_flat_map. exists (n, c). split; auto. cbn [fst snd].
    destruct (name_dec n n); [exact Im|congruence]. }
  destruct c as [[m|] l|b k u]; auto; apply Q; now left.
Qed.

Lemma cats_found n fs : Forall (@file_ok V B M) fs -> ~ In bang n -> (exists f b k u, In f fs /\ dget n (f_cols f) = Some (Cat b k u)) ->
  flat_map (fun k : name * bool * (list cell * list nat) => if snd (fst k) then [] else if name_dec (spec_name (fst (fst k))) n then [snd k] else []) (multi_stack fs)
  = [(concat (map (part (cat_item n) false) fs), cumsum (map (@length cell) (map (part (cat_item n) false) fs)))].
Proof.
  intros F H [f [b [k [u [If D]]]]].
  unfold multi_stack. rewrite flat_map_concat_map, map_map, <- flat_map_concat_map. cbv zeta. cbn [fst snd].
  change (flat_map (fun f0 => map (fun p : name * (bool * list cell) => (fst p, fst (snd p))) (items f0)) fs) with (keys fs).
  assert (I : In (cat_item n, false) (first_names (keys fs) [])).
  { destruct (in_keys fs f n _ If D) as [_ I]. destruct (first_has (keys fs) [] _ _ I) as [o' Q]; [auto|].
    destruct o'; auto. exfalso. apply first_sub in Q as [Q _]. apply keys_in in Q as [g [Ig [[_ Q]|[Q _]]]]; auto; [|discriminate].
    rewrite Forall_forall in F. pose proof (ok_bang g (F g Ig)) as W. rewrite Forall_forall in W.
    apply in_map_iff in Q as [p [Ep Ip]]. apply (W p Ip). change (In bang (fst p)). rewrite Ep. apply cat_bang. }
  rewrite (flat_one (fun k0 : name * bool => if snd k0 then [] else if name_dec (spec_name (fst k0)) n then
     [(concat (map (part (fst k0) (snd k0)) fs), cumsum (map (@length cell) (map (part (fst k0) (snd k0)) fs)))] else [])
     (first_names (keys fs) []) (cat_item n, false)); [|apply first_nodup|exact I|].
  - cbn [fst snd]. rewrite spec_cat by auto. destruct (name_dec n n); [reflexivity|congruence].
  - intros [m o] Im Nm. cbn [fst snd] in *. destruct o; [reflexivity|].
    apply first_sub in Im as [Im _]. apply keys_in in Im as [g [Ig [[Q _]|[_ [m' [b' [k' [u' [-> D']]]]]]]]]; auto; [discriminate|].
    rewrite Forall_forall in F. destruct (get_ok g m' _ (F g Ig) D') as [Hm' _].
    rewrite spec_cat by auto. destruct (name_dec m' n) as [->|]; [congruence|reflexivity].
Qed.

(** one column of the result *)
Lemma build_ok n fs f c : Forall (@file_ok V B M) fs -> agree fs -> base0_everywhere fs -> crc_ok crc fs ->
  In f fs -> dget n (f_cols f) = Some c ->
  exists o, build crc grp junk fs (multi_stack fs) n (concat (map (part n true) fs), cumsum (map (@length cell) (map (part n true) fs))) = Some o /\
    out_shows o = concat (map (contributes n c) fs) /\
    match c, o with Plain m _, OPlain m' _ => m = m' | Cat b _ _, OCat b' _ _ => b = b' | _, _ => False end.
Proof.
  intros F A B0 CR If D. pose proof F as F'. rewrite Forall_forall in F'. destruct (get_ok f n c (F' f If) D) as [H [L OK]].
  assert (Same : forall g d, In g fs -> dget n (f_cols g) = Some d -> form d = form c) by (intros g d Ig Dg; exact (A n g f d c Ig If Dg D)).
  unfold build. destruct c as [m l|b k u].
  - (* arrays *)
    assert (S : out_shows (OPlain m (concat (map (part n true) fs))) = concat (map (contributes n (Plain m l)) fs)).
    { unfold out_shows. rewrite concat_map, map_map. f_equal. apply map_ext_in. intros g Ig.
      rewrite (part_col g n (F' g Ig) H). unfold contributes. destruct (dget n (f_cols g)) as [d|] eqn:Dg.
      - specialize (Same g d Ig Dg). destruct d as [m' l'|]; cbn in Same; inversion Same; subst m'. cbn [data_of column_shows]. now rewrite map_map.
      - cbn [empty_like]. induction (f_rows g); cbn; f_equal; auto. }
    destruct m as [m|].
    + pose proof (metas_has n fs f _ If D) as Hm. cbn in Hm.
      destruct (metas n fs) as [|m0 ms] eqn:E; [destruct Hm|].
      destruct (metas_in n fs m0) as [g [d [Ig [Dg Q]]]]; [rewrite E; now left|auto|].
      specialize (Same g d Ig Dg). destruct d as [m' l'|]; cbn in Same; inversion Same; subst m'. subst m0.
      eexists. split; [reflexivity|]. cbn [fst]. split; [exact S|reflexivity].
    + destruct (metas n fs) as [|m0 ms] eqn:E; [eexists; split; [reflexivity|]; split; [exact S|reflexivity]|]. exfalso.
      destruct (metas_in n fs m0) as [g [d [Ig [Dg Q]]]]; [rewrite E; now left|auto|].
      specialize (Same g d Ig Dg). destruct d as [m' l'|]; cbn in Same; inversion Same; subst m'. exact Q.
  - (* Categoricals *)
    assert (AC : all_cat n fs).
    { intros g d Ig Dg. specialize (Same g d Ig Dg). destruct d as [|b' k' u']; cbn in Same; [discriminate|]. eauto. }
    pose proof (metas_has n fs f _ If D) as Hm. cbn in Hm.
    destruct (metas n fs) as [|m0 ms] eqn:E; [destruct Hm|].
    assert (All : forall x, In x (m0 :: ms) -> x = inr b).
    { intros x Ix. destruct (metas_in n fs x) as [g [d [Ig [Dg Q]]]]; [rewrite E; exact Ix|auto|].
      specialize (Same g d Ig Dg). destruct d as [m' l'|b' k' u']; cbn in Same; inversion Same; subst b'. exact Q. }
    assert (m0 = inr b) by (apply All; now left). subst m0.
    rewrite (cats_found n fs F H) by (exists f, b, k, u; auto). cbn [fst snd stack_cat].
    rewrite (forallb_same _ (inr b :: ms)) by (intros x Ix; rewrite (All x Ix); apply Nat.eqb_refl).
    eexists. split; [reflexivity|].
    rewrite (filled n fs F H AC) by (exists f; split; auto; congruence).
    assert (E1 : cumsum (map (@length cell) (map (part n true) fs)) = cumsum (map (@length nat) (map (codes_or n) fs))).
    { f_equal. rewrite !map_map. apply map_ext_in. intros g Ig. symmetry. apply codes_or_length; auto. intros d Dg. eapply AC; eauto. }
    assert (E2 : cumsum (map (@length cell) (map (part (cat_item n) false) fs)) = cumsum (map (@length B) (map (cats_or n) fs))).
    { f_equal. rewrite !map_map. apply map_ext_in. intros g Ig. rewrite (cats_or_part n g (F' g Ig) H). apply map_length. }
    rewrite E1, E2, (cats_of_concat n fs F H), !slices_concat.
    assert (CRC : forall v w, In v (map (cats_or n) fs) -> In w (map (cats_or n) fs) -> length v = length w -> crc v = crc w -> v = w).
    { intros v w Iv Iw. apply CR.
      - apply in_map_iff in Iv as [g [<- Ig]]. unfold cats_or. destruct (dget n (f_cols g)) as [[m' l'|b' k' u']|] eqn:Dg; auto. right. eauto 7.
      - apply in_map_iff in Iw as [g [<- Ig]]. unfold cats_or. destruct (dget n (f_cols g)) as [[m' l'|b' k' u']|] eqn:Dg; auto. right. eauto 7. }
    assert (ND : forall us, In us (map (cats_or n) fs) -> NoDup us).
    { intros us Iu. apply in_map_iff in Iu as [g [<- Ig]]. unfold cats_or. destruct (dget n (f_cols g)) as [[m' l'|b' k' u']|] eqn:Dg; try constructor.
      destruct (get_ok g n _ (F' g Ig) Dg) as [_ [_ O]]. apply O. }
    assert (NE : map (cats_or n) fs <> []) by (destruct fs; [destruct If|discriminate]).
    assert (Bs : forall g b' k' u', In g fs -> dget n (f_cols g) = Some (Cat b' k' u') -> b' = b).
    { intros g b' k' u' Ig Dg. specialize (Same g _ Ig Dg). cbn in Same. congruence. }
    split; [|reflexivity]. cbn [out_shows].
    destruct OK as [_ [[-> _]|[-> _]]]; cbn [Nat.eqb].
    + pose proof (mc0 (map (codes_or n) fs) (map (cats_or n) fs) NE CRC ND) as Mg. cbv zeta in Mg. 
      assert (SS : Forall2 (@valid_codes0 B) (map (codes_or n) fs) (map (cats_or n) fs)).
      { apply Forall2_map. intros g Ig. unfold codes_or, cats_or. destruct (dget n (f_cols g)) as [d|] eqn:Dg.
        - destruct (AC g d Ig Dg) as [b' [k' [u' ->]]]. destruct (get_ok g n _ (F' g Ig) Dg) as [_ [_ [_ [[_ O]|[O _]]]]]; auto.
          rewrite (Bs g b' k' u' Ig Dg) in O. discriminate.
        - exfalso. exact (B0 n f g _ If Ig D eq_refl Dg). }
      rewrite (Mg SS), combine_map, map_map, concat_map, map_map. f_equal. apply map_ext_in. intros g Ig. cbn [fst snd].
      unfold contributes, codes_or, cats_or. destruct (dget n (f_cols g)) as [d|] eqn:Dg.
      * destruct (AC g d Ig Dg) as [b' [k' [u' ->]]]. rewrite (Bs g b' k' u' Ig Dg). reflexivity.
      * exfalso. exact (B0 n f g _ If Ig D eq_refl Dg).
    + pose proof (mc1 (map (codes_or n) fs) (map (cats_or n) fs) NE CRC ND) as Mg. cbv zeta in Mg. 
      assert (SS : Forall2 (@valid_codes B) (map (codes_or n) fs) (map (cats_or n) fs)).
      { apply Forall2_map. intros g Ig. unfold codes_or, cats_or. destruct (dget n (f_cols g)) as [d|] eqn:Dg.
        - destruct (AC g d Ig Dg) as [b' [k' [u' ->]]]. destruct (get_ok g n _ (F' g Ig) Dg) as [_ [_ [_ [[O _]|[_ O]]]]]; auto.
          rewrite (Bs g b' k' u' Ig Dg) in O. discriminate.
        - apply Forall_forall. intros x Ix. apply repeat_spec in Ix. subst x. lia. }
      rewrite (Mg SS), combine_map, map_map, concat_map, map_map. f_equal. apply map_ext_in. intros g Ig. cbn [fst snd].
      unfold contributes, codes_or, cats_or. destruct (dget n (f_cols g)) as [d|] eqn:Dg.
      * destruct (AC g d Ig Dg) as [b' [k' [u' ->]]]. rewrite (Bs g b' k' u' Ig Dg). reflexivity.
      * cbn [empty_like]. induction (f_rows g); cbn; f_equal; auto.
Qed.
End P.
