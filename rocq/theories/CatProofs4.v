(** Mapped categoricals, membership, dictionaries, counts. *)
From Coq Require Import List Arith ZArith Bool Lia Permutation.
From Verif Require Import Sched SchedFacts GroupModel GroupFacts FillModel FillProofs FlattenModel GroupingModel GroupingSpec GroupingProofs
  CatModel CatSpec CatProofs CatProofs2 CatProofs3.
Import ListNotations.
Local Open Scope Z_scope.

(** ** mapping edits *)
Lemma get_set_i d c s c' : get_i (set_i d c s) c' = if c =? c' then Some s else get_i d c'.
Proof.
  induction d as [|[k v] d IH]; cbn [set_i get_i]; [reflexivity|].
  destruct (Z.eqb_spec k c) as [->|N]; cbn [get_i].
  - destruct (c =? c'); reflexivity.
  - rewrite IH. destruct (Z.eqb_spec k c'), (Z.eqb_spec c c'); congruence.
Qed.
Lemma get_set_s d s c s' : get_s (set_s d s c) s' = if name_dec s s' then Some c else get_s d s'.
Proof.
  induction d as [|[k v] d IH]; cbn [set_s get_s]; [reflexivity|].
  destruct (name_dec k s) as [->|N]; cbn [get_s].
  - destruct (name_dec s s'); reflexivity.
  - rewrite IH. destruct (name_dec k s'), (name_dec s s'); congruence.
Qed.
Lemma get_del_i d c c' : get_i (del_i d c) c' = if c =? c' then None else get_i d c'.
Proof.
  unfold del_i. induction d as [|[k v] d IH]; cbn [filter get_i]; [destruct (c =? c'); reflexivity|].
  cbn [fst]. destruct (Z.eqb_spec k c) as [->|N]; cbn [negb get_i]; rewrite ?IH.
  - destruct (c =? c'); reflexivity.
  - destruct (Z.eqb_spec k c'), (Z.eqb_spec c c'); congruence.
Qed.
Lemma get_del_s d s s' : get_s (del_s d s) s' = if name_dec s s' then None else get_s d s'.
Proof.
  unfold del_s. induction d as [|[k v] d IH]; cbn [filter get_s]; [destruct (name_dec s s'); reflexivity|].
  cbn [fst]. destruct (name_dec k s) as [->|N]; cbn [get_s]; rewrite ?IH.
  - destruct (name_dec s s'); reflexivity.
  - destruct (name_dec k s'), (name_dec s s'); congruence.
Qed.

Definition inverse (m : maps) : Prop := forall c s, get_i (m_i2s m) c = Some s <-> get_s (m_s2i m) s = Some c.
Lemma edit_inverse m e : inverse m ->
  match e with Madd _ s => get_s (m_s2i m) s = None | Mremove _ => True | Mreplace c s => get_i (m_i2s m) c = Some s end ->
  inverse (fst (mapping_edit m e)).
Proof.
  intros I. destruct e as [c s|c|c s]; cbn [mapping_edit]; intros F.
  - destruct (get_i (m_i2s m) c) as [s0|] eqn:E; [exact I|]. intros c' s'. cbn [fst m_i2s m_s2i]. rewrite get_set_i, get_set_s.
    destruct (Z.eqb_spec c c') as [->|N], (name_dec s s') as [->|N'].
    + split; auto.
    + split; [congruence|]. intros H. apply I in H. congruence.
    + split; [|congruence]. intros H. apply I in H. congruence.
    + apply I.
  - destruct (get_i (m_i2s m) c) as [s0|] eqn:E; [|exact I]. intros c' s'. cbn [fst m_i2s m_s2i]. rewrite get_del_i, get_del_s.
    pose proof (proj1 (I c s0) E) as E'.
    destruct (Z.eqb_spec c c') as [->|N], (name_dec s0 s') as [->|N'].
    + split; discriminate.
    + split; [discriminate|]. intros H. apply I in H. congruence.
    + split; [|discriminate]. intros H. apply I in H. congruence.
    + apply I.
  - rewrite F. intros c' s'. cbn [fst m_i2s m_s2i]. rewrite get_set_i, get_set_s. pose proof (proj1 (I c s) F) as E'.
    destruct (Z.eqb_spec c c') as [->|N], (name_dec s s') as [->|N'].
    + split; auto.
    + split; [congruence|]. intros H. apply I in H. congruence.
    + split; [|congruence]. intros H. apply I in H. congruence.
    + apply I.
Qed.
(** every edit leaves the name of every other code alone *)
Lemma edit_others m e c' : (match e with Madd c _ | Mremove c | Mreplace c _ => c <> c' end) ->
  get_i (m_i2s (fst (mapping_edit m e))) c' = get_i (m_i2s m) c'.
Proof.
  destruct e as [c s|c|c s]; cbn [mapping_edit]; intros N; destruct (get_i (m_i2s m) c); try reflexivity; cbn [fst m_i2s];
    rewrite ?get_set_i, ?get_del_i; destruct (Z.eqb_spec c c'); congruence.
Qed.

(** ** set_valid of a mapped categorical *)
Lemma get_filter_i (P : Z -> bool) d c : P c = true -> get_i (filter (fun p => P (fst p)) d) c = get_i d c.
Proof.
  intros H. induction d as [|[k v] d IH]; cbn [filter get_i fst]; [reflexivity|]. destruct (P k) eqn:E; cbn [get_i]; rewrite IH; [reflexivity|].
  destruct (Z.eqb_spec k c); [congruence|reflexivity].
Qed.
Lemma set_valid_map_rows inv codes d f r k b : nth_error codes r = Some k -> nth_error f r = Some b -> k <> inv ->
  let out := set_valid_map inv codes d (Some f) in
  exists k', nth_error (fst out) r = Some k' /\
    show_map (snd out) k' = if b then show_map d k else inl filtered_name.
Proof.
  intros Ek Eb N. unfold set_valid_map. cbn [fst snd]. set (ikey := map _ (combine codes f)).
  assert (E : nth_error ikey r = Some (if b then k else inv)).
  { unfold ikey. rewrite (map_nth_error _ _ _ (nth_error_combine _ _ _ _ _ Ek Eb)). reflexivity. }
  eexists. split; [exact E|]. unfold show_map. rewrite get_set_i. destruct b; [|rewrite Z.eqb_refl; reflexivity].
  destruct (Z.eqb_spec inv k); [congruence|]. rewrite (get_filter_i (fun z => existsb (Z.eqb z) ikey)); [reflexivity|].
  apply existsb_exists. exists k. split; [eapply nth_error_In; exact E|apply Z.eqb_refl].
Qed.
Lemma set_valid_map_all inv codes d r k : nth_error codes r = Some k ->
  let out := set_valid_map inv codes d None in
  fst out = codes /\ show_map (snd out) k = show_map d k.
Proof.
  intros Ek. unfold set_valid_map. cbn [fst snd]. split; [reflexivity|]. unfold show_map. rewrite (get_filter_i (fun z => existsb (Z.eqb z) codes)); [reflexivity|].
  apply existsb_exists. exists k. split; [eapply nth_error_In; exact Ek|apply Z.eqb_refl].
Qed.
(** the new mapping names only codes in use *)
Lemma set_valid_map_used inv codes d f p : In p (snd (set_valid_map inv codes d (Some f))) ->
  p = (inv, filtered_name) \/ In (fst p) (fst (set_valid_map inv codes d (Some f))) /\ In p d.
Proof.
  unfold set_valid_map. cbn [fst snd]. set (ikey := map _ (combine codes f)).
  assert (G : forall dd, In p (set_i dd inv filtered_name) -> p = (inv, filtered_name) \/ In p dd).
  { induction dd as [|[k v] dd IH]; cbn [set_i]; [intros [<-|[]]; now left|].
    destruct (Z.eqb_spec k inv) as [->|N]; intros [<-|I]; [now left|right; now right|right; now left|].
    destruct (IH I) as [->|J]; [now left|right; now right]. }
  intros I. apply G in I. destruct I as [->|I]; [now left|]. right. apply filter_In in I. destruct I as [I U]. split; [|exact I].
  apply existsb_exists in U. destruct U as [x [Ix Ex]]. apply Z.eqb_eq in Ex. rewrite Ex. exact Ix.
Qed.

(** ** lists of values *)
Section Lists.
Context {A : Type}.
Variable o : ord A.
Hypothesis T : total o.
Lemma compare_list_eq W h c ss (K : cat_ok o W h c) : ss <> [] ->
  compare_list o h c Ceq ss = Some (map (fun v => match v with Some x => existsb (o_eqb o x) ss | None => false end) (vals h c)).
Proof.
  intros Ne. unfold compare_list. destruct ss as [|s0 ss0]; [congruence|]. set (ss := s0 :: ss0). f_equal. unfold vals. rewrite map_map.
  apply (map_ext_forall _ _ _ _ (k_codes _ _ _ _ K)). intros k R.
  assert (E : forall s, zop Ceq (2 * k) (cat_index o h c s) = match cval (c_base c) (items h (c_list c)) k with Some x => o_eqb o x s | None => false end).
  { intros s. unfold zop, cat_index. apply eq_spec; [exact T|apply K|exact R]. }
  destruct (cval (c_base c) (items h (c_list c)) k) as [x|].
  - induction ss as [|s l IH]; [reflexivity|]. cbn [existsb]. rewrite E, IH. reflexivity.
  - induction ss as [|s l IH]; [reflexivity|]. cbn [existsb]. rewrite E, IH. reflexivity.
Qed.
Lemma group_isin_ok us codes base vs r k a : nth_error codes r = Some k -> cval base us k = Some a ->
  nth_error (group_isin o us codes base vs) r = Some (existsb (o_eqb o a) vs).
Proof.
  intros E V. unfold group_isin. rewrite (map_nth_error _ _ _ E). f_equal. apply cval_some in V. destruct V as [B V].
  replace (k - base) with (Z.of_nat (Z.to_nat (k - base))) by lia. apply mbget_error. rewrite (map_nth_error _ _ _ V). reflexivity.
Qed.
Lemma map_dict_ok {C} us codes (d : list (A * C)) ft inv rf r j a : nth_error codes r = Some (S j) -> nth_error us j = Some a ->
  nth_error (map_dict o us codes d ft inv rf) r = Some (match assoc o d a with Some b => b | None => inv end).
Proof.
  intros E U. unfold map_dict. destruct (forallb _ us) eqn:F; rewrite (map_nth_error _ _ _ E); f_equal.
  - rewrite U. reflexivity.
  - rewrite (nth_error_nth _ _ ft U). reflexivity.
Qed.
Lemma map_dict_filtered {C} us codes (d : list (A * C)) ft inv rf r : nth_error codes r = Some 0%nat ->
  assoc o d ft = None -> (exists u, In u us /\ assoc o d u = None) ->
  nth_error (map_dict o us codes d ft inv rf) r = Some inv.
Proof.
  intros E N [u [Iu Nu]]. unfold map_dict. destruct (forallb _ us) eqn:F.
  - rewrite forallb_forall in F. specialize (F u Iu). rewrite Nu in F. discriminate.
  - rewrite (map_nth_error _ _ _ E). rewrite N. reflexivity.
Qed.
End Lists.

(** ** arrays of numbers, in parallel *)
Lemma array_compare {A} (f : A -> A -> bool) inv junk base l codes y ws m r k a yr :
  interleave (map (array_it f inv junk base l codes y) (seq 0 (length codes))) ws ->
  base = 0 \/ base = 1 -> nth_error codes r = Some k -> nth_error y r = Some yr -> cval base l (Z.of_nat k) = Some a ->
  run_stores ws m r = f a yr.
Proof.
  intros I B Ek Ey V. assert (Hr : (r < length codes)%nat) by (apply nth_error_Some; congruence).
  rewrite (interleave_pos _ ws m r r I).
  - rewrite nth_map_seq by exact Hr. unfold array_it. cbn. unfold do_store. cbn [fst snd]. rewrite Nat.eqb_refl.
    rewrite (nth_error_nth _ _ _ Ek), (nth_error_nth _ _ _ Ey). f_equal. apply cval_some in V. destruct V as [Hb V].
    unfold cat_values. destruct B as [-> | ->]; cbn [Z.eqb].
    + rewrite Z.sub_0_r, Nat2Z.id in V. apply nth_error_nth. exact V.
    + destruct k as [|k]; [exfalso; cbn in Hb; lia|]. change (nth (S k) (inv :: l) junk) with (nth k l junk). apply nth_error_nth.
      replace (Z.to_nat (Z.of_nat (S k) - 1)) with k in V by lia. exact V.
  - intros i st N E w Iw. apply nth_error_map_seq in E. destruct E as [_ ->]. destruct Iw as [<-|[]]. exact N.
Qed.

(** ** nunique *)
Lemma nodup_map_inj {X Y} (f : X -> Y) l : NoDup l -> (forall x y, In x l -> In y l -> f x = f y -> x = y) -> NoDup (map f l).
Proof.
  induction 1 as [|x l Nx N IH]; intros H; cbn [map]; [constructor|]. constructor.
  - intros I. apply in_map_iff in I. destruct I as [y [E Iy]]. apply H in E; [subst; contradiction|now right|now left].
  - apply IH. intros a b Ia Ib. apply H; now right.
Qed.
Lemma nunique_ok {A} (us : list A) base codes (eq_dec : forall a b : A, {a = b} + {a <> b}) : base = 0 \/ base = 1 -> NoDup us ->
  Forall (fun k => in_range base us k /\ 0 <= k) codes ->
  exists vs, NoDup vs /\ (forall a, In a vs <-> In (Some a) (map (cval base us) codes)) /\ nunique base codes = length vs.
Proof.
  intros B N F.
  set (ks := filter (fun k => base <=? k) (nodup Z.eq_dec codes)).
  assert (Hk : forall k, In k ks -> base <= k < base + Z.of_nat (length us)).
  { intros k I. apply filter_In in I. destruct I as [I L]. apply Z.leb_le in L. apply nodup_In in I.
    pose proof (proj1 (Forall_forall _ _) F k I) as [R _]. unfold in_range in R. lia. }
  assert (Nk : NoDup ks) by (apply NoDup_filter, NoDup_nodup).
  assert (Ha : forall k, In k ks -> exists a, cval base us k = Some a).
  { intros k I. pose proof (Hk k I) as R. unfold cval. destruct (Z.ltb_spec k base); [lia|].
    destruct (nth_error us (Z.to_nat (k - base))) as [a|] eqn:E; [eauto|apply nth_error_None in E; lia]. }
  set (vs := flat_map (fun k => match cval base us k with Some a => [a] | None => [] end) ks).
  exists vs. assert (Lv : length vs = length ks /\ NoDup vs /\ forall a, In a vs <-> exists k, In k ks /\ cval base us k = Some a).
  { clear F. unfold vs. clearbody ks. clear vs. induction ks as [|k ks IH]; cbn [flat_map].
    - split; [reflexivity|]. split; [constructor|]. intros a. split; [intros []|intros [? [[] _]]].
    - inversion Nk as [|? ? Nin Nk']; subst. destruct IH as [L [Nv Iv]]; auto; [intros; apply Hk; now right|intros; apply Ha; now right|].
      destruct (Ha k) as [a Ea]; [now left|]. rewrite Ea. cbn [app length]. split; [lia|]. split.
      + constructor; [|exact Nv]. intros I. apply Iv in I. destruct I as [k' [Ik' Ek']]. apply Nin.
        apply cval_some in Ea, Ek'. assert (Z.to_nat (k - base) = Z.to_nat (k' - base)).
        { apply (proj1 (NoDup_nth_error us) N); [apply nth_error_Some; destruct Ea; congruence|destruct Ea, Ek'; congruence]. }
        destruct Ea, Ek'. assert (k = k') by lia. subst. exact Ik'.
      + intros b. split.
        * intros [<-|I]; [exists k; split; [now left|exact Ea]|]. apply Iv in I. destruct I as [k' [? ?]]. exists k'. split; [now right|assumption].
        * intros [k' [[<-|I] E]]; [left; congruence|right; apply Iv; eauto]. }
  destruct Lv as [L [Nv Iv]]. split; [exact Nv|]. split.
  - intros a. rewrite Iv. split.
    + intros [k [I E]]. apply filter_In in I. destruct I as [I _]. apply nodup_In in I. rewrite <- E. apply in_map. exact I.
    + intros I. apply in_map_iff in I. destruct I as [k [E I]]. exists k. split; [|exact E]. apply filter_In. split; [apply nodup_In; exact I|].
      apply cval_some in E. apply Z.leb_le. lia.
  - rewrite L. unfold ks, nunique. set (un := nodup Z.eq_dec codes).
    assert (Hun : Forall (fun k => 0 <= k) un) by (apply Forall_forall; intros k I; apply nodup_In in I; apply (proj1 (Forall_forall _ _) F k I)).
    destruct B as [-> | ->].
    + cbn [Z.eqb]. f_equal. symmetry. clear - Hun. induction Hun as [|k l H F IH]; cbn [filter]; [reflexivity|].
      destruct (Z.leb_spec 0 k); [rewrite IH; reflexivity|lia].
    + change (1 =? 0) with false. cbv iota. assert (Nu : NoDup un) by apply NoDup_nodup. clearbody un. clear - Hun Nu.
      assert (G : length un = (length (filter (fun k => (1 <=? k)%Z) un) + (if existsb (Z.eqb 0) un then 1 else 0))%nat).
      { induction Hun as [|k l H F IH]; [reflexivity|]. inversion Nu as [|? ? Nin Nu']; subst. cbn [filter existsb length].
        specialize (IH Nu'). destruct (Z.eqb_spec 0 k) as [<-|Nk].
        - cbn [orb Z.leb]. assert (E : existsb (Z.eqb 0) l = false).
          { destruct (existsb (Z.eqb 0) l) eqn:E; [|reflexivity]. exfalso. apply existsb_exists in E. destruct E as [x [Ix Ex]]. apply Z.eqb_eq in Ex. subst. contradiction. }
          rewrite E in IH. change (1 <=? 0) with false. cbv iota. lia.
        - cbn [orb]. destruct (Z.leb_spec 1 k); [|lia]. cbn [length]. lia. }
      destruct (existsb (Z.eqb 0) un); lia.
Qed.
