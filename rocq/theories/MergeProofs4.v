(** Outer and right joins, validation, raw key columns. *)
From Coq Require Import List Arith Bool Lia Permutation.
From Verif Require Import Sched SchedFacts GroupModel GroupFacts MergeModel MergeSpec MergeFacts MergeProofs MergeProofs2 MergeProofs3.
Import ListNotations.

(** *** sorting row numbers *)
Lemma row_le_total x y : row_le x y = false -> row_le y x = true.
Proof. destruct x, y; cbn; try congruence. rewrite Nat.leb_gt, Nat.leb_le. lia. Qed.
Lemma row_le_anti x y : row_le x y = true -> row_le y x = true -> x = y.
Proof. destruct x, y; cbn; try congruence. rewrite !Nat.leb_le. intros. f_equal. lia. Qed.
Lemma row_le_trans x y z : row_le x y = true -> row_le y z = true -> row_le x z = true.
Proof. destruct x, y, z; cbn; try congruence. rewrite !Nat.leb_le. lia. Qed.
Lemma insert_comm x y l : insert_row x (insert_row y l) = insert_row y (insert_row x l).
Proof.
  induction l as [|z l IH]; cbn.
  - destruct (row_le x y) eqn:E1, (row_le y x) eqn:E2; try reflexivity.
    + now rewrite (row_le_anti x y E1 E2).
    + apply row_le_total in E1. congruence.
  - destruct (row_le y z) eqn:Ey, (row_le x z) eqn:Ex; cbn; rewrite ?Ex, ?Ey.
    + destruct (row_le x y) eqn:E1, (row_le y x) eqn:E2; try reflexivity.
      * now rewrite (row_le_anti x y E1 E2).
      * apply row_le_total in E1. congruence.
    + destruct (row_le x y) eqn:E1; [|reflexivity]. assert (row_le x z = true) by (now apply row_le_trans with y). congruence.
    + destruct (row_le y x) eqn:E1; [|reflexivity]. assert (row_le y z = true) by (now apply row_le_trans with x). congruence.
    + now rewrite IH.
Qed.
Lemma sort_perm l l' : Permutation l l' -> sort_rows l = sort_rows l'.
Proof.
  unfold sort_rows. induction 1; cbn [fold_right]; [reflexivity|congruence|apply insert_comm|congruence].
Qed.
Lemma sort_incr l : incr l -> sort_rows (map Some l) = map Some l.
Proof.
  induction l as [|x l IH]; intros H; [reflexivity|]. cbn [map sort_rows fold_right]. fold (sort_rows (map Some l)).
  rewrite IH by (intros i j a b Ha Hb L; apply (H (S i) (S j)); [exact Ha|exact Hb|lia]).
  destruct l as [|y l]; [reflexivity|]. cbn. assert (x < y) by (apply (H 0 1 x y); [reflexivity|reflexivity|lia]).
  destruct (Nat.leb_spec x y); [reflexivity|lia].
Qed.
Lemma sort_to l l' : Permutation l l' -> incr l' -> sort_rows (map Some l) = map Some l'.
Proof. intros P I. rewrite (sort_perm _ (map Some l')) by (now apply Permutation_map). now apply sort_incr. Qed.
Lemma incr_filter f l : incr l -> incr (filter f l).
Proof. intros H i j a b. now apply filter_increasing. Qed.
Lemma perm_filter {X} (f : X -> bool) l l' : Permutation l l' -> Permutation (filter f l) (filter f l').
Proof.
  induction 1; cbn; [reflexivity| | |etransitivity; eassumption].
  - destruct (f x); [now constructor|assumption].
  - destruct (f x), (f y); try reflexivity. constructor.
Qed.
Lemma concat_groups_nodup {X} (f : nat -> list X) (h : X -> nat) gs : NoDup gs -> (forall g, In g gs -> NoDup (f g)) ->
  (forall g x, In g gs -> In x (f g) -> h x = g) -> NoDup (concat (map f gs)).
Proof.
  induction 1 as [|g gs Hg N IH]; cbn; intros H1 H2; [constructor|].
  assert (G : NoDup (concat (map f gs))) by (apply IH; intros; [apply H1; now right|eapply H2; [now right|eassumption]]).
  assert (D : forall x, In x (f g) -> ~ In x (concat (map f gs))).
  { intros x Hx Hc. apply in_concat in Hc. destruct Hc as (l & Hl & Hc). apply in_map_iff in Hl. destruct Hl as (g' & <- & Hg').
    apply Hg. rewrite <- (H2 g x (or_introl eq_refl) Hx). rewrite (H2 g' x (or_intror Hg') Hc). exact Hg'. }
  assert (N1 := H1 g (or_introl eq_refl)). clear - G D N1. induction (f g) as [|x l IHl]; [exact G|]. cbn. inversion N1; subst. constructor.
  - intros Hin. apply in_app_or in Hin. destruct Hin as [Hin|Hin]; [contradiction|]. elim (D x); [now left|exact Hin].
  - apply IHl; [|assumption]. intros y Hy. apply D. now right.
Qed.

Section Joins.
Context {B : Type}.
Variable eqb : B -> B -> bool.
Hypothesis eqb_eq : forall a b, eqb a b = true <-> a = b.
Variable sched : list (list (store (option nat))) -> list (store (option nat)).
Hypothesis HS : forall its, interleave its (sched its).
Variable junk : mem (option nat).

Section Outer.
Variables lkeys rkeys : list (option B).
Variables lus rus : list B.
Variables likey rikey : list nat.
Hypothesis GL : grouping_of lkeys lus likey.
Hypothesis GR : grouping_of rkeys rus rikey.
Hypothesis OL : forall b, In b lus -> In (Some b) lkeys.
Hypothesis OR : forall b, In b rus -> In (Some b) rkeys.
Hypothesis Ll : 0 < length likey.
Hypothesis Lr : 0 < length rikey.
Notation lg := (mkKG lus likey).
Notation rg := (mkKG rus rikey).

Definition unmatched (o : option B) : bool := match matching eqb o lkeys (all_rows lkeys) with [] => true | _ => false end.
Definition maskf (g : nat) : bool :=
  match g with 0 => 0 <? length (group_rows rikey 0) | S k => match nth_error rus k with Some b => negb (is_some (index_of eqb b lus)) | None => false end end.
Lemma mask_eq : (0 <? nth 0 (kg_ncount rg) 0) :: map (fun o => negb (is_some o)) (right_to_left eqb lg rg) = map maskf (seq 0 (S (length rus))).
Proof using Ll Lr.
  rewrite r2l_eq by assumption. rewrite ncount0. cbn [seq map]. f_equal. rewrite map_map.
  rewrite <- seq_shift, map_map. cbn [maskf]. clear. revert lus. intros lus. 
  assert (G : forall (l p : list B), map (fun b => negb (is_some (index_of eqb b lus))) l =
     map (fun k => match nth_error (p ++ l) k with Some b => negb (is_some (index_of eqb b lus)) | None => false end) (seq (length p) (length l))).
  { induction l as [|x l IH]; intros p; [reflexivity|]. cbn [length seq map]. f_equal.
    - rewrite nth_error_app2, Nat.sub_diag by lia. reflexivity.
    - rewrite (IH (p ++ [x])), app_length, <- app_assoc. cbn [length app]. now rewrite Nat.add_1_r. }
  exact (G rus []).
Qed.
Lemma maskf_unmatched j : j < length rkeys -> maskf (nth j rikey 0) = unmatched (nth j rkeys None).
Proof using eqb_eq GL GR OL.
  clear Ll Lr. intros Hj. assert (Q := ikey_of _ _ _ GR j Hj). assert (Lj : j < length rikey) by (rewrite (g_length _ _ _ GR); lia).
  assert (E := nth_error_nth' rikey 0 Lj). destruct (nth j rkeys None) as [b|].
  - destruct Q as (k & Hk & Hb). rewrite Hk. cbn [maskf]. rewrite Hb. unfold unmatched.
    change (matching eqb (Some b) lkeys (all_rows lkeys)) with (rrows eqb lkeys (Some b)).
    destruct (index_of eqb b lus) as [k'|] eqn:Ei; cbn [is_some negb].
    + assert (Hne : rrows eqb lkeys (Some b) <> []).
      { apply (rrows_ne eqb eqb_eq _ _ _ GL OL). apply index_of_some in Ei; [|exact eqb_eq]. now apply nth_error_In in Ei. }
      destruct (rrows eqb lkeys (Some b)); [congruence|reflexivity].
    + now rewrite (rrows_none eqb eqb_eq _ _ _ GL).
  - rewrite Q in E |- *. apply group_rows_in in E. unfold unmatched.
    change (matching eqb None lkeys (all_rows lkeys)) with (rrows eqb lkeys None). rewrite rrows_null. cbn [maskf].
    destruct (group_rows rikey 0); [contradiction|reflexivity].
Qed.
Lemma extract_eq : extract_groups (map maskf (seq 0 (S (length rus)))) (kg_igroup rg) (kg_ncount rg) (kg_ifirst rg)
  = concat (map (fun g => if maskf g then group_rows rikey g else []) (seq 0 (S (length rus)))).
Proof using.
  clear Ll Lr. unfold extract_groups. rewrite map_length, seq_length. f_equal. apply map_seq_ext. intros g Hg. rewrite nth_map_seq by exact Hg.
  destruct (maskf g); [|reflexivity]. unfold kg_igroup, kg_ncount, kg_ifirst, unique_count. cbn [kg_us kg_ikey]. apply pack_slice. lia.
Qed.
Lemma kept_incr kr : incr (kept eqb kr rkeys).
Proof using.
  destruct kr as [[]|]; cbn [kept]; unfold all_rows; try apply incr_filter_seq.
  intros i j a b Ha Hb L. eapply seq_increasing; eauto.
Qed.
Lemma right_only_eq rgb kr : rgb = None \/ kr = None \/ ~ In None rkeys ->
  right_only_rows eqb lg rg rgb kr = map Some (filter (fun j => unmatched (nth j rkeys None)) (kept eqb kr rkeys)).
Proof using eqb_eq GL GR OL OR Ll Lr.
  intros Hg. unfold right_only_rows. cbv zeta. rewrite mask_eq. destruct kr as [k|].
  - assert (By : sort_rows (map Some (compress (if 0 <? nth 0 (kg_ncount rg) 0 then map maskf (seq 0 (S (length rus))) else tl (map maskf (seq 0 (S (length rus))))) (ifirstlast_null rg k)))
      = map Some (filter (fun j => unmatched (nth j rkeys None)) (kept eqb (Some k) rkeys))).
    { apply sort_to; [|apply incr_filter, kept_incr].
      assert (Q := lrows_groups rkeys rus rikey k). cbn [lrows] in Q. 
      assert (P := lrows_perm eqb eqb_eq rkeys rus rikey GR OR (Some k)). cbn [lrows] in P.
      etransitivity; [|apply perm_filter; exact P].
      assert (Em : (if 0 <? nth 0 (kg_ncount rg) 0 then map maskf (seq 0 (S (length rus))) else tl (map maskf (seq 0 (S (length rus))))) = map maskf (groups_kept rus rikey)).
      { rewrite ncount0. unfold groups_kept. destruct (group_rows rikey 0) eqn:E; cbn [length Nat.ltb Nat.leb app].
        - cbn [seq map tl]. now rewrite seq_shift.
        - cbn [seq]. now rewrite seq_shift. }
      rewrite Em, Q. rewrite compress_map2.
      assert (Ef : filter (fun j => unmatched (nth j rkeys None)) (map (fun g => pick k (group_rows rikey g)) (groups_kept rus rikey))
        = map (fun g => pick k (group_rows rikey g)) (filter maskf (groups_kept rus rikey))).
      { assert (S : forall g, In g (groups_kept rus rikey) -> unmatched (nth (pick k (group_rows rikey g)) rkeys None) = maskf g).
        { intros g Hgk. destruct (pick_group rkeys rus rikey GR k g (groups_ne rkeys rus rikey GR OR g Hgk)) as [E1 E2].
          rewrite <- maskf_unmatched by exact E2. now rewrite E1. }
        clear Q Em P. induction (groups_kept rus rikey) as [|g gs IH]; [reflexivity|]. cbn [map filter]. rewrite S by now left.
        destruct (maskf g); cbn [map]; rewrite IH by (intros; apply S; now right); reflexivity. }
      rewrite Ef. reflexivity. }
    destruct rgb as [gg|]; [|exact By]. rewrite ncount0. rewrite ncount0 in By.
    destruct Hg as [Hg|[Hg|Hg]]; [discriminate|discriminate|]. apply (no_null_group _ _ _ GR) in Hg. rewrite Hg in *. exact By.
  - apply sort_to; [|apply incr_filter, kept_incr]. rewrite extract_eq. apply NoDup_Permutation.
    + apply (concat_groups_nodup _ (fun i => nth i rikey 0)); [apply seq_NoDup| |].
      * intros g _. destruct (maskf g); [apply group_rows_nodup|constructor].
      * intros g x _ Hx. destruct (maskf g); [|contradiction]. apply group_rows_in in Hx. now apply nth_error_nth.
    + apply NoDup_filter, seq_NoDup.
    + intros j. rewrite in_concat, filter_In. cbn [kept]. unfold all_rows. split.
      * intros (l & Hl & Hj). apply in_map_iff in Hl. destruct Hl as (g & <- & Hgs). destruct (maskf g) eqn:Em; [|contradiction].
        apply group_rows_in in Hj. assert (Lj : j < length rkeys) by (rewrite <- (g_length _ _ _ GR); apply nth_error_Some; congruence).
        split; [apply in_seq; lia|]. rewrite <- maskf_unmatched by exact Lj. now rewrite (nth_error_nth _ _ 0 Hj).
      * intros [Hj Hu]. apply in_seq in Hj. assert (Lj : j < length rikey) by (rewrite (g_length _ _ _ GR); lia).
        assert (E := nth_error_nth' rikey 0 Lj). rewrite <- maskf_unmatched in Hu by lia.
        exists (group_rows rikey (nth j rikey 0)). split; [|now apply group_rows_in].
        apply in_map_iff. exists (nth j rikey 0). rewrite Hu. split; [reflexivity|]. apply in_seq.
        destruct (nth j rikey 0) as [|k]; [lia|]. apply (grouping_range GR) in E. lia.
Qed.
End Outer.

Lemma extend_resolve idx n ext : resolve n (extend idx n ext) = resolve n idx ++ ext.
Proof using. destruct ext; cbn; [now rewrite app_nil_r|]. destruct idx; reflexivity. Qed.
Lemma swap_fst rows : map fst (map swap rows) = map snd rows.
Proof using. rewrite map_map. reflexivity. Qed.
Lemma swap_snd rows : map snd (map swap rows) = map fst rows.
Proof using. rewrite map_map. reflexivity. Qed.

Theorem left_rows lkeys rkeys lg rg rgb kl kr :
  groups_keys lkeys lg -> groups_keys rkeys rg -> nulls_ok lkeys rkeys false kl kr ->
  exists ls, Permutation ls (kept eqb kl lkeys) /\ (kl = None -> ls = all_rows lkeys) /\
    indices_are lkeys rkeys (create_indices eqb sched junk lg rg rgb HLeft kl kr) (left_join eqb lkeys rkeys ls (kept eqb kr rkeys)).
Proof using eqb_eq HS. intros. now apply (left_or_inner_rows eqb eqb_eq sched HS junk lkeys rkeys lg rg false). Qed.
Theorem inner_rows lkeys rkeys lg rg rgb kl kr :
  groups_keys lkeys lg -> groups_keys rkeys rg ->
  exists ls, Permutation ls (kept eqb kl lkeys) /\ (kl = None -> ls = all_rows lkeys) /\
    indices_are lkeys rkeys (create_indices eqb sched junk lg rg rgb HInner kl kr) (inner_join eqb lkeys rkeys ls (kept eqb kr rkeys)).
Proof using eqb_eq HS. intros. apply (left_or_inner_rows eqb eqb_eq sched HS junk lkeys rkeys lg rg true); auto. now left. Qed.
Theorem right_rows lkeys rkeys lg rg rgb kl kr :
  groups_keys lkeys lg -> groups_keys rkeys rg -> nulls_ok rkeys lkeys false kr kl ->
  exists rs, Permutation rs (kept eqb kr rkeys) /\ (kr = None -> rs = all_rows rkeys) /\
    indices_are lkeys rkeys (create_indices eqb sched junk lg rg rgb HRight kl kr) (map swap (left_join eqb rkeys lkeys rs (kept eqb kl lkeys))).
Proof using eqb_eq HS.
  intros H1 H2 N. destruct (left_or_inner_rows eqb eqb_eq sched HS junk rkeys lkeys rg lg false kr kl H2 H1 N) as (rs & P & E & I1 & I2).
  exists rs. split; [exact P|]. split; [exact E|]. unfold indices_are. rewrite swap_fst, swap_snd. split; assumption.
Qed.
Lemma left_join_empty lkeys ls rs : left_join eqb lkeys [] ls rs = map (fun i => (Some i, None)) ls.
Proof using.
  unfold left_join. rewrite flat_map_concat_map. erewrite map_ext; [apply concat_map_one|]. intros i. cbn beta.
  replace (matching eqb (nth i lkeys None) [] rs) with (@nil nat); [reflexivity|]. symmetry. unfold matching.
  induction rs as [|j rs IHr]; [reflexivity|]. cbn [filter]. replace (nth j [] None) with (@None B) by (destruct j; reflexivity).
  replace (joins eqb (nth i lkeys None) None) with false by (destruct (nth i lkeys None); reflexivity). exact IHr.
Qed.
Lemma kept_nil k : kept eqb k [] = [].
Proof using. destruct k as [[]|]; reflexivity. Qed.

Theorem outer_rows lkeys rkeys lg rg rgb kr :
  groups_keys lkeys lg -> groups_keys rkeys rg -> rgb = None \/ kr = None \/ ~ In None rkeys \/ lkeys = [] ->
  exists rs, Permutation rs (kept eqb kr rkeys) /\ (kr = None -> rs = all_rows rkeys) /\
    let j := create_indices eqb sched junk lg rg rgb HOuter None kr in
    indices_are lkeys rkeys j (outer_of eqb lkeys rkeys (all_rows lkeys) rs) /\
    (lkeys <> [] -> right_only j = Some (length (right_only_of eqb lkeys rkeys (all_rows lkeys) rs))).
Proof using eqb_eq HS.
  intros [GL OL] [GR OR] Hg. destruct lg as [lus likey], rg as [rus rikey]. cbn [kg_us kg_ikey] in *.
  cbn [create_indices kg_ikey]. destruct (length rikey =? 0) eqn:Er; [|destruct (length likey =? 0) eqn:El].
  - apply Nat.eqb_eq in Er. rewrite (g_length _ _ _ GR) in Er. apply length_zero_iff_nil in Er.
    destruct (left_or_inner_rows eqb eqb_eq sched HS junk lkeys rkeys (mkKG lus likey) (mkKG rus rikey) false None kr (conj GL OL) (conj GR OR)) as (ls & _ & E & I).
    { right. now left. }
    rewrite (E eq_refl) in I. exists (kept eqb kr rkeys). split; [reflexivity|]. split; [intros ->; reflexivity|]. cbv zeta. cbn [right_only].
    assert (K : right_only_of eqb lkeys rkeys (all_rows lkeys) (kept eqb kr rkeys) = []) by (rewrite Er, kept_nil; reflexivity).
    unfold outer_of. rewrite K. split; [|reflexivity]. rewrite app_nil_r. exact I.
  - apply Nat.eqb_eq in El. rewrite (g_length _ _ _ GL) in El. apply length_zero_iff_nil in El. subst lkeys.
    destruct (left_or_inner_rows eqb eqb_eq sched HS junk rkeys [] (mkKG rus rikey) (mkKG lus likey) false kr None (conj GR OR) (conj GL OL)) as (rs & P & E & I).
    { right. right. right. now right. }
    exists rs. split; [exact P|]. split; [exact E|]. cbv zeta. cbn [right_only]. split; [|congruence].
    unfold join_of in I. rewrite left_join_empty in I. destruct I as [I1 I2]. unfold indices_are. cbn [left_index right_index].
    assert (K : outer_of eqb [] rkeys (all_rows (@nil (option B))) rs = map (fun j => (None, Some j)) rs).
    { unfold outer_of, right_only_of. cbn [all_rows seq length left_join flat_map app matching filter]. f_equal. clear.
      induction rs as [|x l IHl]; cbn; [reflexivity|now rewrite IHl]. }
    rewrite K. rewrite !map_map in *. cbn [fst snd] in *. split; [exact I2|exact I1].
  - apply Nat.eqb_neq in Er. apply Nat.eqb_neq in El. exists (kept eqb kr rkeys). split; [reflexivity|]. split; [intros ->; reflexivity|].
    destruct (left_or_inner_rows eqb eqb_eq sched HS junk lkeys rkeys (mkKG lus likey) (mkKG rus rikey) false None kr (conj GL OL) (conj GR OR)) as (ls & _ & E & I1 & I2).
    { right. now left. }
    rewrite (E eq_refl) in I1, I2. clear ls E. cbv zeta. unfold outer_join.
    rewrite (right_only_eq lkeys rkeys lus rus likey rikey GL GR OL OR); [|lia|lia|].
    2:{ destruct Hg as [H|[H|[H|H]]]; auto. assert (L := g_length _ _ _ GL). rewrite H in L. cbn in L. lia. }
    cbn [left_index right_index right_only]. unfold indices_are. cbn [left_index right_index right_only kg_ikey].
    rewrite (g_length _ _ _ GL), (g_length _ _ _ GR). rewrite !extend_resolve, I1, I2.
    unfold join_of, outer_of. rewrite !map_app. split; [split|].
    + f_equal. unfold right_only_of. rewrite !map_map. reflexivity.
    + f_equal. unfold right_only_of. rewrite !map_map. reflexivity.
    + intros _. unfold right_only_of. now rewrite !map_length.
Qed.

(** *** validation *)
Lemma fold_max_le l m : fold_right Nat.max 0 l <= m <-> forall x, In x l -> x <= m.
Proof using.
  induction l as [|y l IH]; cbn; [split; intros; [contradiction|lia]|]. split.
  - intros H x [<-|Hx]; [lia|]. apply IH; [lia|exact Hx].
  - intros H. assert (y <= m) by (apply H; now left). assert (fold_right Nat.max 0 l <= m) by (apply IH; intros; apply H; now right). lia.
Qed.
Lemma unique_ok_iff (keys : list (option B)) g : groups_keys keys g -> (unique_ok g = true <-> unique_keys keys).
Proof using.
  intros [G O]. destruct g as [us ikey]. cbn [kg_us kg_ikey] in *. unfold unique_ok. rewrite Nat.leb_le, fold_max_le.
  unfold kg_ncount, ncountgroup, unique_count. cbn [kg_us kg_ikey seq map tl]. rewrite <- seq_shift, map_map. split.
  - intros H i j b Hi Hj. destruct (g_key _ _ _ G i b Hi) as (k & K1 & K2). destruct (g_key _ _ _ G j b Hj) as (k' & K1' & K2').
    assert (k = k') by (apply (proj1 (NoDup_nth_error us) (g_distinct _ _ _ G)); [apply nth_error_Some; congruence|congruence]). subst k'.
    assert (L : length (group_rows ikey (S k)) <= 1).
    { apply H. apply in_map_iff. exists k. split; [reflexivity|]. apply in_seq. assert (k < length us) by (apply nth_error_Some; congruence). lia. }
    apply group_rows_in in K1. apply group_rows_in in K1'. destruct (group_rows ikey (S k)) as [|x [|y l]]; cbn in L; [contradiction| |lia].
    destruct K1 as [<-|[]], K1' as [<-|[]]. reflexivity.
  - intros H x Hx. apply in_map_iff in Hx. destruct Hx as (k & <- & Hk). apply in_seq in Hk.
    destruct (nth_error us k) as [b|] eqn:E; [|apply nth_error_None in E; lia].
    assert (N := group_rows_nodup ikey (S k)).
    assert (A : forall i, In i (group_rows ikey (S k)) -> nth_error keys i = Some (Some b)).
    { intros i Hi. apply group_rows_in in Hi. now apply (grouping_key G i b k E). }
    destruct (group_rows ikey (S k)) as [|x [|y l]]; cbn; try lia. exfalso.
    assert (x = y) by (apply (H x y b); apply A; [now left|right; now left]). subst. inversion N as [|? ? Hn _]. apply Hn. now left.
Qed.

(** *** raw key columns *)
Lemma key_options_length (null : B -> bool) f c raw : length (key_options null f c raw) = length raw.
Proof using. unfold key_options. destruct (f || c); apply map_length. Qed.
Lemma key_options_match (null : B -> bool) f c raw rraw i rs :
  matching eqb (nth i (key_options null f c raw) None) (nullable null rraw) rs = matching eqb (nth i (nullable null raw) None) (nullable null rraw) rs.
Proof using eqb_eq.
  unfold key_options. destruct (f || c); [reflexivity|]. unfold matching. apply filter_ext. intros j.
  destruct (nth_error raw i) as [b|] eqn:E.
  - rewrite (nth_error_nth (map Some raw) i None (x := Some b)) by (now rewrite nth_error_map, E).
    unfold nullable at 2. rewrite (nth_error_nth (map (fun b => if null b then None else Some b) raw) i None (x := if null b then None else Some b)) by (now rewrite nth_error_map, E).
    destruct (null b) eqn:En; [|reflexivity]. cbn. unfold nullable. destruct (nth_error rraw j) as [b'|] eqn:Ej.
    + rewrite (nth_error_nth (map (fun b => if null b then None else Some b) rraw) j None (x := if null b' then None else Some b')) by (now rewrite nth_error_map, Ej).
      destruct (null b') eqn:En'; [reflexivity|]. destruct (eqb b b') eqn:Eq; [|reflexivity]. apply eqb_eq in Eq. congruence.
    + rewrite nth_overflow; [reflexivity|]. rewrite map_length. now apply nth_error_None.
  - apply nth_error_None in E. rewrite (nth_overflow (map Some raw)) by (rewrite map_length; exact E).
    rewrite (nth_overflow (nullable null raw)) by (unfold nullable; rewrite map_length; exact E). reflexivity.
Qed.
Lemma left_join_keys (null : B -> bool) f c raw rraw ls rs :
  left_join eqb (key_options null f c raw) (nullable null rraw) ls rs = left_join eqb (nullable null raw) (nullable null rraw) ls rs.
Proof using eqb_eq. unfold left_join. apply flat_map_ext. intros i. now rewrite key_options_match. Qed.
Lemma key_options_force (null : B -> bool) c raw : key_options null true c raw = nullable null raw.
Proof using. reflexivity. Qed.
Lemma nullable_length (null : B -> bool) raw : length (nullable null raw) = length raw.
Proof using. apply map_length. Qed.
End Joins.
