(** Proofs about the columns of quantiles for several q (C163). *)
From Coq Require Import List Arith Bool Lia.
From Verif Require Import FlattenModel FlattenProofs DsModel DsProofs3 GqModel GqSpec.
Import ListNotations.

Section C.
Context {V Q : Type}.
Variable fmt : nat -> Q -> name.
Lemma distinct_nodup l : distinct_names l = true <-> NoDup l.
Proof.
  induction l as [|n r IH]; cbn [distinct_names]; [split; [constructor|reflexivity]|]. rewrite andb_true_iff, negb_true_iff, mem_not, IH. split; [intros []; now constructor|inversion 1; auto].
Qed.
Lemma precision_from_ok qs : forall fuel p p0, p <= p0 < p + fuel -> NoDup (map (fmt p0) qs) -> NoDup (map (fmt (precision_from fmt fuel p qs)) qs).
Proof.
  induction fuel as [|f IH]; intros p p0 R N; [lia|]. cbn [precision_from]. destruct (distinct_names (map (fmt p) qs)) eqn:E; [now apply distinct_nodup|].
  apply (IH (S p) p0); [|exact N]. assert (p <> p0) by (intros ->; apply distinct_nodup in N; congruence). lia.
Qed.
(** what follows the last occurrence of the letter is the number *)
Lemma split_letter (x : nat) (u v u' v' : name) : u ++ x :: v = u' ++ x :: v' -> ~ In x v -> ~ In x v' -> u = u' /\ v = v'.
Proof.
  revert u'. induction u as [|a u IH]; intros [|a' u'] E N N'; cbn [app] in E.
  - injection E as ->. auto.
  - injection E as -> E. exfalso. apply N. rewrite E. apply in_or_app. right. now left.
  - injection E as -> E. exfalso. apply N'. rewrite <- E. apply in_or_app. right. now left.
  - injection E as -> E. destruct (IH u' E N N') as [-> ->]. auto.
Qed.
Lemma dots_inj (a b : name) : ~ In 95 a -> ~ In 95 b -> map (fun c => if c =? 46 then 95 else c) a = map (fun c => if c =? 46 then 95 else c) b -> a = b.
Proof.
  revert b. induction a as [|x a IH]; intros [|y b] Na Nb E; try discriminate; [reflexivity|]. cbn [map] in E. injection E as E1 E. f_equal; [|apply IH; [intros I; apply Na; now right|intros I; apply Nb; now right|exact E]].
  destruct (Nat.eqb_spec x 46), (Nat.eqb_spec y 46); try congruence.
  - exfalso. apply Nb. left. congruence.
  - exfalso. apply Na. left. congruence.
Qed.
Lemma interleave_ok (cols : list name) (sf : list name) (g : name -> name -> name) : interleave (length cols) (map (fun s => map (fun c => g c s) cols) sf) = flat_map (fun c => map (g c) sf) cols.
Proof.
  induction cols as [|c cols IH]; [reflexivity|]. cbn [length interleave flat_map]. f_equal.
  - clear IH. induction sf as [|s sf IHs]; [reflexivity|]. cbn [map flat_map app]. f_equal. exact IHs.
  - rewrite map_map. cbn [map tl]. exact IH.
Qed.
Lemma zip_ok (cols : list name) (sf : list name) (g : name -> name -> name) : sf <> [] -> zip_names (map (fun s => map (fun c => g c s) cols) sf) = flat_map (fun c => map (g c) sf) cols.
Proof.
  intros N. unfold zip_names. match goal with |- interleave ?n _ = _ => assert (E : n = length cols) end.
  - destruct sf as [|s sf]; [contradiction|]. cbn [map]. rewrite map_length. clear N. cbn [fold_right]. rewrite map_map. assert (A : fold_right Nat.min (length cols) (map (fun x => length (map (fun c => g c x) cols)) sf) = length cols); [|rewrite A; lia].
    induction sf as [|s' sf IH]; [reflexivity|]. cbn [map fold_right]. rewrite IH, map_length. lia.
  - rewrite E. apply interleave_ok.
Qed.
Lemma picks_names (d : list (name * list V)) ns : incl ns (map fst d) -> map fst (flat_map (fun n => match dget n d with Some v => [(n, v)] | None => [] end) ns) = ns.
Proof.
  induction ns as [|n ns IH]; intros I; [reflexivity|]. cbn [flat_map]. destruct (dget_has n d) as [v ->]; [apply I; now left|]. cbn [app map fst]. f_equal. apply IH. intros x Hx. apply I. now right.
Qed.
Lemma picks_in (d : list (name * list V)) ns n v : In (n, v) (flat_map (fun n => match dget n d with Some v => [(n, v)] | None => [] end) ns) <-> In n ns /\ dget n d = Some v.
Proof.
  rewrite in_flat_map. split.
  - intros [x [I J]]. destruct (dget x d) eqn:E; [|contradiction]. destruct J as [J|[]]. injection J as -> ->. auto.
  - intros [I E]. exists n. split; [exact I|]. rewrite E. now left.
Qed.
Lemma map_filter {X Y} (f : Y -> bool) (g : X -> Y) l : map g (filter (fun x => f (g x)) l) = filter f (map g l).
Proof. induction l as [|x l IH]; [reflexivity|]. cbn [filter map]. destruct (f (g x)); cbn [map]; now rewrite IH. Qed.
Lemma to_front_ok ns (d : list (name * list V)) : NoDup (map fst d) -> NoDup ns -> incl ns (map fst d) ->
  map fst (to_front ns d) = ns ++ filter (fun n => negb (mem n ns)) (map fst d) /\ forall n, dget n (to_front ns d) = dget n d.
Proof.
  intros Nd Ns I. assert (En : map fst (to_front ns d) = ns ++ filter (fun n => negb (mem n ns)) (map fst d)).
  { unfold to_front. rewrite map_app, picks_names by exact I. f_equal. apply (map_filter (fun n => negb (mem n ns)) fst). }
  split; [exact En|]. assert (Nt : NoDup (map fst (to_front ns d))).
  { rewrite En. apply NoDup_app_d; [exact Ns|now apply NoDup_filter|]. intros x Hx J. apply filter_In in J. destruct J as [_ J]. apply negb_true_iff in J. apply mem_not in J. contradiction. }
  intros n. destruct (dget n d) as [v|] eqn:E.
  - apply dget_in; [exact Nt|]. unfold to_front. apply in_or_app. destruct (mem n ns) eqn:M.
    + left. apply picks_in. split; [now apply mem_in|exact E].
    + right. apply filter_In. split; [now apply dget_some_in|]. cbn [fst]. now rewrite M.
  - apply dget_none. rewrite En. apply dget_none in E. intros J. apply in_app_or in J. destruct J as [J|J]; [apply E, I, J|]. apply filter_In in J. tauto.
Qed.
Variable letter : nat.
Variable qs : list Q.
Hypothesis Plain : forall p q, In q qs -> ~ In 95 (fmt p q) /\ ~ In letter (fmt p q).
Hypothesis L95 : letter <> 95.
Hypothesis Prec : exists p, 3 <= p < 23 /\ NoDup (map (fmt p) qs).
Lemma suffix_inj c c' q q' : In q qs -> In q' qs -> c ++ suffix fmt letter qs q = c' ++ suffix fmt letter qs q' -> c = c' /\ fmt (precision fmt qs) q = fmt (precision fmt qs) q'.
Proof using Plain L95.
  intros Iq Iq' E. unfold suffix in E. set (p := precision fmt qs) in *. destruct (Plain p q Iq) as [A1 A2]. destruct (Plain p q' Iq') as [B1 B2].
  assert (NL : forall w, ~ In letter w -> ~ In letter (map (fun c => if c =? 46 then 95 else c) w)).
  { intros w N I. apply in_map_iff in I. destruct I as [y [Ey I]]. destruct (y =? 46); congruence. }
  set (w := map _ (fmt p q)) in *. set (w' := map _ (fmt p q')) in *.
  destruct (split_letter letter (c ++ [95]) w (c' ++ [95]) w') as [E1 E2]; [now rewrite <- !app_assoc|now apply NL|now apply NL|].
  apply app_inj_tail in E1. split; [tauto|]. now apply dots_inj in E2.
Qed.
Lemma suffix_inj2 i j q q' c c' : nth_error qs i = Some q -> nth_error qs j = Some q' -> c ++ suffix fmt letter qs q = c' ++ suffix fmt letter qs q' -> c = c' /\ i = j.
Proof using Plain L95 Prec.
  intros Ei Ej E. destruct (suffix_inj c c' q q') as [-> F]; [eapply nth_error_In; eauto|eapply nth_error_In; eauto|exact E|]. split; [reflexivity|].
  destruct Prec as (p & Rp & Nd). assert (N : NoDup (map (fmt (precision fmt qs)) qs)) by (apply (precision_from_ok qs 20 3 p); [lia|exact Nd]).
  rewrite NoDup_nth_error in N. apply N; [rewrite map_length; apply nth_error_Some; congruence|]. rewrite !nth_error_map, Ei, Ej. cbn [option_map]. now rewrite F.
Qed.
End C.

Section T.
Context {V Q : Type}.
Variable fmt : nat -> Q -> name.
Lemma nodup_flat {X Y} (f : X -> list Y) l : (forall x, In x l -> NoDup (f x)) -> (forall i j x x' y, nth_error l i = Some x -> nth_error l j = Some x' -> In y (f x) -> In y (f x') -> i = j) -> NoDup (flat_map f l).
Proof.
  induction l as [|x l IH]; intros A B; [constructor|]. cbn [flat_map]. apply NoDup_app_d.
  - apply A. now left.
  - apply IH; [intros y Hy; apply A; now right|]. intros i j a b y Ei Ej Ia Ib. specialize (B (S i) (S j) a b y Ei Ej Ia Ib). lia.
  - intros y I J. apply in_flat_map in J. destruct J as [x' [J K]]. apply In_nth_error in J. destruct J as [j Ej]. specialize (B 0 (S j) x x' y eq_refl Ej I K). discriminate.
Qed.
Lemma filter_all {X} (f : X -> bool) l : (forall x, In x l -> f x = true) -> filter f l = l.
Proof. induction l as [|x l IH]; intros H; [reflexivity|]. cbn [filter]. rewrite (H x) by (now left). f_equal. apply IH. intros y Hy. apply H. now right. Qed.
Lemma filter_none {X} (f : X -> bool) l : (forall x, In x l -> f x = false) -> filter f l = [].
Proof. induction l as [|x l IH]; intros H; [reflexivity|]. cbn [filter]. rewrite (H x) by (now left). apply IH. intros y Hy. apply H. now right. Qed.
Lemma dget_filter (keys : list name) (d : list (name * list V)) c : ~ In c keys -> dget c (filter (fun q => negb (mem (fst q) keys)) d) = dget c d.
Proof.
  intros N. induction d as [|[k v] d IH]; [reflexivity|]. cbn [filter fst dget]. destruct (mem k keys) eqn:M; cbn [negb].
  - destruct (name_dec k c) as [->|_]; [|exact IH]. apply mem_in in M. contradiction.
  - cbn [dget]. destruct (name_dec k c); [reflexivity|exact IH].
Qed.
Lemma together_ok letter (transform : bool) keys cols (answers : list (Q * list (name * list V))) :
  let qs := map fst answers in
  let shown := if transform then [] else keys in
  2 <= length answers -> letter <> 95 ->
  (forall p q, In q qs -> ~ In 95 (fmt p q) /\ ~ In letter (fmt p q)) -> (exists p, 3 <= p < 23 /\ NoDup (map (fmt p) qs)) ->
  NoDup cols -> NoDup shown ->
  (forall q d, In (q, d) answers -> NoDup (map fst d) /\ filter (fun c => negb (mem c shown)) (map fst d) = cols /\ incl shown (map fst d)) ->
  (forall c q, In c cols -> In q qs -> ~ In (c ++ suffix fmt letter qs q) shown) ->
  exists r, together fmt letter keys transform answers = Some r /\
    map fst r = flat_map (fun c => map (fun q => c ++ suffix fmt letter qs q) qs) cols ++ shown /\
    (forall q d c, In (q, d) answers -> In c cols -> dget (c ++ suffix fmt letter qs q) r = dget c d) /\
    (forall k q d, In k shown -> nth_error answers 0 = Some (q, d) -> dget k r = dget k d).
Proof.
  intros qs shown L2 L95 Plain Prec Nc Nk Shape Clash.
  assert (ET : exists q0 d0 rest, answers = (q0, d0) :: rest /\ together fmt letter keys transform answers =
      let kcols := if transform then [] else flat_map (fun n => match dget n d0 with Some v => [(n, v)] | None => [] end) keys in
      let datas := map (fun a => map (fun p => (fst p ++ suffix fmt letter qs (fst a), snd p))
                                     (if transform then snd a else filter (fun p => negb (mem (fst p) keys)) (snd a))) answers in
      let all := concat datas ++ kcols in
      if distinct_names (map fst all) then Some (to_front (zip_names (map (map fst) datas)) all) else None).
  { clear -L2. destruct answers as [|[q0 d0] [|a1 rest]]; [cbn in L2; lia|cbn in L2; lia|]. exists q0, d0, (a1 :: rest). split; reflexivity. }
  destruct ET as (q0 & d0 & rest & Ea & ->). cbv zeta.
  set (kcols := if transform then [] else _). set (datas := map (fun a => map (fun p => (fst p ++ suffix fmt letter qs (fst a), snd p)) (if transform then snd a else filter (fun p => negb (mem (fst p) keys)) (snd a))) answers).
  assert (D0 : NoDup (map fst d0) /\ filter (fun c => negb (mem c shown)) (map fst d0) = cols /\ incl shown (map fst d0)) by (apply (Shape q0); rewrite Ea; now left).
  assert (Kc : kcols = flat_map (fun n => match dget n d0 with Some v => [(n, v)] | None => [] end) shown) by (unfold kcols, shown; destruct transform; reflexivity).
  assert (Kn : map fst kcols = shown) by (rewrite Kc; apply picks_names; tauto).
  set (sh := fun d : list (name * list V) => filter (fun q => negb (mem (fst q) shown)) d).
  assert (Da : datas = map (fun a => map (fun q => (fst q ++ suffix fmt letter qs (fst a), snd q)) (sh (snd a))) answers).
  { unfold datas. apply map_ext. intros a. unfold sh, shown. destruct transform; [|reflexivity]. now rewrite filter_all by reflexivity. }
  assert (Sn : forall q d, In (q, d) answers -> map fst (sh d) = cols).
  { intros q d I. destruct (Shape q d I) as (_ & E & _). rewrite <- E. apply (map_filter (fun n => negb (mem n shown)) fst). }
  assert (Dn : map (map fst) datas = map (fun s => map (fun c => c ++ s) cols) (map (suffix fmt letter qs) qs)).
  { rewrite Da. unfold qs at 3. rewrite !map_map. apply map_ext_in. intros [q d] I. rewrite map_map. cbn [fst snd]. rewrite <- (Sn q d I), map_map. reflexivity. }
  assert (Inj : forall i j q q' c c', nth_error qs i = Some q -> nth_error qs j = Some q' -> c ++ suffix fmt letter qs q = c' ++ suffix fmt letter qs q' -> c = c' /\ i = j) by (intros; eapply suffix_inj2; eauto).
  assert (Cd : map fst (concat datas) = flat_map (fun q => map (fun c => c ++ suffix fmt letter qs q) cols) qs).
  { rewrite concat_map, Dn, flat_map_concat_map. f_equal. rewrite map_map. reflexivity. }
  assert (Nd1 : NoDup (map fst (concat datas))).
  { rewrite Cd. apply nodup_flat.
    - intros q I. apply FinFun.Injective_map_NoDup; [|exact Nc]. intros c c' E. now apply app_inv_tail in E.
    - intros i j q q' y Ei Ej I I'. apply in_map_iff in I. destruct I as [c [<- _]]. apply in_map_iff in I'. destruct I' as [c' [E _]]. symmetry in E. eapply Inj; eauto. }
  assert (K2 : NoDup (map fst kcols)) by (rewrite Kn; exact Nk).
  assert (Nd : NoDup (map fst (concat datas ++ kcols))).
  { rewrite map_app. apply NoDup_app_d; [exact Nd1|exact K2|]. intros x I J0. assert (J : In x shown) by (rewrite <- Kn; exact J0). rewrite Cd in I. apply in_flat_map in I. destruct I as [q [Iq I]]. apply in_map_iff in I. destruct I as [c [<- Ic]]. now apply (Clash c q Ic Iq). }
  set (ns := flat_map (fun c => map (fun q => c ++ suffix fmt letter qs q) qs) cols). assert (Ens : ns = flat_map (fun c => map (fun q => c ++ suffix fmt letter qs q) qs) cols) by reflexivity.
  assert (Zn : zip_names (map (map fst) datas) = ns).
  { transitivity (flat_map (fun c => map (fun s => c ++ s) (map (suffix fmt letter qs) qs)) cols).
    - rewrite Dn. apply (zip_ok cols (map (suffix fmt letter qs) qs) (fun c s => c ++ s)). unfold qs. rewrite Ea. discriminate.
    - unfold ns. apply flat_map_ext. intros c. now rewrite map_map. }
  clearbody ns. rewrite (proj2 (distinct_nodup _) Nd). rewrite Zn.
  assert (Nns : NoDup ns).
  { rewrite Ens. apply nodup_flat.
    - intros c I. rewrite NoDup_nth_error. intros i j Hi E. rewrite map_length in Hi. rewrite !nth_error_map in E. destruct (nth_error qs i) as [q|] eqn:Ei; [|apply nth_error_None in Ei; lia]. destruct (nth_error qs j) as [q'|] eqn:Ej; [|discriminate]. cbn [option_map] in E. injection E as E. eapply Inj; eauto.
    - intros i j c c' y Ei Ej I I'. apply in_map_iff in I. destruct I as [q [<- Iq]]. apply in_map_iff in I'. destruct I' as [q' [E Iq']]. apply In_nth_error in Iq. destruct Iq as [iq Iq]. apply In_nth_error in Iq'. destruct Iq' as [iq' Iq'].
      destruct (Inj iq' iq q' q c' c Iq' Iq E) as [-> _]. rewrite NoDup_nth_error in Nc. apply Nc; [apply nth_error_Some; unfold name in *; rewrite Ei; discriminate|unfold name in *; now rewrite Ei, Ej]. }
  assert (Sub : forall x, In x ns <-> In x (map fst (concat datas))).
  { intros x. rewrite Ens, Cd, !in_flat_map. split; intros [y [Iy I]]; apply in_map_iff in I; destruct I as [z [<- Iz]]; exists z; (split; [exact Iz|apply in_map_iff; eauto]). }
  destruct (to_front_ok ns (concat datas ++ kcols) Nd Nns) as [Fn Fg]; [intros x I; rewrite map_app; apply in_or_app; left; now apply Sub|].
  eexists. split; [reflexivity|]. split; [|split].
  - rewrite Fn. f_equal. rewrite map_app, filter_app. rewrite (filter_none _ (map fst (concat datas))); [|intros x I; apply negb_false_iff, mem_in, Sub, I]. cbn [app]. transitivity (filter (fun n => negb (mem n ns)) shown); [now rewrite <- Kn|]. apply filter_all. intros x I. apply negb_true_iff, mem_not. rewrite Ens, in_flat_map. intros [c [Ic J]]. apply in_map_iff in J. destruct J as [q [<- Iq]]. now apply (Clash c q Ic Iq).
  - intros q d c I Ic. rewrite Fg. assert (Icd : In c (map fst (sh d))) by (now rewrite (Sn q d I)).
    destruct (dget_has c (sh d) Icd) as [v E]. transitivity (Some v).
    + apply dget_in; [exact Nd|]. apply in_or_app. left. apply in_concat. exists (map (fun x => (fst x ++ suffix fmt letter qs q, snd x)) (sh d)). split; [rewrite Da; apply in_map_iff; exists (q, d); split; [reflexivity|exact I]|]. apply in_map_iff. exists (c, v). split; [reflexivity|now apply dget_some_in].
    + rewrite <- E. apply dget_filter. destruct (Shape q d I) as (_ & E2 & _). rewrite <- E2 in Ic. apply filter_In in Ic. destruct Ic as [_ Ic]. apply negb_true_iff in Ic. now apply mem_not in Ic.
  - intros k q d Ik E0. rewrite Fg. assert (d = d0) by (rewrite Ea in E0; cbn in E0; congruence). subst d. destruct D0 as (N0 & _ & I0). destruct (dget_has k d0 (I0 k Ik)) as [v E]. rewrite E. apply dget_in; [exact Nd|]. apply in_or_app. right. rewrite Kc. apply picks_in. auto.
Qed.
End T.
