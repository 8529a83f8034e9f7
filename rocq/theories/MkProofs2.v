(** Proofs about as_singlekey and about merging mapped Categoricals. *)
From Coq Require Import List Arith ZArith Bool Lia.
From Verif Require Import FlattenModel GroupModel CatModel CatSpec CatProofs CatProofs3 MkSpec MkModel MkProofs.
Import ListNotations.
Local Open Scope Z_scope.

(** ** text of several keys *)
Lemma joined_cons sep p r : joined sep (p :: r) = p ++ flat_map (fun x => sep ++ x) r.
Proof.
  revert p. induction r as [|x r IH]; intros p; [now rewrite app_nil_r|]. change (joined sep (p :: x :: r)) with (p ++ sep ++ joined sep (x :: r)).
  rewrite IH. cbn [flat_map]. now rewrite <- !app_assoc.
Qed.
Lemma combine_map_seq {X Y} (g : nat -> X) (l : list Y) d : combine (map g (seq 0 (length l))) l = map (fun r => (g r, nth r l d)) (seq 0 (length l)).
Proof.
  revert g. induction l as [|y l IH]; intros g; [reflexivity|]. cbn [length seq map combine nth]. f_equal.
  rewrite <- seq_shift, !map_map. rewrite (IH (fun r => g (S r))). apply map_ext. reflexivity.
Qed.
Section Text.
Variable text : cell -> name.
Lemma fold_text sep n cols : (forall c, In c cols -> length (col_cells c) = n) -> forall g,
  fold_left (fun arr d => map (fun p => fst p ++ sep ++ text (snd p)) (combine arr (col_cells d))) cols (map g (seq 0 n)) =
  map (fun r => g r ++ flat_map (fun x => sep ++ x) (map text (map (fun c => nth r (col_cells c) (Cn 0)) cols))) (seq 0 n).
Proof.
  induction cols as [|c cols IH]; intros L g; cbn [fold_left].
  - apply map_ext. intros r. cbn. now rewrite app_nil_r.
  - assert (Lc : length (col_cells c) = n) by (apply L; now left). rewrite <- Lc at 1.
    rewrite (combine_map_seq g (col_cells c) (Cn 0)), map_map, Lc. cbn [fst snd].
    rewrite (IH (fun d I => L d (or_intror I)) (fun r => g r ++ sep ++ text (nth r (col_cells c) (Cn 0)))).
    apply map_ext. intros r. cbn [map flat_map]. now rewrite <- !app_assoc.
Qed.
Lemma onedict_spec sep k : k_cols k <> [] -> (forall c, In c (k_cols k) -> length (col_cells c) = ncats k) ->
  onedict text sep k = map (fun t => joined sep (map text t)) (uniq k).
Proof.
  intros Ne L. unfold onedict, uniq. destruct (k_cols k) as [|c cols] eqn:E; [congruence|].
  assert (Lc : length (col_cells c) = ncats k) by (apply L; now left).
  transitivity (fold_left (fun arr d => map (fun p => fst p ++ sep ++ text (snd p)) (combine arr (col_cells d))) cols
                  (map (fun r => text (nth r (col_cells c) (Cn 0))) (seq 0 (ncats k)))).
  - f_equal. rewrite <- Lc. clear. induction (col_cells c) as [|x l IH]; [reflexivity|]. cbn [map length seq nth]. f_equal.
    rewrite IH, <- seq_shift, map_map. reflexivity.
  - rewrite (fold_text sep (ncats k) cols (fun d I => L d (or_intror I))). rewrite map_map. apply map_ext. intros r.
    cbn [map]. now rewrite joined_cons.
Qed.
End Text.

Lemma split_sep c : forall (p p' x x' : name), ~ In c p -> ~ In c p' -> p ++ c :: x = p' ++ c :: x' -> p = p' /\ x = x'.
Proof.
  induction p as [|a p IH]; intros [|a' p'] x x' N N' E; cbn in *.
  - split; congruence.
  - exfalso. apply N'. left. congruence.
  - exfalso. apply N. left. congruence.
  - injection E as -> E. destruct (IH p' x x') as [-> ->]; [tauto|tauto|exact E|auto].
Qed.
Lemma joined_inj c : forall ps ps', length ps = length ps' -> Forall (fun p => ~ In c p) ps -> Forall (fun p => ~ In c p) ps' ->
  joined [c] ps = joined [c] ps' -> ps = ps'.
Proof.
  induction ps as [|p ps IH]; intros [|p' ps'] L F F' E; try discriminate; [reflexivity|].
  inversion F as [|? ? N F1]; inversion F' as [|? ? N' F1']; subst. destruct ps as [|q ps], ps' as [|q' ps']; try discriminate.
  - cbn in E. congruence.
  - change (joined [c] (p :: q :: ps)) with (p ++ c :: joined [c] (q :: ps)) in E.
    change (joined [c] (p' :: q' :: ps')) with (p' ++ c :: joined [c] (q' :: ps')) in E.
    destruct (split_sep c p p' _ _ N N' E) as [-> E2]. f_equal. apply IH; [injection L; cbn; congruence|assumption..|exact E2].
Qed.
Lemma NoDup_map_on {X Y} (f : X -> Y) l : (forall a b, In a l -> In b l -> f a = f b -> a = b) -> NoDup l -> NoDup (map f l).
Proof.
  intros I ND. induction ND as [|x l N ND IH]; cbn; constructor.
  - intros J. apply in_map_iff in J. destruct J as [y [E J]]. apply N. rewrite <- (I y x); [exact J|now right|now left|exact E].
  - apply IH. intros a b A B. apply I; now right.
Qed.
Lemma uniq_cells k t : In t (uniq k) -> (forall c, In c (k_cols k) -> length (col_cells c) = ncats k) ->
  length t = length (k_cols k) /\ forall j v, nth_error t j = Some v -> exists c, nth_error (k_cols k) j = Some c /\ In v (col_cells c).
Proof.
  intros I L. unfold uniq in I. apply in_map_iff in I. destruct I as [r [<- I]]. apply in_seq in I. rewrite map_length. split; [reflexivity|].
  intros j v E. destruct (nth_error (k_cols k) j) as [c|] eqn:Ec.
  - rewrite (map_nth_error _ _ _ Ec) in E. exists c. split; [reflexivity|]. injection E as <-. apply nth_In. rewrite L; [lia|]. eapply nth_error_In. exact Ec.
  - apply nth_error_None in Ec. assert (nth_error (map (fun c => nth r (col_cells c) (Cn 0)) (k_cols k)) j = None); [|congruence].
    apply nth_error_None. now rewrite map_length.
Qed.
Lemma list_eq_nth {X} : forall (a b : list X), length a = length b -> (forall j x y, nth_error a j = Some x -> nth_error b j = Some y -> x = y) -> a = b.
Proof.
  induction a as [|x a IH]; intros [|y b] L H; try discriminate; [reflexivity|]. f_equal; [apply (H 0%nat); reflexivity|].
  apply IH; [injection L; auto|]. intros j. apply (H (S j)).
Qed.
Lemma onedict_nodup text c k : regular k ->
  (forall d a, In d (k_cols k) -> In a (col_cells d) -> ~ In c (text a)) ->
  (forall d a b, In d (k_cols k) -> In a (col_cells d) -> In b (col_cells d) -> text a = text b -> a = b) ->
  NoDup (onedict text [c] k).
Proof.
  intros [Ne [Lc [ND [B R]]]] Ns Ti. rewrite (onedict_spec text [c] k Ne Lc). apply NoDup_map_on; [|exact ND].
  intros a b Ia Ib E. destruct (uniq_cells k a Ia Lc) as [La Ca]. destruct (uniq_cells k b Ib Lc) as [Lb Cb].
  apply joined_inj in E.
  - apply list_eq_nth; [congruence|]. intros j x y Ex Ey. destruct (Ca j x Ex) as [d [Ed Ix]]. destruct (Cb j y Ey) as [d' [Ed' Iy]].
    assert (d' = d) as -> by congruence. apply (Ti d); [eapply nth_error_In; exact Ed|exact Ix|exact Iy|].
    apply (map_nth_error text) in Ex. apply (map_nth_error text) in Ey. unfold name in *. congruence.
  - rewrite !map_length. congruence.
  - apply Forall_forall. intros p I. apply in_map_iff in I. destruct I as [v [<- I]]. destruct (In_nth_error _ _ I) as [j Ej].
    destruct (Ca j v Ej) as [d [Ed Id]]. apply (Ns d); [eapply nth_error_In; exact Ed|exact Id].
  - apply Forall_forall. intros p I. apply in_map_iff in I. destruct I as [v [<- I]]. destruct (In_nth_error _ _ I) as [j Ej].
    destruct (Cb j v Ej) as [d [Ed Id]]. apply (Ns d); [eapply nth_error_In; exact Ed|exact Id].
Qed.

(** ** mapped Categoricals as single keys *)
Lemma get_i_index d c : get_i d c = match index_of Z.eqb c (map fst d) with Some j => nth_error (map snd d) j | None => None end.
Proof.
  induction d as [|[k v] d IH]; [reflexivity|]. cbn [get_i map fst snd index_of]. rewrite (Z.eqb_sym c k).
  destruct (k =? c); [reflexivity|]. rewrite IH. destruct (index_of Z.eqb c (map fst d)); reflexivity.
Qed.
Lemma index_of_some d c j : index_of Z.eqb c (map (@fst Z name) d) = Some j -> (j < length (map (@snd Z name) d))%nat.
Proof.
  revert j. induction d as [|[k v] d IH]; intros j E; [discriminate|]. cbn [map fst snd index_of length] in *.
  destruct (c =? k); [injection E as <-; lia|]. destruct (index_of Z.eqb c (map fst d)) as [i|]; [|discriminate].
  injection E as <-. specialize (IH i eq_refl). lia.
Qed.
Lemma combine_maps {X Y W} (f : X -> Y) (g : X -> W) l : combine (map f l) (map g l) = map (fun x => (f x, g x)) l.
Proof. induction l as [|x l IH]; [reflexivity|]. cbn. now rewrite IH. Qed.
Lemma enum_rows o ordered d codes : total o ->
  map (cval 1 (snd (singlekey_enum o ordered d codes))) (fst (singlekey_enum o ordered d codes)) = mapped_rows d codes.
Proof.
  intros T. unfold singlekey_enum, mapped_rows. destruct ordered; cbn [fst snd].
  - set (val := fun i => match i with Some j => nth j (map snd d) [] | None => [] end).
    rewrite (map_map (fun c => index_of Z.eqb c (map fst d)) val).
    rewrite (combine_maps (fun c => index_of Z.eqb c (map fst d)) (fun c => val (index_of Z.eqb c (map fst d)))), !map_map. cbn [fst snd].
    set (us := usort o _). apply map_ext_in. intros c I. rewrite get_i_index. destruct (index_of Z.eqb c (map fst d)) as [j|] eqn:E; [|reflexivity].
    cbn [val]. assert (Ii : In (nth j (map snd d) []) us).
    { unfold us. apply (usort_in o T). apply in_map_iff. exists c. rewrite E. split; [reflexivity|exact I]. }
    destruct (position_nth o T us _ Ii) as [P1 P2]. unfold cval. destruct (Z.ltb_spec (position o us (nth j (map snd d) []) + 1) 1); [lia|].
    replace (position o us (nth j (map snd d) []) + 1 - 1) with (position o us (nth j (map snd d) [])) by lia. rewrite P2.
    symmetry. apply nth_error_nth'. eapply index_of_some. exact E.
  - rewrite !map_map. apply map_ext. intros c. rewrite get_i_index. destruct (index_of Z.eqb c (map fst d)) as [j|]; [|reflexivity].
    unfold cval. destruct (Z.ltb_spec (Z.of_nat j + 1) 1); [lia|]. f_equal. lia.
Qed.

(** ** merging mappings *)
Lemma nodup_small {X} (dec : forall a b : X, {a = b} + {a <> b}) l : (length (nodup dec l) <=? 1)%nat = true <-> forall a b, In a l -> In b l -> a = b.
Proof.
  rewrite Nat.leb_le. split.
  - intros L a b A B. apply (nodup_In dec) in A. apply (nodup_In dec) in B. destruct (nodup dec l) as [|x [|y r]]; cbn in *; [tauto| |lia].
    destruct A as [<-|[]], B as [<-|[]]. reflexivity.
  - intros H. pose proof (NoDup_nodup dec l) as ND. assert (H2 : forall a b, In a (nodup dec l) -> In b (nodup dec l) -> a = b).
    { intros a b A B. apply (H a b); now apply (nodup_In dec). }
    destruct (nodup dec l) as [|x [|y r]]; cbn; [lia|lia|]. exfalso. inversion ND as [|? ? N _]; subst. apply N. left. symmetry. apply H2; cbn; auto.
Qed.
Lemma all_codes_in ms s c : In c (all_codes ms s) <-> exists m, In m ms /\ get_s (m_s2i m) s = Some c.
Proof.
  unfold all_codes. rewrite in_flat_map. split.
  - intros [m [I J]]. exists m. split; [exact I|]. destruct (get_s (m_s2i m) s); [|destruct J]. destruct J as [->|[]]. reflexivity.
  - intros [m [I E]]. exists m. split; [exact I|]. rewrite E. now left.
Qed.
Lemma all_names_in ms c s : In s (all_names ms c) <-> exists m, In m ms /\ get_i (m_i2s m) c = Some s.
Proof.
  unfold all_names. rewrite in_flat_map. split.
  - intros [m [I J]]. exists m. split; [exact I|]. destruct (get_i (m_i2s m) c); [|destruct J]. destruct J as [->|[]]. reflexivity.
  - intros [m [I E]]. exists m. split; [exact I|]. rewrite E. now left.
Qed.
Lemma safe_spec strings ints ms : walks strings ints ms ->
  (safe strings ints ms = true <-> ~ exists m1 m2, In m1 ms /\ In m2 ms /\ contradict m1 m2).
Proof.
  intros [W1 W2]. unfold safe. rewrite andb_true_iff, !forallb_forall. split.
  - intros [A B] [m1 [m2 [I1 [I2 [[s [c1 [c2 [E1 [E2 N]]]]]|[c [s1 [s2 [E1 [E2 N]]]]]]]]]]; apply N.
    + apply (proj1 (nodup_small Z.eq_dec _) (A s (proj2 (W1 s) (ex_intro _ m1 (ex_intro _ c1 (conj I1 E1)))))); apply all_codes_in; eauto.
    + apply (proj1 (nodup_small name_dec _) (B c (proj2 (W2 c) (ex_intro _ m1 (ex_intro _ s1 (conj I1 E1)))))); apply all_names_in; eauto.
  - intros N. split.
    + intros s _. apply nodup_small. intros a b A B. apply all_codes_in in A. apply all_codes_in in B. destruct A as [m1 [I1 E1]], B as [m2 [I2 E2]].
      destruct (Z.eq_dec a b) as [|D]; [assumption|]. exfalso. apply N. exists m1, m2. split; [exact I1|]. split; [exact I2|]. left. exists s, a, b. auto.
    + intros c _. apply nodup_small. intros a b A B. apply all_names_in in A. apply all_names_in in B. destruct A as [m1 [I1 E1]], B as [m2 [I2 E2]].
      destruct (name_dec a b) as [|D]; [assumption|]. exfalso. apply N. exists m1, m2. split; [exact I1|]. split; [exact I2|]. right. exists c, a, b. auto.
Qed.
Lemma get_s_in d s c : get_s d s = Some c -> In (s, c) d.
Proof. induction d as [|[k v] d IH]; cbn; [discriminate|]. destruct (name_dec k s) as [->|_]; [intros E; left; congruence|right; auto]. Qed.
Lemma combined_get ms s : forall strings, get_s (combined strings ms) s = if in_dec name_dec s strings then hd_error (all_codes ms s) else None.
Proof.
  induction strings as [|x strings IH]; [reflexivity|]. unfold combined in *. cbn [flat_map].
  destruct (name_dec x s) as [->|Ne].
  - destruct (in_dec name_dec s (s :: strings)) as [_|N]; [|exfalso; apply N; now left].
    destruct (all_codes ms s) as [|c cs] eqn:E; cbn [app get_s hd_error].
    + rewrite IH. destruct (in_dec name_dec s strings); reflexivity.
    + destruct (name_dec s s); congruence.
  - assert (Q : get_s ((match all_codes ms x with c :: _ => [(x, c)] | [] => [] end) ++ flat_map (fun s => match all_codes ms s with c :: _ => [(s, c)] | [] => [] end) strings) s
                = get_s (flat_map (fun s => match all_codes ms s with c :: _ => [(s, c)] | [] => [] end) strings) s).
    { destruct (all_codes ms x); [reflexivity|]. cbn [app get_s]. destruct (name_dec x s); [congruence|reflexivity]. }
    rewrite Q, IH. destruct (in_dec name_dec s strings), (in_dec name_dec s (x :: strings)) as [J|J]; try reflexivity.
    + exfalso. apply J. now right.
    + destruct J as [->|J]; congruence.
Qed.
Lemma get_set_i d c s c' : get_i (set_i d c s) c' = if c =? c' then Some s else get_i d c'.
Proof.
  induction d as [|[k v] d IH]; cbn [set_i get_i]; [destruct (c =? c'); reflexivity|].
  destruct (Z.eqb_spec k c) as [->|Ne]; cbn [get_i].
  - destruct (c =? c'); reflexivity.
  - destruct (Z.eqb_spec k c') as [->|_]; [|exact IH]. destruct (Z.eqb_spec c c') as [->|_]; [congruence|reflexivity].
Qed.
Lemma reverse_get_aux c s : forall d r, (forall s', In (s', c) d -> s' = s) ->
  get_i (fold_left (fun r p => set_i r (snd p) (fst p)) d r) c = if in_dec name_dec s (map fst (filter (fun p => snd p =? c) d)) then Some s else get_i r c.
Proof.
  induction d as [|[k v] d IH]; intros r H; [reflexivity|]. cbn [fold_left filter map snd fst].
  rewrite (IH (set_i r v k)) by (intros s' I; apply H; now right). rewrite get_set_i.
  destruct (Z.eqb_spec v c) as [->|Ne]; cbn [map fst].
  - assert (k = s) as -> by (apply H; now left). destruct (in_dec name_dec s (s :: map fst (filter (fun p => snd p =? c) d))) as [_|N]; [|exfalso; apply N; now left].
    destruct (in_dec name_dec s (map fst (filter (fun p => snd p =? c) d))); reflexivity.
  - reflexivity.
Qed.
Lemma reverse_none c d : (forall s, ~ In (s, c) d) -> get_i (reverse d) c = None.
Proof.
  intros H. unfold reverse. assert (G : forall r, get_i (fold_left (fun r p => set_i r (snd p) (fst p)) d r) c = get_i r c); [|apply G].
  revert H. induction d as [|[k v] d IH]; intros H r; [reflexivity|]. cbn [fold_left fst snd]. rewrite IH by (intros s I; apply (H s); now right).
  rewrite get_set_i. destruct (Z.eqb_spec v c) as [->|_]; [exfalso; apply (H k); now left|reflexivity].
Qed.
Lemma reverse_some c s d : In (s, c) d -> (forall s', In (s', c) d -> s' = s) -> get_i (reverse d) c = Some s.
Proof.
  intros I H. unfold reverse. rewrite (reverse_get_aux c s d [] H). destruct (in_dec name_dec s _) as [_|N]; [reflexivity|].
  exfalso. apply N. apply in_map_iff. exists (s, c). split; [reflexivity|]. apply filter_In. split; [exact I|apply Z.eqb_refl].
Qed.
Lemma combined_in strings ms s c : In (s, c) (combined strings ms) -> In s strings /\ hd_error (all_codes ms s) = Some c.
Proof.
  unfold combined. rewrite in_flat_map. intros [x [I J]]. destruct (all_codes ms x) as [|c' cs] eqn:E; [destruct J|].
  destruct J as [J|[]]. injection J as -> ->. split; [exact I|]. now rewrite E.
Qed.
Lemma merged_get strings ints ms : walks strings ints ms -> safe strings ints ms = true ->
  forall s c, get_s (combined strings ms) s = Some c <-> exists m, In m ms /\ get_s (m_s2i m) s = Some c.
Proof.
  intros W S s c. rewrite combined_get. pose proof (proj1 (safe_spec _ _ _ W) S) as NC. split.
  - destruct (in_dec name_dec s strings); [|discriminate]. intros E. apply all_codes_in. destruct (all_codes ms s); [discriminate|]. injection E as ->. now left.
  - intros [m [I E]]. destruct (in_dec name_dec s strings) as [_|N]; [|exfalso; apply N, (proj1 W); eauto].
    assert (J : In c (all_codes ms s)) by (apply all_codes_in; eauto).
    destruct (all_codes ms s) as [|c' cs] eqn:Ea; [destruct J|]. cbn. f_equal.
    assert (J' : In c' (all_codes ms s)) by (rewrite Ea; now left). apply all_codes_in in J'. destruct J' as [m' [I' E']].
    destruct (Z.eq_dec c' c) as [|D]; [assumption|]. exfalso. apply NC. exists m', m. split; [exact I'|]. split; [exact I|]. left. exists s, c', c. auto.
Qed.
Lemma merged_names strings ints ms : walks strings ints ms -> safe strings ints ms = true -> (forall m, In m ms -> two_way m) ->
  forall c s, get_i (reverse (combined strings ms)) c = Some s <-> exists m, In m ms /\ get_i (m_i2s m) c = Some s.
Proof.
  intros W S T. pose proof (proj1 (safe_spec _ _ _ W) S) as NC.
  assert (P : forall s c, In (s, c) (combined strings ms) -> exists m, In m ms /\ get_i (m_i2s m) c = Some s).
  { intros s c I. apply combined_in in I. destruct I as [_ E].
    assert (J : In c (all_codes ms s)) by (destruct (all_codes ms s); [discriminate|]; injection E as ->; now left).
    apply all_codes_in in J. destruct J as [m [I J]]. exists m. split; [exact I|]. apply (T m I). exact J. }
  assert (U : forall c s s', (exists m, In m ms /\ get_i (m_i2s m) c = Some s) -> (exists m, In m ms /\ get_i (m_i2s m) c = Some s') -> s' = s).
  { intros c s s' [m [I E]] [m' [I' E']]. destruct (name_dec s' s) as [|D]; [assumption|]. exfalso. apply NC.
    exists m', m. split; [exact I'|]. split; [exact I|]. right. exists c, s', s. auto. }
  intros c s. split.
  - intros E. destruct (existsb (fun p => snd p =? c) (combined strings ms)) eqn:X.
    + apply existsb_exists in X. destruct X as [[s' c'] [I X]]. cbn in X. apply Z.eqb_eq in X. subst c'.
      rewrite (reverse_some c s' _ I) in E.
      * injection E as <-. apply P. exact I.
      * intros s'' I''. apply (U c); apply P; assumption.
    + rewrite reverse_none in E; [discriminate|]. intros s' I. assert (Y : existsb (fun p => snd p =? c) (combined strings ms) = true); [|congruence].
      apply existsb_exists. exists (s', c). split; [exact I|apply Z.eqb_refl].
  - intros [m [I E]]. assert (G : get_s (combined strings ms) s = Some c).
    { apply (merged_get _ _ _ W S). exists m. split; [exact I|]. apply (T m I). exact E. }
    apply reverse_some; [apply get_s_in; exact G|]. intros s' I'. apply (U c); [eauto|apply P; exact I'].
Qed.
