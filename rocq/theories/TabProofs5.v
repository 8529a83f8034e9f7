(** Proofs about the Dataset operators: comparison, equals, arithmetic, drop_duplicates. *)
From Coq Require Import List Arith Bool ZArith Lia.
From Verif Require Import FlattenModel FlattenProofs MergeModel MergeFacts GroupModel GroupFacts DsModel DsSpec DsProofs DsProofs3 DsProofs4 DsProofs5 TabModel TabCmpModel TabSpec TabProofs2.
Import ListNotations.

Lemma map2_nth {X Y Z} (f : X -> Y -> Z) a b i : nth_error (map2 f a b) i =
  match nth_error a i, nth_error b i with Some x, Some y => Some (f x y) | _, _ => None end.
Proof.
  unfold map2. revert b i. induction a as [|x a IH]; intros [|y b] [|i]; cbn; try reflexivity.
  - now destruct (nth_error a i).
  - apply IH.
Qed.
Lemma map2_length {X Y Z} (f : X -> Y -> Z) a b : length (map2 f a b) = Nat.min (length a) (length b).
Proof. unfold map2. now rewrite map_length, combine_length. Qed.
Lemma onat_eqb_eq a b : onat_eqb a b = true <-> a = b.
Proof. destruct a, b; cbn; rewrite ?Nat.eqb_eq; split; congruence. Qed.
Lemma dget_nil_names {X} n (t : list (name * X)) : dget n t = None <-> ~ In n (map fst t).
Proof. apply dget_none. Qed.
Lemma in_dget {X} n (x : X) d : NoDup (map fst d) -> In (n, x) d -> dget n d = Some x.
Proof. intros. now apply in_dget_nodup. Qed.

Section Compare.
Context {V : Type}.
Variable op : V -> V -> bool.
Lemma cmp_self_spec n b : forall cols out, (forall k, In k (map fst cols) -> ~ In k (map fst out)) -> NoDup (map fst cols) ->
  cmp_self op n cols b out = out ++ map (fun p => (fst p, match dget (fst p) (f_cols b) with None => no_rows n | Some y => map2 op (snd p) y end)) cols.
Proof.
  induction cols as [|[k x] cols IH]; intros out Fr ND; cbn [cmp_self map]; [now rewrite app_nil_r|].
  cbn in ND. inversion ND; subst. assert (N : ~ In k (map fst out)) by (apply Fr; now left).
  assert (E : forall v : list bool, dset k v out = out ++ [(k, v)]).
  { intros v. clear - N. induction out as [|[m y] out IH]; [reflexivity|]. cbn. destruct (name_dec m k) as [->|]; [exfalso; apply N; now left|]. rewrite IH; [reflexivity|]. intros H. apply N. now right. }
  rewrite E, IH; [now rewrite <- app_assoc| |assumption].
  intros m Hm Hin. rewrite map_app in Hin. apply in_app_iff in Hin. destruct Hin as [Hin|[<-|[]]]; [|contradiction]. apply (Fr m); [now right|assumption].
Qed.
Lemma dset_fresh {X} k (v : X) out : ~ In k (map fst out) -> dset k v out = out ++ [(k, v)].
Proof. induction out as [|[m y] out IH]; intros N; [reflexivity|]. cbn. destruct (name_dec m k) as [->|]; [exfalso; apply N; now left|]. rewrite IH; [reflexivity|]. intros H. apply N. now right. Qed.
Lemma cmp_other_spec n : forall cols out, NoDup (map fst cols) ->
  cmp_other n cols out = out ++ map (fun p : name * list V => (fst p, no_rows n)) (filter (fun p => negb (DsModel.mem (fst p) (map fst out))) cols).
Proof.
  induction cols as [|[k x] cols IH]; intros out ND; cbn [cmp_other filter map]; [now rewrite app_nil_r|]. cbn in ND. inversion ND as [|? ? Nk NDc]; subst. cbn [fst].
  destruct (dget k out) as [y|] eqn:E.
  - assert (M : DsModel.mem k (map fst out) = true) by (apply mem_in; apply dget_some_in in E; now apply (in_map fst) in E).
    rewrite M. cbn [negb]. now apply IH.
  - apply dget_none in E. assert (M : DsModel.mem k (map fst out) = false) by (destruct (DsModel.mem k (map fst out)) eqn:Q; [apply mem_in in Q; contradiction|reflexivity]).
    rewrite M. cbn [negb map fst]. rewrite dset_fresh, IH by assumption. rewrite <- app_assoc. cbn [app]. f_equal. f_equal. f_equal.
    apply filter_ext_in. intros [m z] Hm. cbn [fst]. f_equal. rewrite map_app. cbn [map fst].
    destruct (DsModel.mem m (map fst out)) eqn:Q.
    + apply mem_in in Q. apply mem_in. apply in_app_iff. now left.
    + destruct (DsModel.mem m (map fst out ++ [k])) eqn:Q'; [|reflexivity]. apply mem_in, in_app_iff in Q'. destruct Q' as [H|[<-|[]]].
      * apply mem_in in H. congruence.
      * exfalso. apply Nk. now apply (in_map fst) in Hm.
Qed.
Definition compared (a b : frame V) : list (name * list bool) :=
  map (fun p => (fst p, match dget (fst p) (f_cols b) with None => no_rows (f_rows a) | Some y => map2 op (snd p) y end)) (f_cols a) ++
  map (fun p => (fst p, no_rows (f_rows a))) (filter (fun p => negb (DsModel.mem (fst p) (names (f_cols a)))) (f_cols b)).
Lemma compare_eq (a b : frame V) : square a -> square b -> compare op a b = if onat_eqb (f_rows b) (f_rows a) then inl (compared a b) else inr ErrValue.
Proof.
  intros [NA _] [NB _]. unfold compare, compared. rewrite cmp_self_spec, cmp_other_spec by (auto; easy). cbn [app].
  rewrite map_map. cbn [fst]. reflexivity.
Qed.
Lemma compared_names a b : names (compared a b) = names (f_cols a) ++ filter (fun k => negb (DsModel.mem k (names (f_cols a)))) (names (f_cols b)).
Proof.
  unfold compared, names. rewrite map_app, !map_map. cbn [fst]. f_equal. induction (f_cols b) as [|[k x] l IH]; [reflexivity|]. cbn [filter map fst].
  destruct (negb _); cbn [map fst]; now rewrite IH.
Qed.
Lemma dget_map_val {X Y} (f : name * X -> Y) n (l : list (name * X)) : dget n (map (fun p => (fst p, f p)) l) = match dget n l with Some x => Some (f (n, x)) | None => None end.
Proof. induction l as [|[m x] l IH]; [reflexivity|]. cbn [map dget fst]. destruct (name_dec m n) as [->|]; [reflexivity|assumption]. Qed.
Lemma compared_dget a b n : dget n (compared a b) =
  match dget n (f_cols a), dget n (f_cols b) with
  | Some x, Some y => Some (map2 op x y)
  | None, None => None
  | _, _ => Some (no_rows (f_rows a))
  end.
Proof.
  unfold compared. rewrite dget_app, (dget_map_val (fun p => match dget (fst p) (f_cols b) with Some y => map2 op (snd p) y | None => no_rows (f_rows a) end)).
  cbn [fst snd]. destruct (dget n (f_cols a)) as [x|] eqn:Ea; [now destruct (dget n (f_cols b))|].
  rewrite (dget_map_val (fun _ => no_rows (f_rows a))).
  apply dget_none in Ea. assert (M : DsModel.mem n (names (f_cols a)) = false) by (destruct (DsModel.mem n (names (f_cols a))) eqn:Q; [apply mem_in in Q; contradiction|reflexivity]).
  rewrite (dget_filter (fun k => negb (DsModel.mem k (names (f_cols a))))) by now rewrite M. now destruct (dget n (f_cols b)).
Qed.
Lemma compared_nodup a b : square a -> square b -> NoDup (names (compared a b)).
Proof.
  intros [NA _] [NB _]. rewrite compared_names. unfold names in *.
  assert (Q : forall (l m : list name), NoDup l -> NoDup m -> (forall x, In x l -> ~ In x m) -> NoDup (l ++ m)).
  { induction l as [|x l IH]; intros m H1 H2 H3; [assumption|]. inversion H1; subst. cbn. constructor.
    - intros H. apply in_app_iff in H. destruct H; [contradiction|]. apply (H3 x); [now left|assumption].
    - apply IH; auto. intros y Hy. apply H3. now right. }
  apply Q; [assumption|now apply NoDup_filter|]. intros x Hx H. apply filter_In in H. destruct H as [_ H]. apply mem_in in Hx. rewrite Hx in H. discriminate.
Qed.
End Compare.

Section Equals.
Context {V : Type}.
Variable eqv : V -> V -> bool.
Variable isnan : V -> bool.
Variable computable : name -> bool.
Notation equals := (equals eqv isnan computable).
Notation nans := (nans isnan computable).

Definition agree (n : name) (x y : list V) : Prop := forall i u v, nth_error x i = Some u -> nth_error y i = Some v ->
  eqv u v = true \/ (computable n = true /\ isnan u = true /\ isnan v = true).
Definition nanl (n : name) (x : list V) : list bool := if computable n then map isnan x else repeat false (length x).
Lemma nanl_nth n x i : nth_error (nanl n x) i = match nth_error x i with Some u => Some (computable n && isnan u) | None => None end.
Proof.
  unfold nanl. destruct (computable n); [rewrite nth_error_map; now destruct (nth_error x i)|].
  revert i. induction x as [|u x IH]; intros [|i]; cbn; try reflexivity. apply IH.
Qed.
Lemma nanl_length n x : length (nanl n x) = length x.
Proof. unfold nanl. destruct (computable n); [apply map_length|apply repeat_length]. Qed.
Lemma forallb_nth (l : list bool) : forallb (fun x => x) l = true <-> forall i b, nth_error l i = Some b -> b = true.
Proof.
  rewrite forallb_forall. split; intros H.
  - intros i b E. apply H. eapply nth_error_In, E.
  - intros b Hb. apply In_nth_error in Hb. destruct Hb as [i E]. eauto.
Qed.
Lemma map2_andb_comm : forall a b, map2 andb a b = map2 andb b a.
Proof. unfold map2. induction a as [|x a IH]; intros [|y b]; cbn; try reflexivity. now rewrite IH, andb_comm. Qed.
Lemma col_agree n x y : length x = length y -> forallb (fun x => x) (map2 orb (map2 andb (nanl n x) (nanl n y)) (map2 eqv x y)) = true <-> agree n x y.
Proof.
  intros L. rewrite forallb_nth. unfold agree. split; intros H.
  - intros i u v Eu Ev. specialize (H i ((computable n && isnan u) && (computable n && isnan v) || eqv u v)).
    rewrite !map2_nth, !nanl_nth, Eu, Ev in H. specialize (H eq_refl). apply orb_true_iff in H. destruct H as [H|H]; [right|now left].
    apply andb_true_iff in H. rewrite !andb_true_iff in H. tauto.
  - intros i b. rewrite !map2_nth, !nanl_nth. destruct (nth_error x i) as [u|] eqn:Eu; [|discriminate]. destruct (nth_error y i) as [v|] eqn:Ev; [|discriminate].
    intros [= <-]. destruct (H i u v Eu Ev) as [->|(-> & -> & ->)]; [apply orb_true_r|reflexivity].
Qed.
Definition all_nan (n : name) (x : list V) : Prop := x = [] \/ (computable n = true /\ forall u, In u x -> isnan u = true).
Lemma col_nan n x : forallb (fun x => x) (map2 orb (nanl n x) (repeat false (length x))) = true <-> all_nan n x.
Proof.
  rewrite forallb_nth. assert (E : forall i, nth_error (repeat false (length x)) i = match nth_error x i with Some _ => Some false | None => None end).
  { induction x as [|u x IH]; intros [|i]; cbn; auto. }
  split; intros H.
  - destruct x as [|u0 x0] eqn:Ex; [now left|]. right. rewrite <- Ex in *.
    assert (Q : forall u, In u x -> computable n && isnan u = true).
    { intros u Hu. apply In_nth_error in Hu. destruct Hu as [i Hi]. apply (H i). rewrite map2_nth, nanl_nth, E, Hi. now rewrite orb_false_r. }
    split; [specialize (Q u0); rewrite Ex in Q; specialize (Q (or_introl eq_refl)); apply andb_true_iff in Q; tauto|]. intros u Hu. apply Q, andb_true_iff in Hu. tauto.
  - intros i b. rewrite map2_nth, nanl_nth, E. destruct (nth_error x i) as [u|] eqn:Eu; [|discriminate]. intros [= <-]. apply nth_error_In in Eu.
    destruct H as [->|[-> H]]; [easy|]. now rewrite (H u Eu).
Qed.
Lemma forallb_dget {X} (f : name * X -> bool) r : NoDup (map fst r) -> (forallb f r = true <-> forall k m, dget k r = Some m -> f (k, m) = true).
Proof.
  intros ND. rewrite forallb_forall. split; intros H.
  - intros k m E. apply H. now apply dget_some_in.
  - intros [k m] Hin. apply H. now apply in_dget_nodup.
Qed.
Lemma nans_dget a n : dget n (nans a) = match dget n (f_cols a) with Some x => Some (nanl n x) | None => None end.
Proof. exact (dget_map_val (fun p => nanl (fst p) (snd p)) n (f_cols a)). Qed.
Lemma and_nans_dget x y n : dget n (and_nans x [] y) = match dget n x with Some l => Some (match dget n y with Some m => map2 andb l m | None => l end) | None => None end.
Proof.
  unfold and_nans. cbn. induction x as [|[m l] x IH]; [reflexivity|]. cbn [map dget]. destruct (name_dec m n) as [->|]; [reflexivity|assumption].
Qed.
Lemma same_names_spec a b : same_names a b = true <-> (forall n, In n a <-> In n b).
Proof.
  unfold same_names. rewrite andb_true_iff, !forallb_forall. split; intros H.
  - destruct H as [H1 H2]. intros n. split; intros Hn; apply mem_in; auto.
  - split; intros n Hn; apply mem_in; now apply H.
Qed.
(** the wider and the narrower side *)
Definition wide (a b : frame V) : frame V := if length (f_cols b) <? length (f_cols a) then a else b.
Definition narrow (a b : frame V) : frame V := if length (f_cols b) <? length (f_cols a) then b else a.
Lemma square_len (a : frame V) n (x : list V) k : square a -> f_rows a = Some k -> dget n (f_cols a) = Some x -> length x = k.
Proof. intros [_ S] E D. apply dget_some_in in D. apply S in D. congruence. Qed.
Lemma equals_char a b k : square a -> square b -> f_labels a = [] -> f_labels b = [] -> f_rows a = Some (S k) ->
  (equals a b = true <-> f_rows b = f_rows a /\
    (forall n, In n (names (f_cols (narrow a b))) -> In n (names (f_cols (wide a b)))) /\
    (forall n x y, dget n (f_cols a) = Some x -> dget n (f_cols b) = Some y -> agree n x y) /\
    (forall n x, dget n (f_cols (wide a b)) = Some x -> dget n (f_cols (narrow a b)) = None -> all_nan n x)).
Proof.
  intros SA SB LA LB RA. unfold TabCmpModel.equals. rewrite (compare_eq eqv a b SA SB).
  destruct (onat_eqb (f_rows b) (f_rows a)) eqn:ER; [apply onat_eqb_eq in ER|split; [discriminate|intros (E & _); apply onat_eqb_eq in E; congruence]].
  set (r := compared eqv a b).
  assert (Len : forall n c, dget n r = Some c -> length c = S k).
  { intros n c. unfold r. rewrite compared_dget. assert (NR : length (no_rows (f_rows a)) = S k) by (unfold no_rows; rewrite repeat_length, RA; reflexivity).
    destruct (dget n (f_cols a)) as [x|] eqn:Ea, (dget n (f_cols b)) as [y|] eqn:Eb; intros [= <-]; try exact NR.
    rewrite map2_length, (square_len a n x (S k)), (square_len b n y (S k)) by (auto; congruence). apply Nat.min_id. }
  assert (Em : (match r with [] => true | (_, c) :: _ => length c =? 0 end) = true -> r = []).
  { destruct r as [|[n c] r'] eqn:Er; [reflexivity|]. intros H. apply Nat.eqb_eq in H. specialize (Len n c). cbn [dget] in Len. destruct (name_dec n n); [|easy]. specialize (Len eq_refl). lia. }
  assert (Wn : forall n, In n (names (f_cols (narrow a b))) <-> dget n (f_cols (narrow a b)) <> None).
  { intros n. rewrite dget_none. unfold names. destruct (in_dec name_dec n (map fst (f_cols (narrow a b)))); tauto. }
  assert (Ww : forall n, In n (names (f_cols (wide a b))) <-> dget n (f_cols (wide a b)) <> None).
  { intros n. rewrite dget_none. unfold names. destruct (in_dec name_dec n (map fst (f_cols (wide a b)))); tauto. }
  destruct (match r with [] => true | (_, c) :: _ => length c =? 0 end) eqn:EE.
  - specialize (Em eq_refl). assert (NN : names r = []) by now rewrite Em. unfold r in NN. rewrite compared_names in NN. apply app_eq_nil in NN. destruct NN as [N1 N2].
    assert (f_cols a = []) by (destruct (f_cols a); [reflexivity|discriminate]). rewrite N1 in N2. cbn in N2.
    assert (f_cols b = []). { destruct (f_cols b); [reflexivity|discriminate]. }
    unfold wide, narrow. rewrite H, H0. cbn. rewrite H, H0. split; [|reflexivity]. intros _. split; [assumption|]. split; [intros n []|]. split; [intros n x y Q; discriminate|intros n x Q; discriminate].
  - rewrite (forallb_dget _ r (compared_nodup eqv a b SA SB)). unfold r. clear EE Em. 
    assert (NN : forall n, dget n (if length (f_cols b) <? length (f_cols a) then and_nans (nans a) (f_labels a) (nans b) else and_nans (nans b) (f_labels b) (nans a)) =
      match dget n (f_cols (wide a b)) with Some x => Some (match dget n (f_cols (narrow a b)) with Some y => map2 andb (nanl n x) (nanl n y) | None => nanl n x end) | None => None end).
    { intros n. unfold wide, narrow. rewrite LA, LB. destruct (length (f_cols b) <? length (f_cols a)); rewrite and_nans_dget, !nans_dget.
      - destruct (dget n (f_cols a)), (dget n (f_cols b)); reflexivity.
      - destruct (dget n (f_cols b)), (dget n (f_cols a)); reflexivity. }
    assert (WN : wide a b = a /\ narrow a b = b \/ wide a b = b /\ narrow a b = a) by (unfold wide, narrow; destruct (_ <? _); auto).
    cbn [fst snd]. split.
    + intros H. split; [assumption|]. split; [|split].
      * intros n Hn. apply Wn in Hn. apply Ww. intros Hw. specialize (NN n). rewrite Hw in NN.
        assert (exists m, dget n (compared eqv a b) = Some m) as [m Hm].
        { rewrite compared_dget. destruct WN as [[W1 W2]|[W1 W2]]; rewrite W1 in Hw; rewrite W2 in Hn; rewrite Hw.
          - destruct (dget n (f_cols b)); [eauto|easy].
          - destruct (dget n (f_cols a)); [eauto|easy]. }
        specialize (H n m Hm). rewrite NN in H. discriminate.
      * intros n x y Hx Hy. specialize (H n (map2 eqv x y)). rewrite compared_dget, Hx, Hy in H. specialize (H eq_refl).
        assert (L : length x = length y) by (rewrite (square_len a n x (S k)), (square_len b n y (S k)) by (auto; congruence); reflexivity).
        rewrite NN in H. destruct WN as [[W1 W2]|[W1 W2]]; rewrite W1, W2, Hx, Hy in H; [|rewrite map2_andb_comm in H]; now apply col_agree.
      * intros n x Hx Hn. specialize (H n (no_rows (f_rows a))). rewrite NN, Hx, Hn in H.
        assert (Lx : length x = S k) by (destruct WN as [[W1 W2]|[W1 W2]]; rewrite W1 in Hx; [apply (square_len a n)|apply (square_len b n)]; auto; congruence).
        assert (EN : no_rows (f_rows a) = repeat false (length x)) by (unfold no_rows; now rewrite RA, Lx).
        rewrite EN in H. apply col_nan, H. rewrite compared_dget. destruct WN as [[W1 W2]|[W1 W2]]; rewrite W1 in Hx; rewrite W2 in Hn; rewrite Hx, Hn; now rewrite EN.
    + intros (_ & Sub & Agr & Nan) n m Hm. rewrite NN.
      destruct (dget n (f_cols (wide a b))) as [x|] eqn:Hw.
      2:{ exfalso. assert (Hn : dget n (f_cols (narrow a b)) = None). { destruct (dget n (f_cols (narrow a b))) eqn:Q; [|reflexivity]. exfalso. assert (In n (names (f_cols (wide a b)))) by (apply Sub, Wn; congruence). apply Ww in H. congruence. }
          rewrite compared_dget in Hm. destruct WN as [[W1 W2]|[W1 W2]]; rewrite W1 in Hw; rewrite W2 in Hn; rewrite Hw, Hn in Hm; discriminate. }
      destruct (dget n (f_cols (narrow a b))) as [y|] eqn:Hn.
      * rewrite compared_dget in Hm. destruct WN as [[W1 W2]|[W1 W2]]; rewrite W1 in Hw; rewrite W2 in Hn; rewrite Hw, Hn in Hm; assert (m = _) by (symmetry; injection Hm; intros E; exact E); subst m.
        -- apply col_agree; [|now apply Agr]. rewrite (square_len a n x (S k)), (square_len b n y (S k)) by (auto; congruence). reflexivity.
        -- rewrite map2_andb_comm. apply col_agree; [|now apply Agr]. rewrite (square_len b n x (S k)), (square_len a n y (S k)) by (auto; congruence). reflexivity.
      * assert (Lx : length x = S k) by (destruct WN as [[W1 W2]|[W1 W2]]; rewrite W1 in Hw; [apply (square_len a n)|apply (square_len b n)]; auto; congruence).
        assert (EM : m = repeat false (length x)).
        { rewrite compared_dget in Hm. rewrite Lx. unfold no_rows in Hm. rewrite RA in Hm. destruct WN as [[W1 W2]|[W1 W2]]; rewrite W1 in Hw; rewrite W2 in Hn; rewrite Hw, Hn in Hm; congruence. }
        rewrite EM. apply col_nan. now apply (Nan n).
Qed.
Lemma equals_zero a b : square a -> square b -> match f_rows a with Some (S _) => False | _ => True end ->
  (equals a b = true <-> f_rows b = f_rows a /\ forall n, In n (names (f_cols a)) <-> In n (names (f_cols b))).
Proof.
  intros SA SB RA. unfold TabCmpModel.equals. rewrite (compare_eq eqv a b SA SB).
  destruct (onat_eqb (f_rows b) (f_rows a)) eqn:ER; [apply onat_eqb_eq in ER|split; [discriminate|intros (E & _); apply onat_eqb_eq in E; congruence]].
  set (r := compared eqv a b).
  assert (EE : (match r with [] => true | (_, c) :: _ => length c =? 0 end) = true).
  { destruct r as [|[n c] r'] eqn:Er; [reflexivity|]. apply Nat.eqb_eq. assert (D : dget n r = Some c) by (rewrite Er; cbn; destruct (name_dec n n); easy).
    unfold r in D. rewrite compared_dget in D. assert (NR : length (no_rows (f_rows a)) = 0) by (unfold no_rows; rewrite repeat_length; destruct (f_rows a) as [[|?]|]; easy).
    destruct (dget n (f_cols a)) as [x|] eqn:Ea.
    - assert (length x = 0). { destruct SA as [_ S]. apply dget_some_in, S in Ea. rewrite Ea in RA. destruct (length x); easy. }
      destruct (dget n (f_cols b)) as [y|]; [|congruence]. injection D as <-. rewrite map2_length. lia.
    - destruct (dget n (f_cols b)); congruence. }
  rewrite EE, same_names_spec. tauto.
Qed.
Lemma equals_same_names a b : square a -> square b -> f_labels a = [] -> f_labels b = [] ->
  (forall n, In n (names (f_cols a)) <-> In n (names (f_cols b))) ->
  (equals a b = true <-> f_rows b = f_rows a /\ forall n x y, dget n (f_cols a) = Some x -> dget n (f_cols b) = Some y -> agree n x y).
Proof.
  intros SA SB LA LB SN. destruct (f_rows a) as [[|k]|] eqn:RA.
  - rewrite (equals_zero a b SA SB) by now rewrite RA. rewrite RA. split; [|tauto]. intros [E _]. split; [assumption|].
    intros n x y Hx _ i u v Hu. exfalso. destruct SA as [_ S]. apply dget_some_in, S in Hx. rewrite RA in Hx. destruct x; [|discriminate]. destruct i; discriminate.
  - rewrite (equals_char a b k SA SB LA LB RA). rewrite RA. split; [tauto|]. intros [E Ag]. split; [assumption|].
    assert (Q : forall n, In n (names (f_cols (narrow a b))) <-> In n (names (f_cols (wide a b)))).
    { unfold narrow, wide. destruct (_ <? _); [intros n; symmetry; apply SN|apply SN]. }
    split; [intros n; apply Q|]. split; [assumption|]. intros n x Hx Hn. exfalso. apply dget_none in Hn. apply Hn. apply Q. apply dget_some_in in Hx. now apply (in_map fst) in Hx.
  - rewrite (equals_zero a b SA SB) by now rewrite RA. rewrite RA. split; [|tauto]. intros [E _]. split; [assumption|].
    intros n x y Hx _ i u v Hu. exfalso. destruct SA as [_ S]. apply dget_some_in, S in Hx. rewrite RA in Hx. discriminate.
Qed.
End Equals.
