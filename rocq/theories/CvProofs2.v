(** Proofs about the arrays of categories and Matlab's codes. *)
From Coq Require Import List ZArith Bool Lia.
From Verif Require Import FlattenModel FlattenProofs CatModel CatSpec CvSpec CvModel CvProofs.
Import ListNotations.

Lemma startswith_app p n : startswith p n = true <-> exists r, n = p ++ r.
Proof.
  revert n. induction p as [|x p IH]; intros n; cbn [startswith]; [split; [intros _; now exists n|reflexivity]|]. destruct n as [|y n]; [split; [discriminate|intros (r & E); discriminate]|].
  rewrite andb_true_iff, Nat.eqb_eq, IH. split.
  - intros (-> & r & ->). now exists r.
  - intros (r & E). cbn in E. injection E as -> ->. eauto.
Qed.
Lemma skipn_pre (p r : name) : skipn (length p) (p ++ r) = r.
Proof. now rewrite skipn_app, Nat.sub_diag, skipn_all. Qed.

Section Struct.
Context {T : Type}.
Definition cats_of (plen : nat) (c : name * item T) : list (name * list T) :=
  match snd c with Cats _ cats => [(skipn plen (fst c), cats)] | _ => [] end.
Lemma entries_fold plen (l : struct T) d :
  NoDup (map (fun c => skipn plen (fst c)) l) -> (forall c, In c l -> ~ In (skipn plen (fst c)) (map fst d)) ->
  fold_left (fun d c => match snd c with Cats _ cats => dset (skipn plen (fst c)) cats d | _ => d end) l d = d ++ flat_map (cats_of plen) l.
Proof.
  revert d. induction l as [|[n t] l IH]; intros d N D; cbn [fold_left flat_map]; [now rewrite app_nil_r|]. inversion N as [|? ? N1 N2]; subst.
  assert (Rest : forall c, In c l -> ~ In (skipn plen (fst c)) (map fst d)) by (intros c I; apply D; now right).
  unfold cats_of at 1. cbn [fst snd] in *. destruct t; cbn [app]; try (now apply IH).
  rewrite dset_fresh by (apply (D (n, Cats codes cats)); now left). rewrite IH; [now rewrite <- app_assoc|exact N2|].
  intros c I. rewrite map_app, in_app_iff. cbn [map fst In]. intros [H|[H|[]]]; [now apply (Rest c)|]. apply N1. rewrite H.
  now apply (in_map (fun c => skipn plen (fst c))).
Qed.
Lemma nodup_inj {X Y} (f : X -> Y) (l : list X) : (forall a b, In a l -> In b l -> f a = f b -> a = b) -> NoDup l -> NoDup (map f l).
Proof.
  induction l as [|x l IH]; intros H N; cbn; constructor; inversion N as [|? ? N1 N2]; subst.
  - intros I. apply in_map_iff in I. destruct I as (y & E & I). apply N1. rewrite <- (H y x); [exact I|now right|now left|exact E].
  - apply IH; [|exact N2]. intros a b Ia Ib. apply H; now right.
Qed.
Lemma nodup_keys_inj {X} (l : list (name * X)) : NoDup (map fst l) -> NoDup l /\ forall a b, In a l -> In b l -> fst a = fst b -> a = b.
Proof.
  induction l as [|x l IH]; intros N; [split; [constructor|intros a b []]|]. inversion N as [|? ? N1 N2]; subst. destruct (IH N2) as [D J]. split.
  - constructor; [|exact D]. intros I. apply N1. now apply in_map.
  - intros a b [->|Ia] [->|Ib] E; [reflexivity| | |now apply J]; elim N1.
    + rewrite E. now apply in_map.
    + rewrite <- E. now apply in_map.
Qed.
Definition plen_of (prefix : option name) (keep : bool) : nat := match prefix with None => 0 | Some p => if keep then 0 else length p end.
Definition chosen_of (prefix : option name) (st : struct T) : struct T :=
  match prefix with None => st | Some p => filter (fun c => startswith p (fst c)) st end.
Lemma chosen_in prefix keep st n (t : item T) : In (n, t) (chosen_of prefix st) <-> column_of prefix keep (skipn (plen_of prefix keep) n) n /\ In (n, t) st.
Proof.
  unfold chosen_of, column_of, plen_of. destruct prefix as [p|]; [|cbn; tauto]. rewrite filter_In. cbn [fst]. rewrite startswith_app.
  destruct keep; [cbn [skipn]; tauto|]. split.
  - intros (I & r & ->). now rewrite skipn_pre.
  - intros (E & I). eauto.
Qed.
Lemma column_name prefix keep k n : column_of prefix keep k n -> skipn (plen_of prefix keep) n = k.
Proof. unfold column_of, plen_of. destruct prefix as [p|]; [|intros ->; reflexivity]. destruct keep; [intros [-> _]; reflexivity|intros ->; apply skipn_pre]. Qed.
Lemma column_inj prefix keep k n n' : column_of prefix keep k n -> column_of prefix keep k n' -> n = n'.
Proof. unfold column_of. destruct prefix as [p|]; [destruct keep|]; intros; intuition congruence. Qed.
Lemma chosen_nodup prefix keep (st : struct T) : NoDup (map fst st) -> NoDup (map (fun c => skipn (plen_of prefix keep) (fst c)) (chosen_of prefix st)).
Proof.
  intros N. destruct (nodup_keys_inj st N) as [D J]. apply nodup_inj.
  - intros [n t] [n' t'] I I' E. cbn [fst] in E. apply (chosen_in prefix keep) in I. apply (chosen_in prefix keep) in I'.
    destruct I as [C I], I' as [C' I']. rewrite E in C. apply J; [exact I|exact I'|]. exact (column_inj _ _ _ _ _ C C').
  - unfold chosen_of. destruct prefix; [|exact D]. now apply NoDup_filter.
Qed.
Lemma entries_is prefix keep (st : struct T) : NoDup (map fst st) ->
  cat_entries prefix keep st = flat_map (cats_of (plen_of prefix keep)) (chosen_of prefix st).
Proof. intros N. unfold cat_entries. fold (plen_of prefix keep). fold (chosen_of prefix st). rewrite entries_fold; [reflexivity|now apply chosen_nodup|intros c _ []]. Qed.
Lemma entries_in prefix keep (st : struct T) : NoDup (map fst st) -> forall k cats,
  In (k, cats) (cat_entries prefix keep st) <-> exists n codes, column_of prefix keep k n /\ In (n, Cats codes cats) st.
Proof.
  intros N k cats. rewrite entries_is by exact N. rewrite in_flat_map. split.
  - intros ([n t] & I & E). apply (chosen_in prefix keep) in I. destruct I as [C I]. unfold cats_of in E. cbn [snd fst] in E.
    destruct t; try contradiction. destruct E as [E|[]]. injection E as <- <-. eauto.
  - intros (n & codes & C & I). exists (n, Cats codes cats). pose proof (column_name _ _ _ _ C) as E. split.
    + apply (chosen_in prefix keep). now rewrite E.
    + unfold cats_of. cbn [snd fst]. left. now rewrite E.
Qed.
Lemma flat_nodup plen (l : struct T) : NoDup (map (fun c => skipn plen (fst c)) l) -> NoDup (map fst (flat_map (cats_of plen) l)).
Proof.
  induction l as [|[n t] l IH]; intros N; cbn [flat_map]; [constructor|]. inversion N as [|? ? N1 N2]; subst.
  unfold cats_of at 1. cbn [fst snd] in *. destruct t; cbn [app]; try now apply IH. cbn [map fst]. constructor; [|now apply IH].
  intros I. apply N1. apply in_map_iff in I. destruct I as ([k c] & E & I). cbn [fst] in E. subst k. apply in_flat_map in I. destruct I as ([n' t'] & I & H).
  unfold cats_of in H. cbn [fst snd] in H. destruct t'; try contradiction. destruct H as [H|[]]. injection H as H _. apply in_map_iff. exists (n', Cats codes0 cats0). split; assumption.
Qed.
Lemma struct_is bad prefix keep (st : struct T) : NoDup (map fst st) ->
  (forall k n codes cats, column_of prefix keep k n -> In (n, Cats codes cats) st -> valid bad k = true) ->
  make_struct bad prefix keep st = Some (cat_entries prefix keep st) /\ NoDup (map fst (cat_entries prefix keep st)).
Proof.
  intros N V. assert (D : NoDup (map fst (cat_entries prefix keep st))) by (rewrite entries_is by exact N; apply flat_nodup; now apply chosen_nodup).
  assert (W : forall e, In e (cat_entries prefix keep st) -> valid bad (fst e) = true).
  { intros [k c] I. apply (entries_in prefix keep st N) in I. destruct I as (n & codes & C & I). exact (V k n codes c C I). }
  split; [|exact D]. unfold make_struct. replace (forallb _ (cat_entries prefix keep st)) with true.
  - f_equal. rewrite <- (app_nil_l (cat_entries prefix keep st)) at 2. rewrite <- dset_all_fresh by (exact D || intros k _ []).
    unfold dset_all. revert W. generalize (@nil (name * list T)) as d. clear. induction (cat_entries prefix keep st) as [|e l IH]; intros d W; [reflexivity|].
    cbn [fold_left]. rewrite IH by (intros x I; apply W; now right). f_equal. f_equal. specialize (W e (or_introl eq_refl)).
    unfold valid, col_name in *. destruct (fst e) as [|c r]; [reflexivity|]. apply andb_true_iff in W. destruct W as [_ W]. apply negb_true_iff in W. now rewrite W.
  - symmetry. apply forallb_forall. intros e I. specialize (W e I). destruct e as [[|c r] v]; cbn [fst valid] in *; [discriminate|]. apply andb_true_iff in W. apply W.
Qed.
End Struct.

Section Matlab.
Context {T : Type} (mk : item T -> list T -> option (item T)) (strip : T -> T) (bad attr : name -> bool) (trailing : bool) (prefix : name).
Definition names_of (e : name * list T) : list T := if trailing then map strip (snd e) else snd e.
Definition one (keep : bool) (e : name * list T) (p : name * item T) : name * item T :=
  if name_dec (fst p) (prefix ++ fst e) then
    if is_cat (snd p) then p else
      match mk (snd p) (names_of e) with Some c => (if keep then fst p else fst e, c) | None => p end
  else p.
Lemma map_same {X} (f : X -> X) l : (forall x, In x l -> f x = x) -> map f l = l.
Proof. intros H. rewrite <- (map_id l) at 2. now apply map_ext_in. Qed.
Lemma step_nocat (e : name * list T) (st : struct T) col : dget (prefix ++ fst e) st = Some col -> is_cat col = false -> forall keep,
  matlab_step mk strip bad attr trailing keep prefix e st =
  match mk col (names_of e) with
  | None => (false, st)
  | Some c => if keep then (true, dset (prefix ++ fst e) c st) else
      let st1 := col_remove (fst e) st in
      match col_rename bad (prefix ++ fst e) (fst e) st1 with
      | Some st2 => (true, dset (fst e) c st2)
      | None => match col_rename bad (prefix ++ fst e) (capitalize (fst e)) st1 with
                | Some st2 => (true, dset (capitalize (fst e)) c st2) | None => (false, st1) end
      end
  end.
Proof. intros E C keep. unfold matlab_step. cbv zeta. rewrite E. destruct col; try discriminate; reflexivity. Qed.
Lemma remove_fresh k (st : struct T) : ~ In k (map fst st) -> col_remove k st = st.
Proof.
  unfold col_remove. induction st as [|[n t] st IH]; intros H; [reflexivity|]. cbn [filter fst]. cbn [map fst In] in H.
  destruct (name_dec n k) as [->|]; [elim H; now left|]. f_equal. apply IH. tauto.
Qed.
Lemma step_is keep (e : name * list T) (st : struct T) : NoDup (map fst st) ->
  (In (prefix ++ fst e) (map fst st) \/ attr (prefix ++ fst e) = false) ->
  (forall col, In (prefix ++ fst e, col) st -> is_cat col = false -> mk col (names_of e) <> None) ->
  (keep = false -> valid bad (fst e) = true /\ ~ In (fst e) (map fst st) /\ fst e <> prefix ++ fst e) ->
  matlab_step mk strip bad attr trailing keep prefix e st = (true, map (one keep e) st).
Proof.
  intros N A M K. destruct (dget (prefix ++ fst e) st) as [col|] eqn:E.
  - assert (Same : forall t, In (prefix ++ fst e, t) st -> t = col) by (intros t I; apply (dget_in _ _ _ N) in I; congruence).
    destruct (is_cat col) eqn:C.
    + unfold matlab_step. cbv zeta. rewrite E. transitivity (true, st); [destruct col; try discriminate; reflexivity|]. f_equal. symmetry. apply map_same.
      intros [n t] I. unfold one. cbn [fst snd]. destruct (name_dec n (prefix ++ fst e)) as [->|]; [|reflexivity]. rewrite (Same t I), C. reflexivity.
    + rewrite (step_nocat e st col E C). pose proof (M col (dget_some _ _ _ E) C) as M'. destruct (mk col (names_of e)) as [c|] eqn:Em; [|congruence].
      destruct keep.
      * f_equal. rewrite (dset_map _ col _ _ N E). apply map_ext_in. intros [n t] I. unfold one. cbn [fst snd].
        destruct (name_dec n (prefix ++ fst e)) as [->|]; [|reflexivity]. rewrite (Same t I), C, Em. reflexivity.
      * destruct (K eq_refl) as (V & F & Ne). cbv zeta. rewrite remove_fresh by exact F. unfold col_rename at 1.
        destruct (name_dec (prefix ++ fst e) (fst e)) as [Q|_]; [congruence|]. rewrite V, E. cbn [negb].
        rewrite (proj2 (dget_none (fst e) st) F). f_equal. set (st2 := map _ st).
        assert (K2 : forall t, In (fst e, t) st2 -> t = col).
        { intros t I. unfold st2 in I. apply in_map_iff in I. destruct I as ([n u] & Q & I). cbn [fst snd] in Q.
          destruct (name_dec n (prefix ++ fst e)) as [->|]; [injection Q as <-; now apply Same|]. injection Q as -> <-. elim F. now apply in_map with (f := fst) in I. }
        assert (N2 : NoDup (map fst st2)).
        { unfold st2. rewrite map_map. destruct (nodup_keys_inj st N) as [D J]. apply nodup_inj; [|exact D]. intros [n t] [n' t'] I I' Q. cbn [fst] in Q.
          pose proof (in_map fst _ _ I) as H1. pose proof (in_map fst _ _ I') as H2. cbn [fst] in H1, H2.
          destruct (name_dec n (prefix ++ fst e)) as [->|], (name_dec n' (prefix ++ fst e)) as [->|]; cbn [fst] in Q.
          - now apply J.
          - subst n'. contradiction.
          - subst n. contradiction.
          - subst n'. now apply J. }
        assert (E2 : dget (fst e) st2 = Some col).
        { apply dget_in; [exact N2|]. unfold st2. apply in_map_iff. exists (prefix ++ fst e, col). cbn [fst snd]. split; [|now apply dget_some].
          destruct (name_dec (prefix ++ fst e) (prefix ++ fst e)); [reflexivity|congruence]. }
        rewrite (dset_map _ col _ _ N2 E2). unfold st2. rewrite map_map. apply map_ext_in. intros [n t] I. unfold one. cbn [fst snd].
        destruct (name_dec n (prefix ++ fst e)) as [->|Nn]; cbn [fst snd].
        -- destruct (name_dec (fst e) (fst e)); [|congruence]. rewrite (Same t I), C, Em. reflexivity.
        -- destruct (name_dec n (fst e)) as [->|]; [|reflexivity]. elim F. now apply in_map with (f := fst) in I.
  - unfold matlab_step. cbv zeta. rewrite E. apply dget_none in E. destruct A as [A|A]; [contradiction|]. rewrite A. cbn [negb]. f_equal. symmetry. apply map_same.
    intros [n t] I. unfold one. cbn [fst snd]. destruct (name_dec n (prefix ++ fst e)) as [->|]; [|reflexivity]. elim E. now apply in_map with (f := fst) in I.
Qed.

Definition all (keep : bool) (xtra : list (name * list T)) (p : name * item T) : name * item T := fold_left (fun p e => one keep e p) xtra p.
Lemma one_name keep (e : name * list T) (p : name * item T) : fst (one keep e p) = fst p \/ keep = false /\ fst p = prefix ++ fst e /\ fst (one keep e p) = fst e.
Proof.
  unfold one. destruct (name_dec (fst p) (prefix ++ fst e)) as [E|]; [|now left]. destruct (is_cat (snd p)); [now left|].
  destruct (mk _ _); [|now left]. destruct keep; [now left|right]. repeat split; assumption.
Qed.
Lemma one_nodup keep (e : name * list T) (st : struct T) : NoDup (map fst st) -> (keep = false -> ~ In (fst e) (map fst st)) -> NoDup (map fst (map (one keep e) st)).
Proof.
  intros N F. rewrite map_map. destruct (nodup_keys_inj st N) as [D J]. apply nodup_inj; [|exact D]. intros a b Ia Ib Q.
  pose proof (in_map fst _ _ Ia) as H1. pose proof (in_map fst _ _ Ib) as H2.
  destruct (one_name keep e a) as [Ea|(Ka & Pa & Ea)], (one_name keep e b) as [Eb|(Kb & Pb & Eb)]; rewrite Ea, Eb in Q.
  - now apply J.
  - elim (F Kb). now rewrite <- Q.
  - elim (F Ka). now rewrite Q.
  - apply J; congruence.
Qed.
Lemma make_is keep (xtra : list (name * list T)) (st : struct T) : NoDup (map fst st) -> NoDup (map fst xtra) ->
  (forall e, In e xtra -> In (prefix ++ fst e) (map fst st) \/ attr (prefix ++ fst e) = false) ->
  (forall e col, In e xtra -> In (prefix ++ fst e, col) st -> is_cat col = false -> mk col (names_of e) <> None) ->
  (keep = false -> forall e, In e xtra -> valid bad (fst e) = true /\ ~ In (fst e) (map fst st) /\ forall e', In e' xtra -> fst e <> prefix ++ fst e') ->
  make_matlab mk strip bad attr trailing keep prefix xtra st = (true, map (all keep xtra) st).
Proof.
  revert st. induction xtra as [|e xtra IH]; intros st N Nx A M K; cbn [make_matlab].
  - f_equal. symmetry. now apply map_same.
  - inversion Nx as [|? ? X1 X2]; subst.
    assert (Here : forall e' , In e' xtra -> fst e' <> fst e) by (intros e' I Q; apply X1; rewrite <- Q; now apply in_map).
    rewrite step_is; [|exact N|apply A; now left|intros col; apply M; now left|intros Kf; destruct (K Kf e (or_introl eq_refl)) as (V & F & Ne); repeat split; try assumption; apply Ne; now left].
    assert (Other : forall e' p, In e' xtra -> In p st -> fst p = prefix ++ fst e' -> one keep e p = p).
    { intros e' p I Ip Q. unfold one. destruct (name_dec (fst p) (prefix ++ fst e)) as [Q'|]; [|reflexivity]. rewrite Q in Q'. apply app_inv_head in Q'. now elim (Here e' I). }
    assert (Back : forall e' p, In e' xtra -> In p st -> fst (one keep e p) = prefix ++ fst e' -> fst p = prefix ++ fst e').
    { intros e' p I Ip Q. destruct (one_name keep e p) as [E|(Kf & P & E)]; [congruence|]. destruct (K Kf e (or_introl eq_refl)) as (_ & _ & Ne).
      elim (Ne e' (or_intror I)). congruence. }
    rewrite IH.
    + f_equal. rewrite map_map. reflexivity.
    + apply one_nodup; [exact N|]. intros Kf. now destruct (K Kf e (or_introl eq_refl)).
    + exact X2.
    + intros e' I. destruct (A e' (or_intror I)) as [H|H]; [left|now right]. apply in_map_iff in H. destruct H as (p & Q & Ip). apply in_map_iff.
      exists p. split; [exact Q|]. rewrite <- (Other e' p I Ip Q). now apply in_map.
    + intros e' col I H C. apply in_map_iff in H. destruct H as (p & Q & Ip). assert (P : fst p = prefix ++ fst e') by (apply (Back e' p I Ip); now rewrite Q).
      rewrite (Other e' p I Ip P) in Q. subst p. apply (M e' col (or_intror I) Ip C).
    + intros Kf e' I. destruct (K Kf e' (or_intror I)) as (V & F & Ne). repeat split; [exact V| |intros e2 I2; apply Ne; now right].
      intros H. rewrite map_map in H. apply in_map_iff in H. destruct H as (p & Q & Ip). destruct (one_name keep e p) as [E|(_ & P & E)].
      * apply F. rewrite <- Q, E. now apply in_map.
      * apply (Here e' I). congruence.
Qed.
Lemma all_none keep (xtra : list (name * list T)) (p : name * item T) : (forall e, In e xtra -> fst p <> prefix ++ fst e) -> all keep xtra p = p.
Proof.
  unfold all. induction xtra as [|e xtra IH]; intros H; [reflexivity|]. cbn [fold_left]. replace (one keep e p) with p.
  - apply IH. intros x I. apply H. now right.
  - unfold one. destruct (name_dec (fst p) (prefix ++ fst e)) as [E|]; [elim (H e (or_introl eq_refl) E)|reflexivity].
Qed.
Lemma all_one keep (xtra : list (name * list T)) (e : name * list T) (p : name * item T) : NoDup (map fst xtra) -> In e xtra -> fst p = prefix ++ fst e ->
  (keep = false -> forall e', In e' xtra -> fst e <> prefix ++ fst e') -> all keep xtra p = one keep e p.
Proof.
  revert p. induction xtra as [|x xtra IH]; intros p N I P K; [contradiction|]. inversion N as [|? ? N1 N2]; subst.
  change (all keep (x :: xtra) p) with (all keep xtra (one keep x p)). destruct I as [->|I].
  - apply all_none. intros e' I' Q. destruct (one_name keep e p) as [E|(Kf & _ & E)].
    + rewrite E, P in Q. apply app_inv_head in Q. apply N1. rewrite Q. now apply in_map.
    + rewrite E in Q. now elim (K Kf e' (or_intror I')).
  - replace (one keep x p) with p; [apply IH; try assumption; intros Kf e' I'; apply (K Kf); now right|].
    unfold one. destruct (name_dec (fst p) (prefix ++ fst x)) as [E|]; [|reflexivity]. rewrite P in E. apply app_inv_head in E. elim N1. rewrite <- E. now apply in_map.
Qed.
End Matlab.
