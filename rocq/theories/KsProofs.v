(** Proofs about key_search and the dictionaries of mappings. *)
From Coq Require Import List String Ascii ZArith Bool Lia.
From Verif Require Import KsModel.
Import ListNotations.
Local Open Scope list_scope.

(** an induction principle for nested items *)
Section Ind.
Variable P : node -> Prop.
Hypothesis PL : P Leaf.
Hypothesis PS : forall d items, (forall s c, In (s, c) items -> P c) -> P (SNode d items).
Fixpoint node_ind2 (n : node) : P n :=
  match n with
  | Leaf => PL
  | SNode d items => PS d items ((fix go (its : list (string * node)) : forall s c, In (s, c) its -> P c :=
      match its with
      | [] => fun s c (H : In (s, c) []) => match H with end
      | (t, x) :: r => fun s c (H : In (s, c) ((t, x) :: r)) => match H with
          | or_introl E => eq_ind x P (node_ind2 x) c (f_equal snd E)
          | or_intror J => go r s c J
          end
      end) items)
  end.
End Ind.

Lemma sapp_assoc (a b c : string) : ((a ++ b) ++ c = a ++ (b ++ c))%string.
Proof. induction a as [|x a IH]; cbn; congruence. Qed.

Section Search.
Variable m : string -> bool.
Definition below (rec : node -> list (list string)) (its : list (string * node)) : list (list string) :=
  flat_map (fun p => map (cons (fst p)) (rec (snd p))) its.
(** the same search, giving lists of names *)
Fixpoint paths (recursive : bool) (n : node) : list (list string) :=
  match n with
  | Leaf => []
  | SNode isds items => map (fun s => [s]) (filter m (keys items)) ++
      (if recursive && negb isds then
        (fix go its := match its with [] => [] | (s, c) :: r => map (cons s) (paths recursive c) ++ go r end) items else [])
  end.
Lemma paths_eq recursive isds items : paths recursive (SNode isds items) =
  map (fun s => [s]) (filter m (keys items)) ++ (if recursive && negb isds then below (paths recursive) items else []).
Proof.
  cbn [paths]. f_equal. destruct (recursive && negb isds); [|reflexivity]. induction items as [|[s c] r IH]; [reflexivity|]. cbn. now rewrite IH.
Qed.
Lemma paths_nonempty recursive n l : In l (paths recursive n) -> l <> [].
Proof.
  destruct n as [|d items]; [intros []|]. rewrite paths_eq, in_app_iff, in_map_iff. intros [(s & <- & _)|H]; [discriminate|].
  destruct (recursive && negb d); [|destruct H]. unfold below in H. apply in_flat_map in H. destruct H as ((s & c) & _ & H). apply in_map_iff in H. destruct H as (x & <- & _). discriminate.
Qed.
Lemma dotted_cons s l : l <> [] -> dotted (s :: l) = (s ++ "." ++ dotted l)%string.
Proof. destruct l; [congruence|reflexivity]. Qed.
Lemma search_paths recursive n : forall path, key_search m recursive path n = map (fun l => (path ++ dotted l)%string) (paths recursive n).
Proof.
  induction n as [|d items IH] using node_ind2; intros path; [reflexivity|]. rewrite paths_eq, map_app, map_map. cbn [key_search]. f_equal.
  destruct (recursive && negb d); [|reflexivity]. unfold below. induction items as [|[s c] r IHr]; [reflexivity|]. cbn [flat_map]. rewrite map_app, <- IHr; [|intros t x J; apply (IH t x); now right].
  cbn [fst snd]. assert (E : key_search m recursive (path ++ s ++ ".")%string c = map (fun l => (path ++ dotted l)%string) (map (cons s) (paths recursive c))).
  { rewrite (IH s c (or_introl eq_refl)), map_map. apply map_ext_in. intros l J. rewrite dotted_cons by (eapply paths_nonempty; exact J). rewrite !sapp_assoc. reflexivity. }
  destruct c as [|d' its']; [cbn; reflexivity|]. now rewrite E.
Qed.
Lemma in_paths n l : In l (paths true n) <-> leads n l /\ m (last l ""%string) = true.
Proof.
  revert l. induction n as [|d items IH] using node_ind2; intros l.
  - split; [intros []|intros [H _]; inversion H].
  - rewrite paths_eq, in_app_iff, in_map_iff. cbn [andb]. split.
    + intros [(s & <- & J)|J].
      * apply filter_In in J. destruct J as [J K]. unfold keys in J. apply in_map_iff in J. destruct J as ((t & c) & E & J). cbn in E. subst t. split; [econstructor; exact J|exact K].
      * destruct d; cbn in J; [destruct J|]. unfold below in J. apply in_flat_map in J. destruct J as ((s & c) & J & K). cbn in K. apply in_map_iff in K. destruct K as (x & <- & K).
        pose proof (paths_nonempty _ _ _ K) as N. apply (IH s c J) in K. destruct K as [K1 K2]. split; [econstructor; eassumption|]. destruct x; [congruence|exact K2].
    + intros [H K]. inversion H; subst.
      * left. exists s. split; [reflexivity|]. apply filter_In. split; [|exact K]. unfold keys. apply in_map_iff. now exists (s, c).
      * right. cbn. unfold below. apply in_flat_map. exists (s, c). split; [assumption|]. cbn. apply in_map. apply (IH s c); [assumption|]. split; [assumption|].
        destruct rest as [|t rest]; [match goal with L : leads _ [] |- _ => inversion L end|exact K].
Qed.
Lemma nodup_app {X} (a b : list X) : NoDup a -> NoDup b -> (forall x, In x a -> ~ In x b) -> NoDup (a ++ b).
Proof.
  induction a as [|x a IH]; intros A B D; [exact B|]. inversion_clear A as [|? ? A1 A2]. cbn. constructor.
  - rewrite in_app_iff. intros [J|J]; [tauto|]. exact (D x (or_introl eq_refl) J).
  - apply IH; auto. intros y J. apply D. now right.
Qed.
Lemma nodup_map {X Y} (f : X -> Y) l : (forall a b, f a = f b -> a = b) -> NoDup l -> NoDup (map f l).
Proof. intros I. induction 1 as [|x l H N IH]; cbn; constructor; [|exact IH]. rewrite in_map_iff. intros (y & E & J). apply I in E. congruence. Qed.
Lemma nodup_paths recursive n : distinct n -> NoDup (paths recursive n).
Proof.
  induction n as [|d items IH] using node_ind2; intros D; [constructor|]. inversion_clear D as [|? ? N DC]. rewrite paths_eq. apply nodup_app.
  - apply nodup_map; [congruence|]. now apply NoDup_filter.
  - destruct (recursive && negb d); [|constructor]. unfold below. unfold keys in N. induction items as [|[s c] r IHr]; [constructor|]. cbn in N. inversion_clear N as [|? ? N1 N2]. cbn. apply nodup_app.
    + apply nodup_map; [congruence|]. apply (IH s c (or_introl eq_refl)). apply (DC s c). now left.
    + apply IHr; auto; intros t x J; [apply (IH t x)|apply (DC t x)]; now right.
    + intros l J K. apply in_map_iff in J. destruct J as (x & <- & _). apply in_flat_map in K. destruct K as ((t & y) & K & L). apply in_map_iff in L. destruct L as (z & E & _). injection E as E _. cbn in E. subst t.
      apply N1. apply in_map_iff. now exists (s, y).
  - intros l J K. apply in_map_iff in J. destruct J as (s & <- & _). destruct (recursive && negb d); [|destruct K]. unfold below in K. apply in_flat_map in K. destruct K as ((t & y) & _ & K).
    apply in_map_iff in K. destruct K as (z & E & K). injection E as _ ->. exact (paths_nonempty _ _ _ K eq_refl).
Qed.
End Search.

(** ** The dictionaries *)
Section Dict.
Context {K W : Type}.
Variable eqb : K -> K -> bool.
Hypothesis eqb_eq : forall a b, eqb a b = true <-> a = b.
Lemma dget_put k (w : W) (d : list (K * W)) k' : dget eqb k' (dput eqb k w d) = if eqb k k' then Some w else dget eqb k' d.
Proof.
  unfold dget. induction d as [|[a b] r IH]; cbn.
  - destruct (eqb k k'); reflexivity.
  - destruct (eqb a k) eqn:E; cbn.
    + apply eqb_eq in E. subst a. destruct (eqb k k'); reflexivity.
    + destruct (eqb a k') eqn:E'; [|exact IH]. apply eqb_eq in E'. subst a. destruct (eqb k k') eqn:E2; [|reflexivity]. apply eqb_eq in E2. subst. 
      assert (Q : eqb k' k' = true) by now apply eqb_eq. congruence.
Qed.
End Dict.
(** the pairs that are filled in *)
Fixpoint pairs (strings ints : list pyval) : option (list (string * Z)) :=
  match strings, ints with
  | k :: ks, v :: vs =>
      match pair_of (k, v), is_text k, pairs ks vs with Some p, true, Some l => Some (p :: l) | _, _, _ => None end
  | _, _ => Some []
  end.
Lemma fill_pairs : forall ks vs s2i i2s, fill ks vs s2i i2s =
  match pairs ks vs with
  | Some l => Dicts (fold_left (fun d p => dput String.eqb (fst p) (snd p) d) l s2i) (fold_left (fun d p => dput Z.eqb (snd p) (fst p) d) l i2s)
  | None => TypeErr
  end.
Proof.
  induction ks as [|k ks IH]; intros [|v vs] s2i i2s; try reflexivity. cbn [fill pairs].
  destruct k, v; try reflexivity; cbn [pair_of is_text]; rewrite IH; destruct (pairs ks vs); reflexivity.
Qed.
Section Fold.
Context {K W : Type}.
Variable eqb : K -> K -> bool.
Hypothesis eqb_eq : forall a b, eqb a b = true <-> a = b.
Lemma fold_get (l : list (K * W)) : forall d k, NoDup (map fst l) -> 
  dget eqb k (fold_left (fun d p => dput eqb (fst p) (snd p) d) l d) = match dget eqb k l with Some w => Some w | None => dget eqb k d end.
Proof.
  induction l as [|[a b] r IH]; intros d k N; [reflexivity|]. cbn in N. inversion_clear N as [|? ? N1 N2]. cbn [fold_left fst snd]. rewrite IH by exact N2. rewrite dget_put by exact eqb_eq.
  unfold dget at 3. cbn [find fst]. destruct (eqb a k) eqn:E; [|unfold dget; reflexivity]. apply eqb_eq in E. subst a. unfold dget. destruct (find (fun p => eqb (fst p) k) r) as [p|] eqn:F; [|reflexivity].
  exfalso. apply find_some in F. destruct F as [F1 F2]. apply eqb_eq in F2. apply N1. rewrite <- F2. now apply in_map.
Qed.
Lemma dget_in (l : list (K * W)) k w : NoDup (map fst l) -> dget eqb k l = Some w <-> In (k, w) l.
Proof.
  intros N. unfold dget. induction l as [|[a b] r IH]; cbn; [split; [discriminate|intros []]|]. cbn in N. inversion_clear N as [|? ? N1 N2].
  destruct (eqb a k) eqn:E.
  - apply eqb_eq in E. subst a. cbn. split; [intros [= ->]; now left|]. intros [[= ->]|J]; [reflexivity|]. exfalso. apply N1. apply in_map_iff. now exists (k, w).
  - rewrite IH by exact N2. split; [now right|]. intros [[= -> ->]|J]; [|exact J]. assert (Q : eqb k k = true) by now apply eqb_eq. congruence.
Qed.
End Fold.
Lemma pairs_ok : forall ks vs l, pairs ks vs = Some l -> List.length ks = List.length vs -> forall p, In p l <-> exists k v, In (k, v) (combine ks vs) /\ pair_of (k, v) = Some p.
Proof.
  induction ks as [|k ks IH]; intros [|v vs] l H L p; cbn [pairs combine List.length] in *; try discriminate.
  - injection H as <-. split; [intros []|intros (a & b & J & _); destruct J].
  - destruct (pair_of (k, v)) as [q|] eqn:Q; [|discriminate]. destruct (is_text k); [|discriminate]. destruct (pairs ks vs) as [r|] eqn:R; [|discriminate]. injection H as <-.
    cbn [In]. rewrite (IH vs r R) by lia. split.
    + intros [<-|(a & b & J & E)]; [exists k, v; auto|exists a, b; auto].
    + intros (a & b & [Z|J] & E); [injection Z as <- <-; left; congruence|right; eauto].
Qed.
Lemma pairs_some ks : forall vs, List.length ks = List.length vs -> (pairs ks vs <> None <-> forall k v, In (k, v) (combine ks vs) -> is_text k = true /\ is_int v = true).
Proof.
  induction ks as [|k ks IH]; intros [|v vs] L; cbn in *; try discriminate.
  - split; [intros _ a b []|discriminate].
  - specialize (IH vs ltac:(lia)). split.
    + intros H. assert (A : is_text k = true /\ is_int v = true /\ pairs ks vs <> None).
      { destruct k, v; cbn in *; try congruence; destruct (pairs ks vs); repeat split; congruence. }
      destruct A as (A & B & C). intros a b [[= <- <-]|J]; [auto|]. now apply IH.
    + intros H. destruct (H k v (or_introl eq_refl)) as [A B]. assert (C : pairs ks vs <> None) by (apply IH; intros a b J; apply H; now right).
      destruct k, v; try discriminate; cbn; destruct (pairs ks vs); congruence.
Qed.
Lemma combine_fs {X Y} (d : list (X * Y)) : combine (map fst d) (map snd d) = d.
Proof. induction d as [|[a b] r IH]; cbn; congruence. Qed.
Lemma combine_sf {X Y} (d : list (X * Y)) x y : In (y, x) (combine (map snd d) (map fst d)) <-> In (x, y) d.
Proof. induction d as [|[a b] r IH]; cbn; [reflexivity|]. rewrite IH. split; (intros [[= <- <-]|J]; [now left|now right]). Qed.
Lemma pair_swap k v : pair_of (k, v) = pair_of (v, k).
Proof. destruct k, v; reflexivity. Qed.
