(** key_search finds every name (C245); the dictionaries of mappings (C246). *)
From Coq Require Import List String Ascii ZArith Bool Lia.
From Verif Require Import KsModel KsProofs.
Import ListNotations.
Local Open Scope list_scope.

(** The results are the dotted paths of exactly the items, at any depth, whose name matches, each
    of them once. *)
Theorem C245_search : forall matches path n, exists l,
  key_search matches true path n = map (fun names => (path ++ dotted names)%string) l /\
  (distinct n -> NoDup l) /\
  forall names, In names l <-> leads n names /\ matches (last names ""%string) = true.
Proof. intros m path n. exists (paths m true n). split; [apply search_paths|]. split; [apply nodup_paths|apply in_paths]. Qed.
Print Assumptions C245_search.
(** Not recursive, and always in Datasets: the names of the items that match, in their order. *)
Theorem C245_flat : forall matches recursive path d items, recursive = false \/ d = true ->
  key_search matches recursive path (SNode d items) = map (fun s => (path ++ s)%string) (filter matches (map fst items)).
Proof. intros m r path d items H. cbn [key_search]. replace (r && negb d) with false; [now rewrite app_nil_r|]. destruct H as [-> | ->]; [reflexivity|]. now rewrite andb_false_r. Qed.
Print Assumptions C245_flat.
(** Finding: a name with a dot in it gives the path of another item. *)
Theorem C245_dots_refuted : exists n a b, distinct n /\ leads n a /\ leads n b /\ a <> b /\ dotted a = dotted b /\
  key_search (String.eqb "b") true "" n = [dotted a] /\ key_search (String.eqb "a.b") true "" n = [dotted b].
Proof.
  exists (SNode false [("a", SNode false [("b", Leaf)]); ("a.b", Leaf)]%string), ["a"; "b"]%string, ["a.b"]%string.
  split. { constructor; [repeat constructor; cbn; intuition discriminate|]. intros s c [E|[E|[]]]; injection E as <- <-; [|constructor]. constructor; [repeat constructor; cbn; intuition|]. intros s c [E|[]]. injection E as <- <-. constructor. }
  split; [eapply leads_below; [now left|]; eapply leads_here; now left|]. split; [eapply leads_here; right; now left|]. split; [discriminate|]. repeat split; vm_compute; reflexivity.
Qed.
Print Assumptions C245_dots_refuted.
Definition tree := SNode false [("ab", Leaf); ("x", SNode false [("b", SNode true [("bb", Leaf); ("c", Leaf)]); ("c", Leaf)]); ("y", SNode true [("b", SNode false [("b", Leaf)])])]%string.
Definition has_b (s : string) : bool := if String.index 0 "b" s then true else false.
Example C245_case : distinct tree /\ key_search has_b true "" tree = ["ab"; "x.b"; "x.b.bb"; "y.b"]%string /\ key_search has_b false "" tree = ["ab"]%string.
Proof.
  split; [|split; vm_compute; reflexivity].
  repeat (first [apply distinct_leaf | apply distinct_struct; [repeat (apply NoDup_cons; [cbn; intuition discriminate|]); apply NoDup_nil | let s := fresh in let c := fresh in let H := fresh in intros s c H; cbn in H; repeat (destruct H as [H|H]; [injection H as <- <-|]); try destruct H]]).
Qed.

(** With different names and different codes, the two dictionaries hold exactly the pairs, each the
    other way round. *)
Theorem C246_inverse_partial : forall d l s2i i2s, map pair_of d = map Some l -> NoDup (map fst l) -> NoDup (map snd l) -> build_dicts d = Dicts s2i i2s ->
  forall s z, (dget String.eqb s s2i = Some z <-> In (s, z) l) /\ (dget Z.eqb z i2s = Some s <-> In (s, z) l).
Proof.
  intros d l s2i i2s E N1 N2 B.
  assert (SE : forall a b, String.eqb a b = true <-> a = b) by apply String.eqb_eq.
  assert (D : forall ks vs l', pairs ks vs = Some l' -> l' = l -> fill ks vs [] [] = Dicts s2i i2s ->
    forall s z, (dget String.eqb s s2i = Some z <-> In (s, z) l) /\ (dget Z.eqb z i2s = Some s <-> In (s, z) l)).
  { intros ks vs l' P -> F s z. rewrite fill_pairs, P in F. injection F as <- <-. split.
    - rewrite (fold_get String.eqb SE l [] s N1). rewrite <- (dget_in String.eqb SE l s z N1). destruct (dget String.eqb s l); cbn; [tauto|]. split; intros Q; discriminate Q.
    - set (r := map (fun p : string * Z => (snd p, fst p)) l).
      assert (Q : fold_left (fun d0 p => dput Z.eqb (snd p) (fst p) d0) l [] = fold_left (fun d0 p => dput Z.eqb (fst p) (snd p) d0) r []).
      { unfold r. generalize (@nil (Z * string)). clear. induction l as [|p l IH]; intros a; [reflexivity|]. cbn. apply IH. }
      rewrite Q. assert (Nr : NoDup (map fst r)) by (unfold r; now rewrite map_map).
      rewrite (fold_get Z.eqb Z.eqb_eq r [] z Nr). assert (J : In (s, z) l <-> In (z, s) r). { unfold r. rewrite in_map_iff. split; [intros J; exists (s, z); auto|]. intros ((a & b) & X & J). cbn in X. injection X as <- <-. exact J. }
      rewrite J, <- (dget_in Z.eqb Z.eqb_eq r z s Nr). destruct (dget Z.eqb z r); cbn; [tauto|]. split; intros X; discriminate X. }
  assert (P1 : forall d l l', map pair_of d = map Some l -> pairs (map fst d) (map snd d) = Some l' -> l' = l).
  { clear. induction d as [|[k v] d IH]; intros [|p l] l' E H; cbn [map pairs fst snd] in *; try discriminate; [now injection H as <-|].
    assert (E1 : pair_of (k, v) = Some p) by congruence. assert (E2 : map pair_of d = map Some l) by congruence. rewrite E1 in H. destruct (is_text k); [|discriminate]. destruct (pairs (map fst d) (map snd d)) as [r|]; [|discriminate]. injection H as <-. f_equal. now apply IH. }
  assert (P2 : forall d l l', map pair_of d = map Some l -> pairs (map snd d) (map fst d) = Some l' -> l' = l).
  { clear. induction d as [|[k v] d IH]; intros [|p l] l' E H; cbn [map pairs fst snd] in *; try discriminate; [now injection H as <-|].
    assert (E1 : pair_of (k, v) = Some p) by congruence. assert (E2 : map pair_of d = map Some l) by congruence. rewrite pair_swap, E1 in H. destruct (is_text v); [|discriminate]. destruct (pairs (map snd d) (map fst d)) as [r|]; [|discriminate]. injection H as <-. f_equal. now apply IH. }
  unfold build_dicts in B. destruct d as [|[k v] d]; [discriminate B|]. cbn [map] in B. change (fst (k, v) :: map fst d) with (map fst ((k, v) :: d)) in B. change (snd (k, v) :: map snd d) with (map snd ((k, v) :: d)) in B.
  destruct (is_text (fst (k, v))).
  - destruct (is_int (snd (k, v))); [|discriminate B]. destruct (pairs (map fst ((k, v) :: d)) (map snd ((k, v) :: d))) as [l'|] eqn:P; [|rewrite fill_pairs, P in B; discriminate B].
    exact (D _ _ l' P (P1 _ _ _ E P) B).
  - destruct (is_int (fst (k, v))); [|discriminate B]. destruct (is_text (snd (k, v))); [|discriminate B].
    destruct (pairs (map snd ((k, v) :: d)) (map fst ((k, v) :: d))) as [l'|] eqn:P; [|rewrite fill_pairs, P in B; discriminate B]. exact (D _ _ l' P (P2 _ _ _ E P) B).
Qed.
Print Assumptions C246_inverse_partial.
(** Anything but names to codes or codes to names is refused, wherever it is in the dictionary. *)
Theorem C246_raises : forall d, d <> [] -> (build_dicts d = TypeErr <-> ~ one_way d) /\ build_dicts d <> IndexErr.
Proof.
  intros [|[k v] d] N; [congruence|]. clear N. set (D := (k, v) :: d).
  assert (F1 : fill (map fst D) (map snd D) [] [] = TypeErr <-> ~ (forall p, In p D -> is_text (fst p) = true /\ is_int (snd p) = true)).
  { rewrite fill_pairs. pose proof (pairs_some (map fst D) (map snd D) ltac:(now rewrite !map_length)) as S. rewrite combine_fs in S. destruct (pairs (map fst D) (map snd D)) as [l|].
    - split; [discriminate|]. intros H. exfalso. apply H. intros [a b] J. apply S; [discriminate|exact J].
    - split; [|reflexivity]. intros _ H. apply (proj2 S); [|reflexivity]. intros a b J. exact (H (a, b) J). }
  assert (F2 : fill (map snd D) (map fst D) [] [] = TypeErr <-> ~ (forall p, In p D -> is_int (fst p) = true /\ is_text (snd p) = true)).
  { rewrite fill_pairs. pose proof (pairs_some (map snd D) (map fst D) ltac:(now rewrite !map_length)) as S. destruct (pairs (map snd D) (map fst D)) as [l|].
    - split; [discriminate|]. intros H. exfalso. apply H. intros [a b] J. cbn. assert (Q : is_text b = true /\ is_int a = true) by (apply S; [discriminate|now apply combine_sf]). tauto.
    - split; [|reflexivity]. intros _ H. apply (proj2 S); [|reflexivity]. intros a b J. apply (proj1 (combine_sf D b a)) in J. specialize (H (b, a) J). cbn in H. tauto. }
  assert (NI : forall ks vs, fill ks vs [] [] <> IndexErr) by (intros ks vs; rewrite fill_pairs; destruct (pairs ks vs); discriminate).
  assert (K0 : In (k, v) D) by now left.
  assert (X : forall u, is_text u = true -> is_int u = true -> False) by (intros []; discriminate).
  assert (EQ : build_dicts D = if is_text k then if is_int v then fill (map fst D) (map snd D) [] [] else TypeErr
    else if is_int k then if is_text v then fill (map snd D) (map fst D) [] [] else TypeErr else TypeErr) by reflexivity.
  rewrite EQ. clear EQ. clearbody D.
  unfold one_way. destruct (is_text k) eqn:TK.
  - assert (O2 : ~ (forall p, In p D -> is_int (fst p) = true /\ is_text (snd p) = true)) by (intros H; specialize (H _ K0); cbn in H; apply (X k); tauto).
    destruct (is_int v) eqn:IV; [split; [|apply NI]; rewrite F1; tauto|]. split; [|discriminate]. split; [|reflexivity]. intros _ [H|H]; [|tauto]. specialize (H _ K0). cbn in H. destruct H; congruence.
  - assert (O1 : ~ (forall p, In p D -> is_text (fst p) = true /\ is_int (snd p) = true)) by (intros H; specialize (H _ K0); cbn in H; destruct H; congruence).
    destruct (is_int k) eqn:IK.
    + destruct (is_text v) eqn:TV; [split; [|apply NI]; rewrite F2; tauto|]. split; [|discriminate]. split; [|reflexivity]. intros _ [H|H]; [tauto|]. specialize (H _ K0). cbn in H. destruct H; congruence.
    + split; [|discriminate]. split; [|reflexivity]. intros _ [H|H]; [tauto|]. specialize (H _ K0). cbn in H. destruct H; congruence.
Qed.
Print Assumptions C246_raises.
(** Finding: two names with one code are accepted with a warning: the code has only the last of
    them, so the first comes back as another name. *)
Theorem C246_codes_refuted : exists d s2i i2s s t z, build_dicts d = Dicts s2i i2s /\ one_way d /\ NoDup (map fst d) /\ s <> t /\ dget String.eqb s s2i = Some z /\ dget Z.eqb z i2s = Some t.
Proof.
  exists [(PStr "a", PInt 1); (PStr "b", PInt 1)]%Z, [("a"%string, 1%Z); ("b"%string, 1%Z)], [(1%Z, "b"%string)], "a"%string, "b"%string, 1%Z.
  split; [reflexivity|]. split; [left; intros p [<-|[<-|[]]]; split; reflexivity|]. split; [repeat constructor; cbn; intuition discriminate|]. split; [discriminate|]. split; reflexivity.
Qed.
Print Assumptions C246_codes_refuted.
Example C246_case : build_dicts [(PInt 5, PStr "a"); (PInt (-3), PBytes "b")] = Dicts [("a"%string, 5%Z); ("b"%string, (-3)%Z)] [(5%Z, "a"%string); ((-3)%Z, "b"%string)] /\
  build_dicts [(PStr "a", PInt 5); (PInt 6, PStr "b")] = TypeErr /\ build_dicts [] = IndexErr.
Proof. repeat split; reflexivity. Qed.
