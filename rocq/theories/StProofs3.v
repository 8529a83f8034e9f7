From Coq Require Import List Arith ZArith Bool Lia.
From Verif Require Import FlattenModel FlattenProofs DsModel DsProofs3 GroupingModel GroupingProofs StModel StSpec StProofs.
Import ListNotations.

(** ---------- a dictionary of arrays ---------- *)
Lemma store_small bits z : (1 <= bits -> - 2 ^ (bits - 1) <= z < 2 ^ (bits - 1) -> store_bits bits z = z)%Z.
Proof.
  intros B H. unfold store_bits. assert (P : (2 ^ bits = 2 * 2 ^ (bits - 1))%Z) by (rewrite <- Z.pow_succ_r by lia; f_equal; lia). rewrite Z.mod_small; lia.
Qed.
Lemma combine_app {X Y} : forall (a c : list X) (b d : list Y), length a = length b -> combine (a ++ c) (b ++ d) = combine a b ++ combine c d.
Proof. induction a as [|x a IH]; intros c [|y b] d L; try discriminate; [reflexivity|]. cbn [app combine]. f_equal. apply IH. cbn in L; lia. Qed.
Lemma codes_from {X} bits : forall (d : list (name * list X)) (pre : list name), (forall k, k < length pre + length d -> store_bits bits (Z.of_nat (S k)) = Z.of_nat (S k)) ->
  let codes := concat (map (fun p => repeat (store_bits bits (Z.of_nat (S (fst p)))) (snd p)) (combine (seq (length pre) (length d)) (map (fun p => length (snd p)) d))) in
  combine (map (fun c => nth_error (pre ++ map fst d) (Z.to_nat c - 1)) codes) (concat (map snd d)) = concat (map (fun p => map (pair (Some (fst p))) (snd p)) d) /\
  length codes = length (concat (map snd d)) /\ Forall (fun c => 0 <= c <= Z.of_nat (length pre + length d))%Z codes.
Proof.
  induction d as [|[n l] d IH]; intros pre H; cbn [length seq map combine concat fst snd]; [repeat split; constructor|]. cbn [length] in H.
  destruct (IH (pre ++ [n])) as (A & B & C); [intros k Hk; apply H; rewrite app_length in Hk; cbn in Hk; lia|]. rewrite app_length in A, B, C. cbn [length] in A, B, C.
  replace (length pre + 1) with (S (length pre)) in * by lia. rewrite <- app_assoc in A. cbn [app] in A. rewrite H by lia. split; [|split].
  - rewrite map_app. rewrite combine_app by (now rewrite map_length, repeat_length). rewrite A. f_equal.
    assert (E : nth_error (pre ++ n :: map fst d) (Z.to_nat (Z.of_nat (S (length pre))) - 1) = Some n).
    { replace (Z.to_nat (Z.of_nat (S (length pre))) - 1) with (length pre) by lia. rewrite nth_error_app2 by lia. rewrite Nat.sub_diag. reflexivity. }
    clear - E. induction l as [|x l IH]; [reflexivity|]. cbn [length repeat map combine]. rewrite E. f_equal. exact IH.
  - rewrite !app_length, repeat_length, B. reflexivity.
  - apply Forall_app. split; [apply Forall_forall; intros c I; apply repeat_spec in I; subst; lia|]. revert C. apply Forall_impl. intros c Hc. lia.
Qed.
Lemma hstack_dict_ok {X} (d : list (name * list X)) : d <> [] ->
  (length d <= 127 \/ length d <= length (concat (map snd d))) -> (Z.of_nat (length (concat (map snd d))) < 2 ^ 63)%Z ->
  exists codes, hstack_dict d = Some (concat (map snd d), (codes, map fst d)) /\ length codes = length (concat (map snd d)) /\
    combine (map (name_of (map fst d)) codes) (concat (map snd d)) = concat (map (fun p => map (pair (Some (fst p))) (snd p)) d).
Proof.
  intros Ne L M. unfold hstack_dict. set (T := length (concat (map snd d))) in *. set (bits := int_dtype_from_len (Z.of_nat T)).
  destruct (codes_from bits d []) as (A & B & C).
  { intros k Hk. cbn [length] in Hk. pose proof (dtype_pos (Z.of_nat T)) as P. fold bits in P. apply store_small; [lia|].
    destruct L as [L|L].
    - assert (2 ^ 7 <= 2 ^ (bits - 1))%Z by (apply Z.pow_le_mono_r; lia). lia.
    - apply (dtype_holds (Z.of_nat T)); lia. }
  cbn [app length] in A, B, C. unfold source_codes. rewrite map_length. fold T. fold bits. set (codes := concat (map (fun p => repeat (store_bits bits (Z.of_nat (S (fst p)))) (snd p)) (combine (seq 0 (length d)) (map (fun p => length (snd p)) d)))) in *.
  assert (F : forallb (fun c => (0 <=? c)%Z && (c <=? Z.of_nat (length d))%Z) codes = true) by (apply forallb_forall; intros c I; rewrite Forall_forall in C; specialize (C c I); apply andb_true_iff; split; apply Z.leb_le; cbn [Nat.add] in C; lia).
  destruct d as [|p d]; [congruence|]. cbv zeta. rewrite F. exists codes. split; [reflexivity|]. split; [exact B|exact A].
Qed.

(** ---------- equals ---------- *)
Section Equals.
Context {S I : Type}.
Notation val := (val S I).
Variable crc : list Z -> Z.
Variable scal_eq : S -> S -> bool.
Implicit Types (v w : val) (a b : list (name * val)).
Lemma val_ind' (P : val -> Prop) : (forall i (a : list Z), P (VArr i a)) -> (forall x, P (VScal x)) -> (forall its, Forall (fun p => P (snd p)) its -> P (VSt its)) -> forall v, P v.
Proof using.
  intros H1 H2 H3. fix F 1. intros [i a|x|its]; [apply H1|apply H2|]. apply H3. induction its as [|[n v] r IH]; constructor; [apply F|exact IH].
Qed.
Fixpoint go a b : answer :=
  match a, b with
  | (n, v) :: a', (m, w) :: b' => if name_dec n m then match equals_val crc scal_eq v w with Yes => go a' b' | r => r end else No
  | _, _ => Yes
  end.
Lemma equals_st a b : equals_val crc scal_eq (VSt a) (VSt b) = if length a =? length b then go a b else No.
Proof using. reflexivity. Qed.
Lemma arrays_cons n v a : arrays (VSt ((n, v) :: a)) = arrays v ++ arrays (VSt a).
Proof using. reflexivity. Qed.
Lemma equals_same v : forall w, (forall x y, In x (arrays v) -> In y (arrays w) -> crc x = crc y -> x = y) -> equals_val crc scal_eq v w = Yes <-> same scal_eq v w.
Proof using.
  induction v as [i a|x|a IH] using val_ind'; intros w H.
  - destruct w as [j b|y|b]; cbn [equals_val].
    + destruct (Z.eqb_spec (crc b) (crc a)) as [E|E].
      * assert (a = b) by (apply H; [now left|now left|auto]). subst. split; [constructor|reflexivity].
      * split; [discriminate|]. intros Q. inversion Q; subst. congruence.
    + split; [discriminate|intros Q; inversion Q].
    + split; [discriminate|intros Q; inversion Q].
  - destruct w as [j b|y|b]; cbn [equals_val].
    + split; [discriminate|intros Q; inversion Q].
    + destruct (scal_eq x y) eqn:E; split; try discriminate; [now constructor|reflexivity|]. intros Q. inversion Q; subst. congruence.
    + split; [discriminate|intros Q; inversion Q].
  - destruct w as [j b|y|b]; [split; [discriminate|intros Q; inversion Q]|split; [discriminate|intros Q; inversion Q]|]. rewrite equals_st.
    assert (G : length a = length b -> go a b = Yes <-> (map fst a = map fst b /\ Forall2 (fun p q => same scal_eq (snd p) (snd q)) a b)).
    { revert b H. induction a as [|[n v] a IHa]; intros [|[m w] b] H L; try discriminate L; [split; [split; [reflexivity|constructor]|reflexivity]|]. cbn [go]. inversion IH as [|? ? Hv Hr]; subst. cbn [snd] in Hv.
      assert (H1 : forall x y, In x (arrays v) -> In y (arrays w) -> crc x = crc y -> x = y) by (intros x y Ix Iy; apply H; rewrite arrays_cons; apply in_app_iff; now left).
      assert (H2 : forall x y, In x (arrays (VSt a)) -> In y (arrays (VSt b)) -> crc x = crc y -> x = y) by (intros x y Ix Iy; apply H; rewrite arrays_cons; apply in_app_iff; now right).
      cbn in L. injection L as L. specialize (IHa Hr b H2 L). specialize (Hv w H1). cbn [map fst]. destruct (name_dec n m) as [->|N].
      - destruct (equals_val crc scal_eq v w) eqn:E.
        + rewrite IHa. split; [intros [A B]; split; [now rewrite A|constructor; [now apply Hv|exact B]]|]. intros [A B]. injection A as A. inversion B; subst. auto.
        + split; [discriminate|]. intros [_ B]. inversion B; subst. cbn [snd] in *. apply Hv in H5. discriminate.
        + split; [discriminate|]. intros [_ B]. inversion B; subst. cbn [snd] in *. apply Hv in H5. discriminate.
      - split; [discriminate|]. intros [A _]. congruence. }
    destruct (Nat.eqb_spec (length a) (length b)) as [L|L].
    + rewrite (G L). split; [intros [A B]; now constructor|]. intros Q. inversion Q; subst. auto.
    + split; [discriminate|]. intros Q. inversion Q as [| |? ? A B]; subst. apply (f_equal (@length name)) in A. rewrite !map_length in A. contradiction.
Qed.
Lemma equals_no_raise v : forall w, comparable v w -> equals_val crc scal_eq v w <> Raises.
Proof using.
  induction v as [i a|x|a IH] using val_ind'; intros w C.
  - destruct w; cbn [equals_val]; try discriminate. destruct (_ =? _)%Z; discriminate.
  - inversion C; subst; cbn [equals_val]; try discriminate. destruct (scal_eq x y); discriminate.
  - inversion C as [| | |? b Cc]; subst; [discriminate|]. rewrite equals_st. destruct (length a =? length b); [|discriminate]. clear C.
    revert b Cc. induction a as [|[n v] a IHa]; intros [|[m w] b] Cc; cbn [go]; try discriminate. inversion IH as [|? ? Hv Hr]; subst. cbn [snd] in Hv. destruct (name_dec n m) as [->|]; [|discriminate].
    specialize (Hv w (Cc m v w (or_introl eq_refl) (or_introl eq_refl))). destruct (equals_val crc scal_eq v w) eqn:E; [|discriminate|congruence]. apply IHa; [exact Hr|]. intros k v0 w0 I1 I2. apply (Cc k); now right.
Qed.
Lemma equals_sym (scal_sym : forall x y, scal_eq x y = scal_eq y x) v : forall w, equals_val crc scal_eq v w = equals_val crc scal_eq w v.
Proof using.
  induction v as [i a|x|a IH] using val_ind'; intros w.
  - destruct w as [j b|y|b]; cbn [equals_val]; try reflexivity. now rewrite Z.eqb_sym.
  - destruct w as [j b|y|b]; cbn [equals_val]; try reflexivity. now rewrite scal_sym.
  - destruct w as [j b|y|b]; try reflexivity. rewrite !equals_st, Nat.eqb_sym. destruct (length b =? length a); [|reflexivity].
    revert b. induction a as [|[n v] a IHa]; intros [|[m w] b]; cbn [go]; try reflexivity. inversion IH as [|? ? Hv Hr]; subst. cbn [snd] in Hv. destruct (name_dec n m); destruct (name_dec m n); try congruence. rewrite (Hv w), (IHa Hr b). reflexivity.
Qed.
Lemma same_refl (scal_refl : forall x, scal_eq x x = true) v : same scal_eq v v.
Proof using. induction v as [i a|x|a IH] using val_ind'; constructor; auto. induction IH; constructor; auto. Qed.
Lemma equals_itself (scal_refl : forall x, scal_eq x x = true) v : equals_val crc scal_eq v v = Yes.
Proof using.
  induction v as [i a|x|a IH] using val_ind'; [cbn [equals_val]; now rewrite Z.eqb_refl|cbn [equals_val]; now rewrite scal_refl|]. rewrite equals_st, Nat.eqb_refl.
  induction IH as [|[n v] a Hv Hr IHa]; [reflexivity|]. cbn [go snd] in *. destruct (name_dec n n); [|congruence]. now rewrite Hv.
Qed.
End Equals.


(** ---------- comparison ---------- *)
Section Compare.
Context {X S : Type}.
Notation obj := (obj X S).
Variables (op : X -> X -> bool) (sop : S -> S -> option bool) (xop : X -> S -> bool).
Implicit Types (v w : obj) (a b : list (name * obj)).
Lemma obj_ind' (P : obj -> Prop) : (forall a : list X, P (OArray a)) -> (forall x, P (OScal x)) -> (forall its, Forall (fun p => P (snd p)) its -> P (OSt its)) -> forall v, P v.
Proof using.
  intros H1 H2 H3. fix F 1. intros [a|x|its]; [apply H1|apply H2|]. apply H3. induction its as [|[n v] r IH]; constructor; [apply F|exact IH].
Qed.
Definition truth (r : list (name * bool) + bool) : bool := match r with inr t => t | inl l => forallb snd l end.
Definition cgo b := fix go a : option (list (name * bool)) :=
  match a with
  | [] => Some []
  | (n, v) :: a' =>
      match (match dget n b with None => Some false | Some w => option_map truth (compare_obj op sop xop v w) end), go a' with
      | Some t, Some r => Some ((n, t) :: r)
      | _, _ => None
      end
  end.
Definition extra a b : list (name * bool) := flat_map (fun p => if mem (fst p) (map fst a) then [] else [(fst p, false)]) b.
Lemma compare_st a b : compare_obj op sop xop (OSt a) (OSt b) = option_map (fun l => inl (l ++ extra a b)) (cgo b a).
Proof using. reflexivity. Qed.
Lemma cgo_cons b n v a : cgo b ((n, v) :: a) = match (match dget n b with None => Some false | Some w => option_map truth (compare_obj op sop xop v w) end), cgo b a with
      | Some t, Some r => Some ((n, t) :: r)
      | _, _ => None
      end.
Proof using. reflexivity. Qed.
Lemma as_bool_true l : as_bool l = true <-> l <> [] /\ forall t, In t l -> t = true.
Proof using.
  destruct l as [|t l]; [split; [discriminate|intros [H _]; congruence]|]. unfold as_bool. rewrite forallb_forall. split; [intros H; split; [discriminate|auto]|intros [_ H]; auto].
Qed.
Lemma op_all (aa bb : list X) : length aa = length bb -> (forall t, In t (map (fun p => op (fst p) (snd p)) (combine aa bb)) -> t = true) <-> Forall2 (fun x y => op x y = true) aa bb.
Proof using.
  revert bb. induction aa as [|x aa IH]; intros [|y bb] L; try discriminate; [split; [constructor|intros _ t []]|]. cbn [combine map fst snd]. cbn in L. injection L as L. specialize (IH bb L). split.
  - intros H. constructor; [apply H; now left|apply IH; intros t K; apply H; now right].
  - intros H. inversion H; subst. intros t [<-|K]; [assumption|]. now apply IH.
Qed.
Lemma cgo_names b a l : cgo b a = Some l -> map fst l = map fst a.
Proof using.
  revert l. induction a as [|[n v] a IH]; intros l E; [injection E as <-; reflexivity|]. rewrite cgo_cons in E. destruct (match dget n b with None => _ | Some _ => _ end); [|discriminate]. destruct (cgo b a); [|discriminate]. injection E as <-. cbn [map fst]. now rewrite (IH _ eq_refl).
Qed.
Lemma extra_names a b : map fst (extra a b) = filter (fun n => negb (mem n (map fst a))) (map fst b).
Proof using. unfold extra. induction b as [|[m w] b IH]; [reflexivity|]. cbn [flat_map map fst filter]. destruct (mem m (map fst a)); cbn [negb app map fst]; now rewrite IH. Qed.
Lemma extra_false a b n t : In (n, t) (extra a b) -> t = false /\ ~ In n (map fst a) /\ In n (map fst b).
Proof using.
  unfold extra. intros I. apply in_flat_map in I. destruct I as ([m w] & I & J). cbn [fst] in J. destruct (mem m (map fst a)) eqn:M; [destruct J|]. destruct J as [E|[]]. injection E as <- <-. split; [reflexivity|]. split; [now apply mem_not in M|]. change m with (fst (m, w)). now apply in_map.
Qed.
Lemma compare_ok v : forall w r, distinct v -> distinct w -> compare_obj op sop xop v w = Some r -> truth r = true <-> matches op sop xop v w.
Proof using.
  induction v as [aa|x|a IH] using obj_ind'; intros w r Dv Dw E.
  - destruct w as [bb|y|b]; cbn [compare_obj] in E; [|injection E as <-|discriminate].
    + destruct (Nat.eqb_spec (length aa) (length bb)) as [L|]; [|discriminate]. injection E as <-. cbn [truth]. rewrite as_bool_true, (op_all aa bb L). split.
      * intros [N F]. constructor; [|exact F]. intros ->. now apply N.
      * intros M. inversion M; subst. split; [|assumption]. destruct aa; [congruence|]. destruct bb; [discriminate|]. discriminate.
    + cbn [truth]. rewrite as_bool_true. split.
      * intros [N F]. constructor; [intros ->; now apply N|]. apply Forall_forall. intros x0 K. apply F. exact (in_map (fun x => xop x y) aa x0 K).
      * intros M. inversion M as [|? ? N F| |]; subst. split; [destruct aa; [congruence|discriminate]|]. intros t K. apply in_map_iff in K. destruct K as (x0 & <- & K). rewrite Forall_forall in F. now apply F.
  - destruct w as [bb|y|b]; cbn [compare_obj] in E; try discriminate. destruct (sop x y) as [t|] eqn:Q; [|discriminate]. injection E as <-. cbn [truth]. split; [intros ->; now constructor|]. intros M. inversion M; subst. congruence.
  - destruct w as [bb|y|b]; try discriminate. rewrite compare_st in E. destruct (cgo b a) as [l|] eqn:G; [|discriminate]. injection E as <-. cbn [truth]. rewrite forallb_app, andb_true_iff.
    inversion Dv as [| |? Na Da]; subst. inversion Dw as [| |? Nb Db]; subst.
    assert (Main : forall a', (forall n v, In (n, v) a' -> In (n, v) a) -> Forall (fun p => forall w r, distinct (snd p) -> distinct w -> compare_obj op sop xop (snd p) w = Some r -> truth r = true <-> matches op sop xop (snd p) w) a' -> forall l, cgo b a' = Some l ->
              forallb snd l = true <-> (forall n v, In (n, v) a' -> exists w, dget n b = Some w /\ matches op sop xop v w)).
    { clear l G IH. induction a' as [|[n v] a' IHa]; intros Sub IH l E.
      - injection E as <-. split; [intros _ n v []|reflexivity].
      - rewrite cgo_cons in E. inversion IH as [|? ? Hv Hr]; subst. cbn [snd] in Hv.
        destruct (match dget n b with None => Some false | Some w => option_map truth (compare_obj op sop xop v w) end) as [t|] eqn:T; [|discriminate]. destruct (cgo b a') as [l'|]; [|discriminate]. injection E as <-. cbn [forallb snd]. rewrite andb_true_iff.
        rewrite (IHa (fun n v K => Sub n v (or_intror K)) Hr l' eq_refl).
        assert (Q : t = true <-> exists w, dget n b = Some w /\ matches op sop xop v w).
        { destruct (dget n b) as [w|] eqn:Ew.
          - destruct (compare_obj op sop xop v w) as [rr|] eqn:Ec; [|discriminate]. cbn [option_map] in T. injection T as <-. rewrite (Hv w rr); [|apply (Da n); apply Sub; now left|apply (Db n); now apply dget_some_in|exact Ec]. split; [eauto|]. intros (w' & E' & M). congruence.
          - injection T as <-. split; [discriminate|]. intros (w & E & _). discriminate. }
        rewrite Q. split.
        + intros [A B] m u [E|K]; [injection E as <- <-; exact A|exact (B m u K)].
        + intros A. split; [apply A; now left|]. intros m u K. apply A. now right. }
    rewrite (Main a (fun _ _ K => K) IH l G). split.
    + intros [A B]. constructor.
      * intros n. split.
        -- intros K. destruct (dget_has n a K) as (v & Ev). apply dget_some_in in Ev. destruct (A n v Ev) as (w & Ew & _). apply dget_some_in in Ew. change n with (fst (n, w)). now apply in_map.
        -- intros K. destruct (in_dec name_dec n (map fst a)) as [|N]; [assumption|]. exfalso. rewrite forallb_forall in B.
           assert (J : In (n, false) (extra a b)).
           { unfold extra. apply in_map_iff in K. destruct K as ([m w] & <- & K). apply in_flat_map. exists (m, w). split; [exact K|]. cbn [fst] in *. apply mem_not in N. rewrite N. now left. }
           apply B in J. discriminate.
      * intros n v w Ev Ew. apply dget_some_in in Ev. destruct (A n v Ev) as (w' & Ew' & M). congruence.
    + intros M. inversion M as [| | |? ? K1 K2]; subst. split.
      * intros n v K. assert (Kn : In n (map fst b)) by (apply K1; change n with (fst (n, v)); now apply in_map). destruct (dget_has n b Kn) as (w & Ew). exists w. split; [exact Ew|]. apply (K2 n); [|exact Ew]. now apply dget_in.
      * apply forallb_forall. intros [n t] K. apply extra_false in K. destruct K as (_ & N & K). exfalso. apply N, K1, K.
Qed.
Lemma struct_compare_ok a b l : distinct (OSt a) -> distinct (OSt b) -> struct_compare op sop xop a b = Some l ->
  map fst l = map fst a ++ filter (fun n => negb (mem n (map fst a))) (map fst b) /\ (forallb snd l = true <-> matches op sop xop (OSt a) (OSt b)).
Proof using.
  intros Da Db E. unfold struct_compare in E. destruct (compare_obj op sop xop (OSt a) (OSt b)) as [[l'|]|] eqn:Ec; try discriminate. injection E as ->. split; [|exact (compare_ok _ _ _ Da Db Ec)].
  rewrite compare_st in Ec. destruct (cgo b a) as [l'|] eqn:G; [|discriminate]. injection Ec as <-. rewrite map_app, (cgo_names _ _ _ G), extra_names. reflexivity.
Qed.
Lemma struct_compare_key a b l n : distinct (OSt a) -> distinct (OSt b) -> struct_compare op sop xop a b = Some l -> In n (map fst a) \/ In n (map fst b) ->
  exists t, dget n l = Some t /\ (t = true <-> exists v w, dget n a = Some v /\ dget n b = Some w /\ matches op sop xop v w).
Proof using.
  intros Da Db E I. unfold struct_compare in E. rewrite compare_st in E. destruct (cgo b a) as [l'|] eqn:G; [|discriminate]. cbn [option_map] in E. injection E as <-.
  inversion Da as [| |? Na Ca]; subst. inversion Db as [| |? Nb Cb]; subst. destruct (in_dec name_dec n (map fst a)) as [K|K].
  - destruct (dget_has n a K) as (v & Ev). clear I K Da.
    assert (Q : exists t, dget n l' = Some t /\ match dget n b with None => t = false | Some w => option_map truth (compare_obj op sop xop v w) = Some t end).
    { revert l' G Ev. clear Na Ca. induction a as [|[m u] a IH]; intros l' G Ev; [discriminate|]. rewrite cgo_cons in G. destruct (match dget m b with None => Some false | Some w => option_map truth (compare_obj op sop xop u w) end) as [t|] eqn:T; [|discriminate]. destruct (cgo b a) as [l2|]; [|discriminate]. injection G as <-. cbn [dget] in *. destruct (name_dec m n) as [->|].
      - injection Ev as ->. exists t. split; [reflexivity|]. destruct (dget n b); [exact T|congruence].
      - exact (IH l2 eq_refl Ev). }
    destruct Q as (t & Et & T). exists t.
    assert (Ga : forall x, dget n (l' ++ x) = Some t) by (intros x; clear - Et; induction l' as [|[m u] r IH]; [discriminate|]; cbn [app dget] in *; destruct (name_dec m n); [exact Et|exact (IH Et)]).
    split; [apply Ga|]. destruct (dget n b) as [w|] eqn:Ew.
    + destruct (compare_obj op sop xop v w) as [r|] eqn:Ec; [|discriminate]. cbn [option_map] in T. injection T as <-. rewrite (compare_ok v w r); [|apply (Ca n); now apply dget_some_in|apply (Cb n); now apply dget_some_in|exact Ec].
      split; [intros M; eauto|]. intros (v' & w' & A & B & M). congruence.
    + subst t. split; [discriminate|]. intros (v' & w' & _ & B & _). discriminate.
  - destruct I as [I|I]; [contradiction|]. exists false.
    assert (Nl : dget n l' = None) by (apply dget_none; rewrite (cgo_names _ _ _ G); exact K).
    assert (Gx : dget n (l' ++ extra a b) = dget n (extra a b)) by (clear - Nl; induction l' as [|[m u] r IH]; [reflexivity|]; cbn [app dget] in *; destruct (name_dec m n); [discriminate|exact (IH Nl)]).
    split.
    + rewrite Gx. assert (In n (map fst (extra a b))) as J by (rewrite extra_names; apply filter_In; split; [exact I|]; apply mem_not in K; now rewrite K). destruct (dget_has n _ J) as (t & Et). rewrite Et. apply dget_some_in in Et. apply extra_false in Et. destruct Et as [-> _]. reflexivity.
    + split; [discriminate|]. intros (v & w & A & _ & _). apply dget_some_in in A. exfalso. apply K. change n with (fst (n, v)). now apply in_map.
Qed.
Lemma matches_itself v : (forall x, op x x = true) -> (forall x, sop x x = Some true) -> distinct v -> no_empty v -> matches op sop xop v v.
Proof using.
  intros H1 H2. induction v as [aa|x|a IH] using obj_ind'; intros Dv Nv.
  - inversion Nv; subst. constructor; [assumption|]. clear Dv Nv H0. induction aa; constructor; auto.
  - now constructor.
  - inversion Dv as [| |? Na Da]; subst. inversion Nv as [| |? Ne]; subst. constructor; [tauto|]. intros n v w Ev Ew. assert (w = v) by congruence. subst w. apply dget_some_in in Ev. rewrite Forall_forall in IH. apply (IH (n, v) Ev); [exact (Da n v Ev)|exact (Ne n v Ev)].
Qed.
Lemma compare_some v : (forall x, sop x x = Some true) -> distinct v -> exists r, compare_obj op sop xop v v = Some r.
Proof using.
  intros H2. induction v as [aa|x|a IH] using obj_ind'; intros Dv.
  - cbn [compare_obj]. rewrite Nat.eqb_refl. eexists; reflexivity.
  - cbn [compare_obj]. rewrite H2. eexists; reflexivity.
  - inversion Dv as [| |? Na Da]; subst. rewrite compare_st. assert (G : forall a', (forall n v, In (n, v) a' -> In (n, v) a) -> exists l, cgo a a' = Some l).
    { induction a' as [|[n v] a' IHa]; intros Sub; [now exists []|]. destruct IHa as [l El]; [intros; apply Sub; now right|]. rewrite cgo_cons, El. assert (I : In (n, v) a) by (apply Sub; now left). rewrite (dget_in n v a Na I). rewrite Forall_forall in IH. destruct (IH (n, v) I (Da n v I)) as [r Er]. cbn [snd] in Er. rewrite Er. cbn [option_map]. eexists; reflexivity. }
    destruct (G a (fun _ _ K => K)) as [l El]. rewrite El. cbn [option_map]. eexists; reflexivity.
Qed.
Lemma compare_itself : (forall x, op x x = true) -> (forall x, sop x x = Some true) -> forall a, distinct (OSt a) -> no_empty (OSt a) ->
  exists l, struct_compare op sop xop a a = Some l /\ forallb snd l = true /\ map fst l = map fst a.
Proof using.
  intros H1 H2 a Da Ne. destruct (compare_some (OSt a) H2 Da) as [r Er]. pose proof Er as Er2. rewrite compare_st in Er. destruct (cgo a a) as [l|] eqn:G; [|discriminate]. cbn [option_map] in Er. injection Er as <-.
  exists (l ++ extra a a). unfold struct_compare. rewrite Er2. split; [reflexivity|]. split.
  - apply (compare_ok (OSt a) (OSt a) _ Da Da Er2). now apply matches_itself.
  - rewrite map_app, (cgo_names _ _ _ G), extra_names. rewrite <- (app_nil_r (map fst a)) at 3. f_equal.
    assert (Z0 : forall ns, (forall n, In n ns -> In n (map fst a)) -> filter (fun n => negb (mem n (map fst a))) ns = []).
    { induction ns as [|n ns IH]; intros K; [reflexivity|]. cbn [filter]. assert (M : mem n (map fst a) = true) by (apply mem_in, K; now left). rewrite M. cbn [negb]. apply IH. intros; apply K; now right. }
    apply Z0. auto.
Qed.
End Compare.
