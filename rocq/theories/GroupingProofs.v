(** Proofs about composite keys and index dtypes. *)
From Coq Require Import List Arith ZArith Bool Lia.
From Verif Require Import GroupModel GroupFacts FlattenModel FlattenProofs GroupingModel GroupingSpec.
Import ListNotations.

Lemma mbget_nat {X} (inv : X) a i : i < length a -> mbget inv a (Z.of_nat i) = nth i a inv.
Proof.
  intros H. unfold mbget.
  replace ((0 <=? Z.of_nat i) && (Z.of_nat i <? Z.of_nat (length a)))%Z with true.
  - rewrite Nat2Z.id. reflexivity.
  - symmetry. apply andb_true_intro. split; [apply Z.leb_le|apply Z.ltb_lt]; lia.
Qed.
Lemma mbget_error {X} (inv : X) a i x : nth_error a i = Some x -> mbget inv a (Z.of_nat i) = x.
Proof.
  intros H. rewrite mbget_nat by (apply nth_error_Some; congruence). apply nth_error_nth. exact H.
Qed.

Lemma tile_length {X} n (l : list X) : length (tile n l) = n * length l.
Proof. unfold tile. induction n; cbn; [reflexivity|]. rewrite app_length, IHn. reflexivity. Qed.
Lemma rep_length {X} n (l : list X) : length (rep n l) = length l * n.
Proof. unfold rep. induction l; cbn; [reflexivity|]. rewrite app_length, repeat_length, IHl. reflexivity. Qed.
Lemma tile_at {X} n (l : list X) q r : q < n -> r < length l -> nth_error (tile n l) (q * length l + r) = nth_error l r.
Proof.
  unfold tile. revert q. induction n as [|n IH]; intros q Hq Hr; [lia|].
  cbn [repeat concat]. destruct q as [|q].
  - rewrite nth_error_app1 by (cbn; lia). reflexivity.
  - rewrite nth_error_app2 by (cbn [Nat.mul]; lia).
    replace (S q * length l + r - length l) with (q * length l + r) by (cbn [Nat.mul]; lia). apply IH; lia.
Qed.
Lemma rep_at {X} n (l : list X) q r : r < n -> q < length l -> nth_error (rep n l) (q * n + r) = nth_error l q.
Proof.
  unfold rep. revert q. induction l as [|x l IH]; intros q Hr Hq; cbn in Hq; [lia|].
  cbn [flat_map]. destruct q as [|q].
  - rewrite nth_error_app1 by (rewrite repeat_length; cbn; lia). cbn [Nat.mul Nat.add].
    replace n with (r + S (n - r - 1)) by lia. rewrite repeat_app.
    rewrite nth_error_app2; rewrite repeat_length; [|lia]. rewrite Nat.sub_diag. reflexivity.
  - rewrite nth_error_app2; rewrite repeat_length; [|cbn; lia].
    replace (S q * n + r - n) with (q * n + r) by (cbn [Nat.mul]; lia). cbn [nth_error]. apply IH; lia.
Qed.

(** *** codes *)

Lemma nth_error_combine {X Y} (a : list X) (b : list Y) i x y :
  nth_error a i = Some x -> nth_error b i = Some y -> nth_error (combine a b) i = Some (x, y).
Proof.
  revert b i. induction a as [|z a IH]; intros [|w b] [|i]; cbn; try discriminate.
  - intros [= ->] [= ->]. reflexivity.
  - apply IH.
Qed.

Lemma existsb_zero k : existsb (Nat.eqb 0) k = false -> forall i c, nth_error k i = Some c -> 1 <= c.
Proof.
  intros H i c Hi. destruct c; [|lia]. exfalso.
  assert (existsb (Nat.eqb 0) k = true) by (apply existsb_exists; exists 0; split; [eapply nth_error_In; eauto|reflexivity]).
  congruence.
Qed.

Section Keys.
Context {V : Type}.
Variables (astype_s : V -> V) (cat_s : V -> V -> V) (inv_s : V).
Notation cat2keys := (cat2keys astype_s cat_s inv_s).
Notation onedict := (onedict astype_s cat_s inv_s).

Definition uses_invalid (k1 k2 : list nat) (invalid : bool) : bool :=
  invalid || (existsb (Nat.eqb 0) k1 || existsb (Nat.eqb 0) k2).

Lemma cat2keys_codes n1 k1 d1 n2 k2 d2 flt invalid fuse :
  fst (cat2keys n1 k1 d1 n2 k2 d2 flt invalid fuse) =
  if uses_invalid k1 k2 invalid then map S (combine2keys n1 k1 k2 flt)
  else map (fun p => (snd p - 1) * n1 + fst p) (combine k1 k2).
Proof.
  unfold GroupingModel.cat2keys, uses_invalid.
  destruct (invalid || _).
  - destruct (onedict true d1), (onedict true d2). reflexivity.
  - destruct fuse; [|reflexivity]. destruct (onedict false d1), (onedict false d2). reflexivity.
Qed.

Lemma code_at_invalid n1 k1 k2 i a b : nth_error k1 i = Some a -> nth_error k2 i = Some b ->
  nth_error (map S (combine2keys n1 k1 k2 None)) i = Some (S (b * S n1 + a)).
Proof.
  intros Ha Hb. unfold combine2keys. rewrite map_map.
  rewrite (map_nth_error _ i (combine k1 k2) (nth_error_combine _ _ _ _ _ Ha Hb)). reflexivity.
Qed.
Lemma code_at_valid n1 k1 k2 i a b : nth_error k1 i = Some a -> nth_error k2 i = Some b ->
  nth_error (map (fun p => (snd p - 1) * n1 + fst p) (combine k1 k2)) i = Some ((b - 1) * n1 + a).
Proof.
  intros Ha Hb. rewrite (map_nth_error _ i (combine k1 k2) (nth_error_combine _ _ _ _ _ Ha Hb)). reflexivity.
Qed.

Lemma mix_inj n a b a' b' : a < n -> a' < n -> b * n + a = b' * n + a' -> a = a' /\ b = b'.
Proof. intros H H' E. assert (b = b') by nia. subst. split; lia. Qed.

Lemma cat2keys_length n1 k1 d1 n2 k2 d2 invalid fuse : length k1 = length k2 ->
  length (fst (cat2keys n1 k1 d1 n2 k2 d2 None invalid fuse)) = length k1.
Proof.
  intros H. rewrite cat2keys_codes. destruct uses_invalid; unfold combine2keys;
  rewrite ?map_length, combine_length; lia.
Qed.

Lemma some_lt {X} (l : list X) i : i < length l -> exists x, nth_error l i = Some x.
Proof. intros H. destruct (nth_error l i) eqn:E; [eauto|]. apply nth_error_None in E. lia. Qed.

Theorem cat2keys_agree n1 k1 d1 n2 k2 d2 invalid fuse r s :
  codes_in n1 k1 -> codes_in n2 k2 -> length k1 = length k2 -> r < length k1 -> s < length k1 ->
  let codes := fst (cat2keys n1 k1 d1 n2 k2 d2 None invalid fuse) in
  nth_error codes r = nth_error codes s <->
  nth_error k1 r = nth_error k1 s /\ nth_error k2 r = nth_error k2 s.
Proof.
  intros H1 H2 Hl Hr Hs codes.
  destruct (some_lt k1 r Hr) as [a Ea]. destruct (some_lt k1 s Hs) as [a' Ea'].
  destruct (some_lt k2 r) as [b Eb]; [lia|]. destruct (some_lt k2 s) as [b' Eb']; [lia|].
  rewrite Ea, Ea', Eb, Eb'. subst codes. rewrite cat2keys_codes.
  assert (La : a <= n1) by (eapply Forall_forall in H1; [exact H1|eapply nth_error_In; eauto]).
  assert (La' : a' <= n1) by (eapply Forall_forall in H1; [exact H1|eapply nth_error_In; eauto]).
  destruct (uses_invalid k1 k2 invalid) eqn:U.
  - rewrite (code_at_invalid _ _ _ _ _ _ Ea Eb), (code_at_invalid _ _ _ _ _ _ Ea' Eb'). split.
    + intros E. assert (E' : b * S n1 + a = b' * S n1 + a') by congruence. apply mix_inj in E'; [|lia|lia].
      destruct E' as [-> ->]. auto.
    + intros [[= ->] [= ->]]. reflexivity.
  - unfold uses_invalid in U. apply orb_false_iff in U. destruct U as [_ U]. apply orb_false_iff in U. destruct U as [U1 U2].
    pose proof (existsb_zero _ U1 _ _ Ea). pose proof (existsb_zero _ U1 _ _ Ea').
    pose proof (existsb_zero _ U2 _ _ Eb). pose proof (existsb_zero _ U2 _ _ Eb').
    rewrite (code_at_valid _ _ _ _ _ _ Ea Eb), (code_at_valid _ _ _ _ _ _ Ea' Eb'). split.
    + intros E. assert (E' : (b - 1) * n1 + (a - 1) = (b' - 1) * n1 + (a' - 1)).
      { assert (X : (b - 1) * n1 + a = (b' - 1) * n1 + a') by congruence. lia. }
      apply mix_inj in E'; [|lia|lia]. split; f_equal; lia.
    + intros [[= ->] [= ->]]. reflexivity.
Qed.

(** *** fresh names *)
Lemma fresh_from_fresh names origk : forall fuel k counter,
  (exists j, j < fuel /\ ~ In (match j with 0 => k | S j' => origk ++ digits (Nat.to_uint (counter + j')) end) names) ->
  ~ In (fresh_from fuel names origk k counter) names.
Proof.
  induction fuel as [|fu IH]; intros k counter [j [Hj Hn]]; [lia|].
  cbn [fresh_from]. destruct (in_dec name_dec k names) as [Hk|Hk]; [|exact Hk].
  apply IH. destruct j as [|j']; [contradiction|]. exists j'. split; [lia|].
  destruct j' as [|j'']; [rewrite Nat.add_0_r in Hn; exact Hn|].
  replace (S counter + j'') with (counter + S j'') by lia. exact Hn.
Qed.
Lemma to_uint_inj' a b : Nat.to_uint a = Nat.to_uint b -> a = b.
Proof. intros H. rewrite <- (DecimalNat.Unsigned.of_to a), <- (DecimalNat.Unsigned.of_to b), H. reflexivity. Qed.
Lemma digits_nat_inj a b : digits (Nat.to_uint a) = digits (Nat.to_uint b) -> a = b.
Proof. intros H. apply to_uint_inj'. apply digits_inj. exact H. Qed.

Lemma digits_nonempty a : digits (Nat.to_uint a) <> [].
Proof.
  intros H. assert (E : Nat.to_uint a = Decimal.Nil).
  { destruct (Nat.to_uint a); cbn in H; try discriminate. reflexivity. }
  assert (Q : a = 0) by (rewrite <- (DecimalNat.Unsigned.of_to a), E; reflexivity). subst. discriminate.
Qed.

Lemma fresh_name_fresh names k : ~ In (fresh_name names k) names.
Proof.
  unfold fresh_name. apply fresh_from_fresh.
  set (cand := fun j => match j with 0 => k | S j' => k ++ digits (Nat.to_uint (1 + j')) end).
  assert (D : {exists j, j < S (length names) /\ ~ In (cand j) names} + {forall j, j < S (length names) -> In (cand j) names}).
  { generalize (S (length names)) as m. induction m as [|m IH]; [right; intros; lia|].
    destruct IH as [L|R]; [left; destruct L as [j [? ?]]; exists j; split; [lia|auto]|].
    destruct (in_dec name_dec (cand m) names) as [I|I].
    - right. intros j Hj. assert (j = m \/ j < m) as [->|?] by lia; auto.
    - left. exists m. split; [lia|auto]. }
  destruct D as [D|D]; [exact D|]. exfalso.
  assert (N : NoDup (map cand (seq 0 (S (length names))))).
  { apply NoDup_map_inj; [|apply seq_NoDup].
    intros x y E. unfold cand in E.
    destruct x as [|x], y as [|y].
    - reflexivity.
    - exfalso. apply (digits_nonempty (1 + y)). apply (app_inv_head k). rewrite app_nil_r. auto.
    - exfalso. apply (digits_nonempty (1 + x)). apply (app_inv_head k). rewrite app_nil_r. auto.
    - apply app_inv_head in E. apply digits_nat_inj in E. lia. }
  assert (I : incl (map cand (seq 0 (S (length names)))) names).
  { intros z Hz. apply in_map_iff in Hz. destruct Hz as [j [<- Hj]]. apply in_seq in Hj. apply D. lia. }
  pose proof (NoDup_incl_length N I) as L. rewrite map_length, seq_length in L. lia.
Qed.

(** *** unique columns, no fusing *)
Lemma add_cols_spec n d : forall (g : @cols V), NoDup (map fst g) ->
  exists g', add_cols n g d = g ++ g' /\ NoDup (map fst (g ++ g')) /\ map snd g' = map (fun p => rep n (snd p)) d.
Proof.
  induction d as [|[k v] d IH]; intros g Hg.
  - exists []. cbn. rewrite app_nil_r. auto.
  - cbn [add_cols]. destruct (IH (g ++ [(fresh_name (map fst g) k, rep n v)])) as [g' [E [N M]]].
    + rewrite map_app. cbn [map fst]. apply GroupFacts.nodup_app_one; [exact Hg|apply fresh_name_fresh].
    + exists ((fresh_name (map fst g) k, rep n v) :: g'). rewrite E, <- app_assoc in *. cbn [app] in *.
      split; [reflexivity|]. split; [exact N|]. cbn [map snd]. rewrite M. reflexivity.
Qed.

Theorem cat2keys_cols n1 k1 d1 n2 k2 d2 flt :
  ~ In 0 k1 -> ~ In 0 k2 -> NoDup (map fst d1) ->
  let out := snd (cat2keys n1 k1 d1 n2 k2 d2 flt false false) in
  NoDup (map fst out) /\ length out = length d1 + length d2 /\
  (forall j k v, nth_error d1 j = Some (k, v) -> nth_error out j = Some (k, tile n2 v)) /\
  (forall j k v, nth_error d2 j = Some (k, v) -> exists k', nth_error out (length d1 + j) = Some (k', rep n1 v)).
Proof.
  intros Z1 Z2 Nd out. subst out.
  assert (U : uses_invalid k1 k2 false = false).
  { unfold uses_invalid. cbn [orb]. apply orb_false_iff. split.
    - destruct (existsb (Nat.eqb 0) k1) eqn:E; [|reflexivity]. apply existsb_exists in E. destruct E as [x [I Ex]]. apply Nat.eqb_eq in Ex. subst. contradiction.
    - destruct (existsb (Nat.eqb 0) k2) eqn:E; [|reflexivity]. apply existsb_exists in E. destruct E as [x [I Ex]]. apply Nat.eqb_eq in Ex. subst. contradiction. }
  unfold GroupingModel.cat2keys. unfold uses_invalid in U. rewrite U. cbn [snd].
  set (g := map (fun p : name * list V => (fst p, tile n2 (snd p))) d1).
  assert (Fg : map fst g = map fst d1) by (subst g; rewrite map_map; reflexivity).
  destruct (add_cols_spec n1 d2 g) as [g' [E [N M]]]; [rewrite Fg; exact Nd|].
  rewrite E. assert (Lg : length g = length d1) by (subst g; apply map_length).
  assert (Lg' : length g' = length d2).
  { rewrite <- (map_length snd g'), M, map_length. reflexivity. }
  repeat split.
  - exact N.
  - rewrite app_length. lia.
  - intros j k v H. rewrite nth_error_app1 by (rewrite Lg; apply nth_error_Some; congruence).
    subst g. rewrite (map_nth_error _ _ _ H). reflexivity.
  - intros j k v H. rewrite nth_error_app2 by lia. replace (length d1 + j - length g) with j by lia.
    destruct (some_lt g' j) as [[k' w] Ew]; [rewrite Lg'; apply nth_error_Some; congruence|].
    exists k'. rewrite Ew. f_equal. f_equal.
    pose proof (map_nth_error snd _ _ Ew) as A. rewrite M in A. rewrite (map_nth_error (fun p => rep n1 (snd p)) _ _ H) in A. cbn [snd] in A. injection A as ->. reflexivity.
Qed.

(** the code of a row points at its own pair of values *)
Theorem cat2keys_shows_rows n1 k1 d1 n2 k2 d2 flt r a b (v w : list V) :
  ~ In 0 k1 -> ~ In 0 k2 -> codes_in n1 k1 -> codes_in n2 k2 ->
  nth_error k1 r = Some a -> nth_error k2 r = Some b -> length v = n1 -> length w = n2 ->
  exists c, nth_error (fst (cat2keys n1 k1 d1 n2 k2 d2 flt false false)) r = Some c /\
    shown (tile n2 v) c = shown v a /\ shown (rep n1 w) c = shown w b.
Proof.
  intros Z1 Z2 C1 C2 Ha Hb Lv Lw.
  assert (La : 1 <= a <= n1).
  { split; [destruct a; [exfalso; apply Z1; eapply nth_error_In; eauto|lia]|].
    eapply Forall_forall in C1; [exact C1|eapply nth_error_In; eauto]. }
  assert (Lb : 1 <= b <= n2).
  { split; [destruct b; [exfalso; apply Z2; eapply nth_error_In; eauto|lia]|].
    eapply Forall_forall in C2; [exact C2|eapply nth_error_In; eauto]. }
  exists ((b - 1) * n1 + a). split.
  - rewrite cat2keys_codes. replace (uses_invalid k1 k2 false) with false.
    + apply code_at_valid; auto.
    + symmetry. unfold uses_invalid. cbn [orb]. apply orb_false_iff.
      split; match goal with |- existsb _ ?k = _ => destruct (existsb (Nat.eqb 0) k) eqn:E; [|reflexivity] end;
      apply existsb_exists in E; destruct E as [x [I Ex]]; apply Nat.eqb_eq in Ex; subst; contradiction.
  - destruct a as [|a]; [lia|]. destruct b as [|b]; [lia|].
    replace ((S b - 1) * n1 + S a) with (S (b * n1 + a)) by (cbn; lia). cbn [shown]. subst n1 n2. split.
    + apply tile_at; lia.
    + apply rep_at; lia.
Qed.

(** *** fused / invalid *)
Definition fused (t : list V) : option V :=
  match t with [] => None | v :: r => Some (fold_left (fun a x => cat_s a (astype_s x)) r (astype_s v)) end.
(** entry [j] of every column *)
Fixpoint tuple_at (d : @cols V) (j : nat) : list V :=
  match d with
  | [] => []
  | (_, v) :: r => match nth_error v j with Some x => x :: tuple_at r j | None => [] end
  end.

Lemma onedict_go_at invalid j : forall d nm arr acc,
  (forall k v, In (k, v) d -> j < length (onedict_col inv_s invalid v)) -> nth_error arr j = Some acc ->
  nth_error (snd (onedict_go astype_s cat_s inv_s invalid nm arr d)) j =
  Some (fold_left (fun a x => cat_s a (astype_s x))
         (tuple_at (map (fun p => (fst p, onedict_col inv_s invalid (snd p))) d) j) acc).
Proof.
  induction d as [|[k v] d IH]; intros nm arr acc Hl Ha; cbn [onedict_go map fst snd tuple_at fold_left]; [exact Ha|].
  destruct (some_lt (onedict_col inv_s invalid v) j) as [x Ex]; [eapply Hl; left; reflexivity|].
  rewrite (IH _ _ (cat_s acc (astype_s x))).
  - rewrite Ex. reflexivity.
  - intros k' v' I. eapply Hl. right. eauto.
  - rewrite (map_nth_error _ j _ (nth_error_combine _ _ _ _ _ Ha Ex)). reflexivity.
Qed.

Lemma onedict_at invalid d j :
  d <> [] -> (forall k v, In (k, v) d -> j < length (onedict_col inv_s invalid v)) ->
  nth_error (snd (onedict invalid d)) j =
  fused (tuple_at (map (fun p => (fst p, onedict_col inv_s invalid (snd p))) d) j).
Proof.
  destruct d as [|[k v] d]; [congruence|]. intros _ Hl.
  destruct (some_lt (onedict_col inv_s invalid v) j) as [x Ex]; [eapply Hl; left; reflexivity|].
  unfold GroupingModel.onedict. cbn [map fst snd tuple_at fused]. rewrite Ex.
  apply onedict_go_at; [intros k' v' I; eapply Hl; right; eauto|].
  rewrite (map_nth_error _ _ _ Ex). reflexivity.
Qed.

Lemma onedict_go_length invalid m : forall d nm arr,
  (forall k v, In (k, v) d -> length (onedict_col inv_s invalid v) = m) -> length arr = m ->
  length (snd (onedict_go astype_s cat_s inv_s invalid nm arr d)) = m.
Proof.
  induction d as [|[k v] d IH]; intros nm arr Hl Ha; cbn [onedict_go]; [exact Ha|].
  apply IH; [intros k' v' I; eapply Hl; right; eauto|].
  rewrite map_length, combine_length, Ha, (Hl k v) by (left; reflexivity). lia.
Qed.
Lemma onedict_length invalid d m : d <> [] ->
  (forall k v, In (k, v) d -> length (onedict_col inv_s invalid v) = m) -> length (snd (onedict invalid d)) = m.
Proof.
  destruct d as [|[k v] d]; [congruence|]. intros _ Hl. unfold GroupingModel.onedict.
  apply onedict_go_length; [intros k' v' I; eapply Hl; right; eauto|].
  rewrite map_length. eapply Hl. left. reflexivity.
Qed.

Lemma tuple_at_inv d a n : (forall k v, In (k, v) d -> length v = n) -> a <= n ->
  tuple_at (map (fun p => (fst p, onedict_col inv_s true (snd p))) d) a =
  match a with 0 => map (fun _ => inv_s) d | S j => tuple_at d j end.
Proof.
  intros Hl Ha. induction d as [|[k v] d IH]; cbn [map fst snd tuple_at]; [destruct a; reflexivity|].
  rewrite IH by (intros; eapply Hl; right; eauto). unfold onedict_col. destruct a as [|a]; cbn [nth_error]; [reflexivity|].
  destruct (some_lt v a) as [x Ex]; [rewrite (Hl k v) by (left; reflexivity); lia|]. rewrite Ex. reflexivity.
Qed.

Theorem cat2keys_shows_invalid n1 k1 d1 n2 k2 d2 invalid fuse r a b :
  uses_invalid k1 k2 invalid = true -> codes_in n1 k1 -> codes_in n2 k2 ->
  d1 <> [] -> d2 <> [] ->
  (forall k v, In (k, v) d1 -> length v = n1) -> (forall k v, In (k, v) d2 -> length v = n2) ->
  nth_error k1 r = Some a -> nth_error k2 r = Some b ->
  exists rn cn ra ca c, cat2keys n1 k1 d1 n2 k2 d2 None invalid fuse =
      (fst (cat2keys n1 k1 d1 n2 k2 d2 None invalid fuse), [(rn, ra); (cn, ca)]) /\ rn <> cn /\
    nth_error (fst (cat2keys n1 k1 d1 n2 k2 d2 None invalid fuse)) r = Some c /\
    shown ra c = fused (match a with 0 => map (fun _ => inv_s) d1 | S j => tuple_at d1 j end) /\
    shown ca c = fused (match b with 0 => map (fun _ => inv_s) d2 | S j => tuple_at d2 j end).
Proof.
  intros U C1 C2 N1 N2 L1 L2 Ha Hb.
  assert (La : a <= n1) by (eapply Forall_forall in C1; [exact C1|eapply nth_error_In; eauto]).
  assert (Lb : b <= n2) by (eapply Forall_forall in C2; [exact C2|eapply nth_error_In; eauto]).
  assert (L1' : forall k v, In (k, v) d1 -> length (onedict_col inv_s true v) = S n1) by (intros; cbn; f_equal; eauto).
  assert (L2' : forall k v, In (k, v) d2 -> length (onedict_col inv_s true v) = S n2) by (intros; cbn; f_equal; eauto).
  pose proof (onedict_length true d1 (S n1) N1 L1') as LR. pose proof (onedict_length true d2 (S n2) N2 L2') as LC.
  pose proof (onedict_at true d1 a N1 ltac:(intros k v I; rewrite (L1' k v I); lia)) as AR.
  pose proof (onedict_at true d2 b N2 ltac:(intros k v I; rewrite (L2' k v I); lia)) as AC.
  pose proof (code_at_invalid n1 _ _ _ _ _ Ha Hb) as HC.
  unfold GroupingModel.cat2keys. unfold uses_invalid in U. rewrite U.
  destruct (onedict true d1) as [rn ra]. destruct (onedict true d2) as [cn ca]. cbn [fst snd] in *.
  eexists rn, _, _, _, _. split; [reflexivity|]. split; [|split; [exact HC|]].
  - destruct (name_dec rn cn) as [->|N]; [|exact N]. intros E. apply (f_equal (@length nat)) in E.
    rewrite app_length in E. cbn in E. lia.
  - cbn [shown]. rewrite <- LR at 1. rewrite <- LR. split.
    + rewrite tile_at by lia. rewrite AR. rewrite (tuple_at_inv d1 a n1); [reflexivity|eauto|lia].
    + rewrite rep_at by lia. rewrite AC. rewrite (tuple_at_inv d2 b n2); [reflexivity|eauto|lia].
Qed.
End Keys.

(** *** dtype *)
Lemma store_bits_id bits z : (0 < bits -> - 2 ^ (bits - 1) <= z < 2 ^ (bits - 1) -> store_bits bits z = z)%Z.
Proof.
  intros H R. unfold store_bits.
  assert (E : (2 ^ bits = 2 * 2 ^ (bits - 1))%Z).
  { replace bits with (1 + (bits - 1))%Z at 1 by lia. rewrite Z.pow_add_r by lia. reflexivity. }
  rewrite Z.mod_small by lia. lia.
Qed.
Lemma dtype_holds n z : (0 <= z <= n -> n < 2 ^ 63 -> - 2 ^ (int_dtype_from_len n - 1) <= z < 2 ^ (int_dtype_from_len n - 1))%Z.
Proof.
  intros H Hn. unfold int_dtype_from_len.
  destruct (Z.ltb_spec n 100) as [L1|L1]; [change (2 ^ (8 - 1))%Z with 128%Z; lia|].
  destruct (Z.ltb_spec n 30000) as [L2|L2]; [change (2 ^ (16 - 1))%Z with 32768%Z; lia|].
  destruct (Z.ltb_spec n 2000000000) as [L3|L3]; [change (2 ^ (32 - 1))%Z with 2147483648%Z; lia|].
  change (2 ^ (64 - 1))%Z with (2 ^ 63)%Z. lia.
Qed.
Lemma dtype_pos n : (8 <= int_dtype_from_len n)%Z.
Proof. unfold int_dtype_from_len. repeat destruct (_ <? _)%Z; lia. Qed.
Lemma recast_ge n req : (int_dtype_from_len n <= recast_bits n req)%Z.
Proof. unfold recast_bits. destruct req as [r|]; [|lia]. destruct (Z.leb_spec (int_dtype_from_len n) r); lia. Qed.
Theorem recast_id arr n req : (n < 2 ^ 63)%Z -> Forall (fun z => (0 <= z <= n)%Z) arr -> possibly_recast arr n req = arr.
Proof.
  intros Hn H. unfold possibly_recast. rewrite <- (map_id arr) at 2. apply map_ext_in. intros z I.
  eapply Forall_forall in H; [|exact I].
  pose proof (dtype_pos n). pose proof (recast_ge n req). pose proof (dtype_holds n z H Hn).
  assert (2 ^ (int_dtype_from_len n - 1) <= 2 ^ (recast_bits n req - 1))%Z by (apply Z.pow_le_mono_r; lia).
  apply store_bits_id; lia.
Qed.
