(** Theorems about composite keys, stacked categoricals, regrouping, shrinking, group extraction,
    packing and user functions (properties C20-C28, C73, C74). *)
From Coq Require Import List Arith ZArith Bool Lia.
From Verif Require Import GroupModel GroupFacts FlattenModel GroupingModel GroupingSpec
  GroupingProofs GroupingProofs2 GroupingProofs3 GroupingProofs4 GroupingProofs5.
Import ListNotations.

Lemma same_code {B} (keys : list (option B)) us ikey r s : grouping_of keys us ikey ->
  r < length keys -> s < length keys -> (nth_error ikey r = nth_error ikey s <-> nth_error keys r = nth_error keys s).
Proof.
  intros G Hr Hs. destruct (some_lt keys r Hr) as [x Ex]. destruct (some_lt keys s Hs) as [y Ey].
  rewrite Ex, Ey. destruct x as [x|], y as [y|].
  - destruct (g_key _ _ _ G _ _ Ex) as [a [Ea Ua]]. destruct (g_key _ _ _ G _ _ Ey) as [b [Eb Ub]]. rewrite Ea, Eb. split.
    + intros [= ->]. congruence.
    + intros [= ->]. f_equal. f_equal. apply (proj1 (NoDup_nth_error us)); [apply (g_distinct _ _ _ G)|apply nth_error_Some; congruence|congruence].
  - destruct (g_key _ _ _ G _ _ Ex) as [a [Ea Ua]]. pose proof (g_null _ _ _ G _ Ey) as Eb. rewrite Ea, Eb. split; discriminate.
  - destruct (g_key _ _ _ G _ _ Ey) as [b [Eb Ub]]. pose proof (g_null _ _ _ G _ Ex) as Ea. rewrite Ea, Eb. split; discriminate.
  - rewrite (g_null _ _ _ G _ Ex), (g_null _ _ _ G _ Ey). split; reflexivity.
Qed.
Lemma grouping_codes {B} (keys : list (option B)) us ikey : grouping_of keys us ikey -> codes_in (length us) ikey.
Proof.
  intros G. apply Forall_forall. intros c I. apply In_nth_error in I. destruct I as [i E]. destruct c as [|k]; [lia|].
  apply (grouping_range G) in E. lia.
Qed.

(** *** C20: composite keys *)
(** Two rows are in the same combined group exactly when they agree on both keys.  [keys1], [keys2]:
    the key of every row, [None] for a filtered one. *)
Theorem C20_same_group_iff_both_agree :
  forall (B1 B2 V : Type) (astype_s : V -> V) (cat_s : V -> V -> V) (inv_s : V)
    (keys1 : list (option B1)) us1 k1 d1 (keys2 : list (option B2)) us2 k2 d2 invalid fuse r s,
  grouping_of keys1 us1 k1 -> grouping_of keys2 us2 k2 -> length keys1 = length keys2 ->
  r < length keys1 -> s < length keys1 ->
  let codes := fst (cat2keys astype_s cat_s inv_s (length us1) k1 d1 (length us2) k2 d2 None invalid fuse) in
  length codes = length keys1 /\
  (nth_error codes r = nth_error codes s <->
   nth_error keys1 r = nth_error keys1 s /\ nth_error keys2 r = nth_error keys2 s).
Proof.
  intros B1 B2 V ast cs inv keys1 us1 k1 d1 keys2 us2 k2 d2 invalid fuse r s G1 G2 L Hr Hs codes.
  assert (Lk : length k1 = length k2) by (rewrite (g_length _ _ _ G1), (g_length _ _ _ G2); exact L).
  split; [unfold codes; rewrite cat2keys_length by exact Lk; apply (g_length _ _ _ G1)|].
  unfold codes. rewrite cat2keys_agree; [|eapply grouping_codes; eauto|eapply grouping_codes; eauto|exact Lk| |].
  - rewrite (same_code keys1 us1 k1 r s G1 Hr Hs), (same_code keys2 us2 k2 r s G2) by lia. reflexivity.
  - rewrite (g_length _ _ _ G1). exact Hr.
  - rewrite (g_length _ _ _ G1). exact Hs.
Qed.
Print Assumptions C20_same_group_iff_both_agree.

(** With no filtered row in either key, the combined categorical has all the columns of both keys
    under distinct names, and every row still shows its own value in each of them. *)
Theorem C20_columns_show_both_keys :
  forall (V : Type) (astype_s : V -> V) (cat_s : V -> V -> V) (inv_s : V) n1 k1 d1 n2 k2 d2 flt r a b,
  ~ In 0 k1 -> ~ In 0 k2 -> codes_in n1 k1 -> codes_in n2 k2 -> NoDup (map fst d1) ->
  (forall k v, In (k, v) d1 -> length v = n1) -> (forall k v, In (k, v) d2 -> length v = n2) ->
  nth_error k1 r = Some a -> nth_error k2 r = Some b ->
  let out := cat2keys astype_s cat_s inv_s n1 k1 d1 n2 k2 d2 flt false false in
  NoDup (map fst (snd out)) /\ length (snd out) = length d1 + length d2 /\
  exists c, nth_error (fst out) r = Some c /\
    (forall j k v, nth_error d1 j = Some (k, v) ->
       exists w, nth_error (snd out) j = Some (k, w) /\ shown w c = shown v a) /\
    (forall j k v, nth_error d2 j = Some (k, v) ->
       exists k' w, nth_error (snd out) (length d1 + j) = Some (k', w) /\ shown w c = shown v b).
Proof.
  intros V ast cs inv n1 k1 d1 n2 k2 d2 flt r a b Z1 Z2 C1 C2 N L1 L2 Ha Hb out.
  destruct (cat2keys_cols ast cs inv n1 k1 d1 n2 k2 d2 flt Z1 Z2 N) as [Nd [Le [H1 H2]]].
  split; [exact Nd|]. split; [exact Le|].
  destruct (cat2keys_shows_rows ast cs inv n1 k1 d1 n2 k2 d2 flt r a b (repeat inv n1) (repeat inv n2) Z1 Z2 C1 C2 Ha Hb (repeat_length _ _) (repeat_length _ _)) as [c [Ec _]].
  exists c. split; [exact Ec|]. split.
  - intros j k v E. exists (tile n2 v). split; [apply H1; exact E|].
    destruct (cat2keys_shows_rows ast cs inv n1 k1 d1 n2 k2 d2 flt r a b v (repeat inv n2) Z1 Z2 C1 C2 Ha Hb) as [c' [Ec' [S1 _]]].
    + eapply L1. eapply nth_error_In. exact E.
    + apply repeat_length.
    + assert (c = c') by congruence. subst. exact S1.
  - intros j k v E. destruct (H2 j k v E) as [k' E']. exists k', (rep n1 v). split; [exact E'|].
    destruct (cat2keys_shows_rows ast cs inv n1 k1 d1 n2 k2 d2 flt r a b (repeat inv n1) v Z1 Z2 C1 C2 Ha Hb) as [c' [Ec' [_ S2]]].
    + apply repeat_length.
    + eapply L2. eapply nth_error_In. exact E.
    + assert (c = c') by congruence. subst. exact S2.
Qed.
Print Assumptions C20_columns_show_both_keys.

(** With invalid=True, or when some row is filtered, there are two columns, one for each key; each
    row shows the (fused) value of its key, or the fused invalid text when its key is filtered. *)
Theorem C20_invalid_mode_shows_both_keys :
  forall (V : Type) (astype_s : V -> V) (cat_s : V -> V -> V) (inv_s : V) n1 k1 d1 n2 k2 d2 invalid fuse r a b,
  (invalid = true \/ In 0 k1 \/ In 0 k2) -> codes_in n1 k1 -> codes_in n2 k2 -> d1 <> [] -> d2 <> [] ->
  (forall k v, In (k, v) d1 -> length v = n1) -> (forall k v, In (k, v) d2 -> length v = n2) ->
  nth_error k1 r = Some a -> nth_error k2 r = Some b ->
  exists codes rn cn ra ca c,
    cat2keys astype_s cat_s inv_s n1 k1 d1 n2 k2 d2 None invalid fuse = (codes, [(rn, ra); (cn, ca)]) /\ rn <> cn /\
    nth_error codes r = Some c /\
    shown ra c = fused astype_s cat_s (match a with 0 => map (fun _ => inv_s) d1 | S j => tuple_at d1 j end) /\
    shown ca c = fused astype_s cat_s (match b with 0 => map (fun _ => inv_s) d2 | S j => tuple_at d2 j end).
Proof.
  intros V ast cs inv n1 k1 d1 n2 k2 d2 invalid fuse r a b U C1 C2 N1 N2 L1 L2 Ha Hb.
  destruct (cat2keys_shows_invalid ast cs inv n1 k1 d1 n2 k2 d2 invalid fuse r a b) as (rn & cn & ra & ca & c & E & H); auto.
  - unfold uses_invalid. apply orb_true_iff. destruct U as [->|U]; [now left|right]. apply orb_true_iff.
    destruct U as [U|U]; [left|right]; apply existsb_exists; exists 0; auto.
  - exists (fst (cat2keys ast cs inv n1 k1 d1 n2 k2 d2 None invalid fuse)), rn, cn, ra, ca, c. split; [exact E|exact H].
Qed.
Print Assumptions C20_invalid_mode_shows_both_keys.

(** A row removed by the filter is not filtered in the result: it shows ('Inv', 'Inv').  Here the
    second of two rows fails the filter. *)
Theorem C20_filter_refuted :
  exists (k1 k2 : list nat) (d1 d2 : @cols nat) (flt : list bool) c,
    codes_in 2 k1 /\ codes_in 2 k2 /\ length flt = length k1 /\ nth_error flt 1 = Some false /\
    let out := cat2keys (fun x : nat => x) Nat.add 0 2 k1 d1 2 k2 d2 (Some flt) true false in
    nth_error (fst out) 1 = Some c /\ c <> 0 /\
    map (fun p => shown (snd p) c) (snd out) = [Some 0; Some 0].
Proof.
  exists [1; 2], [2; 1], [([97], [10; 20])], [([98], [30; 40])], [true; false], 1.
  repeat split; try (repeat constructor; fail); vm_compute; congruence.
Qed.
Print Assumptions C20_filter_refuted.

(** rt.cat2keys(list('abc'), list('xyz')): codes [1, 5, 9] as in the docstring *)
Example C20_case : cat2keys (fun x : nat => x) Nat.add 0 3 [1; 2; 3] [([107], [97; 98; 99])] 3 [1; 2; 3] [([107], [120; 121; 122])] None false false
  = ([1; 5; 9], [([107], [97; 98; 99; 97; 98; 99; 97; 98; 99]); ([107; 49], [120; 120; 120; 121; 121; 121; 122; 122; 122])]).
Proof. vm_compute. reflexivity. Qed.
Example C20_case_keys : grouping_of (map Some [97; 98; 97]) [97; 98] [1; 2; 1] /\
  fst (cat2keys (fun x : nat => x) Nat.add 0 2 [1; 2; 1] [] 2 [1; 1; 2] [] None false false) = [1; 2; 3].
Proof. split; [|reflexivity]. apply (ikeys_grouping Nat.eqb Nat.eqb_eq). Qed.
Example C20_case_invalid : cat2keys (fun x : nat => x) Nat.add 0 2 [1; 0; 2] [([107], [10; 20])] 1 [1; 1; 0] [([108], [30])] None false false
  = ([5; 4; 3], [([107], [0; 10; 20; 0; 10; 20]); ([108], [0; 0; 0; 30; 30; 30])]).
Proof. vm_compute. reflexivity. Qed.

(** *** C21: stacking categoricals *)
(** hstack of categoricals (base 1): the stacked rows show what they showed, filtered rows stay
    filtered, no category is duplicated.  [crc] is any checksum that tells the given category
    arrays apart; [grp] is groupbyhash / groupbylex. *)
Theorem C21_hstack_shows_the_same :
  forall (B : Type) (junk : nat) (crc : list B -> Z) (grp : list B -> list B * list nat),
  (forall l, grouping_of (map Some l) (fst (grp l)) (snd (grp l))) ->
  forall (codes : list (list nat)) (cats : list (list B)), cats <> [] ->
  (forall v w, In v cats -> In w cats -> length v = length w -> crc v = crc w -> v = w) ->
  (forall us, In us cats -> NoDup us) -> Forall2 valid_codes codes cats ->
  let out := merge_cats junk 1 crc grp codes cats in
  shows (fst out) (snd out) = concat (map (fun p => shows (fst p) (snd p)) (combine codes cats)) /\
  NoDup (snd out).
Proof.
  intros B junk crc grp G codes cats Ne S D F. apply (merge_cats_1 junk crc grp G codes cats Ne S D). exact F.
Qed.
Print Assumptions C21_hstack_shows_the_same.

(** base 0 *)
Theorem C21_hstack_base0_shows_the_same :
  forall (B : Type) (junk : nat) (crc : list B -> Z) (grp : list B -> list B * list nat),
  (forall l, grouping_of (map Some l) (fst (grp l)) (snd (grp l))) ->
  forall (codes : list (list nat)) (cats : list (list B)), cats <> [] ->
  (forall v w, In v cats -> In w cats -> length v = length w -> crc v = crc w -> v = w) ->
  (forall us, In us cats -> NoDup us) -> Forall2 valid_codes0 codes cats ->
  let out := merge_cats junk 0 crc grp codes cats in
  shows0 (fst out) (snd out) = concat (map (fun p => shows0 (fst p) (snd p)) (combine codes cats)) /\
  NoDup (snd out).
Proof.
  intros B junk crc grp G codes cats Ne S D F. apply (merge_cats_0 junk crc grp G codes cats Ne S D). exact F.
Qed.
Print Assumptions C21_hstack_base0_shows_the_same.

Definition grp_nat (l : list nat) := (uniques Nat.eqb (map Some l), ikeys Nat.eqb (map Some l)).
Example C21_case_grp : forall l, grouping_of (map Some l) (fst (grp_nat l)) (snd (grp_nat l)).
Proof. intros l. apply (ikeys_grouping Nat.eqb Nat.eqb_eq). Qed.
Example C21_case : merge_cats 0 1 (fun l => Z.of_nat (list_sum l)) grp_nat [[1; 0; 2]; [1; 2; 0]] [[7; 8]; [8; 9]] = ([1; 0; 2; 2; 3; 0], [7; 8; 9]).
Proof. vm_compute. reflexivity. Qed.
Example C21_case0 : merge_cats 0 0 (fun l => Z.of_nat (list_sum l)) grp_nat [[1; 0]; [1; 0]] [[7; 8]; [8; 9]] = ([1; 0; 2; 1], [7; 8; 9]).
Proof. vm_compute. reflexivity. Qed.

(** *** C22: stacking mapped categoricals *)
(** Rows keep their string when the mappings agree: no code with two names, no name with two codes. *)
Theorem C22_mapped_hstack_partial :
  forall (codes : list (list Z)) (ms : list mapping),
  (forall m m' c s c' s', In m ms -> In m' ms -> In (c, s) m -> In (c', s') m' -> (c = c' <-> s = s')) ->
  (forall m, In m ms -> NoDup (map fst m) /\ NoDup (map snd m)) ->
  fst (hstack_mapped codes ms) = concat codes /\
  forall m c s, In m ms -> map_get m c = Some s -> map_get (snd (hstack_mapped codes ms)) c = Some s.
Proof.
  intros codes ms A D. split.
  - unfold hstack_mapped. destruct ms as [|m r]; [reflexivity|]. destruct (forallb _ _); reflexivity.
  - intros m c s I H. eapply hstack_mapped_ok; eauto. apply map_get_some. exact H.
Qed.
Print Assumptions C22_mapped_hstack_partial.
(** Without that, rows change: code 1 is 'a' in one and 'b' in the other. *)
Theorem C22_mapped_hstack_refuted :
  exists (codes : list (list Z)) (m1 m2 : mapping) c,
    NoDup (map fst m1) /\ NoDup (map snd m1) /\ NoDup (map fst m2) /\ NoDup (map snd m2) /\
    In [c] codes /\ map_get m2 c = Some [98] /\ map_get (snd (hstack_mapped codes [m1; m2])) c = Some [97].
Proof.
  exists [[1%Z]; [1%Z]], [(1%Z, [97])], [(1%Z, [98])], 1%Z. repeat split; try (repeat constructor; cbn; tauto); vm_compute; auto.
Qed.
Print Assumptions C22_mapped_hstack_refuted.
(** A name with two codes loses one of them: the row then shows "!<1>". *)
Theorem C22_shared_name_refuted :
  exists (codes : list (list Z)) (m1 m2 : mapping) c,
    NoDup (map fst m1) /\ NoDup (map snd m1) /\ NoDup (map fst m2) /\ NoDup (map snd m2) /\
    In [c] codes /\ map_get m1 c = Some [97] /\ map_get (snd (hstack_mapped codes [m1; m2])) c = None.
Proof.
  exists [[1%Z]; [2%Z]], [(1%Z, [97])], [(2%Z, [97])], 1%Z. repeat split; try (repeat constructor; cbn; tauto); vm_compute; auto.
Qed.
Print Assumptions C22_shared_name_refuted.
Example C22_case : hstack_mapped [[1%Z]; [2%Z; 1%Z]] [[(1%Z, [97])]; [(2%Z, [98]); (1%Z, [97])]] = ([1; 2; 1]%Z, [(1%Z, [97]); (2%Z, [98])]).
Proof. vm_compute. reflexivity. Qed.

(** *** C23: regroup *)
Theorem C23_regroup :
  forall (B : Type) (inv : B) (ikey : list nat) (us : list B) (flt : option (list bool)),
  (forall f, flt = Some f -> length f = length ikey) -> valid_codes ikey us ->
  let out := regroup inv (length us) ikey us flt in
  shows (fst out) (snd out) = keep_where flt (shows ikey us) /\
  (forall b, In b (snd out) <-> exists k, nth_error us k = Some b /\ used flt ikey k) /\
  (NoDup us -> NoDup (snd out)) /\ valid_codes (fst out) (snd out).
Proof.
  intros B inv ikey us flt Hl C out.
  destruct (regroup_ok inv ikey us flt Hl C) as [S [K V]]. fold out in S, K, V.
  split; [exact S|]. split; [|split; [|exact V]].
  - intros b. rewrite K. apply kept_in. exact Hl.
  - intros N. rewrite K. unfold kept_cats.
    assert (Q : NoDup (map snd (combine (seq 0 (length us)) us))).
    { replace (map snd (combine (seq 0 (length us)) us)) with us; [exact N|].
      generalize 0 as s. clear. induction us as [|x l IH]; intros s; [reflexivity|]. cbn. f_equal. apply IH. }
    revert Q. generalize (combine (seq 0 (length us)) us) as l. intros l. induction l as [|p l IH]; intros Q; cbn; [constructor|].
    cbn in Q. inversion Q; subst. destruct (usedb ikey flt (fst p)); [|auto]. cbn. constructor; [|auto].
    intros I. apply H1. apply in_map_iff in I. destruct I as [q [E I]]. apply filter_In in I. apply in_map_iff. exists q. tauto.
Qed.
Print Assumptions C23_regroup.
(** A grouping that holds its row arrays (made from an array, not a categorical) loses categories:
    here the last row passes the filter with the value 30 and shows the invalid value 99. *)
Theorem C23_regroup_of_rows_refuted :
  exists (keys : list (option nat)) us ikey (rows : list nat) flt,
    grouping_of keys us ikey /\ keys = map Some rows /\ length flt = length rows /\
    nth_error flt 3 = Some true /\ nth_error rows 3 = Some 30 /\
    let out := regroup_rows 99 (length us) ikey rows (Some flt) in
    nth_error (shows (fst out) (snd out)) 3 = Some (Some 99).
Proof.
  exists (map Some [10; 20; 20; 30]), [10; 20; 30], [1; 2; 2; 3], [10; 20; 20; 30], [true; false; false; true].
  split; [|vm_compute; auto 10]. apply (ikeys_grouping Nat.eqb Nat.eqb_eq (map Some [10; 20; 20; 30])).
Qed.
Print Assumptions C23_regroup_of_rows_refuted.
Example C23_case : regroup 99 3 [3; 1; 0; 3; 2] [10; 20; 30] (Some [true; true; true; true; false]) = ([2; 1; 0; 2; 0], [10; 30]).
Proof. vm_compute. reflexivity. Qed.
Example C23_case_all : regroup 99 3 [3; 1; 0; 3; 2] [10; 20; 30] None = ([3; 1; 0; 3; 2], [10; 20; 30]).
Proof. vm_compute. reflexivity. Qed.

(** *** C24: shrink *)
Theorem C24_shrink_without_misc :
  forall (B : Type) (eqb : B -> B -> bool), (forall a b, eqb a b = true <-> a = b) ->
  forall (miss : Z) (ikey : list nat) (old new : list B), valid_codes ikey old ->
  let out := shrink eqb miss ikey old new None in
  snd out = new /\
  map (shown_z (snd out)) (fst out) =
  map (fun o => match o with Some b => if existsb (eqb b) new then Some b else None | None => None end) (shows ikey old).
Proof.
  intros B eqb E miss ikey old new C out. destruct (shrink_none_ok eqb E miss ikey old new C) as [H1 H2]. split; [exact H2|].
  unfold out. rewrite H1. apply map_ext. intros [b|]; reflexivity.
Qed.
Print Assumptions C24_shrink_without_misc.
(** with misc: correct when the last of the new categories is one of the old categories *)
Theorem C24_shrink_with_misc_partial :
  forall (B : Type) (eqb : B -> B -> bool), (forall a b, eqb a b = true <-> a = b) ->
  forall (miss : Z) (ikey : list nat) (old new : list B) (z mv : B), (miss < 0)%Z -> valid_codes ikey old ->
  NoDup (new ++ [z]) -> In z old ->
  let out := shrink eqb miss ikey old (new ++ [z]) (Some mv) in
  snd out = new ++ [z; mv] /\
  map (shown_z (snd out)) (fst out) =
  map (fun o => match o with Some b => if existsb (eqb b) (new ++ [z]) then Some b else Some mv | None => None end) (shows ikey old).
Proof.
  intros B eqb E miss ikey old new z mv Hm C N I out. destruct (shrink_misc_ok eqb E miss ikey old new z mv Hm C N I) as [H1 H2].
  split; [unfold out; rewrite H2, <- app_assoc; reflexivity|].
  unfold out. rewrite H1. apply map_ext. intros [b|]; reflexivity.
Qed.
Print Assumptions C24_shrink_with_misc_partial.
(** Otherwise the other rows are put in one of the new categories: categories a, b shrunk to [a, c]
    with misc z turn the row b into c. *)
Theorem C24_shrink_with_misc_refuted :
  exists (ikey : list nat) (old new : list nat) (mv : nat), valid_codes ikey old /\ NoDup new /\
    nth_error (shows ikey old) 0 = Some (Some 98) /\ ~ In 98 new /\
    let out := shrink Nat.eqb (- 2 ^ 31)%Z ikey old new (Some mv) in
    nth_error (map (shown_z (snd out)) (fst out)) 0 = Some (Some 99) /\ mv <> 99.
Proof.
  exists [2; 1], [97; 98], [97; 99], 122.
  split; [repeat constructor|]. split; [repeat constructor; cbn; lia|]. split; [reflexivity|]. split; [cbn; lia|]. vm_compute. split; [reflexivity|lia].
Qed.
Print Assumptions C24_shrink_with_misc_refuted.
Example C24_case : shrink Nat.eqb (-9)%Z [1; 2; 3; 0] [97; 98; 99] [98; 100] None = ([0; 1; 0; 0]%Z, [98; 100]).
Proof. vm_compute. reflexivity. Qed.
Example C24_case_misc : shrink Nat.eqb (-9)%Z [1; 2; 3; 0] [97; 98; 99] [100; 98] (Some 7) = ([3; 2; 3; 0]%Z, [100; 98; 7]).
Proof. vm_compute. reflexivity. Qed.

(** *** C25: the index dtype *)
Theorem C25_dtype_holds_every_code :
  forall (ncats : Z) (req : option Z) (codes : list Z), (ncats < 2 ^ 63)%Z ->
  Forall (fun c => (0 <= c <= ncats)%Z) codes -> possibly_recast codes ncats req = codes.
Proof. intros ncats req codes H F. apply recast_id; assumption. Qed.
Print Assumptions C25_dtype_holds_every_code.
(** The codes of stacked categoricals fit the dtype picked for them. *)
Theorem C25_stacked_codes_fit :
  forall (B : Type) (junk : nat) (grp : list B -> list B * list nat),
  (forall l, grouping_of (map Some l) (fst (grp l)) (snd (grp l))) ->
  forall (codes : list (list nat)) (cats : list (list B)), Forall2 valid_codes codes cats ->
  let top := Z.of_nat (list_max (snd (grp (concat cats)))) in (top < 2 ^ 63)%Z ->
  let out := map Z.of_nat (fst (hstack_groupings junk 1 grp codes cats)) in
  map (store_bits (int_dtype_from_len top)) out = out.
Proof. intros B junk grp G codes cats F top H out. apply (hstack_codes_fit junk grp G codes cats F H). Qed.
Print Assumptions C25_stacked_codes_fit.
Example C25_case : possibly_recast [0; 99; 100]%Z 100 (Some 8%Z) = [0; 99; 100]%Z /\ recast_bits 100 (Some 8%Z) = 16%Z /\ store_bits 8 200 = (-56)%Z.
Proof. vm_compute. auto. Qed.

(** *** C26: take_groups / extract_groups *)
Theorem C26_take_groups :
  forall (X : Type) (x0 : X) (keys : list nat) (n : nat) (data : list X) (indices : list nat) (uninit : list X),
  length keys = length data -> (forall g, In g indices -> g <= n) ->
  length uninit = take_len indices (ncountgroup keys n) ->
  take_groups (map (fun r => nth r data x0) (igroup keys n)) indices (ncountgroup keys n) (ifirstgroup keys n) uninit =
  concat (map (members keys data) indices).
Proof. intros. apply take_groups_ok; assumption. Qed.
Print Assumptions C26_take_groups.
Theorem C26_extract_groups :
  forall (X : Type) (x0 : X) (keys : list nat) (n : nat) (data : list X) (cond : list bool) (uninit : list X),
  length keys = length data -> length cond = S n ->
  length uninit = extract_len cond (ncountgroup keys n) ->
  extract_groups cond (map (fun r => nth r data x0) (igroup keys n)) (ncountgroup keys n) (ifirstgroup keys n) uninit =
  concat (map (members keys data) (filter (fun g => nth g cond false) (seq 0 (S n)))).
Proof.
  intros X x0 keys n data cond uninit L Lc Lu. rewrite extract_take.
  assert (Ln : length cond = length (ncountgroup keys n)) by (unfold ncountgroup; rewrite map_length, seq_length; exact Lc).
  rewrite extract_len_ok in Lu by exact Ln. unfold selected in *. rewrite Lc in *. apply take_groups_ok; [exact L| |exact Lu].
  intros g I. apply filter_In in I. destruct I as [I _]. apply in_seq in I. lia.
Qed.
Print Assumptions C26_extract_groups.
Example C26_case : take_groups (map (fun r => nth r [10; 11; 12; 13] 0) (igroup [2; 1; 2; 1] 2)) [2; 1] (ncountgroup [2; 1; 2; 1] 2) (ifirstgroup [2; 1; 2; 1] 2) [0; 0; 0; 0] = [10; 12; 11; 13]
  /\ extract_groups [false; false; true] (map (fun r => nth r [10; 11; 12; 13] 0) (igroup [2; 1; 2; 1] 2)) (ncountgroup [2; 1; 2; 1] 2) (ifirstgroup [2; 1; 2; 1] 2) [0; 0] = [10; 12].
Proof. vm_compute. auto. Qed.

(** *** C27: packing and history *)
(** After any history, packing with a filter, packing with mustrepack, and applying a user function
    leave the packing of exactly that filter; the igroup property is right as long as no earlier
    call had a filter. *)
Theorem C27_packing_partial :
  forall (ikey : list nat) (n : nat) (h : list gop),
  let s := fold_left (gstep ikey n) h g_init in
  (forall f must, g_pack (gstep ikey n s (Pack (Some f) must)) = Some (pack_of (passing (Some f) ikey) n)) /\
  g_pack (gstep ikey n s (Pack None true)) = Some (pack_of ikey n) /\
  (forall flt, g_pack (gstep ikey n s (Apply flt)) = Some (pack_of (passing flt ikey) n)) /\
  (Forall unfiltered h -> g_pack (gstep ikey n s Igroup) = Some (pack_of ikey n)).
Proof.
  intros ikey n h s. split; [intros; apply (pack_filtered ikey n h)|]. split; [apply (pack_must ikey n h)|].
  split; [intros; apply (pack_apply ikey n h)|apply (igroup_unfiltered ikey n h)].
Qed.
Print Assumptions C27_packing_partial.
(** igroup after a filtered call is the filtered packing, not the packing of the grouping. *)
Theorem C27_igroup_refuted :
  exists (ikey : list nat) (n : nat) (f : list bool) (h : list gop),
    h = [Apply (Some f)] /\
    let s := fold_left (gstep ikey n) h g_init in
    option_map p_igroup (g_pack (gstep ikey n s Igroup)) <> Some (igroup ikey n) /\
    option_map p_igroup (g_pack (gstep ikey n g_init Igroup)) = Some (igroup ikey n).
Proof. exists [1; 2; 1], 2, [true; true; false], [Apply (Some [true; true; false])]. vm_compute. split; [reflexivity|]. split; [discriminate|reflexivity]. Qed.
Print Assumptions C27_igroup_refuted.
Example C27_case : g_pack (fold_left (gstep [1; 2; 1] 2) [Igroup; Pack (Some [false; true; true]) false; Pack None true] g_init) = Some (mkPacking [0; 2; 1] [0; 0; 2] [0; 2; 1]).
Proof. vm_compute. reflexivity. Qed.

(** *** C28: user functions that reduce *)
(** When the result dtype is given, or the user function always returns one dtype, every column is
    what it would be alone: the function's value on the members of each group, the invalid of the
    dtype for an empty group. *)
Theorem C28_apply_reduce_partial :
  forall (X V D : Type) (dtype_of : V -> D) (cast : D -> V -> V) (invalid : D -> V) (x0 : X)
    (ikey : list nat) (n : nat) (flt : option (list bool)) (f : list X -> V) (dt : option D) (d : D) (ds : list (list X)),
  codes_in n ikey -> (forall fl, flt = Some fl -> length fl = length ikey) -> ikey <> [] ->
  (forall data, In data ds -> length data = length ikey) ->
  (dt = Some d \/ (dt = None /\ forall l, l <> [] -> dtype_of (f l) = d)) ->
  apply_reduce dtype_of cast invalid x0 ikey n flt f dt ds =
  Some (map (fun data => map (fun g => match members (passing flt ikey) data g with
                                       | [] => invalid d
                                       | m => cast d (f m)
                                       end) (seq 1 n)) ds).
Proof.
  intros X V D dtype_of cast invalid x0 ikey n flt f dt d ds C Hf Ne L H. unfold apply_reduce.
  assert (Lk := passing_length flt ikey Hf).
  rewrite (reduce_cols_eq dtype_of cast invalid x0 (passing flt ikey) n f d ds dt).
  - reflexivity.
  - intros data I. rewrite Lk. symmetry. apply L. exact I.
  - destruct H as [->|[-> U]]; [now left|right]. split; [reflexivity|]. split; [exact U|]. intros data I. apply some_members.
    + rewrite Lk. symmetry. apply L. exact I.
    + intros Z. rewrite Z in Lk. destruct ikey; [congruence|discriminate].
    + apply passing_codes. exact C.
Qed.
Print Assumptions C28_apply_reduce_partial.
(** Otherwise the first column's dtype is used for all: values are (dtype, hundredths), dtype true
    is float, false is int and truncates.  The second column alone gives 150 hundredths, after an
    integer column it gives 100. *)
Definition num := (bool * Z)%type.
Definition cast_num (d : bool) (v : num) : num := (d, if d then snd v else (snd v / 100 * 100)%Z).
Theorem C28_apply_reduce_refuted :
  exists (ikey : list nat) (c1 c2 : list num), 
    let ap := apply_reduce fst cast_num (fun d => (d, 0%Z)) (false, 0%Z) ikey 1 None (fun l => hd (false, 0%Z) l) None in
    ap [c2] = Some [[(true, 150%Z)]] /\ ap [c1; c2] = Some [[(false, 200%Z)]; [(false, 100%Z)]].
Proof. exists [1], [(false, 200%Z)], [(true, 150%Z)]. vm_compute. auto. Qed.
Print Assumptions C28_apply_reduce_refuted.
Example C28_case : apply_reduce (fun _ : nat => tt) (fun _ v => v) (fun _ => 77) 0 [1; 2; 1; 0] 3 (Some [true; true; true; true]) list_sum None [[1; 2; 3; 4]; [5; 6; 7; 8]]
  = Some [[4; 2; 77]; [12; 6; 77]].
Proof. vm_compute. reflexivity. Qed.

(** *** C73: user functions that return an array *)
(** apply_nonreduce: the output rows of every group are the function's result on the group's input
    rows, in row order, also for the group of the rows that fail the filter. *)
Theorem C73_apply_nonreduce :
  forall (X V : Type) (x0 : X) (v0 : V) (f : list X -> list V), (forall l, length (f l) = length l) ->
  forall (ikey : list nat) (n : nat) (flt : option (list bool)) (data : list X) (uninit : list V),
  codes_in n ikey -> (forall fl, flt = Some fl -> length fl = length ikey) ->
  length ikey = length data -> length uninit = length data ->
  exists out, apply_nonreduce x0 ikey n flt f data v0 uninit = Some out /\ length out = length data /\
    forall g, g <= n -> members (passing flt ikey) data g <> [] ->
      members (passing flt ikey) out g = f (members (passing flt ikey) data g).
Proof. intros X V x0 v0 f Hf ikey n flt data uninit C Hl L Lu. apply (apply_nonreduce_ok x0 v0 f Hf ikey n flt data uninit C Hl L Lu). Qed.
Print Assumptions C73_apply_nonreduce.
Example C73_case : apply_nonreduce 0 [1; 2; 1; 2] 2 None (@rev nat) [10; 20; 30; 40] 0 [0; 0; 0; 0] = Some [30; 40; 10; 20].
Proof. vm_compute. reflexivity. Qed.

(** *** C74: count with transform *)
Theorem C74_count_transform_partial :
  forall (inv : nat) (ikey : list nat) (n : nat) (flt : option (list bool)) (r k : nat),
  codes_in n ikey -> (forall fl, flt = Some fl -> length fl = length ikey) -> nth_error ikey r = Some (S k) ->
  nth_error (count_transform inv ikey n flt) r = Some (length (filter (Nat.eqb (S k)) (passing flt ikey))).
Proof. intros. apply count_transform_ok; assumption. Qed.
Print Assumptions C74_count_transform_partial.
(** A filtered row gets the count of the last group. *)
Theorem C74_count_transform_refuted :
  exists (ikey : list nat) (n : nat), codes_in n ikey /\ nth_error ikey 0 = Some 0 /\
    length (filter (Nat.eqb 0) ikey) = 1 /\ nth_error (count_transform 0 ikey n None) 0 = Some 3.
Proof. exists [0; 1; 2; 2; 2], 2. vm_compute. repeat split. repeat constructor. Qed.
Print Assumptions C74_count_transform_refuted.
Example C74_case : count_transform 0 [1; 2; 1; 1] 2 (Some [true; true; false; true]) = [2; 1; 2; 2].
Proof. vm_compute. reflexivity. Qed.
