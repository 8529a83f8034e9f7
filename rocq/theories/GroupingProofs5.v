(** Proofs about user functions applied to groups, and counts. *)
From Coq Require Import List Arith ZArith Bool Lia Permutation.
From Verif Require Import GroupModel GroupFacts FlattenModel FillProofs GroupingModel GroupingSpec GroupingProofs GroupingProofs3 GroupingProofs4.
Import ListNotations.

Lemma combine_map_same {X Y Z} (f : X -> Y) (g : X -> Z) l : combine (map f l) (map g l) = map (fun x => (f x, g x)) l.
Proof. induction l; cbn; [reflexivity|]. f_equal. assumption. Qed.

Lemma nth_error_ext_map {X Y} (f : X -> Y) (g : nat -> Y) l s :
  (forall j x, nth_error l j = Some x -> f x = g (s + j)) -> map f l = map g (seq s (length l)).
Proof.
  revert s. induction l as [|x l IH]; intros s H; [reflexivity|]. cbn [map length seq]. f_equal.
  - rewrite (H 0 x eq_refl). f_equal. lia.
  - apply IH. intros j y E. rewrite (H (S j) y E). f_equal. lia.
Qed.
Lemma nth_error_firstn' {X} (l : list X) n j : j < n -> nth_error (firstn n l) j = nth_error l j.
Proof. revert n j. induction l as [|x l IH]; intros [|n] [|j] H; try lia; try reflexivity. cbn. apply IH. lia. Qed.

Section Reduce.
Context {X V D : Type}.
Variables (dtype_of : V -> D) (cast : D -> V -> V) (invalid : D -> V) (x0 : X).
Implicit Types (f : list X -> V) (data : list X).

(** the result of group [g], in an array of dtype [d] *)
Definition group_value (d : D) f (keys : list nat) data (g : nat) : V :=
  match members keys data g with [] => invalid d | m => cast d (f m) end.

Lemma count_members keys data g : length keys = length data -> length (group_rows keys g) = length (members keys data g).
Proof using x0. intros L. rewrite <- (rows_members x0 keys data g L), map_length. reflexivity. Qed.

Lemma group_results_eq keys n f data : length keys = length data ->
  group_results x0 (pack_of keys n) f data =
  map (fun g => match members keys data g with [] => None | m => Some (f m) end) (seq 0 (S n)).
Proof using.
  intros L. unfold group_results, pack_of, packed_col. cbn [p_igroup p_ifirst p_ncount].
  assert (E : combine (ifirstgroup keys n) (ncountgroup keys n) =
              map (fun g => (nth g (ifirstgroup keys n) 0, nth g (ncountgroup keys n) 0)) (seq 0 (S n))).
  { unfold ifirstgroup at 1, ncountgroup at 1. rewrite combine_map_same. apply map_ext_in. intros g I. apply in_seq in I.
    unfold ifirstgroup, ncountgroup. rewrite !nth_map_seq0 by lia. reflexivity. }
  rewrite E, map_map. apply map_ext_in. intros g I. apply in_seq in I.
  rewrite packed_block by (auto; lia).
  unfold ncountgroup. rewrite nth_map_seq0 by lia. rewrite (count_members keys data g L).
  destruct (members keys data g); reflexivity.
Qed.

Definition uniform (d : D) f : Prop := forall l, l <> [] -> dtype_of (f l) = d.

Lemma first_some_uniform d f keys data l : uniform d f ->
  (exists g, In g l /\ members keys data g <> []) ->
  option_map dtype_of (first_some (map (fun g => match members keys data g with [] => None | m => Some (f m) end) l)) = Some d.
Proof using.
  intros U [g [I Ne]]. induction l as [|h l IH]; [destruct I|]. cbn [map first_some].
  destruct (members keys data h) as [|x r] eqn:E.
  - apply IH. destruct I as [->|I]; [congruence|exact I].
  - cbn. f_equal. apply U. discriminate.
Qed.

Lemma reduce_col_eq keys n f d dt data : length keys = length data ->
  (dt = Some d \/ (dt = None /\ uniform d f /\ exists g, g <= n /\ members keys data g <> [])) ->
  reduce_col dtype_of cast invalid x0 (pack_of keys n) f dt data = Some (d, map (group_value d f keys data) (seq 0 (S n))).
Proof using.
  intros L H. unfold reduce_col. rewrite (group_results_eq keys n f data L).
  assert (E : match dt with Some d0 => Some d0 | None => option_map dtype_of (first_some (map (fun g => match members keys data g with [] => None | m => Some (f m) end) (seq 0 (S n)))) end = Some d).
  { destruct H as [->|[-> [U [g [Hg Ne]]]]]; [reflexivity|]. apply first_some_uniform; [exact U|]. exists g. split; [apply in_seq; lia|exact Ne]. }
  rewrite E. rewrite map_map. do 2 f_equal. apply map_ext. intros g. unfold group_value. destruct (members keys data g); reflexivity.
Qed.

Lemma reduce_cols_eq keys n f d : forall ds dt, (forall data, In data ds -> length keys = length data) ->
  (dt = Some d \/ (dt = None /\ uniform d f /\ forall data, In data ds -> exists g, g <= n /\ members keys data g <> [])) ->
  reduce_cols dtype_of cast invalid x0 (pack_of keys n) f dt ds =
  Some (map (fun data => map (group_value d f keys data) (seq 1 n)) ds).
Proof using.
  induction ds as [|data ds IH]; intros dt L H; [reflexivity|].
  cbn [reduce_cols map]. rewrite (reduce_col_eq keys n f d dt data).
  - rewrite IH; [reflexivity|intros; apply L; now right|now left].
  - apply L. now left.
  - destruct H as [->|[-> [U G]]]; [now left|right]. split; [reflexivity|]. split; [exact U|]. apply G. now left.
Qed.
End Reduce.

(** some group is not empty as soon as there is a row *)
Lemma some_members {X} keys n (data : list X) : length keys = length data -> keys <> [] -> codes_in n keys -> exists g, g <= n /\ members keys data g <> [].
Proof.
  destruct keys as [|k keys]; [congruence|]. destruct data as [|x data]; [discriminate|]. intros _ _ C. inversion C; subst.
  exists k. split; [assumption|]. unfold members. cbn. rewrite Nat.eqb_refl. discriminate.
Qed.
Lemma passing_codes flt ikey n : codes_in n ikey -> codes_in n (passing flt ikey).
Proof.
  intros C. destruct flt as [f|]; [|exact C]. cbn. apply Forall_forall. intros k I. apply in_map_iff in I. destruct I as [[a b] [<- I]].
  cbn. destruct b; [|lia]. apply in_combine_l in I. eapply Forall_forall in C; eauto.
Qed.

(** *** non reducing functions *)
Section NonReduce.
Context {X V : Type}.
Variables (x0 : X) (v0 : V).
Variable f : list X -> list V.
Hypothesis f_len : forall l, length (f l) = length l.

Definition blk (keys : list nat) (data : list X) (g : nat) : list V :=
  match members keys data g with [] => [] | m => f m end.
Lemma blk_length keys data g : length keys = length data -> length (blk keys data g) = length (group_rows keys g).
Proof using f_len x0.
  intros L. unfold blk. rewrite (count_members x0 keys data g L). destruct (members keys data g) as [|x r] eqn:E; [reflexivity|]. rewrite f_len. reflexivity.
Qed.

Lemma nonreduce_go_eq keys n data : length keys = length data -> forall k g done rest, g + k = S n ->
  done = concat (map (blk keys data) (seq 0 g)) ->
  length rest = list_sum (map (fun g => length (group_rows keys g)) (seq g k)) ->
  nonreduce_go (map (fun r => nth r data x0) (igroup keys n)) f
    (map (fun g => (nth g (ifirstgroup keys n) 0, nth g (ncountgroup keys n) 0)) (seq g k)) (done ++ rest) =
  Some (concat (map (blk keys data) (seq 0 (S n)))).
Proof using f_len.
  intros L. induction k as [|k IH]; intros g done rest Hg Hd Hr.
  - cbn [seq map nonreduce_go]. cbn in Hr. destruct rest; [|discriminate]. rewrite app_nil_r, Hd. replace g with (S n) by lia. reflexivity.
  - cbn [seq map nonreduce_go].
    assert (HR : length rest = length (group_rows keys g) + list_sum (map (fun g => length (group_rows keys g)) (seq (S g) k))) by exact Hr.
    assert (Lb := blk_length keys data g L).
    assert (Hf : nth g (ifirstgroup keys n) 0 = length done).
    { unfold ifirstgroup. rewrite nth_map_seq0 by lia. rewrite Hd. clear -Lb L f_len x0.
      assert (Q : forall l, length (concat (map (group_rows keys) l)) = length (concat (map (blk keys data) l))).
      { induction l as [|h l IHl]; [reflexivity|]. cbn. rewrite !app_length, IHl, blk_length by exact L. reflexivity. }
      apply Q. }
    rewrite packed_block by (auto; lia).
    assert (Hn : nth g (ncountgroup keys n) 0 = length (group_rows keys g)) by (unfold ncountgroup; rewrite nth_map_seq0 by lia; reflexivity).
    rewrite Hn, Hf. assert (Cm := count_members x0 keys data g L).
    assert (Sd : done ++ blk keys data g = concat (map (blk keys data) (seq 0 (S g)))).
    { rewrite seq_S, map_app, concat_app, Hd. cbn. rewrite app_nil_r. reflexivity. }
    destruct (Nat.ltb_spec 0 (length (group_rows keys g))) as [P|P].
    + rewrite f_len, Cm, Nat.eqb_refl.
      assert (Eb : blk keys data g = f (members keys data g)).
      { unfold blk. destruct (members keys data g); [cbn in Cm; lia|reflexivity]. }
      rewrite <- Eb. rewrite put_slice_at by lia. rewrite Sd. apply (IH (S g) _ _ ltac:(lia) eq_refl).
      rewrite skipn_length. lia.
    + assert (Eb : blk keys data g = []) by (destruct (blk keys data g); [reflexivity|cbn in Lb; lia]).
      apply (IH (S g)); [lia| |lia]. rewrite <- Sd, Eb, app_nil_r. reflexivity.
Qed.

Lemma members_map_rows keys (out : list V) g : length keys = length out -> members keys out g = map (fun r => nth r out v0) (group_rows keys g).
Proof using. intros L. symmetry. apply rows_members. exact L. Qed.

Lemma igroup_perm keys n : codes_in n keys -> Permutation (igroup keys n) (seq 0 (length keys)).
Proof using.
  intros C. apply NoDup_Permutation.
  - unfold igroup. generalize (seq_NoDup (S n) 0). generalize (seq 0 (S n)) as l. intros l Nl. induction Nl as [|g l Ng Nl IH]; cbn; [constructor|].
    apply FlattenProofs.NoDup_app_d; [apply group_rows_nodup|exact IH|].
    intros r Hr Hc. apply in_concat in Hc. destruct Hc as [z [Hz Hrz]]. apply in_map_iff in Hz. destruct Hz as [h [<- Hh]].
    apply group_rows_in in Hr. apply group_rows_in in Hrz. assert (g = h) by congruence. subst. contradiction.
  - apply seq_NoDup.
  - intros r. unfold igroup. rewrite in_concat, in_seq. split.
    + intros [z [Hz Hr]]. apply in_map_iff in Hz. destruct Hz as [g [<- _]]. apply group_rows_in in Hr. assert (r < length keys) by (apply nth_error_Some; congruence). lia.
    + intros [_ Hr]. destruct (some_lt keys r Hr) as [g Eg]. exists (group_rows keys g). split; [|apply group_rows_in; exact Eg].
      apply in_map_iff. exists g. split; [reflexivity|]. eapply Forall_forall in C; [|eapply nth_error_In; exact Eg]. apply in_seq. lia.
Qed.

Theorem apply_nonreduce_ok ikey n flt data uninit :
  codes_in n ikey -> (forall fl, flt = Some fl -> length fl = length ikey) -> length ikey = length data -> length uninit = length data ->
  let keys := passing flt ikey in
  exists out, apply_nonreduce x0 ikey n flt f data v0 uninit = Some out /\ length out = length data /\
    forall g, g <= n -> members keys data g <> [] -> members keys out g = f (members keys data g).
Proof using f_len.
  intros C Hf L Lu keys. assert (Lk : length keys = length data) by (subst keys; rewrite passing_length by exact Hf; exact L).
  assert (Ck : codes_in n keys) by (apply passing_codes; exact C).
  pose proof (igroup_perm keys n Ck) as P. pose proof (Permutation_length P) as PL. rewrite seq_length in PL.
  unfold apply_nonreduce. fold keys. unfold pack_of. cbn [p_igroup p_ifirst p_ncount].
  assert (E : combine (ifirstgroup keys n) (ncountgroup keys n) =
              map (fun g => (nth g (ifirstgroup keys n) 0, nth g (ncountgroup keys n) 0)) (seq 0 (S n))).
  { unfold ifirstgroup at 1, ncountgroup at 1. rewrite combine_map_same. apply map_ext_in. intros g I. apply in_seq in I.
    unfold ifirstgroup, ncountgroup. rewrite !nth_map_seq0 by lia. reflexivity. }
  rewrite E.
  assert (Q := nonreduce_go_eq keys n data Lk (S n) 0 [] uninit eq_refl eq_refl).
  cbn [app] in Q. rewrite Q; clear Q.
  2:{ rewrite Lu, <- Lk, <- PL. unfold igroup. clear. generalize (seq 0 (S n)) as l. induction l as [|g l IH]; [reflexivity|]. cbn [map concat].
      rewrite app_length, IH. reflexivity. }
  cbn [option_map]. eexists. split; [reflexivity|].
  set (o := concat (map (blk keys data) (seq 0 (S n)))).
  assert (Lo : length (map (fun j => nth j o v0) (reverse_shuffle (igroup keys n))) = length data).
  { unfold reverse_shuffle. rewrite !map_length, seq_length. lia. }
  split; [exact Lo|]. intros g Hg Ne.
  rewrite members_map_rows by lia.
  transitivity (map (fun i => nth i o v0) (seq (nth g (ifirstgroup keys n) 0) (length (group_rows keys g)))).
  - apply nth_error_ext_map.
    intros j r Ej.
    assert (Ij : nth_error (igroup keys n) (nth g (ifirstgroup keys n) 0 + j) = Some r).
    { rewrite <- (pack_slice keys n g Hg) in Ej. unfold slice in Ej.
      assert (Hj : j < nth g (ncountgroup keys n) 0).
      { assert (X0 : nth_error (firstn (nth g (ncountgroup keys n) 0) (skipn (nth g (ifirstgroup keys n) 0) (igroup keys n))) j <> None) by congruence.
        apply nth_error_Some in X0. rewrite firstn_length in X0. lia. }
      rewrite nth_error_firstn' in Ej by exact Hj. rewrite nth_error_skipn in Ej. exact Ej. }
    assert (Nd : NoDup (igroup keys n)) by (eapply Permutation_NoDup; [symmetry; exact P|apply seq_NoDup]).
    assert (Hr : r < length (igroup keys n)).
    { rewrite PL. apply nth_error_In in Ij. apply (Permutation_in _ P) in Ij. apply in_seq in Ij. lia. }
    unfold reverse_shuffle. rewrite map_map. rewrite nth_map_seq0 by exact Hr.
    rewrite (index_of_nth Nat.eqb (fun a b => Nat.eqb_eq a b) _ _ _ Nd Ij). reflexivity.
  - rewrite slice_map.
    + unfold slice, o. unfold ifirstgroup. rewrite nth_map_seq0 by lia.
      rewrite (seq_split (S n) g) by lia. rewrite map_app, concat_app. cbn [map concat].
      assert (Q : forall l, length (concat (map (group_rows keys) l)) = length (concat (map (blk keys data) l))).
      { induction l as [|h l IHl]; [reflexivity|]. cbn. rewrite !app_length, IHl, blk_length by exact Lk. reflexivity. }
      rewrite Q. rewrite skipn_app, skipn_all2 by lia. rewrite Nat.sub_diag. cbn [skipn app].
      rewrite <- (blk_length keys data g Lk). rewrite firstn_app, firstn_all, Nat.sub_diag. cbn [firstn]. rewrite app_nil_r.
      unfold blk. destruct (members keys data g); [congruence|reflexivity].
    + unfold o. unfold ifirstgroup. rewrite nth_map_seq0 by lia. rewrite (seq_split (S n) g) by lia. rewrite map_app, concat_app, app_length. cbn [map concat]. rewrite app_length, blk_length by exact Lk.
      assert (Q : forall l, length (concat (map (group_rows keys) l)) = length (concat (map (blk keys data) l))).
      { induction l as [|h l IHl]; [reflexivity|]. cbn. rewrite !app_length, IHl, blk_length by exact Lk. reflexivity. }
      rewrite Q. lia.
Qed.
End NonReduce.

(** *** counts *)
Theorem count_transform_ok inv ikey n flt r k : codes_in n ikey -> (forall fl, flt = Some fl -> length fl = length ikey) ->
  nth_error ikey r = Some (S k) ->
  nth_error (count_transform inv ikey n flt) r = Some (length (filter (Nat.eqb (S k)) (passing flt ikey))).
Proof.
  intros C Hf Hr. unfold count_transform. rewrite (map_nth_error _ _ _ Hr). f_equal.
  assert (Hk : S k <= n) by (eapply Forall_forall in C; [exact C|eapply nth_error_In; exact Hr]).
  replace (Z.of_nat (S k) - 1)%Z with (Z.of_nat k) by lia.
  unfold count_col, ncountgroup. cbn [seq map skipn]. rewrite mbget_nat by (rewrite map_length, seq_length; lia).
  rewrite (nth_map_lt _ _ k 0) by (rewrite seq_length; lia). rewrite seq_nth by lia.
  change (1 + k) with (S k). unfold group_rows. generalize (passing flt ikey) as keys. clear. intros keys.
  assert (Q : forall keys pre, length (filter (fun i => nth i (pre ++ keys) 0 =? S k) (seq (length pre) (length keys))) = length (filter (Nat.eqb (S k)) keys)).
  { induction keys0 as [|x l IH]; intros pre; [reflexivity|]. cbn [length seq filter].
    assert (E : nth (length pre) (pre ++ x :: l) 0 = x) by (rewrite app_nth2, Nat.sub_diag by lia; reflexivity). rewrite E.
    specialize (IH (pre ++ [x])). rewrite app_length, <- app_assoc in IH. cbn [length app] in IH. replace (length pre + 1) with (S (length pre)) in IH by lia.
    rewrite (Nat.eqb_sym (S k) x). destruct (x =? S k); cbn [length]; rewrite IH; reflexivity. }
  apply (Q keys []).
Qed.
