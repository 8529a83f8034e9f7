(** Time zones: parity search in the switch tables, the daylight-saving rules,
    and conversions between local time and UTC. *)
From Coq Require Import List ZArith Bool Lia.
From Verif Require Import DateTables DateSpec DateModel DateProofs.
Import ListNotations.
Open Scope Z_scope.

(** * Tables of alternating switches *)

Fixpoint flat (ps : list (Z * Z)) : list Z :=
  match ps with [] => [] | (s, e) :: ps => s :: e :: flat ps end.

(** Well-spaced periods: more than two hours between switches. *)
Fixpoint chain (lo : Z) (ps : list (Z * Z)) (tail : option Z) : bool :=
  match ps with
  | [] => match tail with Some s => lo + 2 * hour <? s | None => true end
  | (s, e) :: ps => (lo + 2 * hour <? s) && (s + 2 * hour <? e) && chain e ps tail
  end.

Definition opt_list (t : option Z) : list Z := match t with Some s => [s] | None => [] end.

Definition in_periods (ps : list (Z * Z)) (tail : option Z) (u : Z) : bool :=
  existsb (fun p => (fst p <? u) && (u <=? snd p)) ps ||
  match tail with Some s => s <? u | None => false end.

Lemma hour_pos : 0 < hour.
Proof. reflexivity. Qed.

Lemma chain_above : forall ps lo tail u, chain lo ps tail = true -> u <= lo + 2 * hour ->
  in_periods ps tail u = false.
Proof.
  induction ps as [|[s e] ps IH]; intros lo tail u H L; unfold in_periods in *; cbn [chain existsb fst snd] in *.
  - destruct tail as [s|]; [|reflexivity]. apply Z.ltb_lt in H. cbn [orb]. apply Z.ltb_ge. lia.
  - rewrite !andb_true_iff in H. destruct H as [[H1 H2] H3].
    apply Z.ltb_lt in H1. apply Z.ltb_lt in H2. pose proof hour_pos.
    replace (s <? u) with false by (symmetry; apply Z.ltb_ge; lia). cbn [andb orb].
    apply (IH e); [exact H3|lia].
Qed.

Lemma parity_ok : forall ps lo tail u, chain lo ps tail = true ->
  Nat.odd (ss_left (flat ps ++ opt_list tail) u) = in_periods ps tail u.
Proof.
  induction ps as [|[s e] ps IH]; intros lo tail u H.
  - unfold in_periods; cbn [flat app existsb orb]. destruct tail as [s|]; [|reflexivity].
    cbn [opt_list ss_left]. destruct (u <=? s) eqn:E.
    + apply Z.leb_le in E. symmetry. apply Z.ltb_ge. lia.
    + apply Z.leb_gt in E. symmetry. apply Z.ltb_lt. lia.
  - pose proof hour_pos. cbn [chain] in H. rewrite !andb_true_iff in H. destruct H as [[H1 H2] H3].
    apply Z.ltb_lt in H1. apply Z.ltb_lt in H2.
    cbn [flat app ss_left]. unfold in_periods; cbn [existsb fst snd].
    destruct (u <=? s) eqn:E.
    + apply Z.leb_le in E. replace (s <? u) with false by (symmetry; apply Z.ltb_ge; lia).
      cbn [andb orb]. symmetry. apply (chain_above ps e tail u H3). lia.
    + apply Z.leb_gt in E. replace (s <? u) with true by (symmetry; apply Z.ltb_lt; lia).
      destruct (u <=? e) eqn:F; [reflexivity|]. cbn [andb orb].
      change (Nat.odd (ss_left (flat ps ++ opt_list tail) u) = in_periods ps tail u).
      exact (IH e tail u H3).
Qed.

(** * One row *)

Definition dst_in (cut : option (list Z)) (x : Z) : bool :=
  match cut with None => false | Some c => Nat.odd (ss_left c x) end.

Definition row_local (z : zone) (u : Z) : Z :=
  u - snd (init_to_tz z) + (if dst_in (fst (init_to_tz z)) u then NANOS_PER_HOUR else 0).

Definition row_utc (z : zone) (x : Z) : Z :=
  match z with
  | UTC => x
  | _ => if x =? 0 then 0
         else x + snd (init_from_tz z) - (if dst_in (fst (init_from_tz z)) x then NANOS_PER_HOUR else 0)
  end.

Lemma fix_dst_map : forall {A} tz (f : A -> Z) l,
  fix_dst tz (map f l) = map (fun a => row_local (to_tz tz) (f a)) l.
Proof.
  intros A tz f l. unfold fix_dst, row_local. destruct (init_to_tz (to_tz tz)) as [[c|] off]; cbn [fst snd].
  - cbv zeta. cbn [mask_dst dst_in]. rewrite !map_map, compress_map, map_map, assign_map.
    apply map_ext; intros a. destruct (Nat.odd (ss_left c (f a))); lia.
  - rewrite map_map. apply map_ext; intros a. cbn [dst_in]. lia.
Qed.

Lemma to_utc_map : forall {A} tz (f : A -> Z) l,
  to_utc tz (map f l) = map (fun a => row_utc (from_tz tz) (f a)) l.
Proof.
  intros A tz f l. unfold to_utc, row_utc.
  assert (G : forall co : option (list Z) * Z,
    (let '(cut, off) := co in
      putmask_val
        (assign_mask (map (fun x => x + off) (map f l)) (mask_dst cut (map f l))
           (map (fun x => x - NANOS_PER_HOUR)
              (compress (mask_dst cut (map f l)) (map (fun x => x + off) (map f l)))))
        (map (fun x => x =? 0) (map f l)) 0) =
    map (fun a => if f a =? 0 then 0
                  else f a + snd co - (if dst_in (fst co) (f a) then NANOS_PER_HOUR else 0)) l).
  { intros [cut off]; cbn [fst snd].
    assert (E : mask_dst cut (map f l) = map (fun a => dst_in cut (f a)) l).
    { destruct cut; cbn [mask_dst]; rewrite map_map; reflexivity. }
    rewrite E, !map_map, compress_map, map_map, assign_map, putmask_val_map.
    apply map_ext; intros a. destruct (f a =? 0), (dst_in cut (f a)); lia. }
  destruct (from_tz tz); cbv zeta; try (apply G); reflexivity.
Qed.

(** * Local time and UTC *)

Section Tables.
  Variables (rs : list (Z * Z)) (rt : option Z) (cs : list (Z * Z)) (ct : option Z) (off lo clo : Z).

  (** The local-time table follows the UTC table: the start lies in the skipped
      hour, the end at the end of the repeated hour. *)
  Definition start_matches (r c : Z) : Prop := r - off <= c <= r - off + hour.
  Hypothesis Hps : Forall2 (fun r c => start_matches (fst r) (fst c) /\ snd c = snd r - off + hour) rs cs.
  Hypothesis Htl : match rt, ct with Some r, Some c => start_matches r c | None, None => True | _, _ => False end.
  Hypothesis Hchain : chain lo rs rt = true.

  Definition L (u : Z) : Z := u - off + (if in_periods rs rt u then hour else 0).
  Definition U (x : Z) : Z := x + off - (if in_periods cs ct x then hour else 0).

  Definition starts : list Z := map fst rs ++ opt_list rt.
  Definition in_gap (x : Z) : Prop := exists s, In s starts /\ s - off < x <= s - off + hour.
End Tables.

Lemma chain_starts : forall rs rt lo s, chain lo rs rt = true -> In s (starts rs rt) -> lo + 2 * hour < s.
Proof.
  induction rs as [|[s0 e0] rs IH]; intros rt lo s H Hin; cbn [chain] in H.
  - destruct rt as [t|]; [|destruct Hin]. cbn in Hin. destruct Hin as [->|[]]. apply Z.ltb_lt. exact H.
  - rewrite !andb_true_iff in H. destruct H as [[H1 H2] H3]. apply Z.ltb_lt in H1. apply Z.ltb_lt in H2.
    destruct Hin as [<-|Hin]; [cbn [fst]; lia|]. specialize (IH rt e0 s H3 Hin).
    pose proof hour_pos. lia.
Qed.

Lemma local_not_gap : forall rs rt off lo u, chain lo rs rt = true -> ~ in_gap rs rt off (L rs rt off u).
Proof.
  intros rs; induction rs as [|[s e] rs IH]; intros rt off lo u Hc (g & Hin & Hg); pose proof hour_pos as HP.
  - destruct rt as [t|]; [|destruct Hin]. cbn in Hin. destruct Hin as [->|[]].
    unfold L, in_periods in Hg; cbn [existsb orb] in Hg.
    destruct (g <? u) eqn:E; [apply Z.ltb_lt in E|apply Z.ltb_ge in E]; lia.
  - cbn [chain] in Hc. rewrite !andb_true_iff in Hc. destruct Hc as [[H1 H2] H3].
    apply Z.ltb_lt in H1. apply Z.ltb_lt in H2.
    assert (Hs : forall t, In t (starts rs rt) -> e + 2 * hour < t)
      by (intros t Ht; exact (chain_starts rs rt e t H3 Ht)).
    unfold L in Hg. unfold in_periods in Hg; cbn [existsb fst snd] in Hg.
    destruct (Z.le_gt_cases u s) as [A|A].
    { (* before the first period *)
      assert (N : in_periods rs rt u = false) by (apply (chain_above rs e); [exact H3|lia]).
      unfold in_periods in N. replace (s <? u) with false in Hg by (symmetry; apply Z.ltb_ge; lia).
      cbn [andb orb] in Hg. rewrite N in Hg.
      destruct Hin as [<-|Hin]; [cbn [fst] in Hg; lia|]. specialize (Hs g Hin). lia. }
    replace (s <? u) with true in Hg by (symmetry; apply Z.ltb_lt; lia).
    destruct (Z.le_gt_cases u e) as [B|B].
    { replace (u <=? e) with true in Hg by (symmetry; apply Z.leb_le; lia). cbn [andb orb] in Hg.
      destruct Hin as [<-|Hin]; [cbn [fst] in Hg; lia|]. specialize (Hs g Hin). lia. }
    replace (u <=? e) with false in Hg by (symmetry; apply Z.leb_gt; lia). cbn [andb orb] in Hg.
    destruct Hin as [<-|Hin].
    { cbn [fst] in Hg. destruct (existsb _ rs || _); lia. }
    apply (IH rt off e u H3). exists g. split; [exact Hin|]. unfold L, in_periods. exact Hg.
Qed.

(** Reading a local time that is not skipped and showing it again gives the
    same local time. *)
Lemma local_round_trip : forall rs rt cs ct off lo x,
  Forall2 (fun r c => start_matches off (fst r) (fst c) /\ snd c = snd r - off + hour) rs cs ->
  match rt, ct with Some r, Some c => start_matches off r c | None, None => True | _, _ => False end ->
  chain lo rs rt = true -> ~ in_gap rs rt off x -> L rs rt off (U cs ct off x) = x.
Proof.
  intros rs; induction rs as [|[s e] rs IH]; intros rt cs ct off lo x Hps Htl Hc Hg; pose proof hour_pos as HP.
  - inversion Hps; subst cs. unfold L, U, in_periods; cbn [existsb orb].
    destruct rt as [r|], ct as [c|]; try contradiction; [|lia].
    unfold start_matches in Htl.
    assert (G : ~ (r - off < x <= r - off + hour)) by (intros Q; apply Hg; exists r; split; [left; reflexivity|exact Q]).
    destruct (c <? x) eqn:E; [apply Z.ltb_lt in E|apply Z.ltb_ge in E].
    + replace (r <? x + off - hour) with true by (symmetry; apply Z.ltb_lt; lia). lia.
    + replace (r <? x + off - 0) with false by (symmetry; apply Z.ltb_ge; lia). lia.
  - inversion Hps as [|[a b] [cs0 ce] rs' cs' [Hst Hen] Hrest]; subst. cbn [fst snd] in *. unfold start_matches in Hst. subst ce.
    cbn [chain] in Hc. rewrite !andb_true_iff in Hc. destruct Hc as [[H1 H2] H3].
    apply Z.ltb_lt in H1. apply Z.ltb_lt in H2.
    assert (G : ~ (s - off < x <= s - off + hour)) by (intros Q; apply Hg; exists s; split; [left; reflexivity|exact Q]).
    assert (Gr : ~ in_gap rs rt off x).
    { intros (g & Hin & Q). apply Hg. exists g. split; [right; exact Hin|exact Q]. }
    specialize (IH rt cs' ct off e x Hrest Htl H3 Gr).
    unfold L, U, in_periods; unfold L, U, in_periods in IH. cbn [existsb fst snd].
    destruct (Z.le_gt_cases x cs0) as [A|A].
    { (* before: no local period can contain x *)
      assert (N : in_periods cs' ct x = false).
      { clear - Hrest Htl H3 Hst A HP H2. revert e cs' Hrest H3 H2.
        induction rs as [|[s1 e1] rs IH]; intros e cs' Hrest H3 H2.
        - inversion Hrest; subst. unfold in_periods; cbn [existsb orb].
          destruct rt as [r|], ct as [c|]; try contradiction; [|reflexivity].
          unfold start_matches in Htl. cbn [chain] in H3. apply Z.ltb_lt in H3. apply Z.ltb_ge. lia.
        - inversion Hrest as [|[a b] [c1 d1] rs' cs'' [Hst1 Hen1] Hrest1]; subst. cbn [fst snd] in *.
          unfold start_matches in Hst1.
          cbn [chain] in H3. rewrite !andb_true_iff in H3. destruct H3 as [[K1 K2] K3].
          apply Z.ltb_lt in K1. apply Z.ltb_lt in K2.
          unfold in_periods; cbn [existsb fst snd].
          replace (c1 <? x) with false by (symmetry; apply Z.ltb_ge; lia). cbn [andb orb].
          apply (IH e1); [exact Hrest1|exact K3|lia]. }
      unfold in_periods in N. replace (cs0 <? x) with false by (symmetry; apply Z.ltb_ge; lia).
      cbn [andb orb]. rewrite N.
      assert (M : in_periods rs rt (x + off - 0) = false) by (apply (chain_above rs e); [exact H3|lia]).
      unfold in_periods in M.
      replace (s <? x + off - 0) with false by (symmetry; apply Z.ltb_ge; lia). cbn [andb orb]. rewrite M. lia. }
    replace (cs0 <? x) with true by (symmetry; apply Z.ltb_lt; lia).
    destruct (Z.le_gt_cases x (e - off + hour)) as [B|B].
    { replace (x <=? e - off + hour) with true by (symmetry; apply Z.leb_le; lia). cbn [andb orb].
      replace (s <? x + off - hour) with true by (symmetry; apply Z.ltb_lt; lia).
      replace (x + off - hour <=? e) with true by (symmetry; apply Z.leb_le; lia). cbn [andb orb]. lia. }
    replace (x <=? e - off + hour) with false by (symmetry; apply Z.leb_gt; lia). cbn [andb orb].
    match goal with |- context [x + off - (if ?b then hour else 0)] => set (dd := b) in * end.
    replace (x + off - (if dd then hour else 0) <=? e) with false
      by (symmetry; apply Z.leb_gt; destruct dd; lia).
    rewrite andb_false_r. cbn [orb]. exact IH.
Qed.

(** * The zones *)

Fixpoint pairs (l : list Z) : list (Z * Z) * option Z :=
  match l with
  | [] => ([], None)
  | [s] => ([], Some s)
  | s :: e :: r => let '(ps, t) := pairs r in ((s, e) :: ps, t)
  end.

Lemma pairs_flat : forall n l, (length l <= n)%nat -> flat (fst (pairs l)) ++ opt_list (snd (pairs l)) = l.
Proof.
  induction n as [|n IH]; intros l H.
  - destruct l; [reflexivity|cbn in H; lia].
  - destruct l as [|s [|e r]]; [reflexivity|reflexivity|].
    cbn [pairs]. specialize (IH r). cbn [length] in H. destruct (pairs r) as [ps t].
    cbn [fst snd flat app] in *. rewrite IH by lia. reflexivity.
Qed.

Definition cut_of (c : option (list Z)) : list Z := match c with Some c => c | None => [] end.
Definition rev_pairs (z : zone) := pairs (cut_of (fst (init_to_tz z))).
Definition cut_pairs (z : zone) := pairs (cut_of (fst (init_from_tz z))).
Definition table_lo : Z := - 1000 * day.

Lemma rev_chain : forall z, chain table_lo (fst (rev_pairs z)) (snd (rev_pairs z)) = true.
Proof. destruct z; vm_compute; reflexivity. Qed.

Lemma cut_chain : forall z, chain table_lo (fst (cut_pairs z)) (snd (cut_pairs z)) = true.
Proof. destruct z; vm_compute; reflexivity. Qed.

Definition match_startb (off r c : Z) : bool := (r - off <=? c) && (c <=? r - off + hour).
Fixpoint match_pairsb (off : Z) (rs cs : list (Z * Z)) : bool :=
  match rs, cs with
  | [], [] => true
  | r :: rs, c :: cs => match_startb off (fst r) (fst c) && (snd c =? snd r - off + hour) && match_pairsb off rs cs
  | _, _ => false
  end.

Lemma match_startb_ok : forall off r c, match_startb off r c = true -> start_matches off r c.
Proof.
  intros off r c H. unfold match_startb in H. apply andb_true_iff in H. destruct H as [A B].
  apply Z.leb_le in A. apply Z.leb_le in B. unfold start_matches. lia.
Qed.

Lemma match_pairsb_ok : forall off rs cs, match_pairsb off rs cs = true ->
  Forall2 (fun r c => start_matches off (fst r) (fst c) /\ snd c = snd r - off + hour) rs cs.
Proof.
  induction rs as [|r rs IH]; intros [|c cs] H; try discriminate; [constructor|].
  cbn [match_pairsb] in H. rewrite !andb_true_iff in H. destruct H as [[A B] C].
  constructor; [split|apply IH; exact C]; [apply match_startb_ok; exact A|apply Z.eqb_eq; exact B].
Qed.

Lemma zone_match : forall z,
  match_pairsb (snd (init_to_tz z)) (fst (rev_pairs z)) (fst (cut_pairs z)) = true /\
  match snd (rev_pairs z), snd (cut_pairs z) with
  | Some r, Some c => match_startb (snd (init_to_tz z)) r c = true | None, None => True | _, _ => False end.
Proof. destruct z; split; vm_compute; auto. Qed.

Lemma offsets_same : forall z, snd (init_from_tz z) = snd (init_to_tz z).
Proof. destruct z; reflexivity. Qed.

Lemma row_local_L : forall z u,
  row_local z u = L (fst (rev_pairs z)) (snd (rev_pairs z)) (snd (init_to_tz z)) u.
Proof.
  intros z u. unfold row_local, L. f_equal.
  replace (dst_in (fst (init_to_tz z)) u) with (in_periods (fst (rev_pairs z)) (snd (rev_pairs z)) u); [reflexivity|].
  rewrite <- (parity_ok _ table_lo _ _ (rev_chain z)). unfold rev_pairs.
  rewrite (pairs_flat _ _ (Nat.le_refl _)).
  destruct (fst (init_to_tz z)); reflexivity.
Qed.

Lemma row_utc_U : forall z x, x <> 0 ->
  row_utc z x = U (fst (cut_pairs z)) (snd (cut_pairs z)) (snd (init_to_tz z)) x.
Proof.
  intros z x Hx. unfold U.
  assert (D : dst_in (fst (init_from_tz z)) x = in_periods (fst (cut_pairs z)) (snd (cut_pairs z)) x).
  { rewrite <- (parity_ok _ table_lo _ _ (cut_chain z)). unfold cut_pairs.
    rewrite (pairs_flat _ _ (Nat.le_refl _)).
    destruct (fst (init_from_tz z)); reflexivity. }
  rewrite <- D, <- offsets_same. unfold row_utc.
  replace (x =? 0) with false by (symmetry; apply Z.eqb_neq; exact Hx).
  destruct z; try reflexivity. cbn. lia.
Qed.

Definition skipped (z : zone) (x : Z) : Prop :=
  in_gap (fst (rev_pairs z)) (snd (rev_pairs z)) (snd (init_to_tz z)) x.

Lemma zone_round_trip : forall z x, x <> 0 -> ~ skipped z x -> row_local z (row_utc z x) = x.
Proof.
  intros z x Hx Hg. rewrite row_utc_U by exact Hx. rewrite row_local_L.
  destruct (zone_match z) as [M T].
  apply local_round_trip with (lo := table_lo).
  - apply match_pairsb_ok. exact M.
  - destruct (snd (rev_pairs z)), (snd (cut_pairs z)); try contradiction; auto. apply match_startb_ok. exact T.
  - apply rev_chain.
  - exact Hg.
Qed.

Lemma shown_not_skipped : forall z u, ~ skipped z (row_local z u).
Proof. intros z u. rewrite row_local_L. eapply local_not_gap. apply rev_chain. Qed.

Lemma shown_round_trip : forall z u, row_local z u <> 0 -> row_local z (row_utc z (row_local z u)) = row_local z u.
Proof. intros. apply zone_round_trip; [assumption|apply shown_not_skipped]. Qed.

(** No skipped hour contains midnight. *)
Lemma midnight_not_skipped : forall z k, ~ skipped z (k * day).
Proof.
  intros z k (s & Hin & Hs).
  assert (G : forallb (fun s => let m := (s - snd (init_to_tz z)) mod day in (m + hour <? day))
                (starts (fst (rev_pairs z)) (snd (rev_pairs z))) = true) by (destruct z; vm_compute; reflexivity).
  rewrite forallb_forall in G. specialize (G s Hin). cbv zeta in G. apply Z.ltb_lt in G.
  set (a := s - snd (init_to_tz z)) in *.
  pose proof (Z.div_mod a day ltac:(discriminate)) as E.
  pose proof (Z.mod_pos_bound a day eq_refl) as B.
  set (q := a / day) in *. set (r := a mod day) in *.
  assert (day * q + r < k * day <= day * q + r + hour) by lia.
  pose proof hour_pos. assert (DP : 0 < day) by reflexivity.
  clearbody q r. clear - H G B DP.
  assert (q < k) by (apply (Z.mul_lt_mono_pos_l day); [exact DP|lia]).
  assert (k < q + 1) by (apply (Z.mul_lt_mono_pos_l day); [exact DP|lia]). lia.
Qed.

(** * The daylight-saving rules *)

Definition years (y0 : Z) (n : nat) : list Z := map (fun k => y0 + Z.of_nat k) (seq 0 n).

Lemma years_in : forall y0 n y, In y (years y0 n) <-> y0 <= y < y0 + Z.of_nat n.
Proof.
  intros. unfold years. rewrite in_map_iff. split.
  - intros (k & <- & H). apply in_seq in H. lia.
  - intros H. exists (Z.to_nat (y - y0)). split; [lia|]. apply in_seq. lia.
Qed.

Lemma rule_generic : forall z per y0 n pre suf u,
  fst (rev_pairs z) = pre ++ map per (years y0 n) ++ suf ->
  (forall p, In p pre -> snd p < u) -> (forall p, In p suf -> u <= fst p) ->
  (forall s, snd (rev_pairs z) = Some s -> u <= s) ->
  1970 <= y0 ->
  (forall y, 1970 <= y < y0 -> snd (per y) < u) ->
  (forall y, y0 + Z.of_nat n <= y -> u < fst (per y)) ->
  (forall y, 1970 <= y -> u <> fst (per y) /\ u <> snd (per y)) ->
  (in_periods (fst (rev_pairs z)) (snd (rev_pairs z)) u = true <->
   exists y, 1970 <= y /\ fst (per y) <= u < snd (per y)).
Proof.
  intros z per y0 n pre suf u E Hpre Hsuf Htl Hy0 Hlow Hhigh Hsw. unfold in_periods. rewrite orb_true_iff, existsb_exists.
  split.
  - intros [(p & Hin & Hp)|Ht].
    + apply andb_true_iff in Hp. destruct Hp as [A B]. apply Z.ltb_lt in A. apply Z.leb_le in B.
      rewrite E in Hin. rewrite !in_app_iff in Hin. destruct Hin as [Hin|[Hin|Hin]].
      * specialize (Hpre p Hin). lia.
      * apply in_map_iff in Hin. destruct Hin as (y & <- & Hy). apply years_in in Hy.
        exists y. destruct (Hsw y) as [S1 S2]; [lia|]. split; [lia|]. lia.
      * specialize (Hsuf p Hin). lia.
    + destruct (snd (rev_pairs z)) as [s|]; [|discriminate]. apply Z.ltb_lt in Ht.
      specialize (Htl s eq_refl). lia.
  - intros (y & Hy & Hu). left. exists (per y). destruct (Hsw y Hy) as [S1 S2]. split.
    + rewrite E, !in_app_iff. right. left. apply in_map_iff. exists y. split; [reflexivity|].
      apply years_in.
      destruct (Z.lt_ge_cases y y0) as [A|A]; [specialize (Hlow y); lia|].
      destruct (Z.lt_ge_cases y (y0 + Z.of_nat n)) as [B|B]; [lia|]. specialize (Hhigh y B). lia.
    + apply andb_true_iff; split; [apply Z.ltb_lt|apply Z.leb_le]; lia.
Qed.

Lemma sunday_from_bounds : forall d, d <= sunday_from d < d + 7.
Proof. intros d. unfold sunday_from. pose proof (Z.mod_pos_bound (3 - d) 7 eq_refl). lia. Qed.

Lemma date_ge : forall y m d, 1 <= d -> days_to_year y <= date y m d.
Proof.
  intros y m d H. unfold date, day_number; cbn [c_year c_month c_day].
  pose proof (days_to_month_pos y m). lia.
Qed.

Lemma last_sunday_ge : forall y m, days_to_year y <= last_sunday y m.
Proof.
  intros y m. unfold last_sunday.
  pose proof (sunday_from_bounds (date y m (month_len y m) - 6)) as [G _].
  unfold date, day_number in *; cbn [c_year c_month c_day] in *.
  pose proof (days_to_month_pos y m). pose proof (month_len_pos y m). lia.
Qed.

Lemma nth_sunday_ge : forall y m n, 1 <= n -> days_to_year y <= nth_sunday y m n.
Proof.
  intros y m n H. unfold nth_sunday.
  pose proof (sunday_from_bounds (date y m (7 * (n - 1) + 1))) as [G _].
  pose proof (date_ge y m (7 * (n - 1) + 1)). lia.
Qed.

Lemma year_after : forall y y0, 1970 <= y0 <= y -> days_to_year y0 <= days_to_year y.
Proof.
  intros y y0 H. pose proof (days_to_year_mono y0 (y - y0)) as G.
  replace (y0 + (y - y0)) with y in G by lia. lia.
Qed.

Lemma jan1 : forall y, date y 1 1 = days_to_year y.
Proof.
  intros y. unfold date, day_number; cbn [c_year c_month c_day].
  change (days_to_month y 1) with 0. lia.
Qed.

(** In the covered range and off the switch instants, the table says summer
    time exactly when the rule does. *)
Theorem dst_rule : forall z u, covered z u -> ~ switch_instant z u ->
  (dst_in (fst (init_to_tz z)) u = true <-> summer z u).
Proof.
  intros z u Hc Hs.
  assert (D : dst_in (fst (init_to_tz z)) u = in_periods (fst (rev_pairs z)) (snd (rev_pairs z)) u).
  { rewrite <- (parity_ok _ table_lo _ _ (rev_chain z)). unfold rev_pairs.
    rewrite (pairs_flat _ _ (Nat.le_refl _)). destruct (fst (init_to_tz z)); reflexivity. }
  rewrite D.
  assert (SW : forall per, (forall y, dst_period z y = Some (per y)) ->
     forall y, 1970 <= y -> u <> fst (per y) /\ u <> snd (per y)).
  { intros per Hp y Hy. split; intros E; apply Hs; exists y, (fst (per y)), (snd (per y));
      (split; [exact Hy|split; [rewrite Hp, <- surjective_pairing; reflexivity|auto]]). }
  assert (SM : forall per, (forall y, dst_period z y = Some (per y)) ->
     ((exists y, 1970 <= y /\ fst (per y) <= u < snd (per y)) <-> summer z u)).
  { intros per Hp. split.
    - intros (y & Hy & Hu). exists y, (fst (per y)), (snd (per y)).
      split; [exact Hy|split; [rewrite Hp, <- surjective_pairing; reflexivity|exact Hu]].
    - intros (y & s & e & Hy & E & Hu). exists y. split; [exact Hy|].
      rewrite Hp in E. assert (Q : per y = (s, e)) by congruence. rewrite Q. exact Hu. }
  assert (HP := hour_pos). assert (DP : 0 < day) by reflexivity.
  destruct z; cbn [covered] in Hc.
  - (* UTC *) split; [intros H; discriminate|intros (y & s & e & _ & E & _); discriminate].
  - (* New York *)
    rewrite <- (SM new_york_period (fun y => eq_refl)).
    apply (rule_generic NewYork new_york_period 1970 71 [] [] u).
    + vm_compute; reflexivity.
    + intros p [].
    + intros p [].
    + intros s H. vm_compute in H. discriminate.
    + lia.
    + intros y Hy; lia.
    + intros y Hy. unfold new_york_period; cbn [fst].
      replace (y =? 1974) with false by (symmetry; apply Z.eqb_neq; lia).
      replace (y =? 1975) with false by (symmetry; apply Z.eqb_neq; lia).
      replace (y <=? 1986) with false by (symmetry; apply Z.leb_gt; lia).
      replace (y <=? 2006) with false by (symmetry; apply Z.leb_gt; lia).
      pose proof (nth_sunday_ge y 3 2 ltac:(lia)). pose proof (year_after y 2041 ltac:(lia)).
      rewrite jan1 in Hc. unfold at_std, std_offset. nia.
    + apply (SW new_york_period). reflexivity.
  - (* Dublin *)
    rewrite <- (SM dublin_period (fun y => eq_refl)).
    apply (rule_generic Dublin dublin_period 1981 60 (firstn 9 (fst (rev_pairs Dublin))) [] u).
    + vm_compute; reflexivity.
    + intros p Hp.
      assert (G : forallb (fun p => snd p <? date 1981 1 1 * day) (firstn 9 (fst (rev_pairs Dublin))) = true)
        by (vm_compute; reflexivity).
      rewrite forallb_forall in G. specialize (G p Hp). apply Z.ltb_lt in G. lia.
    + intros p [].
    + intros s H. vm_compute in H. discriminate.
    + lia.
    + intros y Hy.
      assert (G : forallb (fun y => snd (dublin_period y) <? date 1981 1 1 * day) (years 1970 11) = true)
        by (vm_compute; reflexivity).
      rewrite forallb_forall in G. specialize (G y). rewrite years_in in G. specialize (G ltac:(lia)).
      apply Z.ltb_lt in G. lia.
    + intros y Hy. unfold dublin_period; cbn [fst].
      pose proof (last_sunday_ge y 3). pose proof (year_after y 2041 ltac:(lia)).
      rewrite !jan1 in Hc. unfold at_std, std_offset. nia.
    + apply (SW dublin_period). reflexivity.
  - (* Sydney *)
    rewrite <- (SM sydney_period (fun y => eq_refl)).
    apply (rule_generic Sydney sydney_period 2008 32 (firstn 39 (fst (rev_pairs Sydney))) [] u).
    + vm_compute; reflexivity.
    + intros p Hp.
      assert (G : forallb (fun p => snd p <? date 2008 6 1 * day) (firstn 39 (fst (rev_pairs Sydney))) = true)
        by (vm_compute; reflexivity).
      rewrite forallb_forall in G. specialize (G p Hp). apply Z.ltb_lt in G. lia.
    + intros p [].
    + intros s H.
      assert (G : snd (rev_pairs Sydney) = Some (at_std Sydney (nth_sunday 2040 10 1) 2)) by (vm_compute; reflexivity).
      assert (s = at_std Sydney (nth_sunday 2040 10 1) 2) by congruence. subst s.
      assert (date 2040 10 1 * day <= at_std Sydney (nth_sunday 2040 10 1) 2) by (vm_compute; discriminate). lia.
    + lia.
    + intros y Hy.
      assert (G : forallb (fun y => snd (sydney_period y) <? date 2008 6 1 * day) (years 1970 38) = true)
        by (vm_compute; reflexivity).
      rewrite forallb_forall in G. specialize (G y). rewrite years_in in G. specialize (G ltac:(lia)).
      apply Z.ltb_lt in G. lia.
    + intros y Hy. destruct (Z.eq_dec y 2040) as [->|N].
      * assert (date 2040 10 1 * day < fst (sydney_period 2040)) by (vm_compute; reflexivity). lia.
      * unfold sydney_period; cbn [fst].
        pose proof (nth_sunday_ge y 10 1 ltac:(lia)). pose proof (year_after y 2041 ltac:(lia)).
        assert (G : date 2040 10 1 + 92 = days_to_year 2041) by (vm_compute; reflexivity).
        unfold at_std, std_offset. unfold day in *. nia.
    + apply (SW sydney_period). reflexivity.
  - (* Hong Kong *)
    split; [|intros (y & s & e & _ & E & _); discriminate].
    intros H. exfalso. unfold in_periods in H. apply orb_true_iff in H. destruct H as [H|H]; [|vm_compute in H; discriminate].
    apply existsb_exists in H. destruct H as (p & Hp & H).
    apply andb_true_iff in H. destruct H as [_ H]. apply Z.leb_le in H.
    assert (G : forallb (fun p => snd p <? date 1980 1 1 * day) (fst (rev_pairs HongKong)) = true)
      by (vm_compute; reflexivity).
    rewrite forallb_forall in G. specialize (G p Hp). apply Z.ltb_lt in G. lia.
  - (* Tokyo *) split; [intros H; discriminate|intros (y & s & e & _ & E & _); discriminate].
  - (* Seoul *)
    assert (E : fst (rev_pairs Seoul) = [seoul_period 1987; seoul_period 1988]) by (vm_compute; reflexivity).
    assert (T : snd (rev_pairs Seoul) = None) by (vm_compute; reflexivity).
    rewrite E, T. unfold in_periods; cbn [existsb]. rewrite !orb_false_r, orb_true_iff, !andb_true_iff, !Z.ltb_lt, !Z.leb_le.
    assert (S7 : u <> fst (seoul_period 1987) /\ u <> snd (seoul_period 1987)).
    { split; intros Q; apply Hs; exists 1987, (fst (seoul_period 1987)), (snd (seoul_period 1987));
        (split; [lia|split; [reflexivity|auto]]). }
    assert (S8 : u <> fst (seoul_period 1988) /\ u <> snd (seoul_period 1988)).
    { split; intros Q; apply Hs; exists 1988, (fst (seoul_period 1988)), (snd (seoul_period 1988));
        (split; [lia|split; [reflexivity|auto]]). }
    split.
    + intros [A|A]; [exists 1987, (fst (seoul_period 1987)), (snd (seoul_period 1987))
                    |exists 1988, (fst (seoul_period 1988)), (snd (seoul_period 1988))];
        (split; [lia|split; [reflexivity|lia]]).
    + intros (y & s & e & _ & Q & Hu). cbn [dst_period] in Q.
      destruct (y =? 1987) eqn:Y7; [apply Z.eqb_eq in Y7; subst y|].
      * assert (P : seoul_period 1987 = (s, e)) by (cbn [orb] in Q; congruence). rewrite P in *. cbn [fst snd] in *. lia.
      * destruct (y =? 1988) eqn:Y8; [apply Z.eqb_eq in Y8; subst y|discriminate].
        assert (P : seoul_period 1988 = (s, e)) by (cbn [orb] in Q; congruence). rewrite P in *. cbn [fst snd] in *. lia.
  - (* Kolkata *) split; [intros H; discriminate|intros (y & s & e & _ & E & _); discriminate].
Qed.
