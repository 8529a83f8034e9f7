(** C61, C62: partitioned datasets. *)
From Coq Require Import List Arith Bool Lia.
From Verif Require Import FlattenModel FlattenProofs DsModel DsSpec DsProofs3 DsProofs4 DsProofs5 PdsModel PdsProofs PdsProofs2.
Import ListNotations.

(** ** C61: partition bookkeeping *)
(** [dl]: the datasets stacked; [lens]: their numbers of rows.  Slice i is the range of rows from the
    sum of the earlier lengths to the sum including its own: contiguous from 0 to the total, and every
    row lies in exactly one. *)
Theorem C61_slices {V} (inv : name -> V) (dl : list (@dset_ V)) ns p : from_list inv dl ns = Some p ->
  let lens := map shape0 dl in
  pcount p = length dl /\ p_rows p = lens /\
  (forall i, i < length dl -> pslice p i = Some (list_sum (firstn i lens), list_sum (firstn (S i) lens))) /\
  (forall i, length dl <= i -> pslice p i = None) /\
  (forall row, row < list_sum lens -> exists i a b, pslice p i = Some (a, b) /\ a <= row < b /\
     forall j a' b', pslice p j = Some (a', b') -> a' <= row < b' -> j = i).
Proof.
  intros F lens. destruct (from_list_fields inv dl ns p F) as (NE & PC & PR & _). fold lens in PC, PR.
  assert (LL : length lens = length dl) by apply map_length.
  assert (PS : forall i, i < length dl -> pslice p i = Some (start_of lens i, start_of lens (S i))) by (intros i Hi; apply pslice_gen; [exact PC|lia]).
  assert (PN : forall i, length dl <= i -> pslice p i = None) by (intros i Hi; apply (pslice_none p lens); [exact PC|lia]).
  split; [unfold pcount; now rewrite PR|]. split; [exact PR|]. split; [exact PS|]. split; [exact PN|].
  intros row H. destruct (row_range lens row H) as (i & Hi & R). exists i, (start_of lens i), (start_of lens (S i)). split; [apply PS; lia|]. split; [exact R|].
  intros j a b E R'. destruct (Nat.lt_ge_cases j (length dl)) as [Hj|Hj]; [|rewrite PN in E by exact Hj; discriminate]. rewrite PS in E by exact Hj. injection E as <- <-. exact (range_unique lens row j i R' R).
Qed.
Print Assumptions C61_slices.

(** Partition i is dataset i again, extended by the columns only other datasets have, filled with
    invalids; indexing with its name gives it unless a column has that name; piter lists them all. *)
Theorem C61_partition {V} (inv : name -> V) (dl : list (@dset_ V)) ns p i d : ok_list dl ->
  from_list inv dl ns = Some p -> NoDup ns -> length ns = length dl -> nth_error dl i = Some d ->
  exists t nm, partition p i = Some t /\ nth_error ns i = Some nm /\
    map fst t = first_seen (concat (map (fun d => map fst (d_cols d)) dl)) /\
    (forall n, In n (map fst t) -> dget n t = Some (piece inv n (shape0 d) (d_cols d))) /\
    nth_error (piter p) i = Some (Some nm, Some t) /\
    (dget nm (p_cols p) = None -> getitem p nm = IPartition t).
Proof.
  intros OK F ND LN NI. destruct (partition_ok inv dl ns p i d OK F NI) as (t & P & N & G). destruct (from_list_fields inv dl ns p F) as (NE & PC & PR & PNM & _).
  assert (Hi : i < length dl) by (apply nth_error_Some; congruence).
  destruct (nth_error ns i) as [nm|] eqn:NN; [|apply nth_error_None in NN; lia]. exists t, nm.
  do 2 (split; [auto|]). split; [exact N|]. split; [exact G|]. rewrite (enumerate_ok ns ND) in PNM. split.
  - unfold piter, pcount. rewrite PR, map_length. erewrite map_nth_error; [|rewrite GroupingProofs3.nth_error_seq; apply Nat.ltb_lt in Hi; rewrite Hi; reflexivity].
    cbn [Nat.add]. rewrite P. unfold pnames, names. rewrite PNM, map_fst_combine by now rewrite seq_length. now rewrite NN.
  - intros NC. unfold getitem. rewrite NC, PNM. erewrite dget_in; [|rewrite map_fst_combine by (now rewrite seq_length); exact ND|]; [now rewrite P|].
    apply (nth_error_In _ i). apply GroupingProofs.nth_error_combine; [exact NN|]. rewrite GroupingProofs3.nth_error_seq, LN. now apply Nat.ltb_lt in Hi as ->.
Qed.
Print Assumptions C61_partition.

(** what a user can do with the names *)
Inductive pop := SetNames (l : list name) | MakePcat (junk : nat -> nat).
Definition papply {V} (p : @pds V) (o : pop) : pds :=
  match o with
  | SetNames l => match set_pnames p l with Some p' => p' | None => p end
  | MakePcat junk => fst (pcat p junk)
  end.
(** the names last accepted *)
Definition current (ns : list name) (o : pop) : list name :=
  match o with
  | SetNames l => if (length l =? length ns) && (length (nodup name_dec l) =? length l) then l else ns
  | MakePcat _ => ns
  end.
Definition labels_of (ns : list name) (ops : list pop) : list name := fold_left current ops ns.
(** no new names once the categorical is made *)
Fixpoint names_first (ops : list pop) : Prop :=
  match ops with
  | [] => True
  | MakePcat _ :: r => forall l, ~ In (SetNames l) r
  | SetNames _ :: r => names_first r
  end.
Lemma dset_length {X} k (v : X) d : length (dset k v d) = if mem k (map fst d) then length d else S (length d).
Proof.
  rewrite <- (map_length fst). rewrite dset_names. destruct (mem k (map fst d)); rewrite ?app_length, ?map_length; cbn; lia.
Qed.
Lemma enumerate_length l : length (enumerate_names l) <= length l /\ (length (enumerate_names l) = length l -> NoDup l).
Proof.
  unfold enumerate_names. assert (G : forall l s acc, length (dset_all (combine l (seq s (length l))) acc) <= length l + length acc /\
    (length (dset_all (combine l (seq s (length l))) acc) = length l + length acc -> NoDup l /\ forall n, In n l -> ~ In n (map fst acc))).
  { clear. induction l as [|n l IH]; intros s acc; [cbn; split; [lia|]; intros _; split; [constructor|intros n []]|].
    change (dset_all (combine (n :: l) (seq s (length (n :: l)))) acc) with (dset_all (combine l (seq (S s) (length l))) (dset n s acc)).
    destruct (IH (S s) (dset n s acc)) as (A & B). rewrite dset_length in A, B. destruct (mem n (map fst acc)) eqn:M.
    - cbn [length]. split; [lia|]. intros E. lia.
    - cbn [length]. split; [lia|]. intros E. destruct (B ltac:(lia)) as (C1 & C2). apply mem_not in M.
      assert (DN : map fst (dset n s acc) = map fst acc ++ [n]) by (rewrite dset_names; apply (proj2 (mem_not n _)) in M; now rewrite M).
      split; [constructor; [|exact C1]|].
      + intros I. apply (C2 n I). rewrite DN. apply in_or_app. right. now left.
      + intros m [<-|I]; [exact M|]. intros J. apply (C2 m I). rewrite DN. apply in_or_app. now left. }
  destruct (G l 0 []) as (A & B). cbn in A, B. rewrite Nat.add_0_r in *. split; [exact A|]. intros E. now apply B.
Qed.
Lemma nodup_len_iff (l : list name) : (length (nodup name_dec l) =? length l) = true <-> NoDup l.
Proof. rewrite Nat.eqb_eq. split; [apply nodup_length_nodup|intros H; now rewrite nodup_fixed_point]. Qed.
Lemma set_pnames_ok {V} (p : @pds V) ns l : NoDup ns -> p_names p = combine ns (seq 0 (length ns)) ->
  let ns' := current ns (SetNames l) in
  NoDup ns' /\ length ns' = length ns /\
  papply p (SetNames l) = mkP (p_cols p) (p_nrows p) (p_cutoffs p) (p_rows p) (combine ns' (seq 0 (length ns'))) (p_pcat p).
Proof.
  intros ND E ns'. unfold ns', current. assert (LE : length (p_names p) = length ns) by (rewrite E, combine_length, seq_length; lia).
  assert (SAME : mkP (p_cols p) (p_nrows p) (p_cutoffs p) (p_rows p) (combine ns (seq 0 (length ns))) (p_pcat p) = p) by (rewrite <- E; now destruct p).
  cbn [papply]. unfold set_pnames. rewrite LE. destruct (Nat.eqb_spec (length l) (length ns)) as [L|L]; cbn [andb]; [|auto].
  destruct (length (nodup name_dec l) =? length l) eqn:Q.
  - apply nodup_len_iff in Q. rewrite (enumerate_ok l Q). rewrite combine_length, seq_length, L, Nat.min_id, Nat.eqb_refl. auto.
  - destruct (enumerate_length l) as (A & B). destruct (Nat.eqb_spec (length (enumerate_names l)) (length ns)) as [E2|E2]; [|auto].
    assert (NoDup l) by (apply B; lia). apply nodup_len_iff in H. congruence.
Qed.
Lemma history_ok {V} (inv : name -> V) (dl : list (@dset_ V)) ns p ops : ok_list dl -> from_list inv dl ns = Some p -> NoDup ns -> length ns = length dl ->
  p_cols p <> [] ->
  let q := fold_left papply ops p in
  NoDup (labels_of ns ops) /\ length (labels_of ns ops) = length dl /\ p_names q = combine (labels_of ns ops) (seq 0 (length (labels_of ns ops))) /\
  p_cutoffs q = cumsum (map shape0 dl) /\ p_rows q = map shape0 dl /\ p_nrows q = list_sum (map shape0 dl) /\
  (forall c, p_pcat q = Some c -> exists junk q0, p_cutoffs q0 = cumsum (map shape0 dl) /\ p_rows q0 = map shape0 dl /\ p_nrows q0 = list_sum (map shape0 dl) /\ fst c = @pcat_codes V q0 junk) /\
  (names_first ops -> forall c, p_pcat q = Some c -> snd c = labels_of ns ops).
Proof.
  intros OK F ND LN NC. destruct (from_list_fields inv dl ns p F) as (NE & PC & PR & PNM & PP & PCOL & PNR).
  assert (NR : p_nrows p = list_sum (map shape0 dl)) by (rewrite PNR; apply (stacked inv dl NE OK); congruence).
  rewrite (enumerate_ok ns ND) in PNM. cbn zeta.
  induction ops as [|o ops IH] using rev_ind.
  - cbn. rewrite PP. repeat split; auto; discriminate.
  - unfold labels_of in *. rewrite !fold_left_app. cbn [fold_left]. set (q := fold_left papply ops p) in *. set (ls := fold_left current ops ns) in *.
    destruct IH as (I1 & I2 & I3 & I4 & I5 & I6 & I7 & I8).
    assert (NF : names_first (ops ++ [o]) -> names_first ops /\ (forall l, o = SetNames l -> p_pcat q = None)).
    { assert (P0 : forall ops (p0 : @pds V), names_first ops -> (forall l, ~ In (SetNames l) ops) \/ True) by auto.
      intros H. split.
      - clear -H. induction ops as [|a ops IH]; [exact I|]. destruct a; cbn in *; [now apply IH|]. intros l' Hl. apply (H l'). apply in_or_app. now left.
      - intros l ->. unfold q. clear - H PP. revert p PP H. induction ops as [|a ops IH]; intros p PP H; [exact PP|]. destruct a as [l'|junk]; cbn in H.
        + cbn [fold_left]. apply IH; [|exact H]. cbn. unfold set_pnames. destruct (_ =? _); [|exact PP]. destruct (_ =? _); [exact PP|exact PP].
        + exfalso. apply (H l). apply in_or_app. right. now left. }
    destruct o as [l|junk].
    + destruct (set_pnames_ok q ls l I1 I3) as (J1 & J2 & J3). rewrite J3. cbn [p_names p_cutoffs p_rows p_nrows p_pcat].
      split; [exact J1|]. split; [congruence|]. split; [reflexivity|]. do 4 (split; [assumption|]). intros H c Hc. destruct (NF H) as (_ & Q). rewrite (Q l eq_refl) in Hc. discriminate.
    + cbn [papply current]. unfold pcat. destruct (p_pcat q) as [c|] eqn:PQ; cbn [fst p_names p_cutoffs p_rows p_nrows p_pcat].
      * do 6 (split; [assumption|]). split; [rewrite PQ; exact I7|]. intros H c' Hc. apply I8; [exact (proj1 (NF H))|congruence].
      * do 6 (split; [assumption|]). split.
        -- intros c [= <-]. exists junk, q. auto.
        -- intros H c [= <-]. cbn [snd]. unfold pnames, names. rewrite I3. apply map_fst_combine. now rewrite seq_length.
Qed.
(** After any number of set_pnames and pcat calls: every row's label is the current name of its partition;
    the codes of pcat are the partition numbers; and pcat shows the same labels.  Partial: the last
    only if no names are set after pcat was first used. *)
Theorem C61_labels_partial {V} (inv : name -> V) (dl : list (@dset_ V)) ns p ops junk i row a b : ok_list dl ->
  from_list inv dl ns = Some p -> NoDup ns -> length ns = length dl -> p_cols p <> [] ->
  let q := fold_left papply ops p in
  pslice q i = Some (a, b) -> a <= row < b ->
  exists nm, nth_error (labels_of ns ops) i = Some nm /\ row_label q row = Some nm /\
    nth_error (fst (snd (pcat q junk))) row = Some (S i) /\
    (names_first ops -> shown (snd (pcat q junk)) row = Some nm).
Proof.
  intros OK F ND LN NC q PS R. destruct (history_ok inv dl ns p ops OK F ND LN NC) as (I1 & I2 & I3 & I4 & I5 & I6 & I7 & I8). fold q in I3, I4, I5, I6, I7, I8.
  set (lens := map shape0 dl) in *. set (ls := labels_of ns ops) in *. assert (LL : length lens = length dl) by apply map_length.
  assert (Hi : i < length dl) by (destruct (Nat.lt_ge_cases i (length dl)) as [|G]; [assumption|]; rewrite (pslice_none q lens) in PS by (auto; lia); discriminate).
  rewrite (pslice_gen q lens i I4) in PS by lia. injection PS as <- <-.
  assert (HR : row < list_sum lens).
  { pose proof (start_mono lens (S i) (length lens) ltac:(lia)). unfold start_of at 2 in H. rewrite firstn_all in H. lia. }
  destruct (nth_error ls i) as [nm|] eqn:NI; [|apply nth_error_None in NI; lia]. exists nm. split; [reflexivity|].
  assert (PNS : pnames q = ls) by (unfold pnames, names; rewrite I3; apply map_fst_combine; now rewrite seq_length).
  split; [unfold row_label; rewrite I4, (search_ok lens row i) by (auto; lia); now rewrite PNS|].
  assert (CODES : forall q0 : @pds V, p_cutoffs q0 = cumsum lens -> p_rows q0 = lens -> p_nrows q0 = list_sum lens -> forall jk, nth_error (pcat_codes q0 jk) row = Some (S i)).
  { intros q0 Q1 Q2 Q3 jk. apply (codes_ok q0 lens jk row i Q1); [unfold pcount; now rewrite Q2|lia|exact R|lia]. }
  unfold pcat. destruct (p_pcat q) as [c|] eqn:PQ; cbn [snd fst].
  - destruct (I7 c eq_refl) as (jk & q0 & Q1 & Q2 & Q3 & Q4). rewrite Q4, (CODES q0 Q1 Q2 Q3). split; [reflexivity|]. intros H. unfold shown. rewrite Q4, (CODES q0 Q1 Q2 Q3), (I8 H c eq_refl). exact NI.
  - rewrite (CODES q I4 I5 I6). split; [reflexivity|]. intros _. unfold shown. cbn [fst snd]. rewrite (CODES q I4 I5 I6), PNS. exact NI.
Qed.
Print Assumptions C61_labels_partial.

Definition na : name := [97]. Definition nb : name := [98]. Definition nc : name := [99]. Definition nx : name := [120].
Definition ex_dl : list (@dset_ nat) := [mkD (Some 2) [(nx, [1; 2])]; mkD (Some 0) [(nx, [])]; mkD (Some 1) [(nx, [3])]].
(** Finding: pcat keeps the names it was made with. *)
Theorem C61_stale_refuted : exists p q, from_list (fun _ => 0) ex_dl [na; nb; nc] = Some p /\
  q = fold_left papply [MakePcat (fun _ => 0); SetNames [nc; na; nb]] p /\
  row_label q 2 = Some nb /\ shown (snd (pcat q (fun _ => 0))) 2 = Some nc.
Proof. eexists _, _. split; [reflexivity|]. split; [reflexivity|]. split; vm_compute; reflexivity. Qed.
Print Assumptions C61_stale_refuted.
(** Finding: the constructor accepts repeated names; the second name is lost and rows lose their label. *)
Theorem C61_repeated_refuted : exists p, from_list (fun _ => 0) ex_dl [na; nb; na] = Some p /\
  pslice p 2 = Some (2, 3) /\ row_label p 2 = None /\ getitem p na = IPartition [(nx, [3])].
Proof. eexists. split; [reflexivity|]. repeat split; vm_compute; reflexivity. Qed.
Print Assumptions C61_repeated_refuted.
Example C61_case : exists p, from_list (fun _ => 0) ex_dl [na; nb; nc] = Some p /\ ok_list ex_dl /\ p_cols p <> [] /\
  map (pslice p) [0; 1; 2; 3] = [Some (0, 2); Some (2, 2); Some (2, 3); None] /\
  map (row_label p) [0; 1; 2] = [Some na; Some na; Some nc] /\ map (shown (snd (pcat p (fun _ => 9)))) [0; 1; 2] = [Some na; Some na; Some nc] /\
  names_first [SetNames [nc; nb; na]; MakePcat (fun _ => 0)].
Proof.
  eexists. split; [reflexivity|]. split; [|split; [discriminate|repeat split; try (vm_compute; reflexivity)]].
  - split; [|split].
    + intros d [<-|[<-|[<-|[]]]]; discriminate.
    + intros d n c [<-|[<-|[<-|[]]]] [E|[]]; injection E as <- <-; reflexivity.
    + intros d [<-|[<-|[<-|[]]]]; repeat constructor; auto.
  - cbn. intros l H. exact H.
Qed.

(** ** C62: partition names from file names *)
(** One name for each file, all different. *)
Theorem C62_distinct files : length (filenames_to_pnames files) = length files /\ NoDup (filenames_to_pnames files).
Proof. split; [apply pnames_length|apply pnames_nodup]. Qed.
Print Assumptions C62_distinct.
(** Every name is a part of its file name, or all are p0, p1, p2 .. *)
Theorem C62_part files : (forall f, In f files -> ~ In 0 f) ->
  filenames_to_pnames files = map (fun i => 112 :: digits (Nat.to_uint i)) (seq 0 (length files)) \/
  forall i f n, nth_error files i = Some f -> nth_error (filenames_to_pnames files) i = Some n -> exists u v, f = u ++ n ++ v.
Proof.
  intros NZ. destruct (pnames_cases files) as [E|[(f & n & -> & S1 & E)|(L & a & b & E & _)]]; [left; exact E| |]; right; intros i f' n' Hf Hn; rewrite E in Hn.
  - destruct i as [|i]; [|destruct i; discriminate]. injection Hf as <-. injection Hn as <-.
    unfold single_pname in S1. cbn zeta in S1. match type of S1 with match ?x with _ => _ end = _ => destruct x as [st|]; [|discriminate] end.
    match type of S1 with Some (rev (firstn ?k _)) = _ => generalize dependent k end. intros kk S1. injection S1 as <-.
    exists (rev (skipn kk (skipn st (rev f)))), (rev (firstn st (rev f))). rewrite <- !rev_app_distr, <- app_assoc, !firstn_skipn. now rewrite rev_involutive.
  - rewrite map_map in Hn. rewrite (map_nth_error _ _ _ Hf) in Hn. injection Hn as <-. apply cut_part. apply NZ. now apply nth_error_In in Hf.
Qed.
Print Assumptions C62_part.
(** Files that differ only in a number of fixed width get that number as name.  [pre], [suf]: what comes
    before and after it, not itself ending or beginning with a digit or a colon. *)
Theorem C62_series_partial pre suf (nums : list name) w : 2 <= length nums -> NoDup nums -> 0 < w ->
  (forall d, In d nums -> length d = w /\ forall c, In c d -> 48 <= c <= 57) ->
  (forall p c, pre = p ++ [c] -> ~ 48 <= c <= 58) -> (forall s c, suf = c :: s -> ~ 48 <= c <= 58) ->
  filenames_to_pnames (map (fun d => pre ++ d ++ suf) nums) = nums.
Proof.
  intros L ND W D P S1. apply (series_ok pre suf nums w); auto.
  - intros d Hd. destruct (D d Hd) as (E & C). split; [exact E|]. intros c Hc. specialize (C c Hc). unfold is_digit. apply andb_true_iff. split; apply Nat.leb_le; lia.
  - intros p c E. specialize (P p c E). unfold numeric. destruct (Nat.leb_spec 48 c), (Nat.leb_spec c 58); cbn; auto; lia.
  - intros p c E. specialize (S1 p c E). unfold numeric. destruct (Nat.leb_spec 48 c), (Nat.leb_spec c 58); cbn; auto; lia.
Qed.
Print Assumptions C62_series_partial.
(** A single file is named by the last number in its name, if any character precedes it. *)
Theorem C62_single_partial u c d v : ~ 48 <= c <= 57 -> d <> [] -> (forall x, In x d -> 48 <= x <= 57) -> (forall x, In x v -> ~ 48 <= x <= 57) ->
  filenames_to_pnames [u ++ c :: d ++ v] = [d].
Proof.
  intros NC ND DD NV. assert (DI : forall x, 48 <= x <= 57 -> is_digit x = true) by (intros x H; unfold is_digit; apply andb_true_iff; split; apply Nat.leb_le; lia).
  assert (DN : forall x, ~ 48 <= x <= 57 -> is_digit x = false) by (intros x H; unfold is_digit; destruct (Nat.leb_spec 48 x), (Nat.leb_spec x 57); cbn; auto; lia).
  apply single_ok; auto.
Qed.
Print Assumptions C62_single_partial.
(** Findings: "123" + ".s" alone is named "3"; "1.s" and "10.s" are named "1" and "0"; a colon counts as a digit. *)
Theorem C62_refuted :
  filenames_to_pnames [[49; 50; 51; 46; 115]] = [[51]] /\
  filenames_to_pnames [[49; 46; 115]; [49; 48; 46; 115]] = [[49]; [48]] /\
  filenames_to_pnames [[99; 58; 49]; [99; 58; 50]] = [[58; 49]; [58; 50]].
Proof. repeat split; vm_compute; reflexivity. Qed.
Print Assumptions C62_refuted.
Example C62_case : filenames_to_pnames [[97; 50; 48; 49; 46; 115]; [97; 50; 48; 50; 46; 115]; [97; 50; 49; 48; 46; 115]] = [[50; 48; 49]; [50; 48; 50]; [50; 49; 48]].
Proof. vm_compute. reflexivity. Qed.
