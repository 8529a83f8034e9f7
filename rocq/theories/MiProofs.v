(** Proofs about merge_lookup in place. *)
From Coq Require Import List Arith Bool Lia String.
From Verif Require Import Sched SchedFacts GroupModel MergeSpec MergeModel MergeColsModel MergeColsProofs MergeColsProofs2 MergeColsProofs3 MiModel.
Import ListNotations.
Local Open Scope list_scope.

Lemma setcol_same {V} n (c : list V) ds : col n ds = Some c -> setcol n c ds = ds.
Proof.
  induction ds as [|[n' c'] ds IH]; cbn [col setcol]; [discriminate|]. destruct (String.eqb n' n); [congruence|]. intros H. now rewrite IH.
Qed.
Lemma setcol_new {V} n (c : list V) ds : ~ In n (names ds) -> setcol n c ds = ds ++ [(n, c)].
Proof.
  induction ds as [|[n' c'] ds IH]; intros H; [reflexivity|]. cbn [setcol app]. cbn [names map fst In] in H. destruct (String.eqb_spec n' n) as [->|]; [elim H; now left|].
  f_equal. apply IH. intros I. apply H. now right.
Qed.
Lemma find_combine (a b : list string) n m : NoDup a -> List.length a = List.length b -> In (n, m) (combine a b) -> renamed (combine a b) n = m.
Proof.
  intros N L I. unfold renamed. assert (G : forall l : list (string * string), NoDup (map fst l) -> In (n, m) l -> find (fun p => String.eqb (fst p) n) l = Some (n, m)).
  { induction l as [|[x y] l IH]; intros Nl J; [destruct J|]. cbn [find fst map] in *. inversion Nl as [|? ? N1 N2]; subst. destruct J as [Q|J].
    - injection Q as -> ->. now rewrite String.eqb_refl.
    - destruct (String.eqb_spec x n) as [->|]; [|now apply IH]. elim N1. apply (in_map fst) in J. exact J. }
  rewrite (G (rev (combine a b))); [reflexivity| |now rewrite <- in_rev]. rewrite map_rev. apply NoDup_rev. clear - N L. revert b L.
  induction a as [|x a IH]; intros [|y b] L; try discriminate; [constructor|]. cbn [combine map fst]. inversion N as [|? ? N1 N2]; subst. constructor; [|apply IH; [assumption|now injection L]].
  intros I. apply N1. apply in_map_iff in I. destruct I as ([p q] & <- & I). exact (in_combine_l _ _ _ _ I).
Qed.
Lemma find_none (a b : list string) n : ~ In n a -> renamed (combine a b) n = n.
Proof.
  intros H. unfold renamed. destruct (find _ (rev (combine a b))) as [[x y]|] eqn:E; [|reflexivity]. apply find_some in E. destruct E as (I & E). cbn [fst] in E. apply String.eqb_eq in E. subst x.
  elim H. rewrite <- in_rev in I. exact (in_combine_l _ _ _ _ I).
Qed.

(** ** names *)
Lemma mapping_nil left_on right_on suffix cr :
  construct_colname_mapping left_on right_on (Some (Some ""%string, suffix)) [] cr =
  let inter := nodup string_dec (filter (fun c => smem c right_on) left_on) in
  let ro := filter (fun c => negb (smem c inter)) cr in Some (mkCM [] (combine ro ro) inter).
Proof.
  unfold construct_colname_mapping. cbv zeta. cbn [filter existsb]. unfold remap_cols at 1. rewrite String.eqb_refl. set (inter := nodup _ _). set (ro := filter _ cr).
  assert (E : remap_cols right_on ro [] suffix = Some ro).
  { unfold remap_cols. destruct suffix as [s|]; [|reflexivity]. destruct (String.eqb s ""); [reflexivity|]. cbv zeta. cbn [map existsb]. f_equal. transitivity (map (fun c : string => c) ro); [apply map_ext; reflexivity|apply map_id]. }
  rewrite E. reflexivity.
Qed.
Lemma mapping_full left_on right_on suffix cl cr cm :
  construct_colname_mapping left_on right_on (Some (Some ""%string, suffix)) cl cr = Some cm ->
  let inter := nodup string_dec (filter (fun c => smem c right_on) left_on) in
  let lo := filter (fun c => negb (smem c inter)) cl in
  let ro := filter (fun c => negb (smem c inter)) cr in
  exists nr, cm = mkCM (combine lo lo) (combine ro nr) inter /\ List.length nr = List.length ro /\
  (forall c n, In (c, n) (combine ro nr) -> n = c \/ (In c cl /\ exists s, suffix = Some s /\ n = (c ++ s)%string)).
Proof.
  unfold construct_colname_mapping. cbv zeta. set (inter := nodup _ _). set (lo := filter _ cl). set (ro := filter _ cr). set (overlap := filter _ lo).
  destruct (match overlap with [] => false | _ => opt_eqb _ _ end); [discriminate|]. unfold remap_cols at 1. rewrite String.eqb_refl.
  destruct (remap_cols right_on ro overlap suffix) as [nr|] eqn:E; [|discriminate]. destruct (existsb _ lo); [discriminate|]. intros Q. injection Q as <-. exists nr. split; [reflexivity|].
  assert (S : forall l : list string, forall c n, In (c, n) (combine l l) -> n = c).
  { induction l as [|x l IH]; intros c n I; [destruct I|]. destruct I as [Q|I]; [congruence|now apply IH]. }
  unfold remap_cols in E. destruct suffix as [s|]; [|injection E as <-; split; [reflexivity|]; intros c n I; left; now apply S in I].
  destruct (String.eqb s ""); [injection E as <-; split; [reflexivity|]; intros c n I; left; now apply S in I|]. cbv zeta in E. destruct (existsb _ _); [discriminate|]. destruct (existsb _ _); [discriminate|].
  injection E as <-. split; [apply map_length|]. intros c n I.
  assert (G : forall l, In (c, n) (combine l (map (fun c => if smem c overlap then (c ++ s)%string else c) l)) -> n = if smem c overlap then (c ++ s)%string else c).
  { induction l as [|x l IH]; intros J; [destruct J|]. destruct J as [Q|J]; [injection Q as -> <-; reflexivity|now apply IH]. }
  apply G in I. subst n. destruct (smem c overlap) eqn:O; [right|now left]. apply smem_in in O. unfold overlap in O. apply filter_In in O. destruct O as (O & _). unfold lo in O. apply filter_In in O.
  split; [apply O|]. now exists s.
Qed.

Lemma append_nil_r (c : string) : (c ++ "")%string = c.
Proof. induction c as [|x c IH]; [reflexivity|]. cbn. now rewrite IH. Qed.
Lemma add_right {V} (F : string -> list V) m : forall a b acc, List.length a = List.length b -> (forall c n, In (c, n) (combine a b) -> renamed m c = n) -> NoDup b ->
  (forall n, In n b -> ~ In n (names acc)) ->
  fold_left (fun ds p => setcol (renamed m (fst p)) (snd p) ds) (map (fun p => (snd p, F (fst p))) (combine a a)) acc = acc ++ map (fun p => (snd p, F (fst p))) (combine a b).
Proof.
  induction a as [|c a IH]; intros [|n b] acc L R N D; try discriminate; [cbn; now rewrite app_nil_r|]. cbn [combine map fold_left fst snd]. rewrite (R c n) by now left.
  rewrite setcol_new by (apply D; now left). inversion N as [|? ? N1 N2]; subst. rewrite (IH b).
  - now rewrite <- app_assoc.
  - now injection L.
  - intros c' n' I. apply R. now right.
  - exact N2.
  - intros n' I. unfold names. rewrite map_app, in_app_iff. cbn [map fst In]. intros [J|[->|[]]]; [apply (D n' (or_intror I) J)|contradiction].
Qed.
Lemma combine_snd {X Y} (a : list X) (b : list Y) : List.length a = List.length b -> map snd (combine a b) = b.
Proof. revert b. induction a as [|x a IH]; intros [|y b] L; try discriminate; [reflexivity|]. cbn. f_equal. apply IH. now injection L. Qed.
Lemma nodup_app {X} (a b : list X) : NoDup (a ++ b) -> NoDup b /\ forall x, In x a -> ~ In x b.
Proof.
  induction a as [|x a IH]; cbn [app]; intros N; [split; [exact N|intros x []]|]. inversion N as [|? ? N1 N2]; subst. destruct (IH N2) as (A & B). split; [exact A|].
  intros y [<-|I]; [|now apply B]. intros J. apply N1, in_or_app. now right.
Qed.
Lemma app_nodup {X} (a b : list X) : NoDup a -> NoDup b -> (forall x, In x a -> ~ In x b) -> NoDup (a ++ b).
Proof.
  induction a as [|x a IH]; intros Na Nb D; [exact Nb|]. inversion Na as [|? ? N1 N2]; subst. cbn [app]. constructor; [|apply IH; [assumption|assumption|intros y I; apply D; now right]].
  rewrite in_app_iff. intros [I|I]; [contradiction|]. apply (D x (or_introl eq_refl) I).
Qed.
Lemma col_absent {V} n (ds : @dataset V) : ~ In n (names ds) -> col n ds = None.
Proof. intros H. destruct (col n ds) as [c|] eqn:E; [|reflexivity]. elim H. apply col_some in E. apply (in_map fst) in E. exact E. Qed.

Section Inplace.
Context {V : Type}.
Variable veqb : V -> V -> bool.
Hypothesis veqb_eq : forall a b, veqb a b = true <-> a = b.
Variable null : V -> bool.
Variable inv : V.
Variable sched : list (list (store (option nat))) -> list (store (option nat)).
Hypothesis HS : forall its, interleave its (sched its).
Variable junk : mem (option nat).
Variable group : list (option (list V)) -> @keygroup (list V).
Hypothesis HG : forall keys, groups_keys keys (group keys).
Variable strcol : string -> bool.
Variables left right : @dataset V.
Hypothesis WL : well_formed left.
Hypothesis WR : well_formed right.
Variables left_on right_on : list string.
Hypothesis Lon : List.length left_on = List.length right_on.
Variable suffix : option string.
Variable cr : list string.
Hypothesis Ncr : NoDup cr.
Variable rm : bool.
Variable k : keep.
Notation sfx := (Some (Some ""%string, suffix)).
Notation ML cl := (merge_lookup veqb null inv sched junk group strcol left right left_on right_on rm sfx cl cr k).
(** the part of a lookup that has nothing to do with the left columns *)
Lemma lookup_core : exists (ok : bool) (core : option join_indices), (ok = true -> forall c, In c left_on -> In c (names left)) /\ forall cl, ML cl =
  if negb (ok && forallb (fun c => smem c (names left)) cl) then None
  else match construct_colname_mapping left_on right_on sfx cl cr with
       | None => None
       | Some cm => match core with None => None | Some j => Some (assemble inv HLeft j left right cm, None) end
       end.
Proof.
  exists (negb (match left_on, right_on with [], _ | _, [] => true | _, _ => false end) && forallb (fun c => smem c (names left)) left_on && forallb (fun c => smem c (names right)) (right_on ++ cr)).
  set (on := combine left_on right_on). set (lg := group (join_keys null inv left (map fst on) false)). set (rg := group (join_keys null inv right (map snd on) true)).
  set (j := create_indices (tuple_eqb veqb) sched junk lg rg None HLeft None k).
  exists (if match (match k with None => Some Vm1 | Some _ => None end) with None => true | Some w => validate_groupings lg rg w None k end
          then if rm && match right_index j with Some ri => negb (forallb is_some ri) | None => false end then None else Some j else None).
  split. { rewrite !andb_true_iff. intros ((_ & P) & _) c I. rewrite forallb_forall in P. apply smem_in. now apply P. }
  intros cl. unfold merge_lookup, merge2. destruct (match left_on with [] => true | _ => match right_on with [] => true | _ => false end end); [reflexivity|]. cbn [negb andb].
  rewrite forallb_app. destruct (forallb (fun c => smem c (names left)) left_on); cbn [andb negb]; [|reflexivity].
  destruct (forallb (fun c => smem c (names right)) (right_on ++ cr)); destruct (forallb (fun c => smem c (names left)) cl); cbn [andb negb]; try reflexivity.
  destruct (construct_colname_mapping left_on right_on sfx cl cr) as [cm|]; [|reflexivity]. cbn [merge_indices_keep_ok negb is_left is_right is_outer andb]. cbv zeta. fold on. fold lg. fold rg. fold j.
  destruct (match match k with None => Some Vm1 | Some _ => None end with None => true | Some w => _ end); [|reflexivity].
  destruct (rm && _); reflexivity.
Qed.
Notation MI := (merge_lookup_inplace veqb null inv sched junk group strcol left right left_on right_on rm suffix cr k).
Lemma names_there : forallb (fun c => smem c (names left)) (names left) = true.
Proof. apply forallb_forall. intros c I. now apply smem_in. Qed.
Theorem inplace_is : match ML (names left), MI with
  | None, None => True
  | Some (out, ind), Some ds => ind = None /\ (exists more, ds = left ++ more /\ forall n c, In (n, c) more -> In (n, c) out) /\ NoDup (names ds) /\ forall n, col n ds = col n out
  | _, _ => False
  end.
Proof using veqb_eq HS HG WL WR Lon Ncr.
  destruct lookup_core as (ok & core & HL & H). unfold merge_lookup_inplace. cbv zeta. rewrite (H []), mapping_nil. cbv zeta.
  pose proof (H (names left)) as HF. rewrite names_there, andb_true_r in HF. cbn [forallb]. rewrite andb_true_r. destruct ok; cbn [negb] in *; [|now rewrite HF]. specialize (HL eq_refl).
  destruct core as [j|]; [|rewrite HF; now destruct (construct_colname_mapping left_on right_on sfx (names left) cr)].
  destruct (construct_colname_mapping left_on right_on sfx (names left) cr) as [cm|] eqn:CM; [|now rewrite HF].
  pose proof (lookup_columns veqb veqb_eq null inv sched HS junk group HG strcol left right WL WR left_on right_on Lon sfx (names left) cr (proj1 WL) Ncr rm k _ _ HF) as (C1 & C2 & _ & N & _).
  rewrite HF. split; [reflexivity|]. destruct (mapping_full _ _ _ _ _ _ CM) as (nr & -> & Lr & _). clear CM H.
  set (inter := nodup string_dec _) in *. set (lo := filter _ (names left)) in *. set (ro := filter _ cr) in *. unfold assemble in *. cbn [cm_keys cm_left cm_right map app] in *.
  set (key := fun f => key_column inv HLeft j (getcol left f) (getcol right f)) in *. set (side := side_column inv (left_index j)) in *. set (rside := side_column inv (right_index j)) in *.
  change (fun f : string => (f, key_column inv HLeft j (getcol left f) (getcol right f))) with (fun f : string => (f, key f)) in *.
  set (out := map (fun f => (f, key f)) inter ++ map (fun p => (snd p, side (getcol left (fst p)))) (combine lo lo) ++ map (fun p => (snd p, rside (getcol right (fst p)))) (combine ro nr)) in *.
  assert (Sh : forall c, In c inter <-> In c left_on /\ In c right_on).
  { intros c. unfold inter. rewrite nodup_In, filter_In, smem_in. reflexivity. }
  assert (GetL : forall c x, In (c, x) left -> getcol left c = x).
  { intros c x I. unfold getcol. now rewrite (col_in left c x (proj1 WL) I). }
  assert (Both : forall c, In c (names left) -> col c out = Some (getcol left c)).
  { intros c I. destruct (in_dec string_dec c inter) as [J|J]; [apply C1; now apply Sh|]. destruct (C2 c I) as (n & A & E); [now rewrite <- Sh|].
    destruct A as [->|(_ & s & Q & ->)]; [exact E|]. cbn [suffix_of] in Q. injection Q as <-. now rewrite append_nil_r in E. }
  (* the keys *)
  rewrite fold_left_app. assert (KF : fold_left (fun ds p => setcol (renamed (combine ro nr) (fst p)) (snd p) ds) (map (fun f => (f, key f)) inter) left = left).
  { assert (G : forall l, incl l inter -> fold_left (fun ds p => setcol (renamed (combine ro nr) (fst p)) (snd p) ds) (map (fun f => (f, key f)) l) left = left).
    { induction l as [|c l IH]; intros I; [reflexivity|]. cbn [map fold_left fst snd]. assert (Ic : In c inter) by (apply I; now left).
      rewrite find_none; [|unfold ro; rewrite filter_In, negb_true_iff, smem_not; tauto].
      destruct (in_dec string_dec c (names left)) as [J|J].
      - rewrite setcol_same; [apply IH; intros x Hx; apply I; now right|]. destruct (col_present left c J) as (x & Ex). rewrite Ex. f_equal. 
        assert (K : In (c, key c) out) by (unfold out; apply in_or_app; left; now apply (in_map (fun f => (f, key f)))).
        apply (col_in out c _ N) in K. rewrite (Both c J) in K. injection K as K. rewrite <- K. unfold getcol. now rewrite Ex.
      - exfalso. apply J, HL. now apply Sh. }
    apply G, incl_refl. }
  rewrite KF. clear KF.
  assert (NO : names out = inter ++ lo ++ nr).
  { unfold names, out. rewrite !map_app, !map_map. cbn [fst]. rewrite map_id. f_equal. f_equal; apply combine_snd; congruence. }
  rewrite NO in N. destruct (nodup_app _ _ N) as (N' & D1). destruct (nodup_app _ _ N') as (Nnr & D2).
  assert (Fresh : forall n, In n nr -> ~ In n (names left)).
  { intros n I J. destruct (in_dec string_dec n inter) as [K|K]; [apply (D1 n K); apply in_or_app; now right|]. apply (D2 n); [|exact I].
    unfold lo. apply filter_In. split; [exact J|]. apply negb_true_iff. now apply smem_not. }
  rewrite (add_right (fun c => rside (getcol right c)) (combine ro nr) ro nr left (eq_sym Lr)); [| |exact Nnr|exact Fresh].
  2: { intros c n I. apply find_combine; [unfold ro; now apply NoDup_filter|now symmetry|exact I]. }
  set (more := map (fun p => (snd p, rside (getcol right (fst p)))) (combine ro nr)) in *.
  assert (NM : names more = nr) by (unfold names, more; rewrite map_map; cbn [fst]; apply combine_snd; congruence).
  assert (MO : forall n c, In (n, c) more -> In (n, c) out) by (intros n c I; unfold out; apply in_or_app; right; apply in_or_app; now right).
  assert (ND : NoDup (names (left ++ more))).
  { unfold names. rewrite map_app. fold (names left). fold (names more). rewrite NM. apply app_nodup; [exact (proj1 WL)|exact Nnr|]. intros n I J. exact (Fresh n J I). }
  assert (NDO : NoDup (names out)) by (rewrite NO; exact N).
  split; [exists more; split; [reflexivity|exact MO]|]. split; [exact ND|]. intros n. destruct (in_dec string_dec n (names (left ++ more))) as [I|I].
  - destruct (col_present _ _ I) as (c & E). rewrite E. symmetry. apply col_some in E. apply in_app_or in E. destruct E as [E|E].
    + rewrite (Both n) by (apply (in_map fst) in E; exact E). f_equal. now apply GetL.
    + apply col_in; [exact NDO|now apply MO].
  - rewrite (col_absent n _ I). symmetry. apply col_absent. rewrite NO, !in_app_iff. intros J. apply I. unfold names. rewrite map_app, in_app_iff. fold (names left). fold (names more). rewrite NM.
    destruct J as [J|[J|J]]; [left; apply HL; now apply Sh|left; unfold lo in J; apply filter_In in J; apply J|now right].
Qed.
End Inplace.
