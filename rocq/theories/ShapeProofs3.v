(** transpose, reduce, any and all. *)
From Coq Require Import List Arith Bool ZArith Lia Permutation.
From Verif Require Import FlattenModel FlattenProofs GroupModel GroupingModel DsModel DsSpec DsProofs3 AggModel AggSpec AggProofs AggProofs2 AggProofs5 Acc2Proofs Acc2Proofs2 ShapeModel ShapeSpec ShapeProofs ShapeProofs2.
Import ListNotations.

Section T.
Context {V : Type}.
Variable inv : V.
Variable str : V -> name.
Variable computable is_cat : name -> bool.
Variable conv : V -> V.
Variable of_name : name -> V.
Variable cname : nat -> name.

Lemma nth_self {X} (l : list X) (x : X) N : length l = N -> map (fun i => nth i l x) (seq 0 N) = l.
Proof.
  clear. intros <-. apply (nth_ext _ _ x x); [now rewrite map_length, seq_length|]. intros i Hi. rewrite map_length, seq_length in Hi. rewrite (nth_map _ _ _ _ 0) by (now rewrite seq_length). now rewrite seq_nth.
Qed.
Lemma dset_same (d : list (name * list V)) n c : dget n d = Some c -> dset n c d = d.
Proof.
  clear. induction d as [|[m c'] d IH]; cbn [dget dset]; [discriminate|]. destruct (name_dec m n) as [->|NE]; intros E; [congruence|]. f_equal; now apply IH.
Qed.
Lemma row_cell (d : list (name * list V)) N ns l n i : rect d N -> fetch d ns = Some l -> (forall n, In n ns -> In n (map fst d)) -> i < N ->
  forall j, nth_error ns j = Some n -> exists c, nth_error l j = Some (n, c) /\ cell_of d n i = Some (nth i c inv).
Proof.
  intros [ND LEN] E H Hi. revert l E. induction ns as [|m ns IH]; intros l E j Ej; [destruct j; discriminate|]. cbn [fetch] in E.
  destruct (dget m d) as [c|] eqn:G; [|discriminate]. destruct (fetch d ns) as [l'|] eqn:F; [|discriminate]. injection E as <-.
  destruct j as [|j]; cbn [nth_error] in Ej |- *.
  - injection Ej as ->. exists c. split; [reflexivity|]. unfold cell_of. rewrite G. apply nth_error_nth'. rewrite (LEN n c); [exact Hi|now apply dget_some_in].
  - destruct (IH (fun n I => H n (or_intror I)) l' eq_refl j Ej) as (c' & A & B). exists c'. split; [exact A|exact B].
Qed.
Lemma transpose_ok (d : list (name * list V)) N labels colnames cats gb header :
  let ns := match colnames with Some l => l | None => matrix_names computable is_cat d labels cats gb end in
  rect d N -> ns <> [] -> (forall n, In n ns -> In n (map fst d)) -> (forall n, In n labels -> In n (map fst d)) ->
  let nm := map (row_name inv str cname d labels) (seq 0 N) in
  NoDup (header :: nm) ->
  exists t, transpose inv str computable is_cat conv of_name cname d labels colnames cats gb header = inl t /\
    map fst t = header :: nm /\
    (forall n c, In (n, c) t -> length c = length ns) /\
    forall j n, nth_error ns j = Some n ->
      cell_of t header j = Some (of_name n) /\
      forall i, i < N -> cell_of t (row_name inv str cname d labels i) j = option_map conv (cell_of d n i).
Proof.
  intros ns RE NE HN HL nm ND. unfold transpose, imatrix_make. fold ns. destruct (fetch_ok inv d N ns RE HN) as (m & EM & NM & LM & RM).
  destruct ns as [|n0 nr] eqn:EN; [congruence|]. rewrite <- EN in *. rewrite EM.
  set (mat := map (fun p => (fst p, map conv (snd p))) m).
  assert (NR : match mat with (_, c) :: _ => length c | [] => 0 end = N).
  { unfold mat. destruct m as [|[n c] m]; [cbn in NM; congruence|]. cbn [map fst snd]. rewrite map_length. apply (LM n). now left. }
  rewrite NR.
  assert (TN : transposed_names inv str cname d labels N = Some nm).
  { unfold transposed_names, nm. destruct labels as [|l0 ls] eqn:EL; [reflexivity|]. rewrite <- EL in *. destruct (fetch_ok inv d N labels RE HL) as (l & E1 & _ & _ & E4). rewrite E1. f_equal.
    apply map_ext. intros i. rewrite pivot_name_text. unfold row_name. rewrite E4. rewrite EL. reflexivity. }
  rewrite TN. set (head := (header, map (fun p => of_name (fst p)) mat)).
  set (G := fun i => map (fun p : name * list V => nth i (snd p) inv) mat).
  assert (LN : length nm = N) by (unfold nm; now rewrite map_length, seq_length).
  assert (LMm : length mat = length ns) by (unfold mat; rewrite map_length, <- NM, map_length; reflexivity).
  assert (FS : fold_left (fun ds i => set_col (nth i nm []) (G i) ds) (seq 0 N) (Some [head]) = Some (head :: map (fun i => (nth i nm [], G i)) (seq 0 N))).
  { rewrite fold_set_cols. rewrite (set_cols_ok (length ns)).
    - rewrite dset_all_id; [reflexivity|]. rewrite map_map. cbn [map fst app head]. 
      assert (Q : map (fun i => nth i nm []) (seq 0 N) = nm).
      { now apply nth_self. }
      unfold head. cbn [fst]. rewrite Q. exact ND.
    - intros p [<-|[]]. unfold head. cbn [snd]. now rewrite map_length.
    - intros p I. apply in_map_iff in I. destruct I as (i & <- & _). cbn [snd]. unfold G. now rewrite map_length. }
  unfold G in FS. rewrite FS. fold G in FS |- *.
  eexists. split; [reflexivity|].
  assert (NF : map fst (head :: map (fun i => (nth i nm [], G i)) (seq 0 N)) = header :: nm).
  { cbn [map fst head]. f_equal. rewrite map_map. cbn [fst]. now apply nth_self. }
  assert (NDT : NoDup (map fst (head :: map (fun i => (nth i nm [], G i)) (seq 0 N)))) by (rewrite NF; exact ND).
  split; [exact NF|]. split.
  - intros n c [I|I]; [injection I as _ <-; now rewrite map_length|]. apply in_map_iff in I. destruct I as (i & E & _). injection E as _ <-. now rewrite map_length.
  - intros j n Ej. assert (Hj : j < length ns) by (apply nth_error_Some; congruence). split.
    + unfold cell_of. cbn [dget head]. destruct (name_dec header header) as [_|X]; [|congruence]. unfold mat. rewrite !map_map. cbn [fst]. rewrite <- (map_map fst of_name), NM. rewrite nth_error_map, Ej. reflexivity.
    + intros i Hi. assert (RI : nth i nm [] = row_name inv str cname d labels i) by (unfold nm; rewrite (nth_map _ _ _ _ 0) by (now rewrite seq_length); now rewrite seq_nth).
      unfold cell_of at 1. rewrite (dget_nodup _ (row_name inv str cname d labels i) (G i)).
      * destruct (row_cell d N ns m n i RE EM HN Hi j Ej) as (c & A & B). rewrite B. unfold G, mat. rewrite map_map. cbn [snd]. rewrite nth_error_map, A. cbn [option_map snd]. f_equal.
        rewrite (nth_map _ _ _ _ inv); [reflexivity|]. rewrite (LM n c); [exact Hi|]. apply nth_error_In in A. exact A.
      * exact NDT.
      * right. apply in_map_iff. exists i. rewrite RI. split; [reflexivity|]. apply in_seq. lia.
Qed.

(** ** reduce *)
Lemma concat_cons (x : nat -> V) (f : nat -> list V) l : Permutation (concat (map (fun i => x i :: f i) l)) (map x l ++ concat (map f l)).
Proof.
  induction l as [|i l IH]; cbn [map concat]; [constructor|]. cbn [app]. constructor. rewrite IH. rewrite !app_assoc. apply Permutation_app_tail, Permutation_app_comm.
Qed.
Lemma rows_perm n (cs : list (list V)) : (forall c, In c cs -> length c = n) -> Permutation (concat cs) (concat (map (fun i => map (fun c => nth i c inv) cs) (seq 0 n))).
Proof.
  induction cs as [|c cs IH]; intros H.
  - cbn [map concat]. induction (seq 0 n) as [|i l IHl]; cbn [map concat app]; auto.
  - cbn [concat map]. rewrite (concat_cons (fun i => nth i c inv)). rewrite <- IH by (intros c' I; apply H; now right). apply Permutation_app_tail.
    rewrite <- (H c (or_introl eq_refl)). apply Permutation_refl'. symmetry. now apply nth_self.
Qed.
Lemma fetch_all (d : list (name * list V)) : NoDup (map fst d) -> fetch d (map fst d) = Some d.
Proof.
  intros ND. assert (G : forall l, (forall p, In p l -> In p d) -> fetch d (map fst l) = Some l).
  { induction l as [|[n c] l IH]; intros H; cbn [map fst fetch]; [reflexivity|]. rewrite (dget_nodup d n c ND) by (apply H; now left). rewrite IH by (intros p I; apply H; now right). reflexivity. }
  now apply G.
Qed.
Lemma reduce0_computable func fv (d : list (name * list V)) : forallb computable (map fst d) = true -> reduce0 computable func fv d = map (fun p => (fst p, func (snd p))) d.
Proof.
  induction d as [|[n c] d IH]; intros H; cbn [reduce0 flat_map map fst]; [reflexivity|]. cbn [map fst forallb] in H. apply andb_true_iff in H. destruct H as [H1 H2]. rewrite H1. cbn [app]. f_equal. now apply IH.
Qed.
Definition plain_cols (d : list (name * list V)) : list (name * list V) := filter (fun p => computable (fst p)) d.
Lemma reduce0_nofill func (d : list (name * list V)) : reduce0 computable func (One FNone) d = map (fun p => (fst p, func (snd p))) (plain_cols d).
Proof.
  induction d as [|[n c] d IH]; [reflexivity|]. change (reduce0 computable func (One FNone) ((n, c) :: d)) with ((if computable n then [(n, func c)] else []) ++ reduce0 computable func (One FNone) d).
  rewrite IH. unfold plain_cols. cbn [filter fst]. destruct (computable n); reflexivity.
Qed.
(** axis=None *)
Lemma whole_ok func labels nrows (d : list (name * list V)) : by_parts func ->
  reduce inv computable is_cat conv func AxisNone (One FNone) labels nrows d = (d, inl (Whole (func (concat (map snd (plain_cols d)))))).
Proof.
  intros [BP _]. unfold reduce. destruct (forallb computable (map fst d)) eqn:E.
  - do 3 f_equal. f_equal. unfold plain_cols. rewrite filter_all; [reflexivity|]. intros p I. rewrite forallb_forall in E. apply E. now apply in_map.
  - rewrite reduce0_nofill, map_map. cbn [snd]. rewrite BP, map_map. reflexivity.
Qed.
Lemma matrix_plain (d : list (name * list V)) labels : matrix_names computable is_cat d labels false false = map fst (filter (fun p => computable (fst p) && negb (mem (fst p) labels)) d).
Proof.
  unfold matrix_names. rewrite (filter_ext _ (fun n => computable n && negb (mem n labels))) by (intros n; rewrite andb_false_r, orb_false_r; reflexivity).
  induction d as [|[n c] d IH]; [reflexivity|]. cbn [map fst filter]. rewrite IH. destruct (computable n && negb (mem n labels)); reflexivity.
Qed.
Lemma fetch_sub (d : list (name * list V)) f : NoDup (map fst d) -> fetch d (map fst (filter f d)) = Some (filter f d).
Proof.
  intros ND. assert (G : forall l, (forall p, In p l -> In p d) -> fetch d (map fst l) = Some l).
  { induction l as [|[n c] l IH]; intros H; cbn [map fst fetch]; [reflexivity|]. rewrite (dget_nodup d n c ND) by (apply H; now left). rewrite IH by (intros p I; apply H; now right). reflexivity. }
  apply G. intros p I. apply filter_In in I. tauto.
Qed.
(** axis=1 *)
Definition row_cols (d : list (name * list V)) (labels : list name) : list (name * list V) := filter (fun p => computable (fst p) && negb (mem (fst p) labels)) d.
Lemma rows_ok func labels N (d : list (name * list V)) : rect d N -> row_cols d labels <> [] ->
  snd (reduce inv computable is_cat conv func Axis1 (One FNone) labels N d)
  = inl (ByRow (map (fun i => func (map (fun p => conv (nth i (snd p) inv)) (row_cols d labels))) (seq 0 N))).
Proof.
  intros [ND LEN] NE. unfold reduce. cbn [no_fill]. unfold imatrix_make. rewrite matrix_plain. fold (row_cols d labels).
  assert (F : fetch d (map fst (row_cols d labels)) = Some (row_cols d labels)) by (now apply fetch_sub). rewrite F.
  destruct (map fst (row_cols d labels)) as [|n0 l0] eqn:E; [apply map_eq_nil in E; congruence|]. cbn [snd]. do 2 f_equal.
  apply map_ext_in. intros i Hi. apply in_seq in Hi. f_equal. rewrite map_map. cbn [snd]. apply map_ext_in. intros p I.
  rewrite (nth_map _ _ _ _ inv); [reflexivity|]. unfold row_cols in I. apply filter_In in I. destruct p as [n c]. cbn [snd]. rewrite (LEN n c) by apply I. lia.
Qed.
Lemma axes_agree func N (d : list (name * list V)) : by_parts func -> rect d N -> plain_cols d <> [] -> (forall n c x, In (n, c) d -> In x c -> conv x = x) ->
  exists x l rs, reduce inv computable is_cat conv func AxisNone (One FNone) [] N d = (d, inl (Whole x)) /\
    reduce inv computable is_cat conv func Axis0 (One FNone) [] N d = (d, inl (ByCol l)) /\ x = func (map snd l) /\
    snd (reduce inv computable is_cat conv func Axis1 (One FNone) [] N d) = inl (ByRow rs) /\ x = func rs.
Proof.
  intros BP RE NE CV. exists (func (concat (map snd (plain_cols d)))). eexists. eexists. split; [now apply whole_ok|]. split; [reflexivity|].
  assert (RP : row_cols d [] = plain_cols d) by (unfold row_cols, plain_cols; apply filter_ext; intros p; cbn [mem existsb negb]; apply andb_true_r).
  split; [|split].
  - rewrite reduce0_nofill, map_map. cbn [snd]. destruct BP as [B _]. rewrite B, map_map. reflexivity.
  - apply rows_ok; [exact RE|]. now rewrite RP.
  - rewrite RP. destruct BP as [B P]. rewrite <- (map_map (fun i => map (fun p => conv (nth i (snd p) inv)) (plain_cols d)) func), <- B. apply P.
    rewrite (rows_perm N). 2:{ intros c I. apply in_map_iff in I. destruct I as ([n c'] & <- & I). destruct RE as [_ LEN]. apply (LEN n). unfold plain_cols in I. apply filter_In in I. apply I. }
    apply Permutation_refl'. f_equal. apply map_ext_in. intros i Hi. apply in_seq in Hi. rewrite map_map. apply map_ext_in. intros [n c] I. cbn [snd]. unfold plain_cols in I. apply filter_In in I. destruct I as [I _]. symmetry. apply (CV n c); [exact I|]. apply nth_In. destruct RE as [_ LEN]. rewrite (LEN n c I). lia.
Qed.
(** what reduce does to the dataset itself *)
Lemma reduce_keeps func ax fv labels N (d : list (name * list V)) : rect d N -> (forall n c x, In (n, c) d -> In x c -> conv x = x) ->
  fst (reduce inv computable is_cat conv func ax fv labels N d) = d.
Proof.
  intros [ND LEN] CV. unfold reduce. destruct ax; cbn [fst]; try reflexivity.
  - destruct (no_fill fv); [|reflexivity]. unfold imatrix_make. rewrite matrix_plain. rewrite fetch_sub by exact ND. set (m := filter _ d). destruct (map fst m) as [|n0 l0]; [reflexivity|]. cbn [fst].
    assert (E : map (fun p => (fst p, map conv (snd p))) m = m).
    { rewrite <- (map_id m) at 2. apply map_ext_in. intros [n c] I. cbn [fst snd]. f_equal. rewrite <- (map_id c) at 2. apply map_ext_in. intros x Ix. apply (CV n c); [|exact Ix]. unfold m in I. apply filter_In in I. apply I. }
    rewrite E. assert (G : forall l, (forall p, In p l -> In p d) -> fold_left (fun ds p => dset (fst p) (snd p) ds) l d = d).
    { induction l as [|[n c] l IH]; intros H; cbn [fold_left fst snd]; [reflexivity|]. rewrite dset_same by (apply dget_nodup; [exact ND|apply H; now left]). apply IH. intros p I. apply H. now right. }
    apply G. intros p I. unfold m in I. apply filter_In in I. apply I.
  - destruct (forallb _ _); reflexivity.
Qed.
(** ** any and all *)
Lemma repeat_seq {X} (x : X) N : repeat x N = map (fun _ => x) (seq 0 N).
Proof.
  clear. enough (G : forall k, repeat x N = map (fun _ => x) (seq k N)) by apply G. induction N as [|N IH]; intros k; cbn [repeat seq map]; [reflexivity|]. f_equal. apply IH.
Qed.
Section AnyAll.
Variable kindof : name -> kind.
Variable truthy : V -> bool.
Definition seen (p : name * list V) : bool := match kindof (fst p) with KOther => false | _ => true end.
Lemma any1_ok N (d : list (name * list V)) : (forall n c, In (n, c) d -> length c = N) ->
  any1 kindof truthy N d = map (fun i => existsb (fun p => truthy (nth i (snd p) inv)) (filter seen d)) (seq 0 N).
Proof.
  intros LEN. unfold any1.
  assert (G : forall (f : nat -> bool) l, (forall n c, In (n, c) l -> length c = N) ->
    fold_left (fun t p => match kindof (fst p) with KOther => t | _ => map (fun q => fst q || truthy (snd q)) (combine t (snd p)) end) l (map f (seq 0 N))
    = map (fun i => f i || existsb (fun p => truthy (nth i (snd p) inv)) (filter seen l)) (seq 0 N)).
  { intros f l. revert f. induction l as [|[n c] l IH]; intros f H; cbn [fold_left filter].
    - apply map_ext. intros i. now rewrite orb_false_r.
    - assert (C : map (fun q => fst q || truthy (snd q)) (combine (map f (seq 0 N)) c) = map (fun i => f i || truthy (nth i c inv)) (seq 0 N)).
      { apply (nth_ext _ _ false false); [rewrite !map_length, combine_length, map_length, seq_length, (H n c (or_introl eq_refl)); lia|].
        intros i Hi. rewrite map_length, combine_length, map_length, seq_length, (H n c (or_introl eq_refl)) in Hi.
        rewrite (nth_map _ _ _ _ (false, inv)) by (rewrite combine_length, map_length, seq_length, (H n c (or_introl eq_refl)); lia). rewrite combine_nth by (rewrite map_length, seq_length, (H n c (or_introl eq_refl)); reflexivity).
        cbn [fst snd]. rewrite !(nth_map _ _ _ _ 0) by (rewrite seq_length; lia). rewrite seq_nth by lia. reflexivity. }
      cbn [fst snd]. unfold seen at 1. cbn [fst]. destruct (kindof n).
      + rewrite C, IH by (intros m c' I; apply (H m); now right). apply map_ext. intros i. cbn [existsb snd]. now rewrite orb_assoc.
      + rewrite C, IH by (intros m c' I; apply (H m); now right). apply map_ext. intros i. cbn [existsb snd]. now rewrite orb_assoc.
      + apply IH. intros m c' I. apply (H m). now right. }
  specialize (G (fun _ => false) d LEN). cbn [orb] in G. rewrite <- G. f_equal. apply repeat_seq.
Qed.
Lemma all1_ok N (d : list (name * list V)) : (forall n c, In (n, c) d -> length c = N) ->
  all1 kindof truthy N d = map (fun i => forallb (fun p => truthy (nth i (snd p) inv)) (filter seen d)) (seq 0 N).
Proof.
  intros LEN. unfold all1.
  assert (G : forall (f : nat -> bool) l, (forall n c, In (n, c) l -> length c = N) ->
    fold_left (fun t p => match kindof (fst p) with KOther => t | _ => map (fun q => fst q && truthy (snd q)) (combine t (snd p)) end) l (map f (seq 0 N))
    = map (fun i => f i && forallb (fun p => truthy (nth i (snd p) inv)) (filter seen l)) (seq 0 N)).
  { intros f l. revert f. induction l as [|[n c] l IH]; intros f H; cbn [fold_left filter].
    - apply map_ext. intros i. now rewrite andb_true_r.
    - assert (C : map (fun q => fst q && truthy (snd q)) (combine (map f (seq 0 N)) c) = map (fun i => f i && truthy (nth i c inv)) (seq 0 N)).
      { apply (nth_ext _ _ false false); [rewrite !map_length, combine_length, map_length, seq_length, (H n c (or_introl eq_refl)); lia|].
        intros i Hi. rewrite map_length, combine_length, map_length, seq_length, (H n c (or_introl eq_refl)) in Hi.
        rewrite (nth_map _ _ _ _ (false, inv)) by (rewrite combine_length, map_length, seq_length, (H n c (or_introl eq_refl)); lia). rewrite combine_nth by (rewrite map_length, seq_length, (H n c (or_introl eq_refl)); reflexivity).
        cbn [fst snd]. rewrite !(nth_map _ _ _ _ 0) by (rewrite seq_length; lia). rewrite seq_nth by lia. reflexivity. }
      cbn [fst snd]. unfold seen at 1. cbn [fst]. destruct (kindof n).
      + rewrite C, IH by (intros m c' I; apply (H m); now right). apply map_ext. intros i. cbn [forallb snd]. now rewrite andb_assoc.
      + rewrite C, IH by (intros m c' I; apply (H m); now right). apply map_ext. intros i. cbn [forallb snd]. now rewrite andb_assoc.
      + apply IH. intros m c' I. apply (H m). now right. }
  specialize (G (fun _ => true) d LEN). cbn [andb] in G. rewrite <- G. f_equal. apply repeat_seq.
Qed.
Lemma filter_seen d : (forall n, In n (map fst d) -> kindof n <> KOther) -> filter seen d = d.
Proof.
  intros H. apply filter_all. intros p I. unfold seen. specialize (H (fst p) (in_map fst _ _ I)). destruct (kindof (fst p)); congruence.
Qed.
(** a row of any / all, in terms of cells *)
Lemma any_row (d : list (name * list V)) N i : rect d N -> (forall n, In n (map fst d) -> kindof n <> KOther) -> i < N ->
  (nth i (any1 kindof truthy N d) false = true <-> exists n x, cell_of d n i = Some x /\ truthy x = true).
Proof.
  intros [ND LEN] K Hi. rewrite any1_ok by exact LEN. rewrite filter_seen by exact K. rewrite (nth_map _ _ _ _ 0) by (now rewrite seq_length). rewrite seq_nth by exact Hi. cbn [plus]. rewrite existsb_exists. split.
  - intros ([n c] & I & T). cbn [snd] in T. exists n, (nth i c inv). split; [|exact T]. unfold cell_of. rewrite (dget_nodup d n c ND I). apply nth_error_nth'. now rewrite (LEN n c I).
  - intros (n & x & C & T). unfold cell_of in C. destruct (dget n d) as [c|] eqn:G; [|discriminate]. exists (n, c). split; [now apply dget_some_in|]. cbn [snd]. now rewrite (nth_error_nth c i inv C).
Qed.
Lemma all_row (d : list (name * list V)) N i : rect d N -> (forall n, In n (map fst d) -> kindof n <> KOther) -> i < N ->
  (nth i (all1 kindof truthy N d) false = true <-> forall n x, cell_of d n i = Some x -> truthy x = true).
Proof.
  intros [ND LEN] K Hi. rewrite all1_ok by exact LEN. rewrite filter_seen by exact K. rewrite (nth_map _ _ _ _ 0) by (now rewrite seq_length). rewrite seq_nth by exact Hi. cbn [plus]. rewrite forallb_forall. split.
  - intros H n x C. unfold cell_of in C. destruct (dget n d) as [c|] eqn:G; [|discriminate]. specialize (H (n, c) (dget_some_in _ _ _ G)). cbn [snd] in H. now rewrite (nth_error_nth c i inv C) in H.
  - intros H [n c] I. cbn [snd]. apply (H n). unfold cell_of. rewrite (dget_nodup d n c ND I). apply nth_error_nth'. now rewrite (LEN n c I).
Qed.
Lemma any_col (d : list (name * list V)) n b : NoDup (map fst d) -> In (n, b) (any0 truthy d) ->
  (b = true <-> exists i x, cell_of d n i = Some x /\ truthy x = true).
Proof.
  intros ND I. unfold any0 in I. apply in_map_iff in I. destruct I as ([m c] & E & I). cbn [fst snd] in E. injection E as -> <-. unfold cell_of. rewrite (dget_nodup d n c ND I). rewrite existsb_exists. split.
  - intros (x & Ix & T). apply In_nth_error in Ix. destruct Ix as [i Ei]. exists i, x. auto.
  - intros (i & x & E & T). exists x. split; [|exact T]. eapply nth_error_In, E.
Qed.
Lemma all_col (d : list (name * list V)) n b : NoDup (map fst d) -> In (n, b) (all0 truthy d) ->
  (b = true <-> forall i x, cell_of d n i = Some x -> truthy x = true).
Proof.
  intros ND I. unfold all0 in I. apply in_map_iff in I. destruct I as ([m c] & E & I). cbn [fst snd] in E. injection E as -> <-. unfold cell_of. rewrite (dget_nodup d n c ND I). rewrite forallb_forall. split.
  - intros H i x E. apply H. eapply nth_error_In, E.
  - intros H x Ix. apply In_nth_error in Ix. destruct Ix as [i Ei]. apply (H i x Ei).
Qed.
Lemma any_whole (d : list (name * list V)) : NoDup (map fst d) ->
  (any_none truthy d = true <-> exists n i x, cell_of d n i = Some x /\ truthy x = true).
Proof.
  intros ND. unfold any_none. rewrite existsb_exists. split.
  - intros ([n b] & I & E). cbn [snd] in E. apply (any_col d n b ND I) in E. destruct E as (i & x & E). exists n, i, x. exact E.
  - intros (n & i & x & C & T). assert (I : In n (map fst d)). { unfold cell_of in C. destruct (dget n d) as [c|] eqn:G; [|discriminate]. apply dget_some_in in G. apply in_map_iff. exists (n, c). auto. }
    assert (I' : In n (map fst (any0 truthy d))) by (unfold any0; rewrite map_map; exact I). apply in_map_iff in I'. destruct I' as ([m b] & E & I'). cbn [fst] in E. subst m. exists (n, b). split; [exact I'|]. apply (any_col d n b ND I'). exists i, x. auto.
Qed.
Lemma all_whole (d : list (name * list V)) : NoDup (map fst d) ->
  (all_none truthy d = true <-> forall n i x, cell_of d n i = Some x -> truthy x = true).
Proof.
  intros ND. unfold all_none. rewrite forallb_forall. split.
  - intros H n i x C. assert (I : In n (map fst d)). { unfold cell_of in C. destruct (dget n d) as [c|] eqn:G; [|discriminate]. apply dget_some_in in G. apply in_map_iff. exists (n, c). auto. }
    assert (I' : In n (map fst (all0 truthy d))) by (unfold all0; rewrite map_map; exact I). apply in_map_iff in I'. destruct I' as ([m b] & E & I'). cbn [fst] in E. subst m.
    apply (all_col d n b ND I') with i; [exact (H _ I')|exact C].
  - intros H [n b] I. cbn [snd]. apply (all_col d n b ND I). intros i x C. apply (H n i x C).
Qed.
End AnyAll.
End T.

Section Twice.
Context {V : Type}.
Variable inv : V.
Variable str : V -> name.
Variable conv : V -> V.
Variable of_name : name -> V.
Variable cname : nat -> name.
Lemma transpose_twice computable is_cat computable2 is_cat2 (d : list (name * list V)) N labels colnames cats gb header header2 t :
  let ns := match colnames with Some l => l | None => matrix_names computable is_cat d labels cats gb end in
  let nm := map (row_name inv str cname d labels) (seq 0 N) in
  rect d N -> 0 < N -> ns <> [] -> (forall n, In n ns -> In n (map fst d)) -> (forall n, In n labels -> In n (map fst d)) ->
  NoDup (header :: nm) -> NoDup (header2 :: ns) ->
  (forall n, str (of_name n) = n) -> (forall x, conv (conv x) = conv x) ->
  (forall n, In n nm -> computable2 n = true) ->
  transpose inv str computable is_cat conv of_name cname d labels colnames cats gb header = inl t ->
  exists t2, transpose inv str computable2 is_cat2 conv of_name cname t [header] None false false header2 = inl t2 /\
    map fst t2 = header2 :: ns /\
    (forall i, i < N -> cell_of t2 header2 i = Some (of_name (row_name inv str cname d labels i))) /\
    forall n i, In n ns -> i < N -> cell_of t2 n i = option_map conv (cell_of d n i).
Proof.
  intros ns nm RE HN NE IN IL ND ND2 SO CC CP ET.
  destruct (transpose_ok inv str computable is_cat conv of_name cname d N labels colnames cats gb header RE NE IN IL ND) as (t' & E & NT & LT & CT).
  rewrite ET in E. injection E as <-. fold ns in LT, CT. fold nm in NT.
  assert (MN : matrix_names computable2 is_cat2 t [header] false false = nm).
  { unfold matrix_names. rewrite NT. cbn [filter]. rewrite (proj2 (mem_in header [header])) by (now left). cbn [negb]. rewrite orb_false_r, andb_false_r.
    apply filter_all. intros n I. rewrite (CP n I). cbn [orb andb]. apply negb_true_iff, mem_not. intros [<-|[]]. inversion ND; auto. }
  assert (RT : rect t (length ns)). { split; [rewrite NT; exact ND|exact LT]. }
  assert (KH : forall j n, nth_error ns j = Some n -> row_name inv str cname t [header] j = n).
  { intros j n Ej. unfold row_name, key_at, text. cbn [map join]. destruct (CT j n Ej) as [A _]. unfold cell_of in A. destruct (dget header t) as [c|]; [|discriminate]. rewrite (nth_error_nth c j inv A). apply SO. }
  assert (NM2 : map (row_name inv str cname t [header]) (seq 0 (length ns)) = ns).
  { apply (nth_ext _ _ [] []); [now rewrite map_length, seq_length|]. intros j Hj. rewrite map_length, seq_length in Hj. rewrite (nth_map _ _ _ _ 0) by (now rewrite seq_length). rewrite seq_nth by exact Hj. cbn [plus]. apply KH. now apply nth_error_nth'. }
  destruct (transpose_ok inv str computable2 is_cat2 conv of_name cname t (length ns) [header] None false false header2 RT) as (t2 & E2 & NT2 & LT2 & CT2).
  - rewrite MN. unfold nm. destruct N; [lia|]. discriminate.
  - rewrite MN. intros n I. rewrite NT. now right.
  - intros n [<-|[]]. rewrite NT. now left.
  - rewrite NM2. exact ND2.
  - rewrite MN in CT2. rewrite NM2 in NT2. exists t2. split; [exact E2|]. split; [exact NT2|].
    assert (EI : forall i, i < N -> nth_error nm i = Some (row_name inv str cname d labels i)).
    { intros i Hi. unfold nm. rewrite nth_error_map. rewrite (nth_error_nth' (seq 0 N) 0) by (now rewrite seq_length). now rewrite seq_nth. }
    split.
    + intros i Hi. apply (CT2 i _ (EI i Hi)).
    + intros n i I Hi. apply In_nth_error in I. destruct I as [j Ej]. assert (Hj : j < length ns) by (apply nth_error_Some; congruence).
      destruct (CT2 i _ (EI i Hi)) as [_ A]. specialize (A j Hj). rewrite (KH j n Ej) in A. rewrite A. destruct (CT j n Ej) as [_ B]. rewrite (B i Hi). destruct (cell_of d n i); cbn [option_map]; [now rewrite CC|reflexivity].
Qed.
End Twice.
