(** Reshaping and reducing a Dataset: pivot, transpose, reduce, any / all and one_hot_encode (properties C122-C127). *)
From Coq Require Import List Arith Bool ZArith Permutation Lia.
From Verif Require Import FlattenModel DsModel DsSpec DsProofs3 AggSpec Acc2Spec ShapeModel ShapeSpec ShapeProofs ShapeProofs2 ShapeProofs3 ShapeProofs4.
Import ListNotations.

(** Example: prices by symbol and day *)
Definition sy : name := [115].
Definition dy : name := [100].
Definition px : name := [112].
Definition ex_d : list (name * list nat) := [(sy, [1; 1; 2]); (dy, [5; 6; 5]); (px, [10; 11; 12])].
Definition ex_str (v : nat) : name := [v].
Definition ex_missing (k : list nat) : bool := existsb (Nat.eqb 0) k.
Definition ex_cat : list (name * list nat) -> @grp nat := cat_first 0 Nat.eq_dec ex_missing.
Lemma ex_rect : rect ex_d 3.
Proof. split; [repeat constructor; cbn; intuition discriminate|]. intros n c I. cbn [In ex_d] in I. repeat (destruct I as [I|I]; [injection I as _ <-; reflexivity|]). destruct I. Qed.
Lemma ex_some n : In n [sy; dy; px] -> some_of ex_d [n].
Proof. intros I. split; [discriminate|]. split; [repeat constructor; intros []|]. intros m [<-|[]]. exact I. Qed.

Lemma fetch_cols {V} (d : list (name * list V)) ns : (forall n, In n ns -> In n (map fst d)) -> fetch d ns = Some (cols_of d ns).
Proof.
  induction ns as [|n ns IH]; intros H; cbn [fetch cols_of map]; [reflexivity|]. destruct (dget_has n d (H n (or_introl eq_refl))) as [c E]. rewrite E. rewrite IH by (intros m I; apply H; now right). reflexivity.
Qed.
Lemma keys_nodup {V} (inv : V) (missing : list V -> bool) cat d N ns : cat_ok inv missing cat -> rect d N -> some_of d ns -> NoDup (keys_of inv (cat (cols_of d ns))).
Proof.
  intros CO [ND LEN] (NE & NN & IN).
  destruct (CO (cols_of d ns) N) as (_ & (_ & _ & _ & INJ) & _).
  - destruct ns; [congruence|discriminate].
  - split; [unfold cols_of; rewrite map_map; cbn [fst]; rewrite map_id; exact NN|]. intros n c I. unfold cols_of in I. apply in_map_iff in I. destruct I as (m & E & I). injection E as -> <-. destruct (dget_has n d (IN n I)) as [c' E]. rewrite E. apply (LEN n). now apply dget_some_in.
  - unfold keys_of. generalize INJ. generalize (g_n (cat (cols_of d ns))). intros k H. apply (NoDup_nth _ []). intros i j Hi Hj E. rewrite map_length, seq_length in Hi, Hj.
    rewrite !(Acc2Proofs.nth_map _ _ _ _ 0) in E by (now rewrite seq_length). rewrite !seq_nth in E by assumption. now apply H.
Qed.

(** *** C122: pivot *)
Theorem C122_pivot_partial :
  forall (V : Type) (inv : V) (str : V -> name) (missing : list V -> bool) (cat : list (name * list V) -> grp),
  cat_ok inv missing cat ->
  forall d N labels columns flt vals,
  let vs := match vals with Some l => l | None => filter (fun n => negb (mem n (labels ++ columns))) (map fst d) end in
  let lk := keys_of inv (cat (cols_of d labels)) in
  let ck := keys_of inv (cat (cols_of d columns)) in
  rect d N -> some_of d labels -> some_of d columns -> filter_ok N flt ->
  vs <> [] -> (forall v, In v vs -> In v (map fst d)) ->
  (* what is missing from the property: *)
  NoDup (labels ++ map (text str) ck) ->
  (forall r r', r < N -> r' < N -> r <> r' -> target inv missing d labels columns flt r <> target inv missing d labels columns flt r') ->
  exists res, pivot inv str cat d labels columns vals flt = inl res /\ NoDup lk /\ NoDup ck /\
    (forall v, In v (map fst res) <-> In v vs) /\
    forall v t, dget v res = Some t -> pivot_table inv str missing d N labels columns flt lk ck v t.
Proof.
  intros V inv str missing cat CO d N labels columns flt vals vs lk ck RE SL SC FO NV HV ND U.
  destruct (pivot_ok inv str missing cat CO d N labels columns flt RE SL SC FO _ _ (fetch_cols d labels (proj2 (proj2 SL))) (fetch_cols d columns (proj2 (proj2 SC))) vals NV HV ND U) as (res & E & A & B).
  exists res. split; [exact E|]. split; [eapply keys_nodup; eauto|]. split; [eapply keys_nodup; eauto|]. split; [exact A|exact B].
Qed.
Print Assumptions C122_pivot_partial.
(** two rows for one cell are refused *)
Theorem C122_duplicates :
  forall (V : Type) (inv : V) (str : V -> name) (missing : list V -> bool) (cat : list (name * list V) -> grp),
  cat_ok inv missing cat ->
  forall d N labels columns flt vals r r',
  rect d N -> some_of d labels -> some_of d columns -> filter_ok N flt ->
  match vals with Some l => l | None => filter (fun n => negb (mem n (labels ++ columns))) (map fst d) end <> [] ->
  r < N -> r' < N -> r <> r' -> target inv missing d labels columns flt r = target inv missing d labels columns flt r' ->
  pivot inv str cat d labels columns vals flt = inr EValue.
Proof.
  intros V inv str missing cat CO d N labels columns flt vals r r' RE SL SC FO NV A B X E.
  exact (pivot_dup inv str missing cat CO d N labels columns flt RE SL SC FO _ _ (fetch_cols d labels (proj2 (proj2 SL))) (fetch_cols d columns (proj2 (proj2 SC))) vals r r' NV A B X E).
Qed.
Print Assumptions C122_duplicates.
(** Finding: [pivot] with a filter that drops two or more rows always raises "Duplicates exist": the
    check counts the rows of every bin, also of the bin of the filtered rows, although those rows do not
    appear in the table. *)
Theorem C122_filter_refuted : ~ (forall (cat : list (name * list nat) -> grp) (d : list (name * list nat)) N labels columns flt,
  cat_ok 0 ex_missing cat -> rect d N -> some_of d labels -> some_of d columns -> filter_ok N flt ->
  NoDup (labels ++ map (text ex_str) (keys_of 0 (cat (cols_of d columns)))) ->
  (forall r r' k, r < N -> r' < N -> r <> r' -> target 0 ex_missing d labels columns flt r = (Some (fst k), Some (snd k)) ->
     target 0 ex_missing d labels columns flt r' <> (Some (fst k), Some (snd k))) ->
  exists res, pivot 0 ex_str cat d labels columns (Some [px]) flt = inl res).
Proof.
  intros H. destruct (H ex_cat ex_d 3 [sy] [dy] (Some [true; false; false])) as [res E].
  - apply cat_first_ok.
  - exact ex_rect.
  - apply ex_some. now left.
  - apply ex_some. right. now left.
  - intros f E; injection E as <-; reflexivity.
  - vm_compute. repeat constructor; cbn; intuition discriminate.
  - intros [|[|[|r]]] [|[|[|r']]] k A B X; try lia; intros E; cbv -[fst snd] in E |- *; congruence.
  - vm_compute in E. discriminate.
Qed.
Print Assumptions C122_filter_refuted.
(** Finding: [pivot] names the columns by the texts of the keys joined by underscores; keys whose texts
    are joined to the same name ("a","b_c" and "a_b","c", or a number and a string), or to the name of a
    label column, overwrite one another silently. *)
Theorem C122_names_refuted : ~ (forall (str : nat -> name) (cat : list (name * list nat) -> grp) (d : list (name * list nat)) N labels columns,
  cat_ok 0 ex_missing cat -> rect d N -> some_of d labels -> some_of d columns ->
  (forall r r', r < N -> r' < N -> r <> r' -> target 0 ex_missing d labels columns None r <> target 0 ex_missing d labels columns None r') ->
  forall res t, pivot 0 str cat d labels columns (Some [px]) None = inl res -> dget px res = Some t ->
  length t = length labels + g_n (cat (cols_of d columns))).
Proof.
  intros H. specialize (H (fun v => if v =? 6 then sy else [v]) ex_cat ex_d 3 [sy] [dy] (cat_first_ok _ _ _) ex_rect (ex_some sy (or_introl eq_refl)) (ex_some dy (or_intror (or_introl eq_refl)))).
  assert (U : forall r r', r < 3 -> r' < 3 -> r <> r' -> target 0 ex_missing ex_d [sy] [dy] None r <> target 0 ex_missing ex_d [sy] [dy] None r').
  { intros [|[|[|r]]] [|[|[|r']]] A B X; try lia; vm_compute; congruence. }
  specialize (H U). vm_compute in H. specialize (H _ _ eq_refl eq_refl). discriminate.
Qed.
Print Assumptions C122_names_refuted.
Example C122_case :
  cat_ok 0 ex_missing ex_cat /\ rect ex_d 3 /\ some_of ex_d [sy] /\ some_of ex_d [dy] /\
  (forall r r', r < 3 -> r' < 3 -> r <> r' -> target 0 ex_missing ex_d [sy] [dy] None r <> target 0 ex_missing ex_d [sy] [dy] None r') /\
  NoDup ([sy] ++ map (text ex_str) (keys_of 0 (ex_cat (cols_of ex_d [dy])))) /\
  pivot 0 ex_str ex_cat ex_d [sy] [dy] None None = inl [(px, [(sy, [1; 2]); ([5], [10; 12]); ([6], [11; 0])])].
Proof.
  split; [apply cat_first_ok|]. split; [exact ex_rect|]. split; [apply ex_some; now left|]. split; [apply ex_some; right; now left|].
  split; [intros [|[|[|r]]] [|[|[|r']]] A B X; try lia; vm_compute; congruence|]. split; [vm_compute; repeat constructor; cbn; intuition discriminate|]. vm_compute. reflexivity.
Qed.

(** *** C123: pivot, then melt *)
Theorem C123_pivot_melt_partial :
  forall (V : Type) (inv : V) (str : V -> name) (of_name : name -> V) (blank : V -> bool) (missing : list V -> bool) (cat : list (name * list V) -> grp)
         (dec : forall a b : V, {a = b} + {a <> b}),
  cat_ok inv missing cat ->
  forall d N labels columns flt v var_name value_name,
  let lk := keys_of inv (cat (cols_of d labels)) in
  let ck := keys_of inv (cat (cols_of d columns)) in
  rect d N -> some_of d labels -> some_of d columns -> filter_ok N flt -> In v (map fst d) ->
  NoDup (labels ++ map (text str) ck) ->
  (forall r r', r < N -> r' < N -> r <> r' -> target inv missing d labels columns flt r <> target inv missing d labels columns flt r') ->
  ck <> [] -> ~ In var_name labels -> ~ In value_name labels -> var_name <> value_name -> blank inv = true ->
  exists t tm, pivot inv str cat d labels columns (Some [v]) flt = inl [(v, t)] /\
    melt of_name blank t (length lk) labels None var_name value_name true = Some tm /\
    map fst tm = labels ++ [var_name; value_name] /\
    (* every row of the dataset with a value is there *)
    (forall r kr kc x, r < N -> target inv missing d labels columns flt r = (Some kr, Some kc) -> cell_of d v r = Some x -> blank x = false ->
       exists q, key_at inv tm labels q = kr /\ cell_of tm var_name q = Some (of_name (text str kc)) /\ cell_of tm value_name q = Some x) /\
    (* and nothing else *)
    (forall q x, cell_of tm value_name q = Some x ->
       exists r kr kc, r < N /\ target inv missing d labels columns flt r = (Some kr, Some kc) /\ cell_of d v r = Some x /\ blank x = false /\
         key_at inv tm labels q = kr /\ cell_of tm var_name q = Some (of_name (text str kc))).
Proof.
  intros V inv str of_name blank missing cat dec CO d N labels columns flt v var_name value_name lk ck RE SL SC FO IV ND U NC N1 N2 N3 BI.
  destruct (C122_pivot_partial V inv str missing cat CO d N labels columns flt (Some [v]) RE SL SC FO) as (res & E & NL & NK & A & B); auto; [discriminate|intros w [<-|[]]; exact IV|].
  assert (RS : exists t, res = [(v, t)]).
  { unfold pivot in E. destruct labels as [|l0 ls] eqn:EL; [destruct SL; congruence|]. destruct columns as [|c0 cs] eqn:EC; [destruct SC; congruence|]. rewrite <- EL, <- EC in *.
    destruct (fetch d labels); [|discriminate]. destruct (fetch d columns); [|discriminate]. destruct (existsb _ _); [discriminate|]. cbn [pivot_values] in E. destruct (dget v d); [|discriminate]. destruct (pivot_dataset _ _ _ _ _ _) as [tt0|]; [|discriminate]. injection E as <-. exists tt0. reflexivity. }
  destruct RS as [t ->]. assert (G : dget v [(v, t)] = Some t) by (cbn [dget]; destruct (name_dec v v); congruence).
  destruct (pivot_melt_trim inv str of_name blank dec missing d t N labels columns flt lk ck v var_name value_name RE IV (B v t G) ND NL NC N1 N2 N3 BI) as (tm & M1 & M2 & M3 & M4).
  exists t, tm. split; [exact E|]. split; [exact M1|]. split; [exact M2|]. split; [exact M3|exact M4].
Qed.
Print Assumptions C123_pivot_melt_partial.
(** Finding: the row count is not kept when a cell of a row that appears in the table holds a value that
    looks blank (0, "" or NaN): [melt] with trim=True drops it, without trim every missing combination
    comes back as a row, so neither call restores the rows. *)
Theorem C123_blank_refuted : ~ (forall (d : list (name * list nat)) N t tm trim,
  rect d N -> (forall r r', r < N -> r' < N -> r <> r' -> target 0 ex_missing d [sy] [dy] None r <> target 0 ex_missing d [sy] [dy] None r') ->
  (forall r k k', r < N -> target 0 ex_missing d [sy] [dy] None r = (k, k') -> k <> None /\ k' <> None) ->
  pivot 0 ex_str ex_cat d [sy] [dy] (Some [px]) None = inl [(px, t)] ->
  melt (fun n => match n with [x] => x | _ => 0 end) (Nat.eqb 0) t (length (match dget sy t with Some c => c | None => [] end)) [sy] None dy px trim = Some tm ->
  match dget px tm with Some c => length c | None => 0 end = N).
Proof.
  intros H. set (D := [(sy, [1; 1; 2]); (dy, [5; 6; 5]); (px, [10; 0; 12])]).
  assert (R : rect D 3).
  { split; [repeat constructor; cbn; intuition discriminate|]. intros n c I. cbn [In D] in I. repeat (destruct I as [I|I]; [injection I as _ <-; reflexivity|]). destruct I. }
  assert (U : forall r r', r < 3 -> r' < 3 -> r <> r' -> target 0 ex_missing D [sy] [dy] None r <> target 0 ex_missing D [sy] [dy] None r').
  { intros [|[|[|r]]] [|[|[|r']]] A B X; try lia; vm_compute; congruence. }
  assert (P : forall r k k', r < 3 -> target 0 ex_missing D [sy] [dy] None r = (k, k') -> k <> None /\ k' <> None).
  { intros [|[|[|r]]] k k' A E; try lia; vm_compute in E; injection E as <- <-; split; discriminate. }
  assert (X := H D 3 [(sy, [1; 2]); ([5], [10; 12]); ([6], [0; 0])] [(sy, [1; 2]); (dy, [5; 5]); (px, [10; 12])] true R U P).
  specialize (X ltac:(vm_compute; reflexivity) ltac:(vm_compute; reflexivity)). vm_compute in X. discriminate.
Qed.
Print Assumptions C123_blank_refuted.
Example C123_case :
  melt (fun n => match n with [x] => x | _ => 0 end) (Nat.eqb 0) [(sy, [1; 2]); ([5], [10; 12]); ([6], [11; 0])] 2 [sy] None dy px true
  = Some [(sy, [1; 2; 1]); (dy, [5; 5; 6]); (px, [10; 12; 11])].
Proof. vm_compute. reflexivity. Qed.

(** *** C124: transpose *)
Theorem C124_transpose_partial :
  forall (V : Type) (inv : V) (str : V -> name) (computable is_cat : name -> bool) (conv : V -> V) (of_name : name -> V) (cname : nat -> name)
         d N labels colnames (cats gb : bool) header,
  let ns := match colnames with
            | Some l => l
            | None => filter (fun n => (computable n || (is_cat n && cats)) && (gb || negb (mem n labels))) (map fst d)
            end in
  rect d N -> ns <> [] -> (forall n, In n ns -> In n (map fst d)) -> (forall n, In n labels -> In n (map fst d)) ->
  let nm := map (row_name inv str cname d labels) (seq 0 N) in
  (* what is missing from the property: *)
  NoDup (header :: nm) ->
  exists t, transpose inv str computable is_cat conv of_name cname d labels colnames cats gb header = inl t /\
    map fst t = header :: nm /\
    (forall n c, In (n, c) t -> length c = length ns) /\
    forall j n, nth_error ns j = Some n ->
      cell_of t header j = Some (of_name n) /\
      forall i, i < N -> cell_of t (row_name inv str cname d labels i) j = option_map conv (cell_of d n i).
Proof.
  intros V inv str computable is_cat conv of_name cname d N labels colnames cats gb header ns RE NE HN HL nm ND. now apply transpose_ok.
Qed.
Print Assumptions C124_transpose_partial.
(** transposing the result, with the column of names as label, brings the (converted) columns back *)
Theorem C124_twice_partial :
  forall (V : Type) (inv : V) (str : V -> name) (computable is_cat computable2 is_cat2 : name -> bool) (conv : V -> V) (of_name : name -> V) (cname : nat -> name)
         d N labels colnames (cats gb : bool) header header2 t,
  let ns := match colnames with
            | Some l => l
            | None => filter (fun n => (computable n || (is_cat n && cats)) && (gb || negb (mem n labels))) (map fst d)
            end in
  let nm := map (row_name inv str cname d labels) (seq 0 N) in
  rect d N -> 0 < N -> ns <> [] -> (forall n, In n ns -> In n (map fst d)) -> (forall n, In n labels -> In n (map fst d)) ->
  NoDup (header :: nm) -> NoDup (header2 :: ns) ->
  (forall n, str (of_name n) = n) -> (forall x, conv (conv x) = conv x) ->
  (forall n, In n nm -> computable2 n = true) ->
  transpose inv str computable is_cat conv of_name cname d labels colnames cats gb header = inl t ->
  exists t2, transpose inv str computable2 is_cat2 conv of_name cname t [header] None false false header2 = inl t2 /\
    map fst t2 = header2 :: ns /\
    (forall i, i < N -> cell_of t2 header2 i = Some (of_name (row_name inv str cname d labels i))) /\
    forall n i, In n ns -> i < N -> cell_of t2 n i = option_map conv (cell_of d n i).
Proof.
  intros V inv str computable is_cat computable2 is_cat2 conv of_name cname d N labels colnames cats gb header header2 t ns nm RE HN NE IN IL ND ND2 SO CC CP ET.
  eapply transpose_twice; eauto.
Qed.
Print Assumptions C124_twice_partial.
(** Finding: [transpose] names the new columns by the texts of the labels; two rows with the same label,
    or a label equal to the header ("Col"), give one column, and the other row is silently lost. *)
Theorem C124_lost_refuted : ~ (forall (d : list (name * list nat)) N labels t,
  rect d N -> (forall n, In n labels -> In n (map fst d)) ->
  transpose 0 ex_str (fun _ => true) (fun _ => false) (fun x => x) (fun n => hd 0 n) (fun i => [67; i]) d labels None false false [67] = inl t ->
  length t = S N).
Proof.
  intros H. specialize (H ex_d 3 [sy] [([67], [100; 112]); ([1], [6; 11]); ([2], [5; 12])] ex_rect).
  specialize (H ltac:(intros n [<-|[]]; now left) ltac:(vm_compute; reflexivity)). discriminate.
Qed.
Print Assumptions C124_lost_refuted.
Example C124_case :
  transpose 0 ex_str (fun _ => true) (fun _ => false) (fun x => x) (fun n => hd 0 n) (fun i => [67; i]) ex_d [px] None false false [67]
  = inl [([67], [115; 100]); ([10], [1; 5]); ([11], [1; 6]); ([12], [2; 5])] /\
  transpose 0 ex_str (fun _ => true) (fun _ => false) (fun x => x) (fun n => hd 0 n) (fun i => [67; i]) [([67], [115; 100]); ([10], [1; 5]); ([11], [1; 6]); ([12], [2; 5])] [[67]] None false false [67]
  = inl [([67], [10; 11; 12]); (sy, [1; 1; 2]); (dy, [5; 6; 5])].
Proof. split; vm_compute; reflexivity. Qed.

(** *** C125: reduce *)
Theorem C125_columns :
  forall (V : Type) (inv : V) (computable is_cat : name -> bool) (conv : V -> V) (func : list V -> V) labels N d,
  reduce inv computable is_cat conv func Axis0 (One FNone) labels N d
  = (d, inl (ByCol (map (fun p => (fst p, func (snd p))) (filter (fun p => computable (fst p)) d)))).
Proof. intros. unfold reduce. rewrite reduce0_nofill. reflexivity. Qed.
Print Assumptions C125_columns.
Theorem C125_rows :
  forall (V : Type) (inv : V) (computable is_cat : name -> bool) (conv : V -> V) (func : list V -> V) labels N d,
  let cols := filter (fun p => computable (fst p) && negb (mem (fst p) labels)) d in
  rect d N -> cols <> [] ->
  snd (reduce inv computable is_cat conv func Axis1 (One FNone) labels N d)
  = inl (ByRow (map (fun i => func (map (fun p => conv (nth i (snd p) inv)) cols)) (seq 0 N))).
Proof. intros V inv computable is_cat conv func labels N d cols RE NE. exact (rows_ok inv (fun _ => []) computable is_cat conv (fun _ => inv) func labels N d RE NE). Qed.
Print Assumptions C125_rows.
(** a function that can be taken in parts gives the same result over everything, over the results of
    the columns and over the results of the rows *)
Theorem C125_axes_agree_partial :
  forall (V : Type) (inv : V) (computable is_cat : name -> bool) (conv : V -> V) (func : list V -> V) N d,
  (* what is missing: *) by_parts func ->
  rect d N -> (exists p, In p d /\ computable (fst p) = true) -> (forall n c x, In (n, c) d -> In x c -> conv x = x) ->
  exists x l rs, reduce inv computable is_cat conv func AxisNone (One FNone) [] N d = (d, inl (Whole x)) /\
    reduce inv computable is_cat conv func Axis0 (One FNone) [] N d = (d, inl (ByCol l)) /\
    reduce inv computable is_cat conv func Axis1 (One FNone) [] N d = (d, inl (ByRow rs)) /\
    x = func (map snd l) /\ x = func rs /\
    x = func (concat (map snd (filter (fun p => computable (fst p)) d))).
Proof.
  intros V inv computable is_cat conv func N d BP RE (p & I & C) CV.
  destruct (axes_agree inv (fun _ => []) computable is_cat conv (fun _ => inv) func N d BP RE) as (x & l & rs & A & B & E & R & F); auto.
  { intros Z. assert (J : In p (plain_cols computable d)) by (unfold plain_cols; apply filter_In; auto). rewrite Z in J. destruct J. }
  exists x, l, rs. split; [exact A|]. split; [exact B|]. split.
  - rewrite (surjective_pairing (reduce _ _ _ _ _ Axis1 _ _ _ _)). rewrite R. f_equal. exact (reduce_keeps inv (fun _ => []) computable is_cat conv (fun _ => inv) func Axis1 (One FNone) [] N d RE CV).
  - split; [exact E|]. split; [exact F|]. rewrite (whole_ok inv computable is_cat conv func [] N d BP) in A. injection A as <-. reflexivity.
Qed.
Print Assumptions C125_axes_agree_partial.
Theorem C125_unchanged_partial :
  forall (V : Type) (inv : V) (computable is_cat : name -> bool) (conv : V -> V) (func : list V -> V) ax fv labels N d,
  rect d N -> (* what is missing: *) (forall n c x, In (n, c) d -> In x c -> conv x = x) ->
  fst (reduce inv computable is_cat conv func ax fv labels N d) = d.
Proof. intros V inv computable is_cat conv func ax fv labels N d RE CV. exact (reduce_keeps inv (fun _ => []) computable is_cat conv (fun _ => inv) func ax fv labels N d RE CV). Qed.
Print Assumptions C125_unchanged_partial.
(** Finding: [reduce] with axis=1 (so also ds.sum(axis=1) and the like) changes the dataset it is called
    on: the columns are replaced by columns of the matrix, of the common type of all of them (integers
    become floats). *)
Theorem C125_unchanged_refuted : ~ (forall (conv : nat -> nat) (func : list nat -> nat) (d : list (name * list nat)) N,
  rect d N -> (forall x, conv (conv x) = conv x) ->
  fst (reduce 0 (fun _ => true) (fun _ => false) conv func Axis1 (One FNone) [] N d) = d).
Proof.
  intros H. specialize (H (fun x => if x <? 100 then x + 100 else x) list_sum ex_d 3 ex_rect). 
  assert (P : forall x, (if (if x <? 100 then x + 100 else x) <? 100 then (if x <? 100 then x + 100 else x) + 100 else (if x <? 100 then x + 100 else x)) = if x <? 100 then x + 100 else x).
  { intros x. destruct (x <? 100) eqn:E; [|now rewrite E]. destruct (x + 100 <? 100) eqn:F; [apply Nat.ltb_lt in F; lia|reflexivity]. }
  specialize (H P). vm_compute in H. discriminate.
Qed.
Print Assumptions C125_unchanged_refuted.
(** Finding: [reduce] with axis=None over a dataset that has a column of strings (or any other column
    that is not computable) applies the function to the results of the columns instead of to the values:
    the count of 2 columns of 3 rows is 2, and std is the spread of the columns' spreads. *)
Theorem C125_whole_refuted : ~ (forall (computable : name -> bool) (func : list nat -> nat) (d : list (name * list nat)) N,
  rect d N ->
  snd (reduce 0 computable (fun _ => false) (fun x => x) func AxisNone (One FNone) [] N d)
  = inl (Whole (func (concat (map snd (filter (fun p => computable (fst p)) d)))))).
Proof.
  intros H. specialize (H (fun n => if name_dec n sy then false else true) (@length nat) ex_d 3 ex_rect). vm_compute in H. discriminate.
Qed.
Print Assumptions C125_whole_refuted.
Lemma sum_parts : by_parts list_sum.
Proof.
  split.
  - induction ls as [|l ls IH]; [reflexivity|]. cbn [concat map]. rewrite list_sum_app, IH. reflexivity.
  - intros l l' P. induction P; cbn [list_sum fold_right] in *; unfold list_sum in *; cbn [fold_right]; lia.
Qed.
Example C125_case :
  by_parts list_sum /\ rect ex_d 3 /\
  snd (reduce 0 (fun n => if name_dec n sy then false else true) (fun _ => false) (fun x => x) list_sum AxisNone (One FNone) [] 3 ex_d) = inl (Whole 49) /\
  snd (reduce 0 (fun n => if name_dec n sy then false else true) (fun _ => false) (fun x => x) list_sum Axis0 (One FNone) [] 3 ex_d) = inl (ByCol [(dy, 16); (px, 33)]) /\
  snd (reduce 0 (fun n => if name_dec n sy then false else true) (fun _ => false) (fun x => x) list_sum Axis1 (One FNone) [] 3 ex_d) = inl (ByRow [15; 17; 17]).
Proof. split; [exact sum_parts|]. split; [exact ex_rect|]. repeat split. Qed.

(** *** C126: any and all *)
Theorem C126_any_all_partial :
  forall (V : Type) (kindof : name -> kind) (truthy : V -> bool) d N,
  rect d N -> (* what is missing: *) (forall n, In n (map fst d) -> kindof n <> KOther) ->
  (length (any1 kindof truthy N d) = N /\ length (all1 kindof truthy N d) = N) /\
  map fst (any0 truthy d) = map fst d /\ map fst (all0 truthy d) = map fst d /\
  (forall i, i < N -> (nth i (any1 kindof truthy N d) false = true <-> exists n x, cell_of d n i = Some x /\ truthy x = true)) /\
  (forall n b, In (n, b) (any0 truthy d) -> (b = true <-> exists i x, cell_of d n i = Some x /\ truthy x = true)) /\
  (any_none truthy d = true <-> exists n i x, cell_of d n i = Some x /\ truthy x = true) /\
  (forall i, i < N -> (nth i (all1 kindof truthy N d) false = true <-> forall n x, cell_of d n i = Some x -> truthy x = true)) /\
  (forall n b, In (n, b) (all0 truthy d) -> (b = true <-> forall i x, cell_of d n i = Some x -> truthy x = true)) /\
  (all_none truthy d = true <-> forall n i x, cell_of d n i = Some x -> truthy x = true).
Proof.
  intros V kindof truthy d N RE K. destruct RE as [ND LEN].
  assert (E : (exists v : V, True) \/ forall n i, cell_of d n i = None).
  { destruct (concat (map snd d)) as [|v l] eqn:C; [right|left; now exists v]. intros n i. unfold cell_of. destruct (dget n d) as [c|] eqn:G; [|reflexivity]. apply nth_error_None. apply dget_some_in in G.
    destruct c as [|x c]; [cbn; lia|]. exfalso. assert (I : In x (concat (map snd d))) by (apply in_concat; exists (x :: c); split; [apply in_map_iff; now exists (n, x :: c)|now left]). rewrite C in I. destruct I. }
  destruct E as [[v _]|E].
  - split; [rewrite (any1_ok v kindof truthy N d LEN), (all1_ok v kindof truthy N d LEN), !map_length, !seq_length; split; reflexivity|].
    split; [unfold any0; rewrite map_map; reflexivity|]. split; [unfold all0; rewrite map_map; reflexivity|].
    split; [intros i Hi; apply (any_row v kindof truthy d N i); [split; assumption|exact K|exact Hi]|].
    split; [intros n b I; now apply any_col|]. split; [now apply any_whole|].
    split; [intros i Hi; apply (all_row v kindof truthy d N i); [split; assumption|exact K|exact Hi]|].
    split; [intros n b I; now apply all_col|now apply all_whole].
  - (* no cells at all *)
    assert (LZ : forall n c, In (n, c) d -> c = []).
    { intros n c I. specialize (E n 0). unfold cell_of in E. rewrite (AggProofs2.dget_nodup d n c ND I) in E. destruct c; [reflexivity|discriminate]. }
    assert (NZ : d = [] \/ N = 0). { destruct d as [|[n c] d']; [now left|right]. rewrite <- (LEN n c) by (now left). rewrite (LZ n c) by (now left). reflexivity. }
    assert (A1 : any1 kindof truthy N d = repeat false N).
    { destruct NZ as [->| ->]; [reflexivity|]. unfold any1. clear -LZ. assert (G : forall l, fold_left (fun t p => match kindof (fst p) with KOther => t | _ => map (fun q => fst q || truthy (snd q)) (combine t (snd p)) end) l [] = []) by (induction l as [|p l IH]; [reflexivity|]; cbn [fold_left combine map]; destruct (kindof (fst p)); exact IH). apply G. }
    assert (A2 : all1 kindof truthy N d = repeat true N).
    { destruct NZ as [->| ->]; [reflexivity|]. unfold all1. clear -LZ. assert (G : forall l, fold_left (fun t p => match kindof (fst p) with KOther => t | _ => map (fun q => fst q && truthy (snd q)) (combine t (snd p)) end) l [] = []) by (induction l as [|p l IH]; [reflexivity|]; cbn [fold_left combine map]; destruct (kindof (fst p)); exact IH). apply G. }
    rewrite A1, A2, !repeat_length. split; [split; reflexivity|].
    split; [unfold any0; rewrite map_map; reflexivity|]. split; [unfold all0; rewrite map_map; reflexivity|].
    split. { intros i Hi. rewrite nth_repeat. split; [discriminate|]. intros (n & x & C & _). rewrite E in C. discriminate. }
    split; [intros n b I; now apply any_col|]. split; [now apply any_whole|].
    split. { intros i Hi. split; [|]. - intros _ n x C. rewrite E in C. discriminate. - intros _. rewrite (nth_indep _ false true) by (now rewrite repeat_length). apply nth_repeat. }
    split; [intros n b I; now apply all_col|now apply all_whole].
Qed.
Print Assumptions C126_any_all_partial.
(** Finding: [any] and [all] with axis=1 silently leave out columns that are neither numbers of the
    first 14 dtypes nor strings (complex, float16, datetime64, objects), although axis=0 and axis=None
    count them: a dataset of one complex column answers any(axis=None) = True and any(axis=1) all False. *)
Theorem C126_other_refuted : ~ (forall (kindof : name -> kind) (truthy : nat -> bool) (d : list (name * list nat)) N,
  rect d N -> (any_none truthy d = true <-> exists i, i < N /\ nth i (any1 kindof truthy N d) false = true)).
Proof.
  intros H. specialize (H (fun _ => KOther) (fun x => negb (x =? 0)) ex_d 3 ex_rect). destruct H as [H _]. destruct (H eq_refl) as (i & Hi & E). destruct i as [|[|[|i]]]; try lia; discriminate.
Qed.
Print Assumptions C126_other_refuted.
Example C126_case :
  any1 (fun _ => KNumber) (fun x => negb (x =? 0)) 3 [(sy, [0; 0; 2]); (dy, [0; 6; 5])] = [false; true; true] /\
  all1 (fun _ => KNumber) (fun x => negb (x =? 0)) 3 [(sy, [0; 0; 2]); (dy, [0; 6; 5])] = [false; false; true] /\
  any_none (fun x => negb (x =? 0)) [(sy, [0; 0; 2]); (dy, [0; 6; 5])] = true /\ all_none (fun x => negb (x =? 0)) [(sy, [0; 0; 2]); (dy, [0; 6; 5])] = false.
Proof. repeat split. Qed.

(** *** C127: one_hot_encode *)
Theorem C127_one_hot_partial :
  forall (V : Type) (zero one : V) (d : list (name * column)) columns exclude,
  let cs := match columns with Some l => l | None => filter (fun n => negb (mem n exclude)) (map fst d) end in
  (forall c, In c cs -> In c (map fst d)) ->
  (* what is missing: *) NoDup (map fst d ++ hot_names d cs) ->
  exists d', one_hot_encode zero one columns exclude d = Some d' /\
    map fst d' = filter (fun n => negb (mem n cs && is_encoded d n)) (map fst d) ++ hot_names d cs /\
    (forall n, In n (map fst d) -> mem n cs && is_encoded d n = false -> dget n d' = dget n d) /\
    (forall c cc k nm, In c cs -> dget c d = Some (Cat cc) -> nth_error (cc_cats cc) k = Some nm ->
       exists v, dget (hot_name c nm) d' = Some (Plain v) /\ length v = length (cc_code cc) /\
         forall r o, nth_error (cc_code cc) r = Some o ->
           (o = Some k -> nth_error v r = Some one) /\ (o <> Some k -> nth_error v r = Some zero)).
Proof. intros V zero one d columns exclude cs HI ND. now apply (hot_ok zero one d cs columns exclude). Qed.
Print Assumptions C127_one_hot_partial.
(** Finding: [one_hot_encode] sets the columns by their names "column__category" without looking: an
    existing column of that name is overwritten, and the columns of 'a' with category 'b__c' and of
    'a__b' with category 'c' are the same column. *)
Theorem C127_names_refuted : ~ (forall (d d' : list (name * @column nat)) n c,
  NoDup (map fst d) -> dget n d = Some (Plain c) -> one_hot_encode 0 1 None [] d = Some d' -> dget n d' = Some (Plain c)).
Proof.
  intros H. specialize (H [([97], Cat (mkCC [[120]; [121]] [Some 0; Some 1; None])); ([97; 95; 95; 120], Plain [7; 8; 9])] [([97; 95; 95; 120], Plain [1; 0; 0]); ([97; 95; 95; 121], Plain [0; 1; 0])] [97; 95; 95; 120] [7; 8; 9]).
  assert (E := H). clear H. specialize (E ltac:(repeat constructor; cbn; intuition discriminate) ltac:(vm_compute; reflexivity) ltac:(vm_compute; reflexivity)). vm_compute in E. discriminate.
Qed.
Print Assumptions C127_names_refuted.
Example C127_case :
  let d := [([97], Cat (mkCC [[120]; [121]] [Some 0; Some 1; None])); ([98], Plain [7; 8; 9])] in
  NoDup (map fst d ++ hot_names d [[97]; [98]]) /\
  one_hot_encode 0 1 None [] d = Some [([98], Plain [7; 8; 9]); ([97; 95; 95; 120], Plain [1; 0; 0]); ([97; 95; 95; 121], Plain [0; 1; 0])].
Proof. split; [vm_compute; repeat constructor; cbn; intuition discriminate|vm_compute; reflexivity]. Qed.
