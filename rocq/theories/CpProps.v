(** Tables of several columns (C237), columns popped (C238), the truth of Structs (C239). *)
From Coq Require Import List ZArith Bool Lia Permutation.
From Verif Require Import FlattenModel FlattenProofs CvProofs CpSpec CpModel CpProofs.
Import ListNotations.

(** accum_cols gives the label columns and then, for each value and in their order, a column
    under its name, with its footer: the aggregate, the ratio or the share of the value,
    with the function and the filter in the same place.  Extra functions are ignored; fewer
    give fewer columns. *)
Theorem C237_columns_partial :
  forall A F Filter X Y agg ratio percent (labels : list (name * X)) (all_true : Filter) (vals : list (value A)) names filts (funcs : list F) (out : list (X * Y)),
  vals <> [] -> funcs <> [] -> length names = length vals -> length filts = length vals -> length out = Nat.min (length vals) (length funcs) ->
  (forall i v filt f o, nth_error vals i = Some v -> nth_error filts i = Some filt -> nth_error funcs i = Some f -> nth_error out i = Some o ->
     computed agg ratio percent f filt v (fst o) (snd o)) ->
  NoDup names -> (forall n, In n names -> ~ In n (map fst labels)) ->
  accum_cols agg ratio percent labels all_true vals (Some names) (Some (Each filts)) (Each funcs) =
  Some (labels ++ combine names (map fst out), combine names (map snd out)).
Proof.
  intros A F Filter X Y agg ratio percent labels all_true vals names filts funcs out V0 F0 LN LF LO H N D. unfold accum_cols. cbv zeta. cbn [spread].
  destruct vals as [|v vals]; [congruence|]. destruct funcs as [|f funcs]; [congruence|]. destruct names as [|n names]; [discriminate|]. destruct filts as [|filt filts]; [discriminate|].
  cbn [nothing orb]. rewrite (add_cols_is agg ratio percent _ _ _ _ out labels []); [reflexivity| |exact H|exact N|].
  - rewrite LO. cbn [length] in *. lia.
  - intros k I. split; [now apply D|intros []].
Qed.
Print Assumptions C237_columns_partial.

(** With one function and the defaults, the columns are col0, col1, ... and nothing is
    filtered. *)
Theorem C237_defaults_partial :
  forall A F Filter X Y agg ratio percent (labels : list (name * X)) (all_true : Filter) (vals : list (value A)) (f : F) (out : list (X * Y)),
  vals <> [] -> length out = length vals ->
  (forall i v o, nth_error vals i = Some v -> nth_error out i = Some o -> computed agg ratio percent f all_true v (fst o) (snd o)) ->
  (forall i, ~ In (col_name i) (map fst labels)) ->
  exists cols foot, accum_cols agg ratio percent labels all_true vals None None (OneForAll f) = Some (labels ++ cols, foot) /\
  length cols = length vals /\ length foot = length vals /\
  forall i o, nth_error out i = Some o -> nth_error cols i = Some (col_name i, fst o) /\ nth_error foot i = Some (col_name i, snd o).
Proof.
  intros A F Filter X Y agg ratio percent labels all_true vals f out V0 LO H D.
  exists (combine (map col_name (seq 0 (length vals))) (map fst out)), (combine (map col_name (seq 0 (length vals))) (map snd out)). split.
  - unfold accum_cols. cbv zeta. cbn [spread]. assert (E : nothing vals || nothing (map col_name (seq 0 (length vals))) || nothing (repeat all_true (length vals)) || nothing (repeat f (length vals)) = false).
    { destruct vals; [congruence|]. reflexivity. }
    rewrite E. rewrite (add_cols_is agg ratio percent _ _ _ _ out labels []); [reflexivity| | |apply col_names_nodup|].
    + rewrite map_length, seq_length, !repeat_length, LO. lia.
    + intros i v filt g o Ev Ef Eg Eo. apply nth_error_In, repeat_spec in Ef. apply nth_error_In, repeat_spec in Eg. subst. exact (H i v o Ev Eo).
    + intros n I. split; [|intros []]. apply in_map_iff in I. destruct I as (i & <- & _). apply D.
  - split; [rewrite combine_length, !map_length, seq_length; lia|]. split; [rewrite combine_length, !map_length, seq_length; lia|].
    intros i o Eo. assert (L : (i < length vals)%nat) by (rewrite <- LO; apply nth_error_Some; congruence).
    assert (G : forall (T : Type) (a : list nat) (b : list T) i x y, nth_error a i = Some x -> nth_error b i = Some y -> nth_error (combine (map col_name a) b) i = Some (col_name x, y)).
    { clear. induction a as [|p a IH]; intros b i x y Ea Eb; [destruct i; discriminate|]. destruct b as [|q b]; [destruct i; discriminate|]. destruct i as [|i]; cbn in *; [congruence|now apply IH]. }
    assert (Es : nth_error (seq 0 (length vals)) i = Some i) by (rewrite (nth_error_nth' _ 0) by (rewrite seq_length; exact L); f_equal; now rewrite seq_nth).
    split; apply G; try exact Es; now apply map_nth_error.
Qed.
Print Assumptions C237_defaults_partial.

(** Finding: zip stops at the shortest list (rt_accumtable.py:1628): with fewer names, or
    fewer filters, than values the other values are left out without a word. *)
Theorem C237_short_refuted :
  forall A F Filter X Y agg ratio percent (labels : list (name * X)) (all_true : Filter) (vals more : list (value A)) names filts (funcs : each F),
  names <> [] -> length names = length vals ->
  exists g, accum_cols (Y := Y) agg ratio percent labels all_true (vals ++ more) (Some names) (Some (OneForAll filts)) funcs =
            accum_cols agg ratio percent labels all_true vals (Some names) (Some (OneForAll filts)) (Each g).
Proof.
  intros A F Filter X Y agg ratio percent labels all_true vals more names filts funcs N0 LN. exists (spread funcs (length (vals ++ more))).
  unfold accum_cols. cbv zeta. cbn [spread]. destruct vals as [|v vals]; [destruct names; [congruence|discriminate]|]. destruct names as [|n names]; [discriminate|].
  cbn [app length repeat nothing orb]. destruct (nothing (spread funcs (S (length (vals ++ more))))) eqn:E; [reflexivity|].
  set (fs := spread funcs (S (length (vals ++ more)))). clearbody fs.
  assert (G : forall (vals : list (value A)) names fs (cols : list (name * X)) (foot : list (name * Y)), length names = length vals ->
    add_cols agg ratio percent (vals ++ more) names (repeat filts (length (vals ++ more))) fs cols foot = add_cols agg ratio percent vals names (repeat filts (length vals)) fs cols foot).
  { clear. induction vals as [|v vals IH]; intros names fs cols foot L.
    - destruct names; [|discriminate]. cbn. now destruct more.
    - destruct names as [|n names]; [discriminate|]. cbn [app length repeat add_cols]. destruct fs as [|f fs]; [reflexivity|]. destruct (curr_data agg ratio percent f filts v) as [[x y]|]; [|reflexivity].
      apply IH. now injection L. }
  exact (G (v :: vals) (n :: names) fs labels [] LN).
Qed.
Print Assumptions C237_short_refuted.

(** Finding: the letter is tested with in "pP" (rt_accumtable.py:1633), which is true for
    the empty string and for pP; other strings raise. *)
Theorem C237_letter_refuted :
  forall A F Filter X Y agg ratio percent (f : F) (filt : Filter) (a : A),
  curr_data (X := X) (Y := Y) agg ratio percent f filt (Named a []) = percent f a filt /\
  (forall s, s <> [] -> s <> [112]%nat -> s <> [80]%nat -> s <> [112; 80]%nat -> curr_data (X := X) (Y := Y) agg ratio percent f filt (Named a s) = None).
Proof.
  intros A F Filter X Y agg ratio percent f filt a. split; [reflexivity|]. intros s H1 H2 H3 H4. cbn [curr_data]. unfold in_pP. cbn [existsb].
  destruct (name_dec [] s); [congruence|]. destruct (name_dec [112]%nat s); [congruence|]. destruct (name_dec [80]%nat s); [congruence|]. destruct (name_dec [112; 80]%nat s); [congruence|]. reflexivity.
Qed.
Print Assumptions C237_letter_refuted.

Example C237_case :
  let agg := fun (f a : nat) (_ : bool) => Some (f + a, a)%nat in let ratio := fun (f a b : nat) (_ : bool) => Some (a, b) in let percent := fun (f a : nat) (_ : bool) => Some (100, f)%nat in
  accum_cols agg ratio percent [([71]%nat, 0%nat)] true [Plain 1%nat; Ratio 2%nat 3%nat; Named 4%nat [80]%nat] None None (OneForAll 10%nat) =
    Some ([([71]%nat, 0%nat); ([99; 111; 108; 48]%nat, 11%nat); ([99; 111; 108; 49]%nat, 2%nat); ([99; 111; 108; 50]%nat, 100%nat)],
          [([99; 111; 108; 48]%nat, 1%nat); ([99; 111; 108; 49]%nat, 3%nat); ([99; 111; 108; 50]%nat, 10%nat)]).
Proof. cbv zeta. vm_compute. reflexivity. Qed.

(** A column popped by its name, or its place, from the front or from the back, is returned
    and leaves the Struct; the others stay as they were. *)
Theorem C238_one :
  forall V (st : struct V) pre k v post, st = pre ++ (k, v) :: post -> NoDup (map fst st) ->
  col_pop false (Name k) st = (One v, pre ++ post) /\
  col_pop false (Num (Z.of_nat (length pre))) st = (One v, pre ++ post) /\
  col_pop false (Num (- Z.of_nat (S (length post)))) st = (One v, pre ++ post).
Proof.
  intros V st pre k v post E N.
  assert (K : In k (map fst st)) by (rewrite E, map_app; apply in_or_app; right; now left).
  assert (G : dget k st = Some v) by (apply dget_in; [exact N|rewrite E; apply in_or_app; right; now left]).
  assert (D : delete k st = pre ++ post).
  { subst. clear K G. induction pre as [|[k' v'] pre IH]; cbn [app delete]; [destruct (name_dec k k); [reflexivity|congruence]|]. cbn [app map fst] in N. inversion N as [|? ? N1 N2]; subst.
    destruct (name_dec k' k) as [->|]; [elim N1; rewrite map_app; apply in_or_app; right; now left|]. f_equal. now apply IH. }
  assert (P : col_pop false (Name k) st = (One v, pre ++ post)).
  { unfold col_pop. cbn [extract]. cbv zeta. cbn [forallb]. rewrite (proj2 (isin_in _ _) K). cbn [andb negb]. rewrite G. cbn [fold_left]. now rewrite D. }
  assert (L : length (map fst st) = (length pre + S (length post))%nat) by (rewrite E, map_length, app_length; reflexivity).
  assert (X : nth_error (map fst st) (length pre) = Some k).
  { rewrite E, map_app. rewrite nth_error_app2 by (rewrite map_length; lia). rewrite map_length, Nat.sub_diag. reflexivity. }
  split; [exact P|]. unfold col_pop in *. cbn [extract] in *. unfold pyget. rewrite L. split.
  - destruct (Z.ltb_spec (Z.of_nat (length pre)) (- Z.of_nat (length pre + S (length post)))); [lia|]. destruct (Z.leb_spec (Z.of_nat (length pre + S (length post))) (Z.of_nat (length pre))); [lia|]. cbn [orb].
    destruct (Z.ltb_spec (Z.of_nat (length pre)) 0); [lia|]. rewrite Nat2Z.id, X. cbn [option_map]. exact P.
  - destruct (Z.ltb_spec (- Z.of_nat (S (length post))) (- Z.of_nat (length pre + S (length post)))); [lia|]. destruct (Z.leb_spec (Z.of_nat (length pre + S (length post))) (- Z.of_nat (S (length post)))); [lia|]. cbn [orb].
    destruct (Z.ltb_spec (- Z.of_nat (S (length post))) 0); [|lia]. replace (Z.to_nat (- Z.of_nat (S (length post)) + Z.of_nat (length pre + S (length post)))) with (length pre) by lia.
    rewrite X. cbn [option_map]. exact P.
Qed.
Print Assumptions C238_one.

(** Columns popped by a list of names are returned in the order of the list, the others stay
    in theirs; together they are the columns of before. *)
Theorem C238_many_partial :
  forall V (st : struct V) l, NoDup (map fst st) -> l <> [] -> NoDup l -> (forall k, In k l -> In k (map fst st)) ->
  exists d left, col_pop false (Names l) st = (Sub d, left) /\ map fst d = l /\ Permutation st (d ++ left) /\
  left = filter (fun c => if in_dec name_dec (fst c) l then false else true) st.
Proof.
  intros V st l N L0 NL H. destruct (pick_is l st H) as (d & Ed & Kd & Vd). exists d, (filter (fun c => negb (isin l (fst c))) st).
  split; [|split; [exact Kd|split; [exact (pick_perm l st d N NL Kd Vd)|]]].
  - unfold col_pop. destruct l as [|k l]; [congruence|]. cbn [extract]. cbv zeta. assert (A : forallb (isin (map fst st)) (k :: l) = true) by (apply forallb_forall; intros x I; apply isin_in; now apply H).
    rewrite A. cbn [negb]. rewrite (proj2 (unique_nodup _) NL), Ed. now rewrite deletes_is.
  - apply filter_ext. intros [k v]. cbn [fst]. destruct (in_dec name_dec k l) as [I|I]; [now rewrite (proj2 (isin_in _ _) I)|].
    rewrite <- isin_in in I. apply not_true_iff_false in I. now rewrite I.
Qed.
Print Assumptions C238_many_partial.

(** [:] pops everything. *)
Theorem C238_everything :
  forall V (st : struct V), NoDup (map fst st) -> col_pop false Everything st = (Sub st, []).
Proof.
  intros V st N. unfold col_pop. cbn [extract]. cbv zeta. assert (A : forallb (isin (map fst st)) (map fst st) = true) by (apply forallb_forall; intros x I; now apply isin_in).
  rewrite A. cbn [negb]. rewrite (proj2 (unique_nodup _) N). assert (Pk : pick (map fst st) st = Some st).
  { destruct (pick_is (map fst st) st (fun k I => I)) as (d & Ed & Kd & Vd). rewrite Ed. f_equal. clear A Ed.
    assert (G : forall d' st' : struct V, map fst d' = map fst st' -> incl st' st -> (forall k v, In (k, v) d' -> dget k st = Some v) -> d' = st').
    { induction d' as [|[k v] d' IH]; intros [|[k' v'] st'] E I W; try discriminate; [reflexivity|]. cbn [map fst] in E. injection E as -> E.
      rewrite (IH st' E); [|intros x J; apply I; now right|intros k v'' J; apply W; now right]. f_equal. f_equal. pose proof (W k' v (or_introl eq_refl)) as Q.
      rewrite (dget_in k' v' st N (I _ (or_introl eq_refl))) in Q. congruence. }
    apply G; [exact Kd|apply incl_refl|exact Vd]. }
  rewrite Pk. f_equal. rewrite deletes_is by exact N. assert (G : forall s : struct V, incl s st -> filter (fun c => negb (isin (map fst st) (fst c))) s = []).
  { induction s as [|[k v] s IH]; intros I; [reflexivity|]. cbn [filter fst]. assert (J : isin (map fst st) k = true) by (apply isin_in; apply (in_map fst) with (x := (k, v)); apply I; now left).
    rewrite J. cbn [negb]. apply IH. intros x K. apply I. now right. }
  apply G, incl_refl.
Qed.
Print Assumptions C238_everything.

(** A pop that raises changes nothing: a column that is missing, a number out of range, no
    names, a name twice, a locked Struct. *)
Theorem C238_raises :
  forall V locked (st : struct V) s p left, col_pop locked s st = (p, left) ->
  (match p with One _ | Sub _ => True | _ => left = st end) /\
  (locked = true -> left = st /\ match p with One _ | Sub _ => False | _ => True end) /\
  (forall k, s = Name k -> ~ In k (map fst st) -> p = IndexError) /\
  (forall l, s = Names l -> (exists k, In k l /\ ~ In k (map fst st)) \/ l = [] \/ ~ NoDup l -> p = IndexError) /\
  (forall z, s = Num z -> (z < - Z.of_nat (length st))%Z \/ (Z.of_nat (length st) <= z)%Z -> p = IndexError).
Proof.
  intros V locked st s p left0 E.
  assert (M : forall names, (exists k, In k names /\ ~ In k (map fst st)) -> forallb (isin (map fst st)) names = false).
  { intros names (k & I & J). apply forallb_false. exists k. split; [exact I|]. apply not_true_iff_false. now rewrite isin_in. }
  split; [|split; [|split; [|split]]].
  - unfold col_pop in E. destruct (extract s (map fst st)) as [c|]; [|injection E as <- <-; exact eq_refl]. cbv zeta in E.
    match type of E with (if ?b then _ else _) = _ => destruct b; [injection E as <- <-; exact eq_refl|] end.
    match type of E with match ?n with _ => _ end = _ => destruct n; try (injection E as <- <-; exact eq_refl) end; destruct locked; injection E as <- <-; exact I || exact eq_refl.
  - intros ->. unfold col_pop in E. destruct (extract s (map fst st)) as [c|]; [|injection E as <- <-; split; [reflexivity|exact I]]. cbv zeta in E.
    match type of E with (if ?b then _ else _) = _ => destruct b; [injection E as <- <-; split; [reflexivity|exact I]|] end.
    match type of E with match ?n with _ => _ end = _ => destruct n end; injection E as <- <-; split; reflexivity || exact I.
  - intros k -> J. unfold col_pop in E. cbn [extract] in E. cbv zeta in E. rewrite M in E; [|exists k; split; [now left|exact J]]. cbn [negb] in E. congruence.
  - intros l -> J. unfold col_pop in E. destruct l as [|k l]; [cbn [extract] in E; congruence|]. cbn [extract] in E. cbv zeta in E.
    destruct (forallb (isin (map fst st)) (k :: l)) eqn:A; cbn [negb] in E; [|congruence]. destruct J as [J|[J|J]]; [rewrite (M _ J) in A; discriminate|discriminate|].
    rewrite <- unique_nodup in J. apply not_true_iff_false in J. rewrite J in E. congruence.
  - intros z -> J. unfold col_pop in E. cbn [extract] in E. unfold pyget in E. rewrite map_length in E.
    assert (B : (z <? - Z.of_nat (length st))%Z || (Z.of_nat (length st) <=? z)%Z = true) by (apply orb_true_iff; destruct J; [left; now apply Z.ltb_lt|right; now apply Z.leb_le]).
    rewrite B in E. cbn [option_map] in E. congruence.
Qed.
Print Assumptions C238_raises.

(** Finding: a list of numbers, True and False or a slice, which ds[...] takes, cannot be
    popped: they select a numpy array, which col_pop hands to getattr
    (rt_struct.py:3692-3695): TypeError. *)
Theorem C238_numbers_refuted :
  forall V (st : struct V), st <> [] -> fst (col_pop false (Nums [0%Z]) st) = TypeError /\
  fst (col_pop false (Bools (map (fun _ => true) st)) st) = TypeError /\ fst (col_pop false (Slice (firstn 1)) st) = TypeError.
Proof.
  intros V [|[k v] st] N; [congruence|]. clear N. unfold col_pop. split; [|split].
  - assert (P : pyget (map fst ((k, v) :: st)) 0 = Some k).
    { unfold pyget. cbn [map fst length]. destruct (Z.ltb_spec 0 (- Z.of_nat (S (length (map fst st))))); [lia|]. destruct (Z.leb_spec (Z.of_nat (S (length (map fst st)))) 0); [lia|]. reflexivity. }
    cbn [extract pyget_all]. rewrite P. cbn [option_map]. cbv zeta. cbn [forallb]. rewrite (proj2 (isin_in _ _)) by now left. reflexivity.
  - cbn [map extract]. change (true :: map (fun _ => true) st) with (map (fun _ : name * V => true) ((k, v) :: st)). change (fst (k, v) :: map fst st) with (map fst ((k, v) :: st)).
    rewrite !map_length, Nat.eqb_refl. cbv zeta. assert (A : forallb (isin (map fst ((k, v) :: st))) (map snd (filter fst (combine (map (fun _ : name * V => true) ((k, v) :: st)) (map fst ((k, v) :: st))))) = true).
    { apply forallb_forall. intros x I. apply isin_in. apply in_map_iff in I. destruct I as ([b y] & <- & I). apply filter_In in I. destruct I as (I & _). exact (in_combine_r _ _ _ _ I). }
    rewrite A. reflexivity.
  - cbn [extract map fst firstn]. cbv zeta. cbn [forallb]. rewrite (proj2 (isin_in _ _)) by now left. reflexivity.
Qed.
Print Assumptions C238_numbers_refuted.

Example C238_case :
  let st := [([97]%nat, 1%nat); ([98]%nat, 2%nat); ([99]%nat, 3%nat)] in
  col_pop false (Name [98]%nat) st = (One 2%nat, [([97]%nat, 1%nat); ([99]%nat, 3%nat)]) /\
  col_pop false (Num (-1)) st = (One 3%nat, [([97]%nat, 1%nat); ([98]%nat, 2%nat)]) /\
  col_pop false (Names [[99]; [97]]%nat) st = (Sub [([99]%nat, 3%nat); ([97]%nat, 1%nat)], [([98]%nat, 2%nat)]) /\
  col_pop true (Name [98]%nat) st = (AttributeError, st) /\
  col_pop false (Names [[99]; [100]]%nat) st = (IndexError, st).
Proof. cbv zeta. repeat split; vm_compute; reflexivity. Qed.

(** Struct.any is whether there is a true element, at any depth; Struct.all whether there is
    no false one. *)
Theorem C239_truth_partial :
  forall i, plain i -> (any i = true <-> element true i) /\ (all i = true <-> ~ element false i).
Proof.
  intros i P. split; [now apply any_ok|]. rewrite <- (all_ok i P). destruct (all i); split; congruence.
Qed.
Print Assumptions C239_truth_partial.

(** Finding: of a dictionary in the Struct the keys are tested, not the values
    (rt_struct.py:4026-4028, 4057-4059): with {"a": False} any is True. *)
Theorem C239_dict_refuted :
  exists i, i = SubStruct [([100]%nat, Dict [(true, false)])] /\ any i = true /\ all i = true /\ ~ element true i /\ element false i.
Proof.
  eexists. split; [reflexivity|]. split; [reflexivity|]. split; [reflexivity|]. split.
  - intros E. inversion E as [k i l I E'| | | |]; subst. destruct I as [Q|[]]. injection Q as <- <-. inversion E' as [| | |k' l' I'|]; subst. destruct I' as [Q|[]]. discriminate.
  - apply (e_sub false [100]%nat (Dict [(true, false)])); [now left|]. apply (e_dict false true). now left.
Qed.
Print Assumptions C239_dict_refuted.

Example C239_case :
  let i := SubStruct [([97]%nat, SubStruct [([98]%nat, Array [false; true])]); ([99]%nat, Scalar false)] in
  plain i /\ any i = true /\ all i = false /\ element true i /\ element false i.
Proof.
  cbv zeta. split; [|split; [reflexivity|split; [reflexivity|split]]].
  - constructor. intros k i [Q|[Q|[]]]; injection Q as <- <-; [|constructor]. constructor. intros k i [Q|[]]. injection Q as <- <-. constructor.
  - eapply e_sub; [now left|]. eapply e_sub; [now left|]. constructor. right. now left.
  - eapply e_sub; [right; now left|]. constructor.
Qed.
