(** Functions applied to Datasets (C235); tables of percentages (C236). *)
From Coq Require Import List QArith Bool Lia.
From Verif Require Import FlattenModel FlattenProofs CvModel ArSpec ArModel ArProofs.
Import ListNotations.

(** A function applied to a Dataset gives the Dataset with the same columns in the same
    order, each the function of the old one. *)
Theorem C235_one_partial :
  forall X method (f : func X) (g : X -> X) (d : dataset X), (forall k v, In (k, v) d -> f_call f v = Some (g v)) ->
  apply method false [f] d = One (map (fun c => (fst c, g (snd c))) d) /\
  (method (f_name f) = None -> apply method true [f] d = One (map (fun c => (fst c, g (snd c))) d)).
Proof.
  intros X method f g d H. unfold apply, apply_one. rewrite (call_all_ok f d g H). split; [reflexivity|]. intros ->. reflexivity.
Qed.
Print Assumptions C235_one_partial.

(** Several functions with distinct names give one such Dataset for each, in their order,
    under the capitalized name of the function. *)
Theorem C235_many_partial :
  forall X method check (fg : list (func X * (X -> X))) (d : dataset X), (2 <= length fg)%nat ->
  (forall f g, In (f, g) fg -> (check = true -> method (f_name f) = None) /\ forall k v, In (k, v) d -> f_call f v = Some (g v)) ->
  NoDup (map (fun p => capitalize (f_name (fst p))) fg) ->
  apply method check (map fst fg) d = Many (map (fun p => (capitalize (f_name (fst p)), map (fun c => (fst c, snd p (snd c))) d)) fg).
Proof.
  intros X method check fg d L H N.
  assert (E : forall fg' results, incl fg' fg -> NoDup (map (fun p => capitalize (f_name (fst p))) fg') ->
    (forall p, In p fg' -> ~ In (capitalize (f_name (fst p))) (map fst results)) ->
    apply_each method check (map fst fg') d results = Some (results ++ map (fun p => (capitalize (f_name (fst p)), map (fun c => (fst c, snd p (snd c))) d)) fg')).
  { induction fg' as [|[f g] fg' IH]; intros results I N' D; cbn [map apply_each fst snd]; [now rewrite app_nil_r|]. destruct (H f g (I _ (or_introl eq_refl))) as (M & C).
    assert (A : apply_one method check f d = Some (map (fun c => (fst c, g (snd c))) d)).
    { unfold apply_one. rewrite (call_all_ok f d g C). destruct check; [now rewrite (M eq_refl)|reflexivity]. }
    rewrite A. cbn [map fst] in N'. inversion N' as [|? ? N1 N2]; subst. rewrite dset_fresh by (apply (D (f, g)); now left). rewrite IH.
    - now rewrite <- app_assoc.
    - intros p J. apply I. now right.
    - exact N2.
    - intros p J. rewrite map_app, in_app_iff. cbn [map fst In]. intros [Q|[Q|[]]]; [apply (D p (or_intror J) Q)|].
      apply N1. rewrite Q. now apply (in_map (fun p => capitalize (f_name (fst p)))). }
  specialize (E fg [] (incl_refl _) N (fun _ _ I => I)). destruct fg as [|[f1 g1] [|[f2 g2] fg]]; [cbn in L; lia|cbn in L; lia|].
  unfold apply. cbn [map fst] in *. rewrite E. reflexivity.
Qed.
Print Assumptions C235_many_partial.

(** An exception of any of the functions, for any column, is raised; so is one for no functions. *)
Theorem C235_raises :
  forall X method (funcs : list (func X)) (d : dataset X),
  funcs = [] \/ (exists f k v, In f funcs /\ In (k, v) d /\ f_call f v = None) -> apply method false funcs d = Raised.
Proof.
  intros X method funcs d [->|(f & k & v & J & I & E)]; [reflexivity|]. assert (C : apply_one method false f d = None).
  { unfold apply_one. clear J. induction d as [|[k' v'] d IH]; [destruct I|]. cbn [call_all]. destruct I as [Q|I].
    - injection Q as -> ->. now rewrite E.
    - rewrite (IH I). now destruct (f_call f v'). }
  assert (N : forall results, apply_each method false funcs d results = None).
  { induction funcs as [|g funcs IH]; [destruct J|]. intros results. cbn [apply_each]. destruct J as [->|J]; [now rewrite C|].
    destruct (apply_one method false g d); [|reflexivity]. apply (IH J). }
  destruct funcs as [|g [|h funcs]]; [destruct J| |].
  - destruct J as [->|[]]. unfold apply. now rewrite C.
  - unfold apply. now rewrite N.
Qed.
Print Assumptions C235_raises.

(** the name <lambda> *)
Definition lambda : name := [60; 108; 97; 109; 98; 100; 97; 62]%nat.
(** Finding: the results are kept by the capitalized __name__ of the functions
    (rt_dataset.py:7469): of two lambdas, or of f and F, only the last result is left. *)
Theorem C235_lambdas_refuted :
  exists (f g : func nat) d, (forall v, f_call f v = Some (v + 1)%nat) /\ (forall v, f_call g v = Some (v + 2)%nat) /\ d = [([97]%nat, 5%nat)] /\
  apply (fun _ => None) false [f; g] d = Many [(lambda, [([97]%nat, 7%nat)])].
Proof.
  exists (mkFunc lambda (fun v => Some (v + 1)%nat)), (mkFunc lambda (fun v => Some (v + 2)%nat)), [([97]%nat, 5%nat)].
  split; [reflexivity|]. split; [reflexivity|]. split; [reflexivity|]. vm_compute. reflexivity.
Qed.
Print Assumptions C235_lambdas_refuted.

(** Finding: with check_op, the default, a function whose __name__ is that of a method of
    Dataset is never called: the method is, without the arguments (rt_dataset.py:7454-7460). *)
Theorem C235_method_refuted :
  forall X method (f : func X) (d m : dataset X), method (f_name f) = Some m ->
  apply method true [f] d = One m /\ (forall h, apply method true [mkFunc (f_name f) h] d = One m).
Proof. intros X method f d m E. unfold apply, apply_one. cbn [f_name]. rewrite E. split; reflexivity. Qed.
Print Assumptions C235_method_refuted.

Example C235_case :
  let f := mkFunc [115; 113; 85]%nat (fun v => Some (v * v)%nat) in let g := mkFunc [100]%nat (fun v => Some (2 * v)%nat) in
  let d := [([97]%nat, 3%nat); ([98]%nat, 4%nat)] in
  apply (fun _ => None) true [f; g] d =
    Many [([83; 113; 117]%nat, [([97]%nat, 9%nat); ([98]%nat, 16%nat)]); ([68]%nat, [([97]%nat, 6%nat); ([98]%nat, 8%nat)])] /\
  apply (fun _ => None) true [f] d = One [([97]%nat, 9%nat); ([98]%nat, 16%nat)].
Proof. cbv zeta. split; vm_compute; reflexivity. Qed.

(** Each cell of the table of percentages is its share of the total of the table, of its
    row or of its column; so is the margin TotalRatio, and Total stays as it is. *)
Theorem C236_cells_partial :
  forall n inner margin footer inc d, NoDup (map fst inner) -> ~ In total_ratio (map fst inner) -> ~ In total (map fst inner) ->
  (forall k l, In (k, l) inner -> length l = length margin) -> dget total_ratio footer = Some d -> (forall k, In k (map fst inner) -> dget k footer <> None) ->
  exists t, ratiop n (gen inner margin footer inc) = Some t /\
  map fst (t_cols t) = map fst inner ++ [total_ratio] ++ (if inc then [total] else []) /\
  (forall k l, In (k, l) inner \/ (k, l) = (total_ratio, margin) -> exists l', dget k (t_cols t) = Some l' /\ length l' = length l /\
     forall i x, nth_error l i = Some x -> exists q, (match n with ByTable => Some d | ByRow => nth_error margin i | ByColumn => dget k footer end) = Some q /\ nth_error l' i = Some (pct q x)) /\
  (inc = true -> dget total (t_cols t) = Some margin) /\
  map fst (t_footer t) = map fst footer /\
  (forall k x, In (k, x) footer -> In (k, match n with ByColumn => 100%Q | _ => pct d x end) (t_footer t)).
Proof.
  intros n inner margin footer inc d N F G L D H. destruct (ratiop_is n inner margin footer inc d N F G D H) as (t & E & C & T).
  exists t. split; [exact E|]. set (cell := fun c : name * list Q => match n with ByTable => map (pct d) (snd c) | ByRow => divide margin (snd c)
    | ByColumn => map (pct (match dget (fst c) footer with Some q => q | None => 0%Q end)) (snd c) end).
  change (t_cols t = map (fun c => (fst c, cell c)) (inner ++ [(total_ratio, margin)]) ++ rest margin inc) in C.
  assert (NC : map fst (t_cols t) = map fst inner ++ [total_ratio] ++ (if inc then [total] else [])).
  { rewrite C, map_app, map_map. cbn [fst]. rewrite map_app. cbn [map fst]. rewrite <- app_assoc. now destruct inc. }
  assert (ND : NoDup (map fst (t_cols t))).
  { rewrite NC. pose proof (gen_nodup inner margin inc N F G) as ND. rewrite map_app in ND. cbn [map fst] in ND. destruct inc; exact ND. }
  assert (GET : forall k l, In (k, l) (t_cols t) -> dget k (t_cols t) = Some l).
  { intros k l I. apply in_split in I. destruct I as (a & b & Q). rewrite Q in *. apply dget_mid. rewrite map_app in ND. cbn [map fst] in ND. exact (nodup_mid _ _ _ ND). }
  split; [exact NC|]. split; [|split; [|split]].
  - intros k l I. exists (cell (k, l)). assert (J : In (k, l) (inner ++ [(total_ratio, margin)])).
    { apply in_or_app. destruct I as [I|Q]; [now left|right; left; congruence]. }
    assert (LL : length l = length margin) by (destruct I as [I|Q]; [eapply L, I|congruence]).
    assert (K : dget k footer <> None) by (destruct I as [I|Q]; [apply H; apply (in_map fst) in I; exact I|injection Q as -> ->; congruence]).
    split; [|split].
    + apply GET. rewrite C. apply in_or_app. left. apply (in_map (fun c => (fst c, cell c))) in J. exact J.
    + unfold cell. cbn [fst snd]. destruct n; [apply map_length| |apply map_length]. unfold divide. rewrite map_length, combine_length. lia.
    + intros i x X. unfold cell. cbn [fst snd]. destruct n.
      * exists d. split; [reflexivity|]. now apply map_nth_error.
      * destruct (nth_error margin i) as [q|] eqn:M.
        -- exists q. split; [reflexivity|]. unfold divide. clear - X M. revert l i X M. induction margin as [|m margin IH]; intros l i X M; [destruct i; discriminate|].
           destruct l as [|y l]; [destruct i; discriminate|]. destruct i as [|i]; cbn in *; [congruence|]. now apply IH.
        -- exfalso. apply nth_error_None in M. assert (i < length l)%nat by (apply nth_error_Some; congruence). lia.
      * destruct (dget k footer) as [q|]; [|congruence]. exists q. split; [reflexivity|]. now apply map_nth_error.
  - intros ->. apply GET. rewrite C. apply in_or_app. right. now left.
  - rewrite T, map_map. reflexivity.
  - intros k x I. rewrite T. apply (in_map (fun e => (fst e, match n with ByColumn => 100%Q | _ => pct d (snd e) end))) in I. exact I.
Qed.
Print Assumptions C236_cells_partial.

(** When the margins are sums (func nansum or count), the percentages sum to 100: in each
    row with a total, in each column with a total, in the whole table. *)
Theorem C236_sums_partial :
  forall n inner margin footer inc d, NoDup (map fst inner) -> ~ In total_ratio (map fst inner) -> ~ In total (map fst inner) ->
  (forall k l, In (k, l) inner -> length l = length margin) -> dget total_ratio footer = Some d ->
  (forall i, (i < length margin)%nat -> nth i margin 0 == qsum (row inner i)) ->
  (forall k l, In (k, l) inner -> exists q, dget k footer = Some q /\ q == qsum l) ->
  d == qsum (map (fun c => qsum (snd c)) inner) ->
  exists t cats, ratiop n (gen inner margin footer inc) = Some t /\ cats = firstn (length inner) (t_cols t) /\ map fst cats = map fst inner /\
  match n with
  | ByTable => ~ d == 0 -> qsum (map (fun c => qsum (snd c)) cats) == 100
  | ByRow => forall i, (i < length margin)%nat -> ~ nth i margin 0 == 0 -> qsum (row cats i) == 100
  | ByColumn => forall k l, In (k, l) cats -> (forall q, dget k footer = Some q -> ~ q == 0) -> qsum l == 100
  end.
Proof.
  intros n inner margin footer inc d N F G L D R K S.
  assert (H : forall k, In k (map fst inner) -> dget k footer <> None).
  { intros k I. apply in_map_iff in I. destruct I as ([k' l] & <- & I). destruct (K _ _ I) as (q & E & _). cbn [fst]. congruence. }
  destruct (ratiop_is n inner margin footer inc d N F G D H) as (t & E & C & _).
  exists t, (firstn (length inner) (t_cols t)). split; [exact E|]. split; [reflexivity|]. rewrite C, map_app, <- app_assoc.
  rewrite firstn_app, firstn_all2 by (rewrite map_length; lia). rewrite map_length, PeanoNat.Nat.sub_diag. cbn [firstn]. rewrite app_nil_r.
  split; [rewrite map_map; reflexivity|]. destruct n.
  - intros Z. rewrite map_map. cbn [snd]. assert (A : qsum (map (fun c => qsum (map (pct d) (snd c))) inner) == pct d (qsum (map (fun c => qsum (snd c)) inner))).
    { rewrite <- pct_sum, map_map. clear. induction inner as [|c r IH]; [reflexivity|]. cbn [map qsum fold_right]. fold (qsum (map (fun x => pct d (qsum (snd x))) r)).
      fold (qsum (map (fun c => qsum (map (pct d) (snd c))) r)). rewrite IH. fold (qsum (map (pct d) (snd c))). fold (qsum (snd c)). rewrite pct_sum. reflexivity. }
    rewrite A. apply pct_full; [exact Z|]. now rewrite S.
  - intros i I Z. assert (A : row (map (fun c => (fst c, divide margin (snd c))) inner) i = map (pct (nth i margin 0)) (row inner i)).
    { unfold row. rewrite !map_map. apply map_ext_in. intros [k l] J. cbn [fst snd]. pose proof (L _ _ J) as LL. unfold divide.
      clear - I LL. revert l i I LL. induction margin as [|m margin IH]; intros l i I LL; [cbn in I; lia|]. destruct l as [|y l]; [discriminate|].
      destruct i as [|i]; cbn [combine map nth fst snd]; [reflexivity|]. apply IH; cbn in *; lia. }
    rewrite A, pct_sum. apply pct_full; [exact Z|]. now rewrite R.
  - intros k l' I Z. apply in_map_iff in I. destruct I as ([k' l] & Q & I). cbn [fst snd] in Q. injection Q as -> <-. destruct (K _ _ I) as (q & E' & Sq). rewrite E', pct_sum.
    apply pct_full; [now apply Z|]. now rewrite Sq.
Qed.
Print Assumptions C236_sums_partial.

(** Finding: with include_total, a category of the columns that is called Total is lost:
    the margin takes its column, and the rows do not sum to 100 (rt_accumtable.py:425-428). *)
Theorem C236_name_refuted :
  exists inner margin footer t, inner = [([65]%nat, [1%Q]); (total, [3%Q])] /\ margin = [4%Q] /\
  footer = [([65]%nat, 1%Q); (total, 3%Q); (total_ratio, 4%Q)] /\ ratiop ByRow (gen inner margin footer true) = Some t /\
  dget total (t_cols t) = Some [4%Q] /\ match dget [65]%nat (t_cols t) with Some [x] => x == 25 | _ => False end.
Proof.
  do 3 eexists. eexists. split; [reflexivity|]. split; [reflexivity|]. split; [reflexivity|]. split; [vm_compute; reflexivity|]. split; vm_compute; reflexivity.
Qed.
Print Assumptions C236_name_refuted.

Example C236_case :
  let inner := [([65]%nat, [3%Q; 0%Q]); ([66]%nat, [0%Q; 1%Q]); ([67]%nat, [2%Q; 4%Q])] in let margin := [5%Q; 5%Q] in
  let footer := [([65]%nat, 3%Q); ([66]%nat, 1%Q); ([67]%nat, 6%Q); (total_ratio, 10%Q)] in
  (forall i, (i < length margin)%nat -> nth i margin 0 == qsum (row inner i)) /\
  (forall k l, In (k, l) inner -> exists q, dget k footer = Some q /\ q == qsum l) /\
  10 == qsum (map (fun c => qsum (snd c)) inner) /\
  match ratiop ByTable (gen inner margin footer true) with
  | Some t => match dget [67]%nat (t_cols t), dget total (t_cols t) with Some [x; y], Some [u; v] => x == 20 /\ y == 40 /\ u == 5 /\ v == 5 | _, _ => False end
  | None => False
  end.
Proof.
  cbv zeta. split; [|split; [|split]].
  - intros [|[|i]] I; [vm_compute; reflexivity|vm_compute; reflexivity|cbn in I; lia].
  - intros k l [Q|[Q|[Q|[]]]]; injection Q as <- <-; eexists; split; vm_compute; reflexivity.
  - vm_compute. reflexivity.
  - vm_compute. repeat split; reflexivity.
Qed.
