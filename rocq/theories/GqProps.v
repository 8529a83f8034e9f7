(** Grouped uniques, aggregates and quantiles (properties C160-C164). *)
From Coq Require Import List Arith Bool ZArith Permutation Sorted Lia.
From Verif Require Import FlattenModel DsModel GroupingModel GroupingSpec AggModel AggSpec AggProofs AggProofs2 AggProofs3 AggProofs4 AggProofs6 AggProps.
From Verif Require Import StSpec StProofs GqModel GqSpec GqProofs GqProofs2 GqProofs3.
Import ListNotations.

(** *** C160: count_uniques *)
Theorem C160_count_uniques_partial :
  forall (V : Type) (veq : forall a b : V, {a = b} + {a <> b}) (inv : V) (vlt : V -> V -> Prop) (lexsort : list (list V) -> list nat)
         (binname : list V -> V) (num : nat -> V)
         (t : list (name * list V)) (n : nat) (sort_display pre_sorted : bool) (o : gobj),
  lexsort_ok inv vlt lexsort -> fresh_object inv t n sort_display pre_sorted o -> o_base o = Some 1 ->
  exists p, key_order inv vlt (sort_display && negb pre_sorted) t n p /\
  forall (history : list cop) codes data flt showfilter, data_ok (o_ikey o) flt data -> showfilter = false \/ flt = None ->
    exists d, snd (count_uniques veq inv lexsort binname num codes data flt showfilter (cfinal inv lexsort binname o history)) = Some d /\
      keyed_result inv binname t p showfilter (fun x b => num (length (nodup veq (bin_values inv (o_ikey o) flt x b)))) (fun _ => true) data d.
Proof.
  intros V veq inv vlt lexsort binname num t n sd pre o LS (KT & CI & N & Fl & SDO & KC) B1. exists (order lexsort (sd && negb pre) t n). split; [eapply order_ok; eauto|].
  intros history codes data flt sf D X. set (now := cfinal inv lexsort binname o history).
  assert (O0 : oinv inv lexsort binname t n sd pre o o) by (split; [rewrite KC; now apply kinv_new|repeat split]).
  assert (O : oinv inv lexsort binname t n sd pre o now) by (eapply cfinal_inv; eauto).
  assert (Ik : o_ikey now = o_ikey o) by (destruct O as (_ & Q & _); exact Q).
  assert (Bn : o_base now = Some 1) by (destruct O as (_ & _ & _ & Q & _); congruence).
  rewrite <- Ik in D |- *. eapply count_uniques_ok; eauto.
Qed.
Print Assumptions C160_count_uniques_partial.
Definition ex_uq : list (name * list nat) := [(xa, [1; 1; 3; 4; 1; 6])].
Lemma ex_uq_ok : data_ok ex_codes None ex_uq.
Proof. split; [repeat constructor; cbn; intuition discriminate|]. split; [intros p [<-|[]]; reflexivity|]. discriminate. Qed.
Example C160_case : lexsort_ok 0 lt nat_lexsort /\ fresh_object 0 ex_t 3 true false ex_gb /\ o_base ex_gb = Some 1 /\ data_ok ex_codes None ex_uq /\
  snd (count_uniques Nat.eq_dec 0 nat_lexsort fbin (fun c => c) [] ex_uq None false ex_gb) = Some [(xa, [1; 1; 3]); (ka, [10; 20; 30])].
Proof. split; [apply nat_lexsort_ok|]. split; [exact ex_fresh|]. split; [reflexivity|]. split; [exact ex_uq_ok|]. vm_compute. reflexivity. Qed.
(** Finding: count_uniques stores its counts by the codes that the Categorical shows.  With base index 0 these start at 0 and the first
    entry is cut off as the one for filtered rows: every group gets the count of the next group in order of appearance, and the last one 0. *)
Theorem C160_base0_refuted :
  let o := ex_obj false (Some 0) (Some true) ex_codes ex_t 3 true false in
  fresh_object 0 ex_t 3 true false o /\ data_ok ex_codes None ex_uq /\
  map (fun b => length (nodup Nat.eq_dec (bin_values 0 ex_codes None [1; 1; 3; 4; 1; 6] b))) [2; 3; 1] = [1; 1; 3] /\
  snd (count_uniques Nat.eq_dec 0 nat_lexsort fbin (fun c => c) [] ex_uq None false o) = Some [(xa, [1; 0; 1]); (ka, [10; 20; 30])].
Proof.
  split; [|split; [exact ex_uq_ok|vm_compute; split; reflexivity]].
  split; [exact ex_table|]. split; [repeat constructor|]. split; [reflexivity|]. split; [reflexivity|]. split; [|reflexivity]. intros b E. cbn in E. split; congruence.
Qed.
Print Assumptions C160_base0_refuted.
(** Finding: for a Categorical made from a mapping count_uniques stores the counts by the codes of the mapping, while the keys are shown in
    another order: the counts belong to other keys (codes 3, 1, 2), and codes larger than the number of groups raise an error. *)
Theorem C160_mapping_refuted :
  let o := ex_obj false None (Some true) ex_codes ex_t 3 true false in
  fresh_object 0 ex_t 3 true false o /\ data_ok ex_codes None ex_uq /\
  snd (count_uniques Nat.eq_dec 0 nat_lexsort fbin (fun c => c) [3; 1; 2; 3; 1; 3] ex_uq None false o) = Some [(xa, [1; 3; 1]); (ka, [10; 20; 30])] /\
  snd (count_uniques Nat.eq_dec 0 nat_lexsort fbin (fun c => c) [30; 10; 20; 30; 10; 30] ex_uq None false o) = None.
Proof.
  split; [|split; [exact ex_uq_ok|vm_compute; split; reflexivity]].
  split; [exact ex_table|]. split; [repeat constructor|]. split; [reflexivity|]. split; [reflexivity|]. split; [|reflexivity]. intros b E. cbn in E. split; congruence.
Qed.
Print Assumptions C160_mapping_refuted.
(** Finding: with filter= and showfilter=True the entry of the filtered rows does not count the rows that the filter takes out. *)
Theorem C160_showfilter_refuted :
  let f := [true; true; false; true; true; true] in
  fresh_object 0 ex_t 3 true false ex_gb /\ data_ok ex_codes (Some f) ex_uq /\
  length (nodup Nat.eq_dec (bin_values 0 ex_codes (Some f) [1; 1; 3; 4; 1; 6] 0)) = 1 /\
  snd (count_uniques Nat.eq_dec 0 nat_lexsort fbin (fun c => c) [] ex_uq (Some f) true ex_gb) = Some [(xa, [0; 1; 0; 3]); (ka, [999; 10; 20; 30])].
Proof.
  split; [exact ex_fresh|]. split; [|vm_compute; split; reflexivity]. destruct ex_uq_ok as (A & B & _). split; [exact A|]. split; [exact B|]. intros f' E. injection E as <-. reflexivity.
Qed.
Print Assumptions C160_showfilter_refuted.

(** *** C161: agg with a dictionary *)
Theorem C161_agg_partial :
  forall (V : Type) (inv : V) (vlt : V -> V -> Prop) (lexsort : list (list V) -> list nat) (binname : list V -> V)
         (func : name -> option (list V -> V)) (capitalize : name -> name) (usable : name -> bool)
         (t : list (name * list V)) (n : nat) (sort_display pre_sorted : bool) (o : gobj),
  lexsort_ok inv vlt lexsort -> fresh_object inv t n sort_display pre_sorted o ->
  exists p, key_order inv vlt (sort_display && negb pre_sorted) t n p /\
  forall (history : list cop) spec data flt,
    let now := cfinal inv lexsort binname o history in
    o_flag now = false -> data_ok (o_ikey o) flt data -> spec <> [] ->
    (forall c op, asked spec c op -> func op <> None) -> (forall c ops, In (c, ops) spec -> In c (map fst data)) ->
    (forall a b c d, asked spec a c -> asked spec b d -> capitalize c = capitalize d -> c = d) ->
    exists m, snd (agg inv lexsort binname func capitalize usable spec data flt now) = Some m /\
      map fst m = map capitalize (firsts (concat (map snd spec))) /\
      forall c0 op f, asked spec c0 op -> func op = Some f ->
        exists d cs, dget (capitalize op) m = Some d /\ (forall c, In c cs <-> asked spec c op) /\
          keyed_result inv binname t p false (fun x b => f (bin_values inv (o_ikey o) flt x b)) (fun c => usable c && mem c cs) data d.
Proof.
  intros V inv vlt lexsort binname func cap usable t n sd pre o LS (KT & CI & N & Fl & SDO & KC). exists (order lexsort (sd && negb pre) t n). split; [eapply order_ok; eauto|].
  intros history spec data flt now Fn D NE Fs Cs Cj.
  assert (O0 : oinv inv lexsort binname t n sd pre o o) by (split; [rewrite KC; now apply kinv_new|repeat split]).
  assert (O : oinv inv lexsort binname t n sd pre o now) by (eapply cfinal_inv; eauto).
  destruct (func_dict_spec func data spec Fs Cs) as (fd & Efd & Nm & Each).
  assert (Ask : forall op, In op (map fst fd) <-> exists c, asked spec c op).
  { intros op. rewrite Nm, firsts_in, <- flat_ops, in_map_iff. split; [intros [[c op'] [<- I]]; exists c; now apply flat_asked|intros [c A]; exists (c, op); split; [reflexivity|now apply flat_asked]]. }
  destruct (run_funcs_ok inv vlt lexsort LS binname t n sd pre KT o N CI func cap usable data flt fd [] now O Fn D) as (o1 & m & E & Mn & _ & Me).
  - rewrite Nm. apply firsts_nodup.
  - intros op I. apply Ask in I. destruct I as [c A]. now apply (Fs c).
  - intros a b Ia Ib. apply Ask in Ia. apply Ask in Ib. destruct Ia as [c A]. destruct Ib as [c' A']. now apply (Cj c c').
  - intros op _ [].
  - exists m. unfold agg. destruct spec as [|sp spec']; [contradiction|]. rewrite Efd, E. cbn [snd]. split; [reflexivity|]. split; [rewrite Mn, Nm; reflexivity|].
    intros c0 op f A Ef. assert (I : In op (map fst fd)) by (apply Ask; eauto). apply in_map_iff in I. destruct I as [[op' cs] [E1 I]]. cbn [fst] in E1. subst op'.
    destruct (Me op cs f I Ef) as (d & Gd & KR). exists d, cs. split; [exact Gd|]. split; [apply (Each op cs I)|exact KR].
Qed.
Print Assumptions C161_agg_partial.
Definition ex_func (op : name) : option (list nat -> nat) := if name_dec op [1] then Some list_sum else if name_dec op [2] then Some (@length nat) else None.
Example C161_case : o_flag ex_gb = false /\ (forall c op, asked [(xa, [[2]; [1]])] c op -> ex_func op <> None) /\
  snd (agg 0 nat_lexsort fbin ex_func (fun op => 100 :: op) (fun _ => true) [(xa, [[2]; [1]])] ex_data None ex_gb) =
    Some [([100; 2], [(ka, [10; 20; 30]); (xa, [2; 1; 3])]); ([100; 1], [(ka, [10; 20; 30]); (xa, [7; 3; 11])])].
Proof.
  split; [reflexivity|]. split; [|vm_compute; reflexivity]. intros c op (ops & [E|[]] & J). injection E as <- <-. destruct J as [<-|[<-|[]]]; vm_compute; discriminate.
Qed.

(** *** C162: the grouped quantile *)
Open Scope Z_scope.
Theorem C162_quantile_partial :
  forall (is_nan is_percentile : bool) (q : dyadic) (l : list (option Z)) a b,
  frac_of q = (a, b) -> 0 <= a <= (if is_percentile then 100 else 1) * b ->
  let den := (if is_percentile then 100 else 1) * b in
  exists r, quantile1 is_nan is_percentile q l = Some r /\
    (r = None <-> values l = [] \/ (is_nan = false /\ In None l)) /\
    (forall x, r = Some x ->
       (exists k, 0 <= k <= 10 ^ 9 /\ a * 10 ^ 9 - 3 * den <= k * den <= a * 10 ^ 9 + 3 * den /\ quantile_at k (10 ^ 9) (values l) x) /\
       (clear a den (length (values l)) -> quantile_at a den (values l) x) /\
       (forall k, is_percentile = false -> a * 10 ^ 9 = k * b -> quantile_at a b (values l) x)).
Proof. intros. now apply quantile1_ok. Qed.
Print Assumptions C162_quantile_partial.
Theorem C162_out_of_range : forall (is_nan is_percentile : bool) (q : dyadic) (l : list (option Z)) a b,
  frac_of q = (a, b) -> (a < 0 \/ (if is_percentile then 100 else 1) * b < a) -> quantile1 is_nan is_percentile q l = None.
Proof.
  intros nan pct q l a b F R. unfold quantile1. rewrite F. destruct (Z.leb_spec 0 a), (Z.leb_spec a ((if pct then 100 else 1) * b)); cbn [andb]; try reflexivity. lia.
Qed.
Print Assumptions C162_out_of_range.
(** the median of 5, NaN, 1, 9, 4, 7 and the percentile 30.5 of them *)
Example C162_case : let l := [Some 5; None; Some 1; Some 9; Some 4; Some 7] in
  quantile1 true false (1, -1) l = Some (Some (5, 5)) /\ quantile1 false false (1, -1) l = Some None /\
  quantile1 true true (61, -1) l = Some (Some (4, 5)) /\ clear 61 200 (length (values l)).
Proof. split; [vm_compute; reflexivity|]. split; [vm_compute; reflexivity|]. split; [vm_compute; reflexivity|]. exists 1. vm_compute. split; reflexivity. Qed.
Definition ex_thousand : list Z := map Z.of_nat (seq 0 1001).
Lemma ex_thousand_sorted : StronglySorted Z.le ex_thousand.
Proof.
  unfold ex_thousand. generalize 0%nat as s, 1001%nat as n. intros s n. revert s. induction n as [|n IH]; intros s; [constructor|]. cbn [seq map]. constructor; [apply IH|].
  apply Forall_forall. intros z Hz. apply in_map_iff in Hz. destruct Hz as [i [<- Hi]]. apply in_seq in Hi. lia.
Qed.
(** Finding: q is turned into a whole number of billionths with int(), which cuts off: percentile(2.9) becomes 0.028999999, and of
    the values 0..1000 the answer is the midpoint of 28 and 29 instead of 29 (2.9 is 6530219459687219 / 2^51; the position of the exact
    quotient 0.029 is 29). *)
Theorem C162_truncated_refuted :
  frac_of (6530219459687219, -51) = (6530219459687219, 2251799813685248) /\
  quantile_at 29 1000 ex_thousand (29, 29) /\
  quantile1 true true (6530219459687219, -51) (map Some ex_thousand) = Some (Some (28, 29)).
Proof.
  split; [vm_compute; reflexivity|]. split; [|vm_compute; reflexivity].
  exists ex_thousand. split; [apply Permutation_refl|]. split; [apply ex_thousand_sorted|]. vm_compute. reflexivity.
Qed.
Print Assumptions C162_truncated_refuted.
Close Scope Z_scope.

(** *** C163: the columns for several quantiles *)
Theorem C163_columns_partial :
  forall (V Q : Type) (fmt : nat -> Q -> name) (is_percentile transform : bool) (keys cols : list name)
         (answers : list (Q * list (name * list V))),
  let letter := letter_of is_percentile in
  let qs := map fst answers in
  let shown := if transform then [] else keys in
  2 <= length answers ->
  (forall p q, In q qs -> ~ In 95 (fmt p q) /\ ~ In letter (fmt p q)) -> (exists p, 3 <= p < 23 /\ NoDup (map (fmt p) qs)) ->
  NoDup cols -> NoDup shown ->
  (forall q d, In (q, d) answers -> NoDup (map fst d) /\ filter (fun c => negb (mem c shown)) (map fst d) = cols /\ incl shown (map fst d)) ->
  (forall c q, In c cols -> In q qs -> ~ In (c ++ suffix fmt letter qs q) shown) ->
  exists r, together fmt letter keys transform answers = Some r /\
    map fst r = flat_map (fun c => map (fun q => c ++ suffix fmt letter qs q) qs) cols ++ shown /\
    (forall q d c, In (q, d) answers -> In c cols -> dget (c ++ suffix fmt letter qs q) r = dget c d) /\
    (forall k q d, In k shown -> nth_error answers 0 = Some (q, d) -> dget k r = dget k d) /\
    (forall q q', In q qs -> In q' qs -> suffix fmt letter qs q = suffix fmt letter qs q' -> fmt (precision fmt qs) q = fmt (precision fmt qs) q').
Proof.
  intros V Q fmt pct transform keys cols answers letter qs shown L2 Plain Prec Nc Nk Shape Clash.
  assert (L95 : letter <> 95) by (unfold letter; destruct pct; discriminate).
  destruct (together_ok fmt letter transform keys cols answers L2 L95 Plain Prec Nc Nk Shape Clash) as (r & E & H1 & H2 & H3).
  exists r. split; [exact E|]. split; [exact H1|]. split; [exact H2|]. split; [exact H3|].
  intros q q' I I' S. destruct (suffix_inj fmt letter qs Plain L95 [] [] q q' I I' S) as [_ F]. exact F.
Qed.
Print Assumptions C163_columns_partial.
(** quantile(q=[0.25, 0.5]) of columns x, y by the key k *)
Definition ex_fmt (p q : nat) : name := if q =? 1 then [48; 46; 50; 53] else [48; 46; 53].
Example C163_case :
  let answers := [(1, [([107], [7; 8]); ([120], [1; 2]); ([121], [3; 4])]); (2, [([107], [7; 8]); ([120], [5; 6]); ([121], [9; 9])])] in
  NoDup (map (ex_fmt 3) [1; 2]) /\ ~ In 95 (ex_fmt 3 1) /\
  together ex_fmt 113 [[107]] false answers =
    Some [([120; 95; 113; 48; 95; 50; 53], [1; 2]); ([120; 95; 113; 48; 95; 53], [5; 6]);
          ([121; 95; 113; 48; 95; 50; 53], [3; 4]); ([121; 95; 113; 48; 95; 53], [9; 9]); ([107], [7; 8])].
Proof. split; [repeat constructor; cbn; intuition discriminate|]. split; [cbn; intuition discriminate|]. vm_compute. reflexivity. Qed.
(** Finding: a key column whose name is that of a column with a quantile suffix makes the whole calculation fail. *)
Theorem C163_clash_refuted :
  let k := [120; 95; 113; 48; 95; 53] in
  together ex_fmt 113 [k] false [(1, [(k, [7; 8]); ([120], [1; 2])]); (2, [(k, [7; 8]); ([120], [5; 6])])] = None /\
  together ex_fmt 113 [k] false [(2, [(k, [7; 8]); ([120], [5; 6])])] = Some [(k, [7; 8]); ([120], [5; 6])].
Proof. vm_compute. split; reflexivity. Qed.
Print Assumptions C163_clash_refuted.

(** *** C164: the rolling quantile *)
Open Scope Z_scope.
Theorem C164_rolling_partial :
  forall (q : dyadic) (a b w : Z) (l : list (option Z)), frac_of q = (a, b) -> 0 <= a <= b -> 0 <= w ->
  exists k, 0 <= k <= 10 ^ 9 /\ a * 10 ^ 9 - 2 * b < k * b < a * 10 ^ 9 + 2 * b /\ length (rolling_quantile q w l) = length l /\
  forall r, (r < length l)%nat -> exists x, nth_error (rolling_quantile q w l) r = Some x /\
    (x = None <-> values (last_rows w r l) = []) /\ (forall y, x = Some y -> quantile_at k (10 ^ 9) (values (last_rows w r l)) y).
Proof. intros. now apply rolling_ok. Qed.
Print Assumptions C164_rolling_partial.
Example C164_case : frac_of (1, -1) = (1, 2) /\
  rolling_quantile (1, -1) 3 [Some 5; None; Some 1; Some 9; Some 4] = [Some (5, 5); Some (5, 5); Some (1, 5); Some (1, 9); Some (4, 4)] /\
  rolling_quantile (1, -1) 100 [Some 5; None; Some 1] = [Some (5, 5); Some (5, 5); Some (1, 5)].
Proof. vm_compute. repeat split. Qed.
Close Scope Z_scope.
