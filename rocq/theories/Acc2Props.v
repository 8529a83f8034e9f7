(** Two-way tables: Accum2 (properties C116-C121). *)
From Coq Require Import List Arith Bool ZArith Permutation Lia.
From Verif Require Import FlattenModel DsModel GroupingModel GroupingSpec AggModel AggSpec AggProofs AggProofs2 AggProofs3 AggProofs6 AggProps
  Acc2Model Acc2Spec Acc2Proofs Acc2Proofs2 Acc2Proofs3 Acc2Proofs4 Acc2Proofs5 Acc2Proofs6 Acc2Proofs7 Acc2Proofs8.
Import ListNotations.

(** Example: rows by 30, 10, 20 (in the order found), columns by 7, 5; six rows, the last without column key *)
Definition kc : name := [99].
Definition ex_tc : list (name * list nat) := [(kc, [7; 5])].
Definition ex_ccodes := [1; 2; 1; 2; 2; 0].
Definition ylab : name := [89].
Definition sname : name := [84].
Definition text (l : list nat) : name := l.
Definition nolabel (i : nat) : name := [73; 110; 118; i].
Definition ex_acc (sortr sortc : bool) (base : option nat) (ccodes : list nat) (flt : option (list bool)) : acc2 :=
  mkA (mkX ex_codes 3 base (new_keychain ex_t sortr false)) (mkX ccodes 2 base (new_keychain ex_tc sortc false)) ylab flt true.
Definition ex_x := [1; 2; 3; 4; 5; 6].
Lemma ex_tc_ok : key_table 0 ex_tc 2.
Proof.
  split; [discriminate|]. split; [repeat constructor; intros []|]. split; [intros p [<-|[]]; reflexivity|].
  intros [|[|i]] [|[|j]] Hi Hj E; try lia; cbn in E; try discriminate; reflexivity.
Qed.
Lemma ex_acc_fresh sr sc base flt : filter_ok 6 flt -> fresh_table 0 ex_t ex_tc 3 2 sr false sc false (ex_acc sr sc base ex_ccodes flt).
Proof.
  intros F. split; [split; [exact ex_table|]; split; [repeat constructor|]; split; reflexivity|].
  split; [split; [exact ex_tc_ok|]; split; [repeat constructor|]; split; reflexivity|]. split; [reflexivity|exact F].
Qed.
Lemma sum_by_parts : by_parts list_sum list_sum.
Proof. split; [exact list_sum_perm|]. induction ls as [|l ls IH]; [reflexivity|]. cbn [map concat]. rewrite list_sum_app, <- IH. reflexivity. Qed.

Ltac start V inv vlt lexsort binname label inv_label zero tr tc R C sdr prer sdc prec a :=
  intros V inv vlt lexsort binname label inv_label zero tr tc R C sdr prer sdc prec a LS FT;
  pose proof FT as (FR & FC & LN & F1); pose proof FR as (KR & RC & RN & _); pose proof FC as (KC & CC & CN & _);
  exists (order lexsort (sdr && negb prer) tr R), (order lexsort (sdc && negb prec) tc C);
  split; [eapply order_ok; eauto|]; split; [eapply order_ok; eauto|].

(** *** C116: the cells *)
Theorem C116_cells_partial :
  forall (V : Type) (inv : V) (vlt : V -> V -> Prop) (lexsort : list (list V) -> list nat) (binname : list V -> V)
         (label : list V -> name) (inv_label : nat -> name) (zero : V)
         (tr tc : list (name * list V)) (R C : nat) (sort_r pre_r sort_c pre_c : bool) (a : acc2),
  lexsort_ok inv vlt lexsort -> fresh_table inv tr tc R C sort_r pre_r sort_c pre_c a ->
  exists pr pc, key_order inv vlt (sort_r && negb pre_r) tr R pr /\ key_order inv vlt (sort_c && negb pre_c) tc C pc /\
  forall (history : list aop) f h data flt showfilter,
    let now := afinal inv lexsort binname label inv_label zero a history in
    let rows := x_code (a_row a) in let cols := x_code (a_col a) in
    length data = length rows -> filter_ok (length rows) flt ->
    names_ok inv label inv_label (a_ylab a) tr tc pc showfilter (total_names a h) ->
    exists d foot, snd (calculate2 inv lexsort binname label inv_label zero f h data flt showfilter now) = Some (d, foot) /\
      two_way inv label inv_label binname (a_ylab a) tr tc pr pc showfilter
        (fun i j => f (select inv rows cols (a_flt a) flt data (cell i j))) d /\
      (showfilter = true -> sort_r && negb pre_r = false ->
         filtered_column pr (fun i j => f (select inv rows cols (a_flt a) flt data (cell i j))) d).
Proof.
  start V inv vlt lexsort binname label inv_label zero tr tc R C sdr prer sdc prec a.
  intros history f h data flt sf now rows cols X F2 NO.
  assert (I : ainv inv lexsort binname tr tc R C sdr prer sdc prec a now).
  { apply (afinal_inv inv vlt lexsort LS binname label inv_label zero tr tc R C sdr prer sdc prec KR KC a). now apply ainv_fresh. }
  destruct (calc_ok2 inv vlt lexsort LS binname label inv_label zero tr tc R C sdr prer sdc prec a KR KC RC CC RN CN LN F1 f flt data sf F2 X h now I NO) as (d & foot & E & T & FCL & _).
  exists d, foot. split; [exact E|]. split; [exact T|]. intros SF S. apply (FCL SF). unfold order. now rewrite S.
Qed.
Print Assumptions C116_cells_partial.
(** the same for a user function *)
Theorem C116_apply_reduce_partial :
  forall (V : Type) (inv : V) (vlt : V -> V -> Prop) (lexsort : list (list V) -> list nat) (binname : list V -> V)
         (label : list V -> name) (inv_label : nat -> name) (zero : V)
         (tr tc : list (name * list V)) (R C : nat) (sort_r pre_r sort_c pre_c : bool) (a : acc2),
  lexsort_ok inv vlt lexsort -> fresh_table inv tr tc R C sort_r pre_r sort_c pre_c a ->
  exists pr pc, key_order inv vlt (sort_r && negb pre_r) tr R pr /\ key_order inv vlt (sort_c && negb pre_c) tc C pc /\
  forall (history : list aop) f nm data flt showfilter,
    let now := afinal inv lexsort binname label inv_label zero a history in
    let rows := x_code (a_row a) in let cols := x_code (a_col a) in
    length data = length rows -> filter_ok (length rows) flt ->
    names_ok inv label inv_label (a_ylab a) tr tc pc showfilter (if a_tot a then [nm] else []) ->
    exists d foot, snd (apply_reduce2 inv lexsort binname label inv_label zero f nm data flt showfilter now) = Some (d, foot) /\
      two_way inv label inv_label binname (a_ylab a) tr tc pr pc showfilter
        (fun i j => on_rows inv f (select inv rows cols (a_flt a) flt data (cell i j))) d /\
      (showfilter = true -> sort_r && negb pre_r = false ->
         filtered_column pr (fun i j => on_rows inv f (select inv rows cols (a_flt a) flt data (cell i j))) d).
Proof.
  start V inv vlt lexsort binname label inv_label zero tr tc R C sdr prer sdc prec a.
  intros history f nm data flt sf now rows cols X F2 NO.
  assert (I : ainv inv lexsort binname tr tc R C sdr prer sdc prec a now).
  { apply (afinal_inv inv vlt lexsort LS binname label inv_label zero tr tc R C sdr prer sdc prec KR KC a). now apply ainv_fresh. }
  destruct (apply_ok inv vlt lexsort LS binname label inv_label zero tr tc R C sdr prer sdc prec a KR KC RC RN CN LN F1 flt sf F2 f data X nm now I NO) as (d & foot & E & T & FCL & _).
  exists d, foot. split; [exact E|]. split; [exact T|]. intros SF S. apply (FCL SF). unfold order. now rewrite S.
Qed.
Print Assumptions C116_apply_reduce_partial.
Example C116_case :
  snd (calculate2 0 nat_lexsort fbin text nolabel 0 list_sum (OnePass sname list_sum) ex_x None false
        (afinal 0 nat_lexsort fbin text nolabel 0 (ex_acc true true (Some 1) ex_ccodes None) [AGet 0; ARowKeys true])) =
    Some ([(ylab, [10; 20; 30]); ([5], [7; 0; 4]); ([7], [0; 3; 1]); (sname, [7; 3; 5])], [([5], 11); ([7], 4); (sname, 15)]) /\
  fresh_table 0 ex_t ex_tc 3 2 true false true false (ex_acc true true (Some 1) ex_ccodes None) /\
  names_ok 0 text nolabel ylab ex_t ex_tc [1; 0] false [sname] /\ lexsort_ok 0 lt nat_lexsort.
Proof.
  split; [vm_compute; reflexivity|]. split; [apply ex_acc_fresh; discriminate|]. split; [|apply nat_lexsort_ok].
  vm_compute. repeat constructor; cbn; intuition discriminate.
Qed.
(** The column of the rows without column key is not brought into the order of the row keys: with sorted row
    keys it stands beside the wrong keys (the values of 30, 10, 20 against the keys 10, 20, 30). *)
Theorem C116_filtered_column_refuted : lexsort_ok 0 lt nat_lexsort /\ fresh_table 0 ex_t ex_tc 3 2 true false false false (ex_acc true false (Some 1) ex_ccodes None) /\
  snd (calculate2 0 nat_lexsort fbin text nolabel 0 list_sum NoTotals ex_x None true (ex_acc true false (Some 1) ex_ccodes None)) =
    Some ([(ylab, [999; 10; 20; 30]); (filtered_name, [0; 6; 0; 0]); ([7], [0; 0; 3; 1]); ([5], [0; 7; 0; 4])], []) /\
  select 0 ex_codes ex_ccodes None None ex_x (cell 1 0) = [6] /\ row 0 ex_t 0 = [30].
Proof. split; [apply nat_lexsort_ok|]. split; [apply ex_acc_fresh; discriminate|]. vm_compute. repeat split. Qed.
Print Assumptions C116_filtered_column_refuted.
(** A column key whose text is the name of the key column replaces the row keys. *)
Theorem C116_names_refuted : lexsort_ok 0 lt nat_lexsort /\
  snd (calculate2 0 nat_lexsort fbin (fun _ => ylab) nolabel 0 list_sum NoTotals ex_x None false (ex_acc false false (Some 1) ex_ccodes None)) =
    Some ([(ylab, [4; 7; 0])], []).
Proof. split; [apply nat_lexsort_ok|]. vm_compute. reflexivity. Qed.
Print Assumptions C116_names_refuted.

(** *** C117: totals of calculations that can be done in parts *)
Theorem C117_totals :
  forall (V : Type) (inv : V) (vlt : V -> V -> Prop) (lexsort : list (list V) -> list nat) (binname : list V -> V)
         (label : list V -> name) (inv_label : nat -> name) (zero : V)
         (tr tc : list (name * list V)) (R C : nat) (sort_r pre_r sort_c pre_c : bool) (a : acc2),
  lexsort_ok inv vlt lexsort -> fresh_table inv tr tc R C sort_r pre_r sort_c pre_c a ->
  exists pr pc, key_order inv vlt (sort_r && negb pre_r) tr R pr /\ key_order inv vlt (sort_c && negb pre_c) tc C pc /\
  forall (history : list aop) f func nm data flt showfilter,
    let now := afinal inv lexsort binname label inv_label zero a history in
    let rows := x_code (a_row a) in let cols := x_code (a_col a) in
    let sel := select inv rows cols (a_flt a) flt data in
    by_parts f func -> a_tot a = true -> length data = length rows -> filter_ok (length rows) flt ->
    names_ok inv label inv_label (a_ylab a) tr tc pc showfilter [nm] ->
    exists r, snd (calculate2 inv lexsort binname label inv_label zero f (OnePass nm func) data flt showfilter now) = Some r /\
      margins inv label inv_label tc pr pc showfilter nm
        (fun i => f (sel (in_row showfilter i))) (fun j => f (sel (in_col showfilter j))) (f (sel (shown showfilter))) r.
Proof.
  start V inv vlt lexsort binname label inv_label zero tr tc R C sdr prer sdc prec a.
  intros history f func nm data flt sf now rows cols sel BP T X F2 NO.
  assert (I : ainv inv lexsort binname tr tc R C sdr prer sdc prec a now).
  { apply (afinal_inv inv vlt lexsort LS binname label inv_label zero tr tc R C sdr prer sdc prec KR KC a). now apply ainv_fresh. }
  assert (NO' : names_ok inv label inv_label (a_ylab a) tr tc (order lexsort (sdc && negb prec) tc C) sf (total_names a (OnePass nm func))) by (unfold total_names; rewrite T; exact NO).
  destruct (calc_ok2 inv vlt lexsort LS binname label inv_label zero tr tc R C sdr prer sdc prec a KR KC RC CC RN CN LN F1 f flt data sf F2 X (OnePass nm func) now I NO') as (d & foot & E & _ & _ & M & _).
  exists (d, foot). split; [exact E|]. exact (M nm func T eq_refl BP).
Qed.
Print Assumptions C117_totals.
Example C117_case : by_parts list_sum list_sum /\ lexsort_ok 0 lt nat_lexsort /\
  fresh_table 0 ex_t ex_tc 3 2 true false true false (ex_acc true true (Some 1) ex_ccodes None) /\
  names_ok 0 text nolabel ylab ex_t ex_tc [1; 0] true [sname] /\
  snd (calculate2 0 nat_lexsort fbin text nolabel 0 list_sum (OnePass sname list_sum) ex_x None true (ex_acc true true (Some 1) ex_ccodes None)) =
    Some ([(ylab, [999; 10; 20; 30]); (filtered_name, [0; 6; 0; 0]); ([5], [0; 7; 0; 4]); ([7], [0; 0; 3; 1]); (sname, [0; 7; 3; 11])],
          [(filtered_name, 6); ([5], 11); ([7], 4); (sname, 21)]).
Proof.
  split; [exact sum_by_parts|]. split; [apply nat_lexsort_ok|]. split; [apply ex_acc_fresh; discriminate|]. split; [|vm_compute; reflexivity].
  vm_compute. repeat constructor; cbn; intuition discriminate.
Qed.

(** *** C118: totals of the other calculations *)
Theorem C118_multipass_totals_partial :
  forall (V : Type) (inv : V) (vlt : V -> V -> Prop) (lexsort : list (list V) -> list nat) (binname : list V -> V)
         (label : list V -> name) (inv_label : nat -> name) (zero : V)
         (tr tc : list (name * list V)) (R C : nat) (sort_r pre_r sort_c pre_c : bool) (a : acc2),
  lexsort_ok inv vlt lexsort -> fresh_table inv tr tc R C sort_r pre_r sort_c pre_c a ->
  exists pr pc, key_order inv vlt (sort_r && negb pre_r) tr R pr /\ key_order inv vlt (sort_c && negb pre_c) tc C pc /\
  forall (history : list aop) f func nm data flt showfilter,
    let now := afinal inv lexsort binname label inv_label zero a history in
    let rows := x_code (a_row a) in let cols := x_code (a_col a) in
    let sel := select inv rows cols (a_flt a) flt data in
    (forall x y, vlt x y -> vlt y x -> False) ->
    sort_r && negb pre_r = false \/ in_key_order inv vlt tr R -> sort_c && negb pre_c = false \/ in_key_order inv vlt tc C ->
    x_base (a_row a) <> Some 0 -> x_base (a_col a) <> Some 0 -> complete rows cols (a_flt a) flt showfilter ->
    a_tot a = true -> length data = length rows -> filter_ok (length rows) flt ->
    names_ok inv label inv_label (a_ylab a) tr tc pc showfilter [nm] ->
    exists r, snd (calculate2 inv lexsort binname label inv_label zero f (MultiPass nm (Some func)) data flt showfilter now) = Some r /\
      margins inv label inv_label tc pr pc showfilter nm
        (fun i => f (sel (in_row showfilter i))) (fun j => f (sel (in_col showfilter j))) (func (sel (shown showfilter))) r.
Proof.
  start V inv vlt lexsort binname label inv_label zero tr tc R C sdr prer sdc prec a.
  intros history f func nm data flt sf now rows cols sel AS OR OC BR BC CO T X F2 NO.
  assert (I : ainv inv lexsort binname tr tc R C sdr prer sdc prec a now).
  { apply (afinal_inv inv vlt lexsort LS binname label inv_label zero tr tc R C sdr prer sdc prec KR KC a). now apply ainv_fresh. }
  assert (NO' : names_ok inv label inv_label (a_ylab a) tr tc (order lexsort (sdc && negb prec) tc C) sf (total_names a (MultiPass nm (Some func)))) by (unfold total_names; rewrite T; exact NO).
  destruct (calc_ok2 inv vlt lexsort LS binname label inv_label zero tr tc R C sdr prer sdc prec a KR KC RC CC RN CN LN F1 f flt data sf F2 X (MultiPass nm (Some func)) now I NO') as (d & foot & E & _ & _ & _ & M).
  exists (d, foot). split; [exact E|].
  specialize (M nm (Some func) T eq_refl BR BC (order_id inv vlt lexsort _ tr R AS LS KR OR) (order_id inv vlt lexsort _ tc C AS LS KC OC)).
  revert M. apply (margins_ext inv vlt lexsort LS label inv_label tr tc R C sdr prer sdc prec a KR KC RN CN LN).
  - intros i _ H. f_equal. now apply complete_row.
  - intros j _ H. f_equal. now apply complete_col.
  - f_equal. rewrite (picked_ok inv a data _ X (and_filter_ok _ _ _ F1 F2)). apply complete_all; [exact CO|]. intros r Hr. apply (passes_and _ _ _ r F1 F2 Hr).
Qed.
Print Assumptions C118_multipass_totals_partial.
Definition full_ccodes := [1; 2; 1; 2; 2; 1].
Example C118_case : lexsort_ok 0 lt nat_lexsort /\ complete ex_codes full_ccodes None None false /\
  fresh_table 0 ex_t ex_tc 3 2 false false false false (ex_acc false false (Some 1) full_ccodes None) /\
  snd (calculate2 0 nat_lexsort fbin text nolabel 0 (fun l => nth 0 l 0) (MultiPass sname (Some (fun l => nth 0 l 0))) ex_x None false (ex_acc false false (Some 1) full_ccodes None)) =
    Some ([(ylab, [30; 10; 20]); ([7], [1; 0; 3]); ([5], [4; 2; 0]); (sname, [1; 2; 3])], [([7], 1); ([5], 2); (sname, 1)]).
Proof.
  split; [apply nat_lexsort_ok|]. split; [intros [|[|[|[|[|[|r]]]]]] Hr; cbn in *; try lia; split; discriminate|].
  split; [|vm_compute; reflexivity]. split; [split; [exact ex_table|]; split; [repeat constructor|]; split; reflexivity|].
  split; [split; [exact ex_tc_ok|]; split; [repeat constructor|]; split; reflexivity|]. split; [reflexivity|discriminate].
Qed.
(** the same for a user function without a filter in the constructor *)
Theorem C118_apply_reduce_totals_partial :
  forall (V : Type) (inv : V) (vlt : V -> V -> Prop) (lexsort : list (list V) -> list nat) (binname : list V -> V)
         (label : list V -> name) (inv_label : nat -> name) (zero : V)
         (tr tc : list (name * list V)) (R C : nat) (sort_r pre_r sort_c pre_c : bool) (a : acc2),
  lexsort_ok inv vlt lexsort -> fresh_table inv tr tc R C sort_r pre_r sort_c pre_c a ->
  exists pr pc, key_order inv vlt (sort_r && negb pre_r) tr R pr /\ key_order inv vlt (sort_c && negb pre_c) tc C pc /\
  forall (history : list aop) f nm data flt showfilter,
    let now := afinal inv lexsort binname label inv_label zero a history in
    let rows := x_code (a_row a) in let cols := x_code (a_col a) in
    let sel := select inv rows cols (a_flt a) flt data in
    (forall x y, vlt x y -> vlt y x -> False) ->
    sort_r && negb pre_r = false \/ in_key_order inv vlt tr R -> sort_c && negb pre_c = false \/ in_key_order inv vlt tc C ->
    a_flt a = None -> complete rows cols (a_flt a) flt showfilter ->
    a_tot a = true -> length data = length rows -> filter_ok (length rows) flt ->
    names_ok inv label inv_label (a_ylab a) tr tc pc showfilter [nm] ->
    exists r, snd (apply_reduce2 inv lexsort binname label inv_label zero f nm data flt showfilter now) = Some r /\
      margins inv label inv_label tc pr pc showfilter nm
        (fun i => on_rows inv f (sel (in_row showfilter i))) (fun j => on_rows inv f (sel (in_col showfilter j))) (f (sel (shown showfilter))) r.
Proof.
  start V inv vlt lexsort binname label inv_label zero tr tc R C sdr prer sdc prec a.
  intros history f nm data flt sf now rows cols sel AS OR OC NF CO T X F2 NO.
  assert (I : ainv inv lexsort binname tr tc R C sdr prer sdc prec a now).
  { apply (afinal_inv inv vlt lexsort LS binname label inv_label zero tr tc R C sdr prer sdc prec KR KC a). now apply ainv_fresh. }
  assert (NO' : names_ok inv label inv_label (a_ylab a) tr tc (order lexsort (sdc && negb prec) tc C) sf (if a_tot a then [nm] else [])) by (rewrite T; exact NO).
  destruct (apply_ok inv vlt lexsort LS binname label inv_label zero tr tc R C sdr prer sdc prec a KR KC RC RN CN LN F1 flt sf F2 f data X nm now I NO') as (d & foot & E & _ & _ & M).
  exists (d, foot). split; [exact E|].
  assert (AP : forall r, r < length (x_code (a_row a)) -> passes (a_flt a) r = true) by (rewrite NF; reflexivity).
  specialize (M T AP (order_id inv vlt lexsort _ tr R AS LS KR OR) (order_id inv vlt lexsort _ tc C AS LS KC OC)).
  revert M. apply (margins_ext inv vlt lexsort LS label inv_label tr tc R C sdr prer sdc prec a KR KC RN CN LN).
  - intros i _ H. f_equal. now apply complete_row.
  - intros j _ H. f_equal. now apply complete_col.
  - f_equal. rewrite (picked_ok inv a data _ X F2). apply complete_all; [exact CO|]. intros r Hr. now rewrite (AP r Hr).
Qed.
Print Assumptions C118_apply_reduce_totals_partial.
Definition first (l : list nat) : nat := nth 0 l 0.
(** The totals of first, last, median, .. are left in the order in which the keys were found, although the
    table is sorted: 1, 2, 3 (the first of 30, 10, 20) beside the keys 10, 20, 30. *)
Theorem C118_sorted_refuted : lexsort_ok 0 lt nat_lexsort /\ complete ex_codes full_ccodes None None false /\
  snd (calculate2 0 nat_lexsort fbin text nolabel 0 first (MultiPass sname (Some first)) ex_x None false (ex_acc true false (Some 1) full_ccodes None)) =
    Some ([(ylab, [10; 20; 30]); ([7], [0; 3; 1]); ([5], [2; 0; 4]); (sname, [1; 2; 3])], [([7], 1); ([5], 2); (sname, 1)]).
Proof.
  split; [apply nat_lexsort_ok|]. split; [intros [|[|[|[|[|[|r]]]]]] Hr; cbn in *; try lia; split; discriminate|]. vm_compute. reflexivity.
Qed.
Print Assumptions C118_sorted_refuted.
(** These totals also count rows that are in no shown cell: the row total of 30 and the grand total are the last
    value 6 of a row without column key, which the table does not show. *)
Theorem C118_unshown_rows_refuted : lexsort_ok 0 lt nat_lexsort /\ fresh_table 0 ex_t ex_tc 3 2 false false false false (ex_acc false false (Some 1) ex_ccodes None) /\
  snd (calculate2 0 nat_lexsort fbin text nolabel 0 (fun l => last l 0) (MultiPass sname (Some (fun l => last l 0))) ex_x None false (ex_acc false false (Some 1) ex_ccodes None)) =
    Some ([(ylab, [30; 10; 20]); ([7], [1; 0; 3]); ([5], [4; 5; 0]); (sname, [6; 5; 3])], [([7], 3); ([5], 5); (sname, 6)]).
Proof. split; [apply nat_lexsort_ok|]. split; [apply ex_acc_fresh; discriminate|]. vm_compute. reflexivity. Qed.
Print Assumptions C118_unshown_rows_refuted.
(** With Categoricals of base index 0 the codes are shifted once more, so each total stands one key too far
    and the last group's rows are in no total. *)
Theorem C118_base0_refuted : lexsort_ok 0 lt nat_lexsort /\ complete ex_codes full_ccodes None None false /\
  snd (calculate2 0 nat_lexsort fbin text nolabel 0 first (MultiPass sname (Some first)) ex_x None false (ex_acc false false (Some 0) full_ccodes None)) =
    Some ([(ylab, [30; 10; 20]); ([7], [1; 0; 3]); ([5], [4; 2; 0]); (sname, [0; 1; 2])], [([7], 0); ([5], 1); (sname, 1)]).
Proof.
  split; [apply nat_lexsort_ok|]. split; [intros [|[|[|[|[|[|r]]]]]] Hr; cbn in *; try lia; split; discriminate|]. vm_compute. reflexivity.
Qed.
Print Assumptions C118_base0_refuted.
(** apply_reduce: the totals ignore the filter given to the constructor (the first row is filtered out but
    its value 1 is the total of 30 and of the table). *)
Theorem C118_apply_reduce_filter_refuted : lexsort_ok 0 lt nat_lexsort /\
  let flt := Some [false; true; true; true; true; true] in
  complete ex_codes full_ccodes flt None false /\
  snd (apply_reduce2 0 nat_lexsort fbin text nolabel 0 first sname ex_x None false (ex_acc false false (Some 1) full_ccodes flt)) =
    Some ([(ylab, [30; 10; 20]); ([7], [6; 0; 3]); ([5], [4; 2; 0]); (sname, [1; 2; 3])], [([7], 1); ([5], 2); (sname, 1)]).
Proof.
  split; [apply nat_lexsort_ok|]. split; [intros [|[|[|[|[|[|r]]]]]] Hr; cbn in *; try lia; split; discriminate|]. vm_compute. reflexivity.
Qed.
Print Assumptions C118_apply_reduce_filter_refuted.

(** *** C119: reading one row of the table object *)
Theorem C119_getitem_partial :
  forall (V : Type) (inv : V) (vlt : V -> V -> Prop) (lexsort : list (list V) -> list nat) (binname : list V -> V)
         (label : list V -> name) (inv_label : nat -> name) (zero : V)
         (tr tc : list (name * list V)) (R C : nat) (sort_r pre_r sort_c pre_c : bool) (a : acc2),
  lexsort_ok inv vlt lexsort -> fresh_table inv tr tc R C sort_r pre_r sort_c pre_c a ->
  (forall x y, vlt x y -> vlt y x -> False) ->
  sort_r && negb pre_r = false \/ in_key_order inv vlt tr R -> sort_c && negb pre_c = false \/ in_key_order inv vlt tc C ->
  forall (history : list aop) r, r < length (x_code (a_row a)) ->
    let now := afinal inv lexsort binname label inv_label zero a history in
    let key (t : list (name * list V)) (code : nat) := match code with 0 => None | S k => Some (row inv t k) end in
    snd (get2 inv lexsort r now) =
      Some (key tc (snd (place (x_code (a_row a)) (x_code (a_col a)) (a_flt a) None r)),
            key tr (fst (place (x_code (a_row a)) (x_code (a_col a)) (a_flt a) None r))).
Proof.
  intros V inv vlt lexsort binname label inv_label zero tr tc R C sdr prer sdc prec a LS FT AS OR OC history r Hr now key.
  pose proof FT as (FR & FC & LN & F1). pose proof FR as (KR & RC & RN & _). pose proof FC as (KC & CC & CN & _).
  assert (I : ainv inv lexsort binname tr tc R C sdr prer sdc prec a now).
  { apply (afinal_inv inv vlt lexsort LS binname label inv_label zero tr tc R C sdr prer sdc prec KR KC a). now apply ainv_fresh. }
  destruct (nth_error (ikey2 a) r) as [m|] eqn:Hm.
  2: { exfalso. apply nth_error_None in Hm. rewrite (ikey2_length a LN F1) in Hm. lia. }
  pose proof (get_ok inv vlt lexsort LS binname tr tc R C sdr prer sdc prec a KR KC RC CC RN CN LN F1 now r m I Hm (order_id inv vlt lexsort _ tr R AS LS KR OR) (order_id inv vlt lexsort _ tc C AS LS KC OC)) as G.
  rewrite G. destruct (place _ _ _ _ r) as [i j]. reflexivity.
Qed.
Print Assumptions C119_getitem_partial.
Example C119_case : lexsort_ok 0 lt nat_lexsort /\
  map (fun r => snd (get2 0 nat_lexsort r (ex_acc false false (Some 1) ex_ccodes None))) [0; 1; 5] =
  [Some (Some [7], Some [30]); Some (Some [5], Some [10]); Some (None, Some [30])].
Proof. split; [apply nat_lexsort_ok|]. vm_compute. reflexivity. Qed.
(** With sorted keys the code of a row is looked up in the sorted keys: the first row (30, 7) reads (10, 5). *)
Theorem C119_sorted_refuted : lexsort_ok 0 lt nat_lexsort /\ fresh_table 0 ex_t ex_tc 3 2 true false true false (ex_acc true true (Some 1) ex_ccodes None) /\
  snd (get2 0 nat_lexsort 0 (ex_acc true true (Some 1) ex_ccodes None)) = Some (Some [5], Some [10]) /\
  row 0 ex_tc (nth 0 ex_ccodes 0 - 1) = [7] /\ row 0 ex_t (nth 0 ex_codes 0 - 1) = [30].
Proof. split; [apply nat_lexsort_ok|]. split; [apply ex_acc_fresh; discriminate|]. vm_compute. repeat split. Qed.
Print Assumptions C119_sorted_refuted.

(** *** C120: transform *)
Theorem C120_transform :
  forall (V : Type) (inv : V) (vlt : V -> V -> Prop) (lexsort : list (list V) -> list nat) (binname : list V -> V)
         (label : list V -> name) (inv_label : nat -> name) (zero : V)
         (tr tc : list (name * list V)) (R C : nat) (sort_r pre_r sort_c pre_c : bool) (a : acc2),
  lexsort_ok inv vlt lexsort -> fresh_table inv tr tc R C sort_r pre_r sort_c pre_c a ->
  forall (history : list aop) f data flt showfilter r,
    let now := afinal inv lexsort binname label inv_label zero a history in
    let rows := x_code (a_row a) in let cols := x_code (a_col a) in
    length data = length rows -> filter_ok (length rows) flt -> r < length rows ->
    let '(i, j) := place rows cols (a_flt a) None r in
    nth r (transform2 inv f data flt showfilter now) inv =
      if showfilter || negb ((i =? 0) && (j =? 0)) then f (select inv rows cols (a_flt a) flt data (cell i j)) else inv.
Proof.
  intros V inv vlt lexsort binname label inv_label zero tr tc R C sdr prer sdc prec a LS FT history f data flt sf r now rows cols X F2 Hr.
  pose proof FT as (FR & FC & LN & F1). pose proof FR as (KR & RC & RN & _). pose proof FC as (KC & CC & CN & _).
  assert (I : ainv inv lexsort binname tr tc R C sdr prer sdc prec a now).
  { apply (afinal_inv inv vlt lexsort LS binname label inv_label zero tr tc R C sdr prer sdc prec KR KC a). now apply ainv_fresh. }
  pose proof (transform_ok2 inv lexsort binname tr tc R C sdr prer sdc prec a RC CC RN CN LN F1 flt sf F2 f data now r X I Hr) as T.
  unfold rows, cols. destruct (place _ _ _ _ r) as [i j]. exact T.
Qed.
Print Assumptions C120_transform.
Example C120_case : transform2 0 list_sum ex_x (Some [true; true; true; true; false; true]) false (ex_acc true true (Some 1) ex_ccodes None) = [1; 2; 3; 4; 2; 6].
Proof. vm_compute. reflexivity. Qed.

(** *** C121: the table of counts *)
Theorem C121_count_partial :
  forall (V : Type) (inv : V) (vlt : V -> V -> Prop) (lexsort : list (list V) -> list nat) (binname : list V -> V)
         (label : list V -> name) (inv_label : nat -> name) (zero : V)
         (tr tc : list (name * list V)) (R C : nat) (sort_r pre_r sort_c pre_c : bool) (a : acc2),
  lexsort_ok inv vlt lexsort -> fresh_table inv tr tc R C sort_r pre_r sort_c pre_c a ->
  exists pr pc, key_order inv vlt (sort_r && negb pre_r) tr R pr /\ key_order inv vlt (sort_c && negb pre_c) tc C pc /\
  forall (history : list aop) num sum flt showfilter,
    let now := afinal inv lexsort binname label inv_label zero a history in
    let rows := x_code (a_row a) in let cols := x_code (a_col a) in
    let tal := tally rows cols (a_flt a) flt in
    (forall l, sum (map num l) = num (list_sum l)) -> filter_ok (length rows) flt ->
    names_ok inv label inv_label (a_ylab a) tr tc pc showfilter (if a_tot a then [sum_name] else []) ->
    exists d foot, snd (count2 inv lexsort binname label inv_label num sum flt showfilter now) = Some (d, foot) /\
      two_way inv label inv_label binname (a_ylab a) tr tc pr pc showfilter (fun i j => num (tal (cell i j))) d /\
      (showfilter = true -> sort_r && negb pre_r = false -> filtered_column pr (fun i j => num (tal (cell i j))) d) /\
      (a_tot a = true -> showfilter && (sort_r && negb pre_r) = false ->
         margins inv label inv_label tc pr pc showfilter sum_name
           (fun i => num (tal (in_row showfilter i))) (fun j => num (tal (in_col showfilter j))) (num (tal (shown showfilter))) (d, foot)).
Proof.
  start V inv vlt lexsort binname label inv_label zero tr tc R C sdr prer sdc prec a.
  intros history num sum flt sf now rows cols tal ADD F2 NO.
  assert (I : ainv inv lexsort binname tr tc R C sdr prer sdc prec a now).
  { apply (afinal_inv inv vlt lexsort LS binname label inv_label zero tr tc R C sdr prer sdc prec KR KC a). now apply ainv_fresh. }
  destruct (count_ok2 inv vlt lexsort LS binname label inv_label tr tc R C sdr prer sdc prec a KR KC RC CC RN CN LN F1 flt sf F2 num sum ADD now I NO) as (d & foot & E & T & FCL & M).
  exists d, foot. split; [exact E|]. split; [exact T|]. split.
  - intros SF S. apply (FCL SF). unfold order. now rewrite S.
  - intros T' H. apply (M T'). intros ->. unfold order. cbn [andb] in H. now rewrite H.
Qed.
Print Assumptions C121_count_partial.
Example C121_case : (forall l, list_sum (map (fun n => n) l) = list_sum l) /\ lexsort_ok 0 lt nat_lexsort /\
  names_ok 0 text nolabel ylab ex_t ex_tc [1; 0] false [sum_name] /\
  snd (count2 0 nat_lexsort fbin text nolabel (fun n => n) list_sum None false (ex_acc true true (Some 1) ex_ccodes None)) =
    Some ([(ylab, [10; 20; 30]); ([5], [2; 0; 1]); ([7], [0; 1; 1]); (sum_name, [2; 1; 2])], [([5], 3); ([7], 2); (sum_name, 5)]).
Proof.
  split; [intros l; now rewrite map_id|]. split; [apply nat_lexsort_ok|]. split; [|vm_compute; reflexivity].
  vm_compute. repeat constructor; cbn; intuition discriminate.
Qed.
(** count(showfilter=True) of sorted rows adds the Filtered column in the wrong order: the row total of 10 is 3
    although only two rows have that key. *)
Theorem C121_filtered_sorted_refuted : lexsort_ok 0 lt nat_lexsort /\
  snd (count2 0 nat_lexsort fbin text nolabel (fun n => n) list_sum None true (ex_acc true true (Some 1) ex_ccodes None)) =
    Some ([(ylab, [999; 10; 20; 30]); (filtered_name, [0; 1; 0; 0]); ([5], [0; 2; 0; 1]); ([7], [0; 0; 1; 1]); (sum_name, [0; 3; 1; 2])],
          [(filtered_name, 1); ([5], 3); ([7], 2); (sum_name, 6)]) /\
  length (filter (Nat.eqb 2) ex_codes) = 2.
Proof. split; [apply nat_lexsort_ok|]. vm_compute. repeat split. Qed.
Print Assumptions C121_filtered_sorted_refuted.
