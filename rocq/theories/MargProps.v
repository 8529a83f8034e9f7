(** Datasets with labels and totals: arithmetic, trim, AccumTable, accum_ratio, accum_ratiop, accum_cols (properties C133-C138). *)
From Coq Require Import List Arith Bool ZArith Permutation Lia.
From Verif Require Import FlattenModel DsModel GroupingModel GroupingSpec AggModel AggSpec AggProofs AggProofs2 AggProofs3 AggProofs6 AggProps
  Acc2Model Acc2Spec Acc2Proofs Acc2Proofs2 Acc2Proofs3 Acc2Proofs4 Acc2Proofs5 Acc2Props
  MargModel MargSpec MargProofs MargProofs2 MargProofs3 MargProofs4 MargProofs5 MargProofs6 MargProofs7 MargProofs8 MargProofs9 MargProofs10 MargProofs11 MargProofs12.
Import ListNotations.

(** *** C133: arithmetic between Datasets with totals *)
(** Two Datasets with the same labels and data columns and equally many summary columns and footer rows: labels stay,
    data columns, summary columns (by position) and footer rows (by position) are combined value by value. *)
Theorem C133_arithmetic_partial :
  forall (V : Type) (nan : V) (op : V -> V -> V) (labels data sums sums' : list name) (n : nat) (a b : mds),
  laid_out labels data sums n a -> laid_out labels data sums' n b ->
  length sums = length sums' -> length (m_foot a) = length (m_foot b) ->
  (forall i, i < length sums -> ~ In (summary_name i) (labels ++ data)) ->
  exists r, binop nan op a b = Some r /\ laid_out labels data (map summary_name (seq 0 (length sums))) n r /\
    (forall c, In c labels -> col c r = col c a) /\
    (forall c u v, In c data -> col c a = Some u -> col c b = Some v -> exists w, col c r = Some w /\ rowwise op u v w) /\
    (forall i s s' u v, nth_error sums i = Some s -> nth_error sums' i = Some s' -> col s a = Some u -> col s' b = Some v ->
       exists w, col (summary_name i) r = Some w /\ rowwise op u v w) /\
    map fst (m_foot r) = map footer_name (seq 0 (length (m_foot a))) /\
    forall i l l' fa fb, nth_error (m_foot a) i = Some (l, fa) -> nth_error (m_foot b) i = Some (l', fb) ->
      exists f, nth_error (m_foot r) i = Some (footer_name i, f) /\
        map fst f = data ++ map summary_name (seq 0 (length sums)) /\
        (forall c, In c data -> dget c f = Some (op (value nan fa c) (value nan fb c))) /\
        (forall j s s', nth_error sums j = Some s -> nth_error sums' j = Some s' -> dget (summary_name j) f = Some (op (value nan fa s) (value nan fb s'))).
Proof. intros V nan op labels data sums sums' n a b LA LB LS LF FR. exact (binop_ok nan op labels data sums sums' n a b LA LB LS LF FR). Qed.
Print Assumptions C133_arithmetic_partial.

Definition nk : name := [75]. Definition nx : name := [88]. Definition ny : name := [89; 89]. Definition nz : name := [90].
Definition ns : name := [83]. Definition ns' : name := [83; 50]. Definition nf : name := [70]. Definition nf' : name := [70; 50].
Definition ex_a : mds := mkM [(nk, [1; 2; 3]); (nx, [10; 20; 30]); (ny, [4; 5; 6]); (ns, [14; 25; 36])] [nk] [ns] [(nf, [(nx, 60); (ny, 15); (ns, 75)])].
Definition ex_b : mds := mkM [(nk, [1; 2; 3]); (nx, [1; 2; 3]); (ny, [0; 0; 1]); (ns', [1; 2; 4])] [nk] [ns'] [(nf', [(nx, 6); (ny, 1); (ns', 7)])].
Lemma ex_a_laid : laid_out [nk] [nx; ny] [ns] 3 ex_a.
Proof. split; [reflexivity|]. split; [repeat constructor; cbn; intuition discriminate|]. split; [reflexivity|]. split; [reflexivity|]. intros c v I. cbn in I. repeat destruct I as [I|I]; try (injection I as <- <-; reflexivity). destruct I. Qed.
Lemma ex_b_laid : laid_out [nk] [nx; ny] [ns'] 3 ex_b.
Proof. split; [reflexivity|]. split; [repeat constructor; cbn; intuition discriminate|]. split; [reflexivity|]. split; [reflexivity|]. intros c v I. cbn in I. repeat destruct I as [I|I]; try (injection I as <- <-; reflexivity). destruct I. Qed.
Example C133_case : laid_out [nk] [nx; ny] [ns] 3 ex_a /\ laid_out [nk] [nx; ny] [ns'] 3 ex_b /\
  binop 0 Nat.add ex_a ex_b = Some (mkM [(nk, [1; 2; 3]); (nx, [11; 22; 33]); (ny, [4; 5; 7]); (summary_name 0, [15; 27; 40])] [nk] [summary_name 0]
    [(footer_name 0, [(nx, 66); (ny, 16); (summary_name 0, 82)])]).
Proof. split; [exact ex_a_laid|]. split; [exact ex_b_laid|]. vm_compute. reflexivity. Qed.
(** Finding: if the two Datasets have differently named data columns at one place, the column of the left one is left
    as it is (there is no such column on the right), but its footer is combined with the footer of the right one's
    column at that place: the column YY is 4, 5, 6 with the total 15 + 1. *)
Theorem C133_other_names_refuted :
  let b := mkM [(nk, [1; 2; 3]); (nx, [1; 2; 3]); (nz, [0; 0; 1]); (ns', [1; 2; 4])] [nk] [ns'] [(nf', [(nx, 6); (nz, 1); (ns', 7)])] in
  exists r, binop 0 Nat.add ex_a b = Some r /\ col ny r = Some [4; 5; 6] /\ foot (footer_name 0) r ny = Some 16.
Proof. cbv zeta. eexists. split; [vm_compute; reflexivity|]. split; vm_compute; reflexivity. Qed.
(** Finding: with a different number of footer rows or summary columns the totals of the result are not the totals of its
    columns: the summary column is not combined, and the footers are dropped. *)
Theorem C133_unlike_refuted :
  let b := mkM [(nk, [1; 2; 3]); (nx, [1; 2; 3]); (ny, [0; 0; 1]); (ns', [1; 2; 4])] [nk] [ns'] [] in
  binop 0 Nat.add ex_a b = Some (mkM [(nk, [1; 2; 3]); (nx, [11; 22; 33]); (ny, [4; 5; 7]); (ns, [14; 25; 36])] [nk] [] []).
Proof. vm_compute. reflexivity. Qed.
Print Assumptions C133_unlike_refuted.
Print Assumptions C133_other_names_refuted.

(** *** C134: AccumTable *)
Theorem C134_gen_partial :
  forall (V : Type) (blank : V -> bool) (labels data : list name) (n : nat) (history : list top) (nm : option name) (remove_blanks : bool) (t : name) (d : mds),
  Forall (fits labels data n) history -> subject history nm = Some t -> given history t = Some d ->
  (forall k, In k (margins_of history) \/ In k (footers_of history) -> given history k <> None) ->
  exists r f keep, snd (gen blank nm remove_blanks (tfinal blank history)) = Some r /\
    (remove_blanks = false -> (forall c, f c = true) /\ keep = repeat true n) /\
    (remove_blanks = true -> (forall c v, In c data -> col c d = Some v -> (f c = false <-> blank_col blank v)) /\
       (forall v, row_totals d = Some v -> (f t = false <-> blank_col blank v)) /\ keeps_rows blank n (data_of d) keep) /\
    laid_out labels (filter f data) (filter f [t] ++ besides t (margins_of history)) (kept keep) r /\
    (forall c v, In c (labels ++ filter f data) -> col c d = Some v -> col c r = Some (chosen keep v)) /\
    (forall k d' v, In k (filter f [t] ++ besides t (margins_of history)) -> given history k = Some d' -> row_totals d' = Some v ->
       col k r = Some (chosen keep v)) /\
    map fst (m_foot r) = t :: besides t (footers_of history) /\
    (forall k d', In k (t :: besides t (footers_of history)) -> given history k = Some d' ->
      (forall c, In c (filter f data) -> foot k r c = col_total d' c) /\
      (forall j, In j (filter f [t] ++ besides t (margins_of history)) -> foot k r j = if name_dec j k then grand_total d' else None)) /\
    footed r.
Proof. intros V blank labels data n history nm rb t d FI SU GI GM. exact (gen_ok blank labels data n history FI nm rb t d SU GI GM). Qed.
Print Assumptions C134_gen_partial.
Theorem C134_missing :
  forall (V : Type) (blank : V -> bool) (labels data : list name) (n : nat) (history : list top) (nm : option name) (remove_blanks : bool),
  Forall (fits labels data n) history ->
  (subject history nm = None \/ exists t, subject history nm = Some t /\
    (given history t = None \/ exists k, k <> t /\ (In k (margins_of history) \/ In k (footers_of history)) /\ given history k = None)) ->
  snd (gen blank nm remove_blanks (tfinal blank history)) = None.
Proof. intros V blank labels data n history nm rb FI H. exact (gen_missing blank labels data n history FI nm rb H). Qed.
Print Assumptions C134_missing.
Definition is0 (x : nat) : bool := x =? 0.
Definition nP : name := [80]. Definition nQ : name := [81].
Definition ex_d1 : mds := mkM [(nk, [1; 2; 3]); (nx, [10; 0; 30]); (ny, [0; 0; 0]); (ns, [10; 0; 30])] [nk] [ns] [(nf, [(nx, 40); (ny, 0); (ns, 40)])].
Definition ex_ops : list top := [TSet nP ex_d1; TSet nQ ex_b; TMargins [nQ]; TGet nQ; TFooters [nQ; nP]; TGen (Some nQ) true].
Example C134_case : Forall (fits [nk] [nx; ny] 3) ex_ops /\ subject ex_ops (Some nP) = Some nP /\ given ex_ops nP = Some ex_d1 /\
  snd (gen is0 (Some nP) true (tfinal is0 ex_ops)) =
    Some (mkM [(nk, [1; 3]); (nx, [10; 30]); (nP, [10; 30]); (nQ, [1; 4])] [nk] [nP; nQ] [(nP, [(nx, 40); (nP, 40)]); (nQ, [(nx, 6); (nQ, 7)])]) /\
  snd (gen is0 None true (tfinal is0 ex_ops)) <> None /\ snd (gen is0 (Some nf) true (tfinal is0 ex_ops)) = None.
Proof.
  split; [|split; [reflexivity|split; [reflexivity|split; [vm_compute; reflexivity|split; [vm_compute; discriminate|vm_compute; reflexivity]]]]].
  unfold ex_ops. constructor.
  - split; [cbn; intuition discriminate|]. exists ns, nf. split.
    + split; [reflexivity|]. split; [repeat constructor; cbn; intuition discriminate|]. split; [reflexivity|]. split; [reflexivity|]. intros c v I. cbn in I. repeat destruct I as [I|I]; try (injection I as <- <-; reflexivity). destruct I.
    + eexists. split; [reflexivity|]. split; [repeat constructor; cbn; intuition discriminate|intros c I; exact I].
  - constructor; [|repeat constructor]. split; [cbn; intuition discriminate|]. exists ns', nf'. split; [exact ex_b_laid|]. eexists. split; [reflexivity|]. split; [repeat constructor; cbn; intuition discriminate|intros c I; exact I].
Qed.
(** Finding: set_margin_columns accepts the name of a table that was never given; the error (KeyError) comes later, from
    every gen that follows. *)
Theorem C134_unknown_margin_refuted : exists history : list (top (V := nat)), Forall (fits [nk] [nx; ny] 3) history /\ In (TMargins [nz]) history /\
  given history nP <> None /\ snd (gen is0 (Some nP) false (tfinal is0 history)) = None.
Proof.
  exists [TSet nP ex_b; TMargins [nz]]. split; [|split; [right; now left|split; [discriminate|vm_compute; reflexivity]]].
  constructor; [|repeat constructor]. split; [cbn; intuition discriminate|]. exists ns', nf'. split; [exact ex_b_laid|]. eexists. split; [reflexivity|]. split; [repeat constructor; cbn; intuition discriminate|intros c I; exact I].
Qed.
Print Assumptions C134_unknown_margin_refuted.

(** *** C135: accum_ratio *)
Theorem C135_ratio_partial :
  forall (V : Type) (inv : V) (vlt : V -> V -> Prop) (blank : V -> bool) (lexsort : list (list V) -> list nat) (binname : list V -> V)
         (label : list V -> name) (inv_label : nat -> name) (zero : V) (div : V -> V -> V)
         (tr tc : list (name * list V)) (R C : nat) (sort_r pre_r sort_c pre_c : bool) (a : acc2),
  lexsort_ok inv vlt lexsort -> fresh_table inv tr tc R C sort_r pre_r sort_c pre_c a ->
  exists pr pc, key_order inv vlt (sort_r && negb pre_r) tr R pr /\ key_order inv vlt (sort_c && negb pre_c) tc C pc /\
  forall (history : list aop) c1 c2 val1 val2 filt1 filt2 (include_numer include_denom remove_blanks : bool),
    let now := afinal inv lexsort binname label inv_label zero a history in
    let rows := x_code (a_row a) in let cols := x_code (a_col a) in
    a_tot a = true ->
    (forall x, In x [c_nm c1; c_nm c2; numer; denom; ratio; summary_name 0] -> names_ok inv label inv_label (a_ylab a) tr tc pc false [x]) ->
    length val1 = length rows -> length val2 = length rows -> filter_ok (length rows) filt1 -> filter_ok (length rows) filt2 ->
    by_parts (c_f c1) (c_func c1) -> by_parts (c_f c2) (c_func c2) ->
    let num s := c_f c1 (select inv rows cols (a_flt a) filt1 val1 s) in
    let den s := c_f c2 (select inv rows cols (a_flt a) (match filt2 with None => filt1 | _ => filt2 end) val2 s) in
    let rat s := div (num s) (den s) in
    let extra (X : Type) (x y : X) := (if include_numer return list X then [x] else []) ++ (if include_denom return list X then [y] else []) in
    exists r f keep,
      snd (accum_ratio inv blank lexsort binname label inv_label zero div c1 c2 val1 val2 filt1 filt2 include_numer include_denom remove_blanks now) = Some r /\
      without_blanks inv blank label inv_label tc pr pc remove_blanks R f keep ratio
        (fun i k => rat (cell (S i) (S k))) (fun i => rat (in_row false (S i))) /\
      presents inv label inv_label (a_ylab a) tr tc pr pc f keep ratio
        (fun i k => rat (cell (S i) (S k))) (fun i => rat (in_row false (S i))) (fun k => rat (in_col false (S k))) (rat (shown false))
        (extra _ (numer, fun i => num (in_row false (S i))) (denom, fun i => den (in_row false (S i))))
        (extra _ (numer, (fun k => num (in_col false (S k)), num (shown false))) (denom, (fun k => den (in_col false (S k)), den (shown false)))) r.
Proof.
  intros V inv vlt blank lexsort binname label inv_label zero div tr tc R C sdr prer sdc prec a LS FT;
  pose proof FT as (FR & FC & LN & F1); pose proof FR as (KR & RC & RN & _); pose proof FC as (KC & CC & CN & _);
  exists (order lexsort (sdr && negb prer) tr R), (order lexsort (sdc && negb prec) tc C).
  split; [eapply order_ok; eauto|]; split; [eapply order_ok; eauto|].
  intros history c1 c2 val1 val2 filt1 filt2 inum iden rb now rows cols TOT NK L1 L2 FL1 FL2 BP1 BP2 num den rat extra.
  assert (I : ainv inv lexsort binname tr tc R C sdr prer sdc prec a now).
  { apply (afinal_inv inv vlt lexsort LS binname label inv_label zero tr tc R C sdr prer sdc prec KR KC a). now apply ainv_fresh. }
  refine (proj2 (accum_ratio_ok inv vlt lexsort LS binname label inv_label zero blank tr tc R C sdr prer sdc prec a KR KC RC CC RN CN LN F1 TOT
    div c1 c2 val1 val2 filt1 filt2 inum iden rb now I _ _ _ _ _ _ L1 L2 FL1 FL2 BP1 BP2)); apply NK; cbn [In]; tauto.
Qed.
Print Assumptions C135_ratio_partial.

(** *** C136: accum_ratiop *)
Theorem C136_ratiop_partial :
  forall (V : Type) (inv : V) (vlt : V -> V -> Prop) (blank : V -> bool) (lexsort : list (list V) -> list nat) (binname : list V -> V)
         (label : list V -> name) (inv_label : nat -> name) (zero : V) (pct : V -> V -> V) (hundred : V)
         (tr tc : list (name * list V)) (R C : nat) (sort_r pre_r sort_c pre_c : bool) (a : acc2),
  lexsort_ok inv vlt lexsort -> fresh_table inv tr tc R C sort_r pre_r sort_c pre_c a ->
  exists pr pc, key_order inv vlt (sort_r && negb pre_r) tr R pr /\ key_order inv vlt (sort_c && negb pre_c) tc C pc /\
  forall (history : list aop) c val filt (norm_by : norm) (include_total remove_blanks : bool),
    let now := afinal inv lexsort binname label inv_label zero a history in
    let rk := x_code (a_row a) in let ck := x_code (a_col a) in
    a_tot a = true ->
    (forall x, In x [c_nm c; total_ratio; total] -> names_ok inv label inv_label (a_ylab a) tr tc pc false [x]) ->
    length val = length rk -> filter_ok (length rk) filt -> by_parts (c_f c) (c_func c) ->
    let v s := c_f c (select inv rk ck (a_flt a) filt val s) in
    let cells i k := v (cell (S i) (S k)) in let rows i := v (in_row false (S i)) in
    let cols k := v (in_col false (S k)) in let all := v (shown false) in
    remove_blanks = false \/ ~ blank_col blank (map rows pr) ->
    exists r f keep,
      snd (accum_ratiop inv blank lexsort binname label inv_label zero pct hundred c val filt norm_by include_total remove_blanks now) = Some r /\
      without_blanks inv blank label inv_label tc pr pc remove_blanks R f keep total_ratio cells rows /\
      presents inv label inv_label (a_ylab a) tr tc pr pc f keep total_ratio
        (fun i k => pct (cells i k) (match norm_by with ByTable => all | ByRow => rows i | ByColumn => cols k end))
        (fun i => pct (rows i) (match norm_by with ByRow => rows i | _ => all end))
        (fun k => match norm_by with ByColumn => hundred | _ => pct (cols k) all end)
        (match norm_by with ByColumn => hundred | _ => pct all all end)
        (if include_total then [(total, rows)] else []) (if include_total then [(total, (cols, all))] else []) r.
Proof.
  intros V inv vlt blank lexsort binname label inv_label zero pct hundred tr tc R C sdr prer sdc prec a LS FT;
  pose proof FT as (FR & FC & LN & F1); pose proof FR as (KR & RC & RN & _); pose proof FC as (KC & CC & CN & _);
  exists (order lexsort (sdr && negb prer) tr R), (order lexsort (sdc && negb prec) tc C).
  split; [eapply order_ok; eauto|]; split; [eapply order_ok; eauto|].
  intros history c val filt n itot rb now rk ck TOT NK L1 FL BP v cells rows cols all NB.
  assert (I : ainv inv lexsort binname tr tc R C sdr prer sdc prec a now).
  { apply (afinal_inv inv vlt lexsort LS binname label inv_label zero tr tc R C sdr prer sdc prec KR KC a). now apply ainv_fresh. }
  refine (proj2 (accum_ratiop_ok inv vlt lexsort LS binname label inv_label zero blank tr tc R C sdr prer sdc prec a KR KC RC CC RN CN LN F1 TOT
    pct hundred c val filt n itot rb now I _ _ _ L1 FL BP NB)); apply NK; cbn [In]; tauto.
Qed.
Print Assumptions C136_ratiop_partial.

(** *** C137: accum_cols *)
Theorem C137_cols_partial :
  forall (V : Type) (inv : V) (vlt : V -> V -> Prop) (blank : V -> bool) (lexsort : list (list V) -> list nat) (binname : list V -> V)
         (label : list V -> name) (inv_label : nat -> name) (zero : V) (div pct : V -> V -> V) (hundred : V)
         (tr tc : list (name * list V)) (R : nat) (sort_r pre_r sort_c pre_c : bool) (a : acc2),
  lexsort_ok inv vlt lexsort -> fresh_table inv tr tc R 1 sort_r pre_r sort_c pre_c a ->
  label (row inv tc 0) = not_grouped -> (forall i, i < length (x_code (a_row a)) -> nth i (x_code (a_col a)) 0 = 1) ->
  exists pr, key_order inv vlt (sort_r && negb pre_r) tr R pr /\
  forall (history : list aop) (args : list (col_arg * (name * (option (list bool) * calc)))),
    let now := afinal inv lexsort binname label inv_label zero a history in
    let rk := x_code (a_row a) in let keys := key_names (a_ylab a) tr in
    let agg filt c v s := c_f c (select inv rk (x_code (a_col a)) (a_flt a) filt v s) in
    a_tot a = true ->
    (forall x, In x [numer; denom; ratio; summary_name 0; total_ratio; total] -> names_ok inv label inv_label (a_ylab a) tr tc [0] false [x]) ->
    args <> [] -> NoDup (keys ++ map (fun p => fst (snd p)) args) ->
    (forall x nm filt c, In (x, (nm, (filt, c))) args ->
       (forall v, In v (arrays x) -> length v = length rk) /\ filter_ok (length rk) filt /\
       names_ok inv label inv_label (a_ylab a) tr tc [0] false [c_nm c] /\ by_parts (c_f c) (c_func c)) ->
    exists r, snd (accum_cols inv blank lexsort binname label inv_label zero div pct hundred (length keys) args None now) = Some r /\
      laid_out keys (map (fun p => fst (snd p)) args) [] R r /\
      (forall q k u, nth_error tr q = Some (k, u) -> exists k', nth_error keys q = Some k' /\ col k' r = Some (reorder inv u pr)) /\
      (forall x nm filt c, In (x, (nm, (filt, c))) args ->
         col nm r = Some (map (fun i => entry div pct x (agg filt c) (shown false) (in_row false (S i))) pr) /\
         foot total r nm = Some (entry div pct x (agg filt c) (shown false) (shown false))) /\
      map fst (m_foot r) = [total] /\ footed r.
Proof.
  intros V inv vlt blank lexsort binname label inv_label zero div pct hundred tr tc R sdr prer sdc prec a LS FT LB CK;
  pose proof FT as (FR & FC & LN & F1); pose proof FR as (KR & RC & RN & _); pose proof FC as (KC & CC & CN & _);
  exists (order lexsort (sdr && negb prer) tr R). split; [eapply order_ok; eauto|].
  intros history args now rk keys agg TOT NK NE ND OK.
  assert (I : ainv inv lexsort binname tr tc R 1 sdr prer sdc prec a now).
  { apply (afinal_inv inv vlt lexsort LS binname label inv_label zero tr tc R 1 sdr prer sdc prec KR KC a). now apply ainv_fresh. }
  assert (PC : order lexsort (sdc && negb prec) tc 1 = [0]).
  { pose proof (order_perm inv vlt lexsort LS (sdc && negb prec) tc 1 KC) as P. cbn [seq] in P. apply Permutation_sym, Permutation_length_1_inv in P. exact P. }
  assert (ONE : col_labels inv label inv_label tc (order lexsort (sdc && negb prec) tc 1) = [not_grouped]).
  { rewrite PC. unfold col_labels. cbn [length seq combine map fst snd]. unfold col_label. now rewrite LB. }
  rewrite <- PC in NK, OK.
  destruct (accum_cols_ok inv vlt lexsort LS binname label inv_label zero blank tr tc R 1 sdr prer sdc prec a KR KC RC CC RN CN LN F1 TOT ONE PC CK div pct hundred) with (l := args) (a := now) as (_ & r & E & ST);
    try assumption; try (apply NK; cbn [In]; tauto).
  - apply Forall_forall. intros (x & nm & filt & c) J. exact (OK x nm filt c J).
  - exists r. split; [exact E|]. destruct ST as (LO & K & D & FN & FTD).
    assert (NM : map fst (map (entries inv lexsort tr R sdr prer a div pct) args) = map (fun p => fst (snd p)) args).
    { rewrite map_map. apply map_ext. intros (x & nm & filt & c). reflexivity. }
    rewrite NM in LO. split; [exact LO|]. split; [exact K|]. split; [|split; [|exact FTD]].
    + intros x nm filt c J. apply D. apply in_map_iff. exists (x, (nm, (filt, c))). split; [reflexivity|exact J].
    + rewrite FN. destruct args; [contradiction|reflexivity].
Qed.
Print Assumptions C137_cols_partial.

(** *** C138: trim *)
Theorem C138_trim :
  forall (V : Type) (blank : V -> bool) (labels data sums : list name) (n : nat) (d : mds),
  laid_out labels data sums n d ->
  exists r mask f keep, trim blank d = (r, mask) /\
    (forall c v, In c (data ++ sums) -> col c d = Some v -> (f c = false <-> blank_col blank v)) /\
    keeps_rows blank n (data_of d) keep /\ (forall v : list V, length v = n -> apply_mask mask v = chosen keep v) /\
    laid_out labels (filter f data) (filter f sums) (kept keep) r /\
    (forall c v, In c (labels ++ filter f data ++ filter f sums) -> col c d = Some v -> col c r = Some (chosen keep v)) /\
    map fst (m_foot r) = map fst (m_foot d) /\
    (forall l c, foot l r c = if in_dec name_dec c (labels ++ filter f data ++ filter f sums) then foot l d c else None).
Proof.
  intros V blank labels data sums n d L. destruct (trim_ok blank labels data sums n d L) as (r & mask & f & keep & A1 & A2 & A3 & A4 & A5 & A6 & A7 & A8 & _).
  exists r, mask, f, keep. repeat (split; [assumption|]). intros l c. rewrite A8. destruct (in_dec name_dec c (labels ++ filter f data ++ filter f sums)) as [J|J].
  - now replace (mem c (labels ++ filter f data ++ filter f sums)) with true by (symmetry; now apply DsProofs3.mem_in).
  - now replace (mem c (labels ++ filter f data ++ filter f sums)) with false by (symmetry; now apply DsProofs3.mem_not).
Qed.
Print Assumptions C138_trim.
Example C138_case : laid_out [nk] [nx; ny] [ns] 3 ex_d1 /\
  trim is0 ex_d1 = (mkM [(nk, [1; 3]); (nx, [10; 30]); (ns, [10; 30])] [nk] [ns] [(nf, [(nx, 40); (ns, 40)])], Some [true; false; true]).
Proof.
  split; [|vm_compute; reflexivity]. split; [reflexivity|]. split; [repeat constructor; cbn; intuition discriminate|]. split; [reflexivity|]. split; [reflexivity|]. intros c v I. cbn in I. repeat destruct I as [I|I]; try (injection I as <- <-; reflexivity). destruct I.
Qed.
(** Finding: the rows of blanks are dropped, except from a Dataset of nothing but blanks: it loses all its data columns and
    keeps all its rows. *)
Theorem C138_all_blank_refuted : trim is0 (mkM [(nk, [1; 2; 3]); (nx, [0; 0; 0]); (ny, [0; 0; 0])] [nk] [] []) = (mkM [(nk, [1; 2; 3])] [nk] [] [], None).
Proof. vm_compute. reflexivity. Qed.
Print Assumptions C138_all_blank_refuted.

(** *** examples for C135-C137 *)
Definition sum_calc : calc := mkC sname list_sum list_sum.
Lemma ex_names x : ~ In x [ylab; [5]; [7]] -> names_ok 0 text nolabel ylab ex_t ex_tc [1; 0] false [x].
Proof. intros N. change (NoDup ([ylab; [5]; [7]] ++ [x])). apply nodup_cat; [repeat constructor; cbn; intuition discriminate|repeat constructor; intros []|]. intros c I [<-|[]]. exact (N I). Qed.
Example C135_case : lexsort_ok 0 lt nat_lexsort /\ fresh_table 0 ex_t ex_tc 3 2 true false true false (ex_acc true true (Some 1) ex_ccodes None) /\ by_parts list_sum list_sum /\
  (forall x, In x [sname; sname; numer; denom; ratio; summary_name 0] -> names_ok 0 text nolabel ylab ex_t ex_tc [1; 0] false [x]) /\
  snd (accum_ratio 0 is0 nat_lexsort fbin text nolabel 0 Nat.sub sum_calc sum_calc [11; 2; 13; 4; 15; 6] ex_x None None true false false (ex_acc true true (Some 1) ex_ccodes None)) =
    Some (mkM [(ylab, [10; 20; 30]); ([5], [10; 0; 0]); ([7], [0; 10; 10]); (ratio, [10; 10; 10]); (numer, [17; 13; 15])] [ylab] [ratio; numer]
      [(ratio, [([5], 10); ([7], 20); (ratio, 30)]); (numer, [([5], 21); ([7], 24); (numer, 45)])]).
Proof.
  split; [apply nat_lexsort_ok|]. split; [apply ex_acc_fresh; intros f [=]|]. split; [exact sum_by_parts|]. split.
  - intros x I. apply ex_names. cbn [In] in I. repeat destruct I as [<-|I]; try (vm_compute; intuition discriminate).
  - vm_compute. reflexivity.
Qed.
Definition pct100 (x y : nat) : nat := 100 * x / y.
Example C136_case : lexsort_ok 0 lt nat_lexsort /\ fresh_table 0 ex_t ex_tc 3 2 true false true false (ex_acc true true (Some 1) ex_ccodes None) /\ by_parts list_sum list_sum /\
  (forall x, In x [sname; total_ratio; total] -> names_ok 0 text nolabel ylab ex_t ex_tc [1; 0] false [x]) /\
  map (fun n => snd (accum_ratiop 0 is0 nat_lexsort fbin text nolabel 0 pct100 100 sum_calc [1; 2; 3; 4; 10; 6] None n false false (ex_acc true true (Some 1) ex_ccodes None))) [ByTable; ByRow; ByColumn] =
    [Some (mkM [(ylab, [10; 20; 30]); ([5], [60; 0; 20]); ([7], [0; 15; 5]); (total_ratio, [60; 15; 25])] [ylab] [total_ratio] [(total_ratio, [([5], 80); ([7], 20); (total_ratio, 100)])]);
     Some (mkM [(ylab, [10; 20; 30]); ([5], [100; 0; 80]); ([7], [0; 100; 20]); (total_ratio, [100; 100; 100])] [ylab] [total_ratio] [(total_ratio, [([5], 80); ([7], 20); (total_ratio, 100)])]);
     Some (mkM [(ylab, [10; 20; 30]); ([5], [75; 0; 25]); ([7], [0; 75; 25]); (total_ratio, [60; 15; 25])] [ylab] [total_ratio] [(total_ratio, [([5], 100); ([7], 100); (total_ratio, 100)])])].
Proof.
  split; [apply nat_lexsort_ok|]. split; [apply ex_acc_fresh; intros f [=]|]. split; [exact sum_by_parts|]. split.
  - intros x I. apply ex_names. cbn [In] in I. repeat destruct I as [<-|I]; try (vm_compute; intuition discriminate).
  - vm_compute. reflexivity.
Qed.
(** Finding: with remove_blanks=True and nothing but zeros, the column TotalRatio is itself removed, and then looked up:
    the call raises a KeyError (by table or by row) instead of returning an empty table. *)
Theorem C136_all_blank_refuted : lexsort_ok 0 lt nat_lexsort /\ fresh_table 0 ex_t ex_tc 3 2 true false true false (ex_acc true true (Some 1) ex_ccodes None) /\
  map (fun n => snd (accum_ratiop 0 is0 nat_lexsort fbin text nolabel 0 pct100 100 sum_calc [0; 0; 0; 0; 0; 0] None n false true (ex_acc true true (Some 1) ex_ccodes None))) [ByTable; ByRow] = [None; None].
Proof. split; [apply nat_lexsort_ok|]. split; [apply ex_acc_fresh; intros f [=]|]. vm_compute. reflexivity. Qed.
Print Assumptions C136_all_blank_refuted.
Definition one_tc : list (name * list nat) := [(kc, [1])].
Definition one_text (l : list nat) : name := not_grouped.
Definition one_acc : acc2 := mkA (mkX ex_codes 3 (Some 1) (new_keychain ex_t true false)) (mkX [1; 1; 1; 1; 1; 1] 1 (Some 1) (new_keychain one_tc false false)) ylab None true.
Definition col1 : name := [65]. Definition col2 : name := [66]. Definition col3 : name := [67].
Definition one_args : list (col_arg * (name * (option (list bool) * calc))) :=
  [(Plain ex_x, (col1, (None, sum_calc))); (Percent [4; 0; 0; 4; 0; 2], (col2, (None, sum_calc))); (Ratio [8; 6; 6; 4; 0; 3] ex_x, (col3, (Some [true; true; true; true; false; false], sum_calc)))].
Example C137_case : lexsort_ok 0 lt nat_lexsort /\ fresh_table 0 ex_t one_tc 3 1 true false false false one_acc /\
  (forall x, In x [sname; numer; denom; ratio; summary_name 0; total_ratio; total] -> names_ok 0 one_text nolabel ylab ex_t one_tc [0] false [x]) /\
  snd (accum_cols 0 is0 nat_lexsort fbin one_text nolabel 0 Nat.div pct100 100 1 one_args None one_acc) =
    Some (mkM [(ylab, [10; 20; 30]); (col1, [7; 3; 11]); (col2, [0; 0; 100]); (col3, [3; 2; 2])] [ylab] [] [(total, [(col1, 21); (col2, 100); (col3, 2)])]).
Proof.
  split; [apply nat_lexsort_ok|]. split; [|split].
  - split; [split; [exact ex_table|]; split; [repeat constructor|]; split; reflexivity|]. split; [split; [|split; [repeat constructor|split; reflexivity]]|split; [reflexivity|intros f [=]]].
    split; [discriminate|]. split; [repeat constructor; intros []|]. split; [intros p [<-|[]]; reflexivity|]. intros [|i] [|j] Hi Hj E; try lia; reflexivity.
  - intros x I. change (NoDup ([ylab; not_grouped] ++ [x])). apply nodup_cat; [repeat constructor; cbn; intuition discriminate|repeat constructor; intros []|]. intros c J [<-|[]]. cbn [In] in I. repeat destruct I as [<-|I]; try (revert J; vm_compute; intuition discriminate).
  - vm_compute. reflexivity.
Qed.
