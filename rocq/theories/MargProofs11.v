From Coq Require Import List Arith Bool ZArith Permutation Lia.
From Verif Require Import FlattenModel FlattenProofs DsModel DsProofs3 DsProofs5 GroupingModel GroupingSpec AggModel AggSpec AggProofs AggProofs2 AggProofs3
  Acc2Model Acc2Spec Acc2Proofs Acc2Proofs2 Acc2Proofs3 Acc2Proofs4 Acc2Proofs5 MargModel MargSpec MargProofs MargProofs2 MargProofs3 MargProofs4 MargProofs5 MargProofs6 MargProofs7 MargProofs8 MargProofs9 MargProofs10.
Import ListNotations.

Section A.
Context {V : Type}.
Variable inv : V.
Variable vlt : V -> V -> Prop.
Variable lexsort : list (list V) -> list nat.
Variable LS : lexsort_ok inv vlt lexsort.
Variable binname : list V -> V.
Variable label : list V -> name.
Variable inv_label : nat -> name.
Variable zero : V.
Variable blank : V -> bool.
Variables (tr tc : table (V := V)) (R C : nat) (sdr prer sdc prec : bool).
Notation sr := (sdr && negb prer).
Notation sc := (sdc && negb prec).
Notation pr := (order lexsort sr tr R).
Notation pc := (order lexsort sc tc C).
Variable a0 : acc2 (V := V).
Notation ainv := (ainv inv lexsort binname tr tc R C sdr prer sdc prec a0).
Notation ylab := (a_ylab a0).
Notation rk := (x_code (a_row a0)).
Notation ck := (x_code (a_col a0)).
Variable KR : key_table inv tr R.
Variable KC : key_table inv tc C.
Variable RC : codes_in R rk.
Variable CC : codes_in C ck.
Variable RN : x_n (a_row a0) = R.
Variable CNN : x_n (a_col a0) = C.
Variable LN : length ck = length rk.
Variable F1 : filter_ok (length rk) (a_flt a0).
Variable TOT : a_tot a0 = true.
Notation KN := (key_names ylab tr).
Notation CN := (col_labels inv label inv_label tc pc).
Notation lab := (col_label inv label inv_label tc).
Notation nok x := (names_ok inv label inv_label ylab tr tc pc false [x]).
Notation presents := (presents inv label inv_label ylab tr tc pr pc).
Notation without_blanks := (without_blanks inv blank label inv_label tc pr pc).
Notation sel flt x := (select inv rk ck (a_flt a0) flt x).
Notation compute := (compute inv lexsort binname label inv_label zero).
Notation compute_ok' := (compute_ok inv vlt lexsort LS binname label inv_label zero tr tc R C sdr prer sdc prec a0 KR KC RC CC RN CNN LN F1 TOT).

(** ** accum_ratiop *)
Theorem accum_ratiop_ok pct hundred c val filt n (itot rb : bool) a :
  ainv a -> nok (c_nm c) -> nok total_ratio -> nok total -> length val = length rk -> filter_ok (length rk) filt -> by_parts (c_f c) (c_func c) ->
  let v s := c_f c (sel filt val s) in
  let cells i k := v (cell (S i) (S k)) in let rows i := v (in_row false (S i)) in let cols k := v (in_col false (S k)) in let all := v (shown false) in
  rb = false \/ ~ blank_col blank (map rows pr) ->
  ainv (fst (accum_ratiop inv blank lexsort binname label inv_label zero pct hundred c val filt n itot rb a)) /\
  exists r f keep, snd (accum_ratiop inv blank lexsort binname label inv_label zero pct hundred c val filt n itot rb a) = Some r /\
    without_blanks rb R f keep total_ratio cells rows /\
    presents f keep total_ratio (percent_cell pct n cells rows cols all) (percent_row pct n rows all) (fun k => percent_total pct hundred n all (cols k)) (percent_total pct hundred n all all)
      (if itot then [(total, rows)] else []) (if itot then [(total, (cols, all))] else []) r.
Proof.
  intros I N1 NT NO L1 FL BP v cells rows cols all NB. unfold accum_ratiop.
  destruct (compute_ok' c val filt a I N1 L1 FL BP) as (I1 & d1 & E1 & T1). destruct (compute c val filt a) as [a1 o1]. cbn [fst snd] in I1, E1. subst o1.
  destruct (compute_ok' c val filt a1 I1 N1 L1 FL BP) as (I2 & d2 & E2 & T2). destruct (compute c val filt a1) as [a2 o2]. cbn [fst snd] in I2, E2. subst o2.
  change (MargProofs6.tab inv lexsort label inv_label tr tc R C sdr prer sdc prec a0 cells rows cols all d1) in T1.
  change (MargProofs6.tab inv lexsort label inv_label tr tc R C sdr prer sdc prec a0 cells rows cols all d2) in T2.
  apply nok_free in NT, NO.
  change (Some empty_table) with (Some (tfinal blank (@nil (top (V := V))))).
  destruct (at_set_ok inv lexsort label inv_label blank tr tc R C sdc prec a0 [] total_ratio d1 (Forall_nil _) NT (proj1 T1)) as (S1 & FT1). rewrite S1. cbn [app] in *.
  destruct (at_set_ok inv lexsort label inv_label blank tr tc R C sdc prec a0 [TSet total_ratio d1] total d2 FT1 NO (proj1 T2)) as (S2 & FT2). cbn [app] in *.
  set (ops := if itot then [TSet total_ratio d1; TSet total d2] else [TSet total_ratio d1]).
  assert (FTO : Forall (fits KN CN R) ops) by (unfold ops; destruct itot; assumption).
  assert (EQ : (if itot then let '(a2', d) := (a2, Some d2) in (a2', at_set' total d (Some (tfinal blank [TSet total_ratio d1]))) else (a1, Some (tfinal blank [TSet total_ratio d1]))) = (if itot then a2 else a1, Some (tfinal blank ops))) by (unfold ops; destruct itot; [now rewrite S2|reflexivity]).
  rewrite EQ. cbn [fst snd]. split; [destruct itot; assumption|].
  destruct (gen_presents inv lexsort label inv_label blank tr tc R C sdr prer sdc prec a0 ops (Some total_ratio) rb total_ratio d1 cells rows cols all
    (if itot then [(total, rows)] else []) (if itot then [(total, (cols, all))] else [])) as (r & f & keep & EG & WB & P); try assumption; try reflexivity.
  - unfold ops. destruct itot; reflexivity.
  - unfold ops. destruct itot; reflexivity.
  - unfold ops. destruct itot; reflexivity.
  - intros m g J. unfold ops. destruct itot; [|destruct J]. destruct J as [J|[]]. injection J as <- <-. exists d2. split; [reflexivity|apply T2].
  - intros m g tt J. unfold ops. destruct itot; [|destruct J]. destruct J as [J|[]]. injection J as <- <- <-. exists d2. split; [reflexivity|split; apply T2].
  - rewrite EG. assert (FT : f total_ratio = true).
    { unfold MargSpec.without_blanks in WB. destruct rb; [|apply WB]. destruct WB as (_ & WB & _). destruct NB as [NB|NB]; [discriminate|]. destruct (f total_ratio); [reflexivity|]. exfalso. apply NB. now apply WB. }
    destruct (normalize_ok inv lexsort label inv_label tr tc R C sdr prer sdc prec ylab pct hundred n f keep cells rows cols all (if itot then [(total, rows)] else []) (if itot then [(total, (cols, all))] else []) r FT) as (r' & EN & PN); try assumption.
    + destruct itot; cbn [map fst]; repeat constructor; cbn [In]; intros X; [destruct X as [X|X]; [discriminate|exact X]|exact X|exact X].
    + exists r', f, keep. split; [exact EN|]. split; [exact WB|exact PN].
Qed.
End A.
