From Coq Require Import List Arith Bool ZArith Permutation Lia.
From Verif Require Import FlattenModel FlattenProofs DsModel DsProofs3 DsProofs5 GroupingModel GroupingSpec AggModel AggSpec AggProofs AggProofs2 AggProofs3
  Acc2Model Acc2Spec Acc2Proofs Acc2Proofs2 Acc2Proofs3 Acc2Proofs4 Acc2Proofs5 MargModel MargSpec MargProofs MargProofs2 MargProofs3 MargProofs4 MargProofs5 MargProofs6 MargProofs7.
Import ListNotations.

Section A.
Context {V : Type}.
Variable inv : V.
Variable vlt : V -> V -> Prop.
Variable lexsort : list (list V) -> list nat.
Variable LS : lexsort_ok inv vlt lexsort.
Variable binname : list V -> V.
Variable label : list V -> name.
Variable inv_label : nat -> name.
Variable zero : V.
Variable blank : V -> bool.
Variables (tr tc : table (V := V)) (R C : nat) (sdr prer sdc prec : bool).
Notation sr := (sdr && negb prer).
Notation sc := (sdc && negb prec).
Notation pr := (order lexsort sr tr R).
Notation pc := (order lexsort sc tc C).
Variable a0 : acc2 (V := V).
Notation ainv := (ainv inv lexsort binname tr tc R C sdr prer sdc prec a0).
Notation ylab := (a_ylab a0).
Notation rk := (x_code (a_row a0)).
Notation ck := (x_code (a_col a0)).
Variable KR : key_table inv tr R.
Variable KC : key_table inv tc C.
Variable RC : codes_in R rk.
Variable CC : codes_in C ck.
Variable RN : x_n (a_row a0) = R.
Variable CNN : x_n (a_col a0) = C.
Variable LN : length ck = length rk.
Variable F1 : filter_ok (length rk) (a_flt a0).
Variable TOT : a_tot a0 = true.
Notation KN := (key_names ylab tr).
Notation CN := (col_labels inv label inv_label tc pc).
Notation lab := (col_label inv label inv_label tc).
Notation nok x := (names_ok inv label inv_label ylab tr tc pc false [x]).
Notation tab := (tab inv lexsort label inv_label tr tc R C sdr prer sdc prec a0).
Notation presents := (presents inv label inv_label ylab tr tc pr pc).
Notation without_blanks := (without_blanks inv blank label inv_label tc pr pc).
Notation sel flt x := (select inv rk ck (a_flt a0) flt x).
Notation compute := (compute inv lexsort binname label inv_label zero).
Notation compute_ok' := (compute_ok inv vlt lexsort LS binname label inv_label zero tr tc R C sdr prer sdc prec a0 KR KC RC CC RN CNN LN F1 TOT).

Lemma nok_free x : nok x -> ~ In x (KN ++ CN).
Proof. unfold names_ok. cbn [lead app]. rewrite app_assoc. intros ND I. apply (proj2 (proj2 (nodup_app _ _ ND)) x I). now left. Qed.

(** ** accum_ratio *)
Theorem accum_ratio_ok div c1 c2 val1 val2 filt1 filt2 (inum iden rb : bool) a :
  ainv a -> nok (c_nm c1) -> nok (c_nm c2) -> nok numer -> nok denom -> nok ratio -> nok (summary_name 0) ->
  length val1 = length rk -> length val2 = length rk -> filter_ok (length rk) filt1 -> filter_ok (length rk) filt2 ->
  by_parts (c_f c1) (c_func c1) -> by_parts (c_f c2) (c_func c2) ->
  let num s := c_f c1 (sel filt1 val1 s) in let den s := c_f c2 (sel (match filt2 with None => filt1 | _ => filt2 end) val2 s) in
  let rat s := div (num s) (den s) in
  let extra (X : Type) (x y : X) := (if inum return list X then [x] else []) ++ (if iden return list X then [y] else []) in
  ainv (fst (accum_ratio inv blank lexsort binname label inv_label zero div c1 c2 val1 val2 filt1 filt2 inum iden rb a)) /\
  exists r f keep, snd (accum_ratio inv blank lexsort binname label inv_label zero div c1 c2 val1 val2 filt1 filt2 inum iden rb a) = Some r /\
    without_blanks rb R f keep ratio (fun i k => rat (cell (S i) (S k))) (fun i => rat (in_row false (S i))) /\
    presents f keep ratio (fun i k => rat (cell (S i) (S k))) (fun i => rat (in_row false (S i))) (fun k => rat (in_col false (S k))) (rat (shown false))
      (extra _ (numer, fun i => num (in_row false (S i))) (denom, fun i => den (in_row false (S i))))
      (extra _ (numer, (fun k => num (in_col false (S k)), num (shown false))) (denom, (fun k => den (in_col false (S k)), den (shown false)))) r.
Proof.
  intros I N1 N2 NN ND NR NS L1 L2 FL1 FL2 BP1 BP2 num den rat extra. unfold accum_ratio. set (flt2 := match filt2 with None => filt1 | _ => filt2 end) in *.
  assert (FL2' : filter_ok (length rk) flt2) by (unfold flt2; destruct filt2; assumption). unfold ratio_table.
  destruct (compute_ok' c1 val1 filt1 a I N1 L1 FL1 BP1) as (I1 & d1 & E1 & T1). destruct (compute c1 val1 filt1 a) as [a1 o1]. cbn [fst snd] in I1, E1. subst o1.
  destruct (compute_ok' c2 val2 flt2 a1 I1 N2 L2 FL2' BP2) as (I2 & d2 & E2 & T2). destruct (compute c2 val2 flt2 a1) as [a2 o2]. cbn [fst snd] in I2, E2. subst o2.
  fold num in T1. fold den in T2.
  apply nok_free in NN, ND, NR, NS.
  change (Some empty_table) with (Some (tfinal blank (@nil (top (V := V))))).
  destruct (at_set_ok inv lexsort label inv_label blank tr tc R C sdc prec a0 [] numer d1 (Forall_nil _) NN (proj1 T1)) as (S1 & FT1). rewrite S1. cbn [app] in *.
  destruct (at_set_ok inv lexsort label inv_label blank tr tc R C sdc prec a0 [TSet numer d1] denom d2 FT1 ND (proj1 T2)) as (S2 & FT2). rewrite S2. cbn [app] in *.
  destruct (at_get_ok inv lexsort label inv_label blank tr tc R C sdr prer sdc prec a0 [TSet numer d1; TSet denom d2] numer d1 _ _ _ _ FT2 eq_refl T1) as (n' & G1 & T1' & FT3). rewrite G1. cbn [app] in *.
  destruct (at_get_ok inv lexsort label inv_label blank tr tc R C sdr prer sdc prec a0 [TSet numer d1; TSet denom d2; TGet numer] denom d2 _ _ _ _ FT3 eq_refl T2) as (d' & G2 & T2' & FT4). rewrite G2. cbn [app] in *.
  destruct (binop_tab inv lexsort label inv_label tr tc R C sdr prer sdc prec a0 div n' d' _ _ _ _ _ _ _ _ NS T1' T2') as (b & EB & TB). rewrite EB.
  destruct (at_set_ok inv lexsort label inv_label blank tr tc R C sdc prec a0 _ ratio b FT4 NR (proj1 TB)) as (S5 & FT5). rewrite S5. cbn [app] in *.
  cbv iota. split; [exact I2|].
  set (fs := (if inum then [numer] else []) ++ (if iden then [denom] else [])).
  set (ops := [TSet numer d1; TSet denom d2; TGet numer; TGet denom; TSet ratio b] ++ [TMargins fs; TFooters fs]).
  assert (EO : set_footers fs (set_margins fs (tfinal blank [TSet numer d1; TSet denom d2; TGet numer; TGet denom; TSet ratio b])) = tfinal blank ops) by (unfold ops, tfinal; rewrite fold_left_app; reflexivity).
  rewrite EO.
  assert (FTO : Forall (fits KN CN R) ops) by (apply Forall_app; split; [exact FT5|repeat constructor]).
  apply (gen_presents inv lexsort label inv_label blank tr tc R C sdr prer sdc prec a0 ops (Some ratio) rb ratio b _ _ _ _
    (extra _ (numer, fun i => num (in_row false (S i))) (denom, fun i => den (in_row false (S i))))
    (extra _ (numer, (fun k => num (in_col false (S k)), num (shown false))) (denom, (fun k => den (in_col false (S k)), den (shown false)))) FTO eq_refl eq_refl TB).
  - unfold ops, extra, fs. destruct inum, iden; reflexivity.
  - unfold ops, extra, fs. destruct inum, iden; reflexivity.
  - intros m g J. assert (X : (m, g) = (numer, fun i => num (in_row false (S i))) \/ (m, g) = (denom, fun i => den (in_row false (S i)))) by (unfold extra in J; destruct inum, iden; cbn in J; intuition auto).
    destruct X as [X|X]; injection X as -> ->; [exists d1; split; [reflexivity|apply T1]|exists d2; split; [reflexivity|apply T2]].
  - intros m g tt J. assert (X : (m, (g, tt)) = (numer, (fun k => num (in_col false (S k)), num (shown false))) \/ (m, (g, tt)) = (denom, (fun k => den (in_col false (S k)), den (shown false)))) by (unfold extra in J; destruct inum, iden; cbn in J; intuition auto).
    destruct X as [X|X]; injection X as -> -> ->; [exists d1; split; [reflexivity|split; apply T1]|exists d2; split; [reflexivity|split; apply T2]].
Qed.
End A.
