(** Proofs about count_uniques and agg (C160, C161). *)
From Coq Require Import List Arith Bool ZArith Permutation Lia.
From Verif Require Import FlattenModel DsModel GroupingModel GroupingSpec DsProofs3 AggModel AggSpec AggProofs AggProofs2 AggProofs3 AggProofs4 GqModel GqSpec.
Import ListNotations.

Section Lists.
Context {V : Type}.
Variable veq : forall a b : V, {a = b} + {a <> b}.
Lemma filter_nodup {X} (dec : forall a b : X, {a = b} + {a <> b}) (f : X -> bool) l : filter f (nodup dec l) = nodup dec (filter f l).
Proof.
  induction l as [|x l IH]; [reflexivity|]. cbn [nodup filter]. destruct (in_dec dec x l) as [I|N].
  - rewrite IH. destruct (f x) eqn:E; [|reflexivity]. cbn [nodup]. destruct (in_dec dec x (filter f l)) as [_|N']; [reflexivity|]. exfalso. apply N'. now apply filter_In.
  - cbn [filter]. destruct (f x) eqn:E; [|exact IH]. cbn [nodup]. destruct (in_dec dec x (filter f l)) as [I'|_]; [|now rewrite IH]. exfalso. apply filter_In in I'. tauto.
Qed.
Lemma nodup_same_fst b (l : list (nat * V)) : (forall p, In p l -> fst p = b) -> length (nodup (pair_dec veq) l) = length (nodup veq (map snd l)).
Proof.
  intros H. induction l as [|[a x] l IH]; [reflexivity|]. cbn [nodup map snd].
  assert (Ea : a = b) by (apply (H (a, x)); now left). subst a.
  destruct (in_dec (pair_dec veq) (b, x) l) as [I|N]; destruct (in_dec veq x (map snd l)) as [I'|N'].
  - apply IH. intros p Hp. apply H. now right.
  - exfalso. apply N'. now apply (in_map snd) in I.
  - exfalso. apply in_map_iff in I'. destruct I' as [[a y] [E I']]. cbn [snd] in E. subst y. assert (a = b) by (apply (H (a, x)); now right). subst a. contradiction.
  - cbn [length]. f_equal. apply IH. intros p Hp. apply H. now right.
Qed.
Lemma rows_passing_bin inv ikey flt (x : list V) b : (forall f, flt = Some f -> length f = length ikey) -> length x = length ikey -> (b <> 0 \/ flt = None) ->
  map snd (filter (fun p => fst p =? b) (rows_passing flt (combine ikey x))) = bin_values inv ikey flt x b.
Proof.
  intros F L B. rewrite <- (in_bin_values inv ikey flt x b F L). unfold in_bin, passing, rows_passing. destruct flt as [f|]; [|reflexivity].
  destruct B as [B|B]; [|discriminate]. specialize (F f eq_refl). clear inv. revert x f L F. induction ikey as [|k ikey IH]; intros [|y x] [|g f] L F; try discriminate; [reflexivity|].
  cbn [combine map filter fst snd]. injection L as L. injection F as F. destruct g; cbn [map filter fst snd].
  - destruct (k =? b); cbn [map]; now rewrite IH.
  - destruct (Nat.eqb_spec 0 b) as [<-|_]; [contradiction|]. now apply IH.
Qed.
Lemma rows_passing_in flt (l : list (nat * V)) p : In p (rows_passing flt l) -> In p l.
Proof.
  destruct flt as [f|]; [|auto]. cbn [rows_passing]. intros H. apply in_map_iff in H. destruct H as [[g q] [E H]]. cbn [snd] in E. subst q. apply filter_In in H. destruct H as [H _]. now apply in_combine_r in H.
Qed.
End Lists.

Section P.
Context {V : Type}.
Variable veq : forall a b : V, {a = b} + {a <> b}.
Variable inv : V.
Variable vlt : V -> V -> Prop.
Variable lexsort : list (list V) -> list nat.
Variable LS : lexsort_ok inv vlt lexsort.
Variable binname : list V -> V.
Variable num : nat -> V.
Variables (t : table (V := V)) (n : nat) (sd pre : bool).
Variable KT : key_table inv t n.
Notation s := (sd && negb pre).
Notation p := (order lexsort s t n).
Notation kinv := (kinv inv lexsort binname t n sd pre).
Notation gb_of := (gb_of inv lexsort binname t n sd pre).
Notation oinv := (oinv inv lexsort binname t n sd pre).
Variable o0 : gobj (V := V).
Hypothesis FO : o_n o0 = n.
Hypothesis CI : codes_in n (o_ikey o0).

Definition uniq ikey flt x b := num (length (nodup veq (bin_values inv ikey flt x b))).
Lemma uniques_col_ok ikey flt sf x : (forall f, flt = Some f -> length f = length ikey) -> length x = length ikey -> codes_in n ikey -> (sf = false \/ flt = None) ->
  uniques_col veq num ikey flt sf n x = Some (raw sf (uniq ikey flt x) n).
Proof using FO.
  intros F L C B. unfold uniques_col.
  assert (A : forallb (fun q => fst q <? S n) (pairs veq ikey flt x) = true).
  { apply forallb_forall. intros [a y] H. unfold pairs in H. apply nodup_In in H. apply rows_passing_in in H. apply in_combine_l in H. cbn [fst]. apply Nat.ltb_lt. unfold codes_in in C. rewrite Forall_forall in C. pose proof (C a H). cbv beta in *. lia. }
  rewrite A. f_equal.
  transitivity (skipn (if sf then 0 else 1) (map (fun b => num (length (filter (fun q => fst q =? b) (pairs veq ikey flt x)))) (seq 0 (S n)))); [destruct sf; reflexivity|].
  apply skip_raw. intros b Hb. unfold uniq. f_equal. unfold pairs. rewrite filter_nodup. rewrite (nodup_same_fst veq b).
  - rewrite (rows_passing_bin inv ikey flt x b F L); [reflexivity|]. destruct B as [->|B]; [left; lia|now right].
  - intros q Hq. apply filter_In in Hq. destruct Hq as [_ Hq]. now apply Nat.eqb_eq.
Qed.
Lemma uniques_cols_ok ikey flt sf d : (forall f, flt = Some f -> length f = length ikey) -> (forall q, In q d -> length (snd q) = length ikey) -> codes_in n ikey -> (sf = false \/ flt = None) ->
  uniques_cols veq num ikey flt sf n d = Some (map (fun q => (fst q, raw sf (uniq ikey flt (snd q)) n)) d).
Proof using FO.
  intros F L C B. induction d as [|[c x] d IH]; [reflexivity|]. cbn [uniques_cols map fst snd]. rewrite uniques_col_ok; auto; [|apply (L (c, x)); now left]. rewrite IH; [reflexivity|]. intros q Hq. apply L. now right.
Qed.
Lemma count_uniques_ok raw_codes data flt sf o : oinv o0 o -> o_base o = Some 1 -> data_ok (o_ikey o) flt data -> (sf = false \/ flt = None) ->
  exists r, snd (count_uniques veq inv lexsort binname num raw_codes data flt sf o) = Some r /\
  keyed_result inv binname t p sf (uniq (o_ikey o) flt) (fun _ => true) data r.
Proof using LS KT CI FO.
  intros O Bs (ND & L & F) B. pose proof O as (K & Ik & N & _). unfold count_uniques.
  pose proof (gbkeys_ok inv vlt lexsort LS binname t n sd pre KT (o_kc o) K) as G. destruct (gbkeys inv lexsort (o_kc o)) as [c1 gbk]. destruct G as (K1 & _ & _ & ->).
  rewrite shown_names.
  assert (R : match shown_keys inv t p with (_, v) :: _ => length v | [] => 0 end = n).
  { destruct KT as (NE & _). unfold shown_keys. destruct t as [|[k u] t'] eqn:Et; [contradiction|]. cbn [map fst snd]. rewrite reorder_length. rewrite <- Et. eapply order_length; eauto. now rewrite Et. }
  rewrite R. clear R. unfold catinstance. rewrite Bs. rewrite uniques_cols_ok; auto; [| |now rewrite Ik].
  2:{ intros q Hq. apply filter_In in Hq. apply L, Hq. }
  pose proof (gb_step inv vlt lexsort LS binname t n sd pre KT sf c1 K1) as G.
  destruct (if sf then gbkeys_filtered inv lexsort binname c1 else gbkeys inv lexsort c1) as [c2 gb]. destruct G as [K2 ->].
  set (d := map _ _).
  assert (Dn : map fst d = map fst (filter (fun q => negb (mem (fst q) (map fst t))) data)) by (unfold d; rewrite map_map; apply map_ext; reflexivity).
  assert (ND1 : NoDup (map fst d)).
  { rewrite Dn. clear -ND. induction data as [|q l IH]; [constructor|]. cbn [map] in ND. inversion ND; subst. cbn [filter]. destruct (negb _); [|auto]. cbn [map]. constructor; [|auto].
    intros I. apply H1. apply in_map_iff in I. destruct I as [q' [<- I]]. apply filter_In in I. now apply in_map. }
  assert (L1 : all_len (len_of n sf) d) by (intros q Hq; unfold d in Hq; apply in_map_iff in Hq; destruct Hq as [q0 [<- _]]; cbn [snd]; apply raw_length).
  pose proof (keyed_ok inv vlt lexsort LS binname t n sd pre KT c2 sf d (uniq (o_ikey o) flt) (fun _ => true) data ND1 L1 K2) as KO.
  destruct (finalize_dataset inv lexsort d c2 (gb_of sf) false sf true) as [c3 r]. destruct KO as (_ & r' & -> & KR).
  - intros k x I NK _. unfold d. apply in_map_iff. exists (k, x). split; [reflexivity|]. apply filter_In. split; [exact I|]. cbn [fst]. apply negb_true_iff. now apply mem_not.
  - intros k I. right. split; [|reflexivity]. rewrite Dn in I. apply in_map_iff in I. destruct I as [q [<- I]]. apply filter_In in I. now apply in_map.
  - exists r'. split; [reflexivity|exact KR].
Qed.

(** agg *)
Variable func : name -> option (list V -> V).
Variable capitalize : name -> name.
Variable usable : name -> bool.
Lemma calc_step us f data flt o : oinv o0 o -> o_flag o = false -> data_ok (o_ikey o0) flt data ->
  exists o1 r, calculate inv lexsort binname us f data flt false false o = (o1, Some r) /\ oinv o0 o1 /\ o_flag o1 = false /\
  keyed_result inv binname t p false (fun x b => f (bin_values inv (o_ikey o0) flt x b)) us data r.
Proof using LS KT CI FO.
  intros O Fl D. assert (Ik : o_ikey o = o_ikey o0) by apply O. rewrite <- Ik in D.
  destruct (calc_ok inv vlt lexsort LS binname t n sd pre KT o0 FO us f data flt false o O Fl D) as (r & E & KR).
  destruct (calculate_parts inv vlt lexsort LS binname t n sd pre KT o0 FO us f data flt false false o O D) as (c2 & d1 & r' & K2 & _ & _ & E2).
  unfold possibly_transform in E2. assert (Fl2 : o_flag (with_kc c2 o) = false) by exact Fl. rewrite Fl2 in E2. cbn [orb] in E2.
  exists (with_kc c2 o), r'. rewrite E2. split; [reflexivity|]. split; [now apply oinv_kc|]. split; [exact Fl|]. rewrite E2 in E. cbn [snd] in E. injection E as ->. now rewrite Ik in KR.
Qed.
Lemma run_funcs_ok data flt fd : forall ms o, oinv o0 o -> o_flag o = false -> data_ok (o_ikey o0) flt data ->
  NoDup (map fst fd) -> (forall op, In op (map fst fd) -> func op <> None) ->
  (forall a b, In a (map fst fd) -> In b (map fst fd) -> capitalize a = capitalize b -> a = b) -> (forall op, In op (map fst fd) -> ~ In (capitalize op) (map fst ms)) ->
  exists o1 r, run_funcs inv lexsort binname func capitalize usable fd data flt ms o = (o1, Some r) /\
    map fst r = map fst ms ++ map capitalize (map fst fd) /\
    (forall k d, dget k ms = Some d -> dget k r = Some d) /\
    (forall op cs f, In (op, cs) fd -> func op = Some f -> exists d, dget (capitalize op) r = Some d /\
       keyed_result inv binname t p false (fun x b => f (bin_values inv (o_ikey o0) flt x b)) (fun c => usable c && mem c cs) data d).
Proof using LS KT CI FO.
  induction fd as [|[op cs] fd IH]; intros ms o O Fl D Nd Fs Cj Fr.
  - exists o, ms. cbn [run_funcs map]. rewrite app_nil_r. repeat split; auto. intros op cs f [].
  - cbn [run_funcs]. destruct (func op) as [f|] eqn:Ef; [|exfalso; apply (Fs op); [now left|exact Ef]].
    destruct (calc_step (fun c => usable c && mem c cs) f data flt o O Fl D) as (o1 & d & -> & O1 & Fl1 & KR).
    cbn [map fst] in Nd. inversion Nd as [|? ? Nin Nd']; subst.
    assert (New : ~ In (capitalize op) (map fst ms)) by (apply Fr; now left).
    destruct (IH (dset (capitalize op) d ms) o1 O1 Fl1 D Nd') as (o2 & r & E & Nm & Keep & Each).
    + intros op' I. apply Fs. now right.
    + intros a b Ia Ib. apply Cj; now right.
    + intros op' I Q. rewrite dset_names, (proj2 (mem_not _ _) New) in Q. apply in_app_or in Q. destruct Q as [Q|[Q|[]]].
      * apply (Fr op'); [now right|exact Q].
      * apply Nin. assert (op' = op) by (apply Cj; [now right|now left|now symmetry]). now subst op'.
    + exists o2, r. split; [exact E|]. split; [|split].
      * rewrite Nm. rewrite dset_names, (proj2 (mem_not _ _) New). cbn [map fst]. now rewrite <- app_assoc.
      * intros k d' G. apply Keep. rewrite dget_dset. destruct (name_dec (capitalize op) k) as [<-|]; [|exact G]. exfalso. apply New. apply dget_some_in in G. now apply (in_map fst) in G.
      * intros op' cs' f' [I|I] Ef'.
        -- injection I as <- <-. assert (f' = f) by congruence. subst f'. exists d. split; [|exact KR]. apply Keep. rewrite dget_dset. destruct (name_dec _ _); [reflexivity|congruence].
        -- apply (Each op' cs' f' I Ef').
Qed.
End P.
