(** one_hot_encode. *)
From Coq Require Import List Arith Bool ZArith Lia Permutation.
From Verif Require Import FlattenModel FlattenProofs GroupModel GroupingModel DsModel DsSpec DsProofs3 AggModel AggSpec AggProofs AggProofs2 AggProofs5 Acc2Proofs Acc2Proofs2 ShapeModel ShapeSpec ShapeProofs ShapeProofs2 ShapeProofs3.
Import ListNotations.

Section Hot.
Context {V : Type}.
Variable zero one : V.
Notation cds := (list (name * @column V)).
Definition hots (d : cds) (cs : list name) : cds :=
  concat (map (fun c => match dget c d with
                        | Some (Cat cc) => map (fun k => (hot_name c (nth k (cc_cats cc) []), Plain (one_hot zero one cc k))) (seq 0 (length (cc_cats cc)))
                        | _ => [] end) cs).
Lemma hots_names d cs : map fst (hots d cs) = hot_names d cs.
Proof.
  unfold hots, hot_names. rewrite concat_map, map_map. f_equal. apply map_ext. intros c. destruct (dget c d) as [[v|cc]|]; try reflexivity.
  rewrite map_map. cbn [fst]. rewrite <- (map_map (fun k => nth k (cc_cats cc) []) (hot_name c)). f_equal. now apply nth_self.
Qed.
Lemma dget_app_in {X} (d e : list (name * X)) n : In n (map fst d) -> dget n (d ++ e) = dget n d.
Proof.
  induction d as [|[m x] d IH]; cbn [map fst app dget]; [intros []|]. intros [->|I]; [destruct (name_dec n n); congruence|]. destruct (name_dec m n); [reflexivity|]. now apply IH.
Qed.
Lemma fold_dset_fresh {X} (f : nat -> name) (g : nat -> X) l : forall d, NoDup (map fst d ++ map f l) -> fold_left (fun ds k => dset (f k) (g k) ds) l d = d ++ map (fun k => (f k, g k)) l.
Proof.
  induction l as [|k l IH]; intros d ND; cbn [fold_left map]; [now rewrite app_nil_r|]. cbn [map] in ND. rewrite dset_fresh.
  - rewrite IH; [now rewrite <- app_assoc|]. rewrite map_app. cbn [map fst]. rewrite <- app_assoc. exact ND.
  - apply NoDup_remove_2 in ND. intros I. apply ND. apply in_or_app. now left.
Qed.
Lemma encode_ok (d : cds) cs : (forall c, In c cs -> In c (map fst d)) -> forall rem acc, NoDup (map fst d ++ map fst acc ++ hot_names d cs) ->
  encode zero one cs rem (d ++ acc) = Some (rem ++ filter (is_encoded d) cs, d ++ acc ++ hots d cs).
Proof.
  induction cs as [|c cs IH]; intros HI rem acc ND; cbn [encode filter].
  - unfold hots. cbn [map concat]. now rewrite !app_nil_r.
  - rewrite dget_app_in by (apply HI; now left). unfold is_encoded at 1. unfold hot_names in ND. cbn [map concat] in ND. fold (hot_names d cs) in ND.
    assert (GI : In c (map fst d)) by (apply HI; now left). destruct (dget c d) as [[v|cc]|] eqn:G.
    + rewrite IH; [|intros c' I; apply HI; now right|exact ND]. unfold hots. cbn [map concat]. rewrite G. reflexivity.
    + rewrite (fold_dset_fresh (fun k => c ++ [underscore; underscore] ++ nth k (cc_cats cc) []) (fun k => Plain (one_hot zero one cc k))).
      * rewrite <- app_assoc. rewrite IH.
        -- rewrite <- app_assoc. cbn [app]. f_equal. f_equal. unfold hots at 2. cbn [map concat]. rewrite G. rewrite <- !app_assoc. reflexivity.
        -- intros c' I. apply HI. now right.
        -- rewrite map_app, map_map. cbn [fst]. rewrite <- app_assoc.
           assert (Q : map (fun x => c ++ [underscore; underscore] ++ nth x (cc_cats cc) []) (seq 0 (length (cc_cats cc))) = map (hot_name c) (cc_cats cc)).
           { rewrite <- (map_map (fun k => nth k (cc_cats cc) []) (hot_name c)). f_equal. now apply nth_self. }
           rewrite <- Q in ND. exact ND.
      * assert (Q : map (fun x => c ++ [underscore; underscore] ++ nth x (cc_cats cc) []) (seq 0 (length (cc_cats cc))) = map (hot_name c) (cc_cats cc)).
        { rewrite <- (map_map (fun k => nth k (cc_cats cc) []) (hot_name c)). f_equal. now apply nth_self. }
        rewrite <- Q in ND. rewrite map_app. rewrite !app_assoc in ND. apply app_nodup_l in ND. rewrite <- app_assoc in ND. rewrite <- app_assoc. exact ND.
    + apply dget_none in G. contradiction.
Qed.
Lemma hot_cols (d : cds) cs columns exclude :
  cs = match columns with Some l => l | None => filter (fun n => negb (mem n exclude)) (map fst d) end ->
  (forall c, In c cs -> In c (map fst d)) -> NoDup (map fst d ++ hot_names d cs) ->
  one_hot_encode zero one columns exclude d = Some (filter (fun p => negb (mem (fst p) (filter (is_encoded d) cs))) d ++ hots d cs).
Proof.
  intros -> HI ND. unfold one_hot_encode. set (cs := match columns with Some _ => _ | None => _ end) in *.
  assert (E := encode_ok d cs HI [] []). cbn [map app] in E. rewrite app_nil_r in E. rewrite (E ND). cbn [app]. f_equal. rewrite filter_app. f_equal.
  apply filter_all. intros p I. apply negb_true_iff, mem_not. intros J. apply filter_In in J. destruct J as [J _].
  assert (K : In (fst p) (hot_names d cs)) by (rewrite <- hots_names; now apply in_map).
  revert ND. generalize (hot_names d cs) K. intros h Kh ND. clear -HI J Kh ND. specialize (HI _ J). revert HI ND. generalize (map fst d). intros l HI ND.
  induction l as [|x l IH]; [contradiction|]. cbn [app] in ND. inversion ND as [|? ? NI ND']; subst. destruct HI as [->|HI]; [apply NI, in_or_app; now right|now apply IH].
Qed.
Lemma hot_ok (d : cds) cs columns exclude :
  cs = match columns with Some l => l | None => filter (fun n => negb (mem n exclude)) (map fst d) end ->
  (forall c, In c cs -> In c (map fst d)) -> NoDup (map fst d ++ hot_names d cs) ->
  exists d', one_hot_encode zero one columns exclude d = Some d' /\
    map fst d' = filter (fun n => negb (mem n cs && is_encoded d n)) (map fst d) ++ hot_names d cs /\
    (forall n, In n (map fst d) -> mem n cs && is_encoded d n = false -> dget n d' = dget n d) /\
    (forall c cc k nm, In c cs -> dget c d = Some (Cat cc) -> nth_error (cc_cats cc) k = Some nm ->
       exists v, dget (hot_name c nm) d' = Some (Plain v) /\ length v = length (cc_code cc) /\
         forall r o, nth_error (cc_code cc) r = Some o ->
           (o = Some k -> nth_error v r = Some one) /\ (o <> Some k -> nth_error v r = Some zero)).
Proof.
  intros EC HI ND. exists (filter (fun p => negb (mem (fst p) (filter (is_encoded d) cs))) d ++ hots d cs). split; [now apply (hot_cols d cs columns exclude)|].
  assert (M : forall n, mem n (filter (is_encoded d) cs) = mem n cs && is_encoded d n).
  { intros n. destruct (mem n (filter (is_encoded d) cs)) eqn:E.
    - apply mem_in in E. apply filter_In in E. destruct E as [A B]. rewrite (proj2 (mem_in n cs) A), B. reflexivity.
    - apply mem_not in E. destruct (mem n cs) eqn:F; [|reflexivity]. apply mem_in in F. cbn [andb]. destruct (is_encoded d n) eqn:G; [|reflexivity]. exfalso. apply E. apply filter_In. auto. }
  assert (NF : map fst (filter (fun p : name * column => negb (mem (fst p) (filter (is_encoded d) cs))) d) = filter (fun n => negb (mem n cs && is_encoded d n)) (map fst d)).
  { clear -M. set (D := filter (is_encoded d) cs) in *. set (g := is_encoded d) in *. clearbody g D. clear -M. generalize d. intros l. induction l as [|[n x] l IH]; [reflexivity|]. cbn [filter map fst]. rewrite M. destruct (mem n cs && g n); cbn [negb map fst]; now rewrite IH. }
  split; [rewrite map_app, NF, hots_names; reflexivity|].
  assert (ND1 : NoDup (map fst d)) by (apply app_nodup_l in ND; exact ND).
  assert (NDR : NoDup (map fst (filter (fun p : name * column => negb (mem (fst p) (filter (is_encoded d) cs))) d ++ hots d cs))).
  { rewrite map_app, NF, hots_names. clear -ND. revert ND. generalize (hot_names d cs) (map fst d) (fun n => negb (mem n cs && is_encoded d n)). intros h l f ND. induction l as [|x l IH]; [exact ND|]. cbn [app] in ND. inversion ND as [|? ? NI ND']; subst. cbn [filter]. destruct (f x); [|now apply IH]. cbn [app]. constructor; [|now apply IH]. intros I. apply NI. apply in_app_or in I. apply in_or_app. destruct I as [I|I]; [left; apply filter_In in I; tauto|now right]. }
  split.
  - intros n I Z. apply in_map_iff in I. destruct I as ([m x] & E & I). cbn [fst] in E. subst m. rewrite (dget_nodup d n x ND1 I). apply dget_nodup; [exact NDR|]. apply in_or_app. left. apply filter_In. split; [exact I|]. cbn [fst]. now rewrite M, Z.
  - intros c cc k nm IC G EK. assert (Hk : k < length (cc_cats cc)) by (apply nth_error_Some; congruence). exists (one_hot zero one cc k). split; [|split].
    + apply dget_nodup; [exact NDR|]. apply in_or_app. right. unfold hots. apply in_concat. eexists. split; [apply in_map_iff; exists c; split; [reflexivity|exact IC]|]. rewrite G. apply in_map_iff. exists k. assert (EQ : nth k (cc_cats cc) [] = nm) by (now apply nth_error_nth). split; [exact (f_equal (fun x => (hot_name c x, Plain (one_hot zero one cc k))) EQ)|]. apply in_seq. lia.
    + unfold one_hot. apply map_length.
    + intros r o E. unfold one_hot. rewrite nth_error_map, E. cbn [option_map]. split; [intros ->; now rewrite Nat.eqb_refl|]. intros NE. destruct o as [j|]; [|reflexivity]. destruct (Nat.eqb_spec j k) as [->|]; [congruence|reflexivity].
Qed.
End Hot.
