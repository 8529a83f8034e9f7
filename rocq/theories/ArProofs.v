(** Proofs about functions applied to Datasets and tables of percentages. *)
From Coq Require Import List QArith Bool Lia.
From Verif Require Import FlattenModel FlattenProofs CvModel CvProofs ArSpec ArModel.
Import ListNotations.

Lemma dget_mid {X} k (v : X) pre post : ~ In k (map fst pre) -> dget k (pre ++ (k, v) :: post) = Some v.
Proof.
  induction pre as [|[k' v'] pre IH]; cbn [app dget map fst In]; intros H; [destruct (name_dec k k); [reflexivity|congruence]|].
  destruct (name_dec k' k) as [->|]; [elim H; now left|]. apply IH. tauto.
Qed.
Lemma dset_mid {X} k (v w : X) pre post : ~ In k (map fst pre) -> dset k w (pre ++ (k, v) :: post) = pre ++ (k, w) :: post.
Proof.
  induction pre as [|[k' v'] pre IH]; cbn [app dset map fst In]; intros H; [destruct (name_dec k k); [reflexivity|congruence]|].
  destruct (name_dec k' k) as [->|]; [elim H; now left|]. f_equal. apply IH. tauto.
Qed.
Lemma nodup_mid (a b : list name) x : NoDup (a ++ x :: b) -> ~ In x a.
Proof. intros N. apply NoDup_remove_2 in N. intros I. apply N. apply in_or_app. now left. Qed.

Section Apply.
Context {X : Type}.
Lemma call_all_ok (f : func X) d g : (forall k v, In (k, v) d -> f_call f v = Some (g v)) -> call_all f d = Some (map (fun p => (fst p, g (snd p))) d).
Proof.
  induction d as [|[k v] d IH]; intros H; [reflexivity|]. cbn [call_all map fst snd]. rewrite (H k v (or_introl eq_refl)), IH; [reflexivity|].
  intros k' v' I. apply (H k'). now right.
Qed.
End Apply.

Lemma by_total_is d cols : forall pre post, NoDup (map fst (pre ++ cols ++ post)) ->
  by_total d (map fst cols) (pre ++ cols ++ post) = Some (pre ++ map (fun c => (fst c, map (pct d) (snd c))) cols ++ post).
Proof.
  induction cols as [|[k l] cols IH]; intros pre post N; [reflexivity|]. cbn [map fst snd by_total app]. assert (F : ~ In k (map fst pre)).
  { rewrite map_app in N. cbn [app map fst] in N. exact (nodup_mid _ _ _ N). }
  rewrite (dget_mid k l pre _ F), (dset_mid k l _ pre _ F). specialize (IH (pre ++ [(k, map (pct d) l)]) post).
  rewrite <- !app_assoc in IH. cbn [app] in IH. apply IH. rewrite !map_app in *. cbn [map fst app] in *. rewrite map_app in *. exact N.
Qed.
Lemma by_col_is footer cols : forall pre post, NoDup (map fst (pre ++ cols ++ post)) -> (forall k, In k (map fst cols) -> dget k footer <> None) ->
  by_col footer (map fst cols) (pre ++ cols ++ post) =
  Some (pre ++ map (fun c => (fst c, map (pct (match dget (fst c) footer with Some d => d | None => 0%Q end)) (snd c))) cols ++ post).
Proof.
  induction cols as [|[k l] cols IH]; intros pre post N H; [reflexivity|]. cbn [map fst snd by_col app]. assert (F : ~ In k (map fst pre)).
  { rewrite map_app in N. cbn [app map fst] in N. exact (nodup_mid _ _ _ N). }
  rewrite (dget_mid k l pre _ F). pose proof (H k (or_introl eq_refl)) as Hk. destruct (dget k footer) as [d|] eqn:E; [|congruence].
  rewrite (dset_mid k l _ pre _ F). specialize (IH (pre ++ [(k, map (pct d) l)]) post).
  rewrite <- !app_assoc in IH. cbn [app] in IH. apply IH.
  - rewrite !map_app in *. cbn [map fst app] in *. rewrite map_app in *. exact N.
  - intros x I. apply H. now right.
Qed.
Lemma by_row_is d cols : forall pre post, NoDup (map fst (pre ++ cols ++ (total_ratio, d) :: post)) ->
  by_row (map fst cols ++ [total_ratio]) (pre ++ cols ++ (total_ratio, d) :: post) =
  Some (pre ++ map (fun c => (fst c, divide d (snd c))) cols ++ (total_ratio, divide d d) :: post).
Proof.
  induction cols as [|[k l] cols IH]; intros pre post N; cbn [map fst snd app].
  - cbn [by_row]. cbn [app] in N. assert (F : ~ In total_ratio (map fst pre)) by (rewrite map_app in N; cbn [map fst] in N; exact (nodup_mid _ _ _ N)).
    rewrite (dget_mid total_ratio d pre post F). now rewrite (dset_mid total_ratio d _ pre post F).
  - cbn [by_row]. assert (F : ~ In k (map fst pre)).
    { rewrite map_app in N. cbn [app map fst] in N. exact (nodup_mid _ _ _ N). }
    assert (G : dget total_ratio (pre ++ (k, l) :: cols ++ (total_ratio, d) :: post) = Some d).
    { replace (pre ++ (k, l) :: cols ++ (total_ratio, d) :: post) with ((pre ++ (k, l) :: cols) ++ (total_ratio, d) :: post) by (now rewrite <- app_assoc).
      apply dget_mid. replace (pre ++ ((k, l) :: cols) ++ (total_ratio, d) :: post) with ((pre ++ (k, l) :: cols) ++ (total_ratio, d) :: post) in N by (now rewrite <- app_assoc).
      rewrite map_app in N. cbn [map fst] in N. exact (nodup_mid _ _ _ N). }
    rewrite (dget_mid k l pre _ F), G, (dset_mid k l _ pre _ F). specialize (IH (pre ++ [(k, divide d l)]) post).
    rewrite <- !app_assoc in IH. cbn [app] in IH. apply IH. rewrite !map_app in *. cbn [map fst app] in *. rewrite map_app in *. exact N.
Qed.

(** ** the table *)
Definition rest (margin : list Q) (inc : bool) : columns := if inc then [(total, margin)] else [].
Lemma gen_cols inner margin footer inc : ~ In total_ratio (map fst inner) -> ~ In total (map fst inner) ->
  t_cols (gen inner margin footer inc) = inner ++ (total_ratio, margin) :: rest margin inc.
Proof.
  intros F G. unfold gen. cbv zeta. rewrite (dset_fresh total_ratio) by exact F. destruct inc; cbn [t_cols rest]; [|reflexivity].
  rewrite dset_fresh; [now rewrite <- app_assoc|]. rewrite map_app, in_app_iff. cbn [map fst In]. intros [H|[H|[]]]; [contradiction|discriminate].
Qed.
Lemma gen_footer inner margin footer inc : t_footer (gen inner margin footer inc) = footer.
Proof. unfold gen. now destruct inc. Qed.
Lemma gen_nodup inner margin inc : NoDup (map fst inner) -> ~ In total_ratio (map fst inner) -> ~ In total (map fst inner) ->
  NoDup (map fst (inner ++ (total_ratio, margin) :: rest margin inc)).
Proof.
  intros N F G. rewrite map_app. cbn [map fst]. apply NoDup_Add with (a := total_ratio) (l := map fst inner ++ map fst (rest margin inc)); [apply Add_app|].
  split.
  - destruct inc; cbn [rest map fst]; [|now rewrite app_nil_r]. apply NoDup_Add with (a := total) (l := map fst inner ++ []); [apply Add_app|]. rewrite app_nil_r. split; assumption.
  - rewrite in_app_iff. intros [H|H]; [contradiction|]. destruct inc; cbn [rest map fst In] in H; [destruct H as [H|[]]; discriminate|contradiction].
Qed.
Lemma filter_same {A} (f : A -> bool) l : (forall x, In x l -> f x = true) -> filter f l = l.
Proof. induction l as [|x l IH]; intros H; [reflexivity|]. cbn. rewrite (H x (or_introl eq_refl)). f_equal. apply IH. intros y I. apply H. now right. Qed.
Lemma keys_is inner margin footer inc : ~ In total_ratio (map fst inner) -> ~ In total (map fst inner) ->
  ratio_keys (gen inner margin footer inc) = map fst inner ++ [total_ratio].
Proof.
  intros F G. unfold ratio_keys. rewrite gen_cols by assumption. rewrite map_app. cbn [map fst]. rewrite filter_app.
  assert (S : t_summary (gen inner margin footer inc) = if inc then [total_ratio; total] else [total_ratio]) by (unfold gen; now destruct inc).
  rewrite S. f_equal.
  - apply filter_same. intros k I. apply negb_true_iff. apply andb_false_iff. left.
    destruct inc; cbn [mem existsb]; (destruct (name_dec total_ratio k) as [<-|_]; [contradiction|]); try (destruct (name_dec total k) as [<-|_]; [contradiction|]); reflexivity.
  - destruct inc; vm_compute; reflexivity.
Qed.
Lemma ratiop_is n inner margin footer inc d : NoDup (map fst inner) -> ~ In total_ratio (map fst inner) -> ~ In total (map fst inner) ->
  dget total_ratio footer = Some d -> (forall k, In k (map fst inner) -> dget k footer <> None) ->
  exists t, ratiop n (gen inner margin footer inc) = Some t /\
  t_cols t = map (fun c => (fst c, match n with ByTable => map (pct d) (snd c) | ByRow => divide margin (snd c)
                                   | ByColumn => map (pct (match dget (fst c) footer with Some q => q | None => 0%Q end)) (snd c) end))
                 (inner ++ [(total_ratio, margin)]) ++ rest margin inc /\
  t_footer t = map (fun e => (fst e, match n with ByColumn => 100%Q | _ => pct d (snd e) end)) footer.
Proof.
  intros N F G D H. unfold ratiop. cbv zeta. rewrite gen_footer, D, keys_is, gen_cols by assumption. pose proof (gen_nodup inner margin inc N F G) as ND. destruct n.
  - pose proof (by_total_is d (inner ++ [(total_ratio, margin)]) [] (rest margin inc)) as B. rewrite <- app_assoc in B. cbn [app] in B. specialize (B ND).
    rewrite map_app in B. cbn [map fst] in B. rewrite B. cbn [option_map]. eexists. split; [reflexivity|]. split; reflexivity.
  - pose proof (by_row_is margin inner [] (rest margin inc) ND) as B. cbn [app] in B. rewrite B. cbn [option_map]. eexists. split; [reflexivity|]. cbn [t_cols t_footer]. split; [|reflexivity].
    rewrite map_app, <- app_assoc. reflexivity.
  - pose proof (by_col_is footer (inner ++ [(total_ratio, margin)]) [] (rest margin inc)) as B. rewrite <- app_assoc in B. cbn [app] in B. specialize (B ND).
    rewrite map_app in B. cbn [map fst] in B. rewrite B.
    + cbn [option_map]. eexists. split; [reflexivity|]. split; reflexivity.
    + intros k I. apply in_app_or in I. destruct I as [I|[<-|[]]]; [now apply H|congruence].
Qed.

(** ** sums *)
Lemma pct_sum d l : qsum (map (pct d) l) == pct d (qsum l).
Proof.
  induction l as [|x l IH]; cbn [map qsum fold_right]; unfold pct in *; [unfold Qdiv; ring|]. fold (qsum l). fold (qsum (map (pct d) l)) in *. unfold pct in IH. 
  change (fold_right Qplus 0 (map (fun x0 : Q => 100 * x0 / d) l)) with (qsum (map (fun x0 : Q => 100 * x0 / d) l)). rewrite IH. unfold Qdiv. ring.
Qed.
Lemma pct_full d x : ~ d == 0 -> x == d -> pct d x == 100.
Proof. intros N E. unfold pct. rewrite E. field. exact N. Qed.
