From Coq Require Import List Arith ZArith Bool Lia.
From Verif Require Import FlattenModel FlattenProofs DsModel DsProofs3 GroupingModel GroupingProofs StModel StSpec.
Import ListNotations.

Section Stack.
Context {X D : Type}.
Variable ds_stack : list D -> option D.
Implicit Types (i j x y : item X D) (ls : list (list (name * item X D))).

(** the result [x] stands for the items [l] *)
Record good (x : item X D) (l : list (item X D)) : Prop := {
  good_elems : forall p, elems_at p x = concat (map (elems_at p) l);
  good_ds : forall p, match concat (map (datasets_at p) l) with [] => datasets_at p x = [] | [d] => datasets_at p x = [d]
                      | ds => exists d, ds_stack ds = Some d /\ datasets_at p x = [d] end;
  good_names : forall p, names_at p x = firsts (concat (map (names_at p) l));
  good_there : forall p, (exists y, get p x = Some y) <-> (exists i y, In i l /\ get p i = Some y);
  good_bucket : forall p i y z, In i l -> get p i = Some y -> get p x = Some z -> bucket_of z = bucket_of y }.

Lemma firsts_in l n : In n (firsts l) <-> In n l.
Proof.
  induction l as [|k r IH]; [reflexivity|]. cbn [firsts In]. rewrite filter_In, IH. split.
  - intros [H|[H _]]; auto.
  - intros [H|H]; [now left|]. destruct (name_dec n k) as [->|]; [now left|]. right. split; [exact H|]. now destruct (name_dec n k).
Qed.
Lemma filter_id {Y} (f : Y -> bool) (l : list Y) : (forall y : Y, In y l -> f y = true) -> filter f l = l.
Proof. induction l as [|y l IH]; intros H; [reflexivity|]. cbn [filter]. rewrite (H y) by now left. f_equal. apply IH. intros; apply H; now right. Qed.
Lemma firsts_nodup l : NoDup (firsts l).
Proof.
  induction l as [|k r IH]; [constructor|]. cbn [firsts]. constructor.
  - rewrite filter_In. intros [_ H]. destruct (name_dec k k); congruence.
  - apply NoDup_filter, IH.
Qed.
Lemma firsts_id l : NoDup l -> firsts l = l.
Proof.
  induction 1 as [|k r N ND IH]; [reflexivity|]. cbn [firsts]. rewrite IH. f_equal. apply filter_id. intros y H. destruct (name_dec y k) as [->|]; [contradiction|reflexivity].
Qed.
Lemma all_keys_firsts ls : all_keys ls = firsts (map fst (concat ls)).
Proof.
  unfold all_keys. set (l := map fst (concat ls)). clearbody l.
  assert (G : forall l acc, fold_left (fun ks k => if mem k ks then ks else ks ++ [k]) l acc = acc ++ filter (fun k => negb (mem k acc)) (firsts l)).
  { clear. induction l as [|k r IH]; intros acc; cbn [fold_left firsts filter]; [now rewrite app_nil_r|]. rewrite IH. destruct (mem k acc) eqn:M; cbn [negb].
    - f_equal. rewrite <- (filter_id (fun m => if name_dec m k then false else true) (filter (fun k0 => negb (mem k0 acc)) (firsts r))).
      + clear. induction (firsts r) as [|m l IH]; [reflexivity|]. cbn [filter]. destruct (negb (mem m acc)) eqn:A; destruct (name_dec m k) as [E|E]; cbn [filter]; rewrite ?A; cbn [filter]; try rewrite IH; auto; destruct (name_dec m k); congruence.
      + intros y H. apply filter_In in H. destruct H as [_ H]. destruct (name_dec y k) as [->|]; [rewrite M in H; discriminate|reflexivity].
    - rewrite <- app_assoc. cbn [app]. f_equal. f_equal. clear. induction (firsts r) as [|m l IH]; [reflexivity|]. cbn [filter].
      assert (Q : mem m (acc ++ [k]) = mem m acc || (if name_dec m k then true else false)).
      { unfold mem. rewrite existsb_app. cbn [existsb]. rewrite orb_false_r. f_equal. destruct (name_dec k m); destruct (name_dec m k); congruence. }
      rewrite Q. destruct (name_dec m k); rewrite ?orb_true_r, ?orb_false_r; cbn [negb filter]; [exact IH|]. destruct (negb (mem m acc)); [f_equal|]; exact IH. }
  rewrite G. cbn [app]. apply filter_id. reflexivity.
Qed.

(** the items of one name *)
Definition occ n ls : list (item X D) := flat_map (fun s => match dget n s with Some j => [j] | None => [] end) ls.

(** collecting *)
Definition bget (b : bucket) (k : name) (m : buckets) : list (item X D) :=
  match find (fun bd => if bucket_dec (fst bd) b then true else false) m with
  | Some bd => match dget k (snd bd) with Some l => l | None => [] end
  | None => []
  end.
Lemma bget_badd b k i m b' k' : bget b' k' (badd b k i m) = if bucket_dec b b' then if name_dec k k' then bget b' k' m ++ [i] else bget b' k' m else bget b' k' m.
Proof.
  unfold bget. induction m as [|[c d] r IH]; cbn [badd find fst snd].
  - destruct (bucket_dec b b'); cbn [snd dget]; [|reflexivity]. destruct (name_dec k k'); reflexivity.
  - destruct (bucket_dec c b) as [->|N]; cbn [find fst snd].
    + destruct (bucket_dec b b') as [->|N']; [|reflexivity]. cbn [snd]. rewrite dget_dset. destruct (name_dec k k') as [->|]; reflexivity.
    + destruct (bucket_dec c b') as [->|N']; [|exact IH]. cbn [snd]. destruct (bucket_dec b b') as [->|]; [congruence|reflexivity].
Qed.
Record buckets_ok (m : @buckets X D) : Prop := {
  bo_buckets : NoDup (map fst m);
  bo_keys : forall b d, In (b, d) m -> NoDup (map fst d);
  bo_lists : forall b d k l, In (b, d) m -> In (k, l) d -> l <> [] }.
Lemma badd_fst b k i m : map fst (badd b k i m) = if in_dec bucket_dec b (map fst m) then map fst m else map fst m ++ [b].
Proof.
  induction m as [|[c d] r IH]; cbn [badd map fst]; [reflexivity|]. destruct (bucket_dec c b) as [->|N]; cbn [map fst].
  - destruct (in_dec bucket_dec b (b :: map fst r)) as [|K]; [reflexivity|]. exfalso. apply K. now left.
  - rewrite IH. destruct (in_dec bucket_dec b (map fst r)) as [K|K]; destruct (in_dec bucket_dec b (c :: map fst r)) as [K'|K']; try reflexivity.
    + exfalso. apply K'. now right.
    + exfalso. destruct K'; congruence.
Qed.
Lemma badd_in b k i m c e : In (c, e) (badd b k i m) -> (In (c, e) m \/ (exists d, In (c, d) m /\ e = dset k ((match dget k d with Some l => l | None => [] end) ++ [i]) d) \/ e = [(k, [i])]).
Proof.
  induction m as [|[c' d'] r IH]; cbn [badd].
  - intros [E|[]]. injection E as <- <-. auto.
  - destruct (bucket_dec c' b) as [->|N]; intros [E|I].
    + injection E as <- <-. right. left. exists d'. split; [now left|reflexivity].
    + left. now right.
    + injection E as <- <-. left. now left.
    + destruct (IH I) as [H|[(d & H & Hd)|H]]; [left; now right|right; left; exists d; split; [now right|exact Hd]|auto].
Qed.
Lemma dset_in {Y} k (v : Y) d k' v' : In (k', v') (dset k v d) -> In (k', v') d \/ (k' = k /\ v' = v).
Proof.
  induction d as [|[c w] r IH]; cbn [dset]; [intros [E|[]]; injection E as <- <-; auto|].
  destruct (name_dec c k) as [->|]; intros [E|I]; [injection E as <- <-; auto|left; now right|left; now left|]. destruct (IH I); [left; now right|auto].
Qed.
Lemma badd_ok b k i m : buckets_ok m -> buckets_ok (badd b k i m).
Proof.
  intros [B K L]. split.
  - rewrite badd_fst. destruct (in_dec bucket_dec b (map fst m)); [exact B|]. rewrite <- (rev_involutive (map fst m ++ [b])). rewrite rev_app_distr. apply NoDup_rev. cbn [rev app]. constructor; [now rewrite <- in_rev|apply NoDup_rev, B].
  - intros c e I. apply badd_in in I. destruct I as [I|[(d & I & ->)| ->]]; [exact (K _ _ I)|apply dset_nodup; exact (K _ _ I)|constructor; [intros []|constructor]].
  - intros c e k' l I J. apply badd_in in I. destruct I as [I|[(d & I & ->)| ->]]; [exact (L _ _ _ _ I J)| |].
    + apply dset_in in J. destruct J as [J|[-> ->]]; [exact (L _ _ _ _ I J)|]. now destruct (dget k d) as [[|]|].
    + destruct J as [J|[]]. injection J as <- <-. discriminate.
Qed.
Lemma bget_in m b d k l : buckets_ok m -> In (b, d) m -> In (k, l) d -> bget b k m = l.
Proof.
  intros [B K L] I J. pose proof (K _ _ I) as Kd. clear K L. unfold bget. induction m as [|[c e] r IH]; [destruct I|]. cbn [map fst] in B. inversion B as [|? ? N1 N2]; subst. cbn [find fst]. destruct I as [E|I].
  - injection E as -> ->. destruct (bucket_dec b b); [|congruence]. cbn [snd]. now rewrite (dget_in k l d Kd J).
  - destruct (bucket_dec c b) as [->|]; [exfalso; apply N1; change b with (fst (b, d)); now apply in_map|]. apply IH; assumption.
Qed.
Lemma bget_ex m b k : bget b k m <> [] -> exists d, In (b, d) m /\ In (k, bget b k m) d.
Proof.
  unfold bget. induction m as [|[c e] r IH]; cbn [find fst]; [congruence|]. destruct (bucket_dec c b) as [->|].
  - cbn [snd]. destruct (dget k e) eqn:E; [|congruence]. intros _. exists e. split; [now left|now apply dget_some_in].
  - intros H. destruct (IH H) as (d & A & B). exists d. split; [now right|exact B].
Qed.
Definition here (b : bucket) (k : name) (p : name * item X D) : bool := (if name_dec (fst p) k then true else false) && (if bucket_dec (bucket_of (snd p)) b then true else false).
Lemma collect_get b k ls : bget b k (collect ls) = map (fun p => normal (snd p)) (filter (here b k) (concat ls)).
Proof.
  unfold collect. assert (G : forall l m, bget b k (fold_left (fun m p => badd (bucket_of (snd p)) (fst p) (normal (snd p)) m) l m) = bget b k m ++ map (fun p => normal (snd p)) (filter (here b k) l)).
  { induction l as [|[n i] l IH]; intros m; cbn [fold_left fst snd filter]; [now rewrite app_nil_r|]. rewrite IH, bget_badd. unfold here at 2. cbn [fst snd].
    destruct (bucket_dec (bucket_of i) b); destruct (name_dec n k); cbn [andb map snd]; rewrite <- ?app_assoc; reflexivity. }
  rewrite G. reflexivity.
Qed.
Lemma collect_ok ls : buckets_ok (collect ls).
Proof.
  unfold collect. assert (G : forall l m, buckets_ok m -> buckets_ok (fold_left (fun m p => badd (bucket_of (snd p)) (fst p) (normal (snd p)) m) l m)).
  { induction l as [|[n i] l IH]; intros m H; cbn [fold_left]; [exact H|]. apply IH, badd_ok, H. }
  apply G. split; [constructor|intros ? ? []|intros ? ? ? ? []].
Qed.
Lemma filter_here_one b k (s : list (name * item X D)) : NoDup (map fst s) -> (forall j, dget k s = Some j -> bucket_of j = b) ->
  map snd (filter (here b k) s) = match dget k s with Some j => [j] | None => [] end.
Proof.
  induction s as [|[n j] s IH]; intros ND H; [reflexivity|]. cbn [map fst] in ND. inversion ND as [|? ? N1 N2]; subst. cbn [filter dget]. unfold here at 1. cbn [fst snd dget] in *.
  destruct (name_dec n k) as [->|N]; cbn [andb].
  - rewrite (H j eq_refl). destruct (bucket_dec b b); [|congruence]. cbn [map snd]. f_equal.
    assert (Z0 : filter (here b k) s = []).
    { clear - N1. induction s as [|[m i] s IH]; [reflexivity|]. cbn [filter]. unfold here at 1. cbn [fst snd]. destruct (name_dec m k) as [->|]; [exfalso; apply N1; now left|]. cbn [andb]. apply IH. intros K. apply N1. now right. }
    now rewrite Z0.
  - apply IH; [exact N2|exact H].
Qed.
Lemma collect_occ b k ls : (forall s, In s ls -> NoDup (map fst s)) -> (forall j, In j (occ k ls) -> bucket_of j = b) ->
  bget b k (collect ls) = map normal (occ k ls).
Proof.
  intros ND H. rewrite collect_get. rewrite <- (map_map snd normal). f_equal. unfold occ in *. induction ls as [|s ls IH]; [reflexivity|]. cbn [concat flat_map] in *. rewrite filter_app, map_app, IH; [|intros t I; apply ND; now right|intros j I; apply H, in_app_iff; now right].
  f_equal. apply filter_here_one; [apply ND; now left|]. intros j E. apply H, in_app_iff. left. rewrite E. now left.
Qed.

(** the final dictionary *)
Lemma all_or_none_some {Y} (l : list (name * option Y)) : (forall k v, In (k, v) l -> v <> None) -> exists r, all_or_none l = Some r /\ map (fun p => (fst p, Some (snd p))) r = l.
Proof.
  induction l as [|[k [v|]] l IH]; intros H; cbn [all_or_none].
  - exists []. auto.
  - destruct IH as (r & E & M); [intros; eapply H; right; eauto|]. rewrite E. exists ((k, v) :: r). split; [reflexivity|]. cbn [map fst snd]. now rewrite M.
  - exfalso. apply (H k None); [now left|reflexivity].
Qed.
Lemma fold_dset_get {Y} k (l : list (name * Y)) d : dget k (fold_left (fun d p => dset (fst p) (snd p) d) l d) =
  match find (fun p => if name_dec (fst p) k then true else false) (rev l) with Some p => Some (snd p) | None => dget k d end.
Proof.
  revert d. induction l as [|[n v] l IH]; intros d; cbn [fold_left rev]; [reflexivity|]. rewrite IH. cbn [fst snd]. rewrite dget_dset.
  assert (F : forall (a b : list (name * Y)), find (fun p => if name_dec (fst p) k then true else false) (a ++ b) = match find (fun p => if name_dec (fst p) k then true else false) a with Some p => Some p | None => find (fun p => if name_dec (fst p) k then true else false) b end).
  { clear. induction a as [|[n v] a IH]; intros b; [reflexivity|]. cbn [app find fst]. destruct (name_dec n k); [reflexivity|apply IH]. }
  rewrite F. destruct (find _ (rev l)); [reflexivity|]. cbn [find fst]. destruct (name_dec n k); reflexivity.
Qed.
End Stack.
