From Coq Require Import List Arith Bool ZArith Lia.
From Verif Require Import FlattenModel FlattenProofs DsModel DsProofs3 DsProofs5 GroupingProofs AggModel AggProofs2 Acc2Model MargModel MargSpec MargProofs MargProofs2.
Import ListNotations.

Section R.
Context {V : Type}.
Notation mds := (mds (V := V)).

(** ** renaming *)
Lemma swap_same old new : swap old new old = new.
Proof. unfold swap. destruct (name_dec old old); congruence. Qed.
Lemma swap_other old new c : c <> old -> swap old new c = c.
Proof. intros H. unfold swap. destruct (name_dec c old); congruence. Qed.
Lemma swap_list old new l : ~ In old l -> map (swap old new) l = l.
Proof. intros H. rewrite <- (map_id l) at 2. apply map_ext_in. intros c I. apply swap_other. intros ->. contradiction. Qed.
Lemma rename_names {X} old new (d : list (name * X)) : map fst (rename_keys old new d) = map (swap old new) (map fst d).
Proof. unfold rename_keys. rewrite !map_map. reflexivity. Qed.
Lemma rename_other {X} old new (d : list (name * X)) c : c <> old -> c <> new -> dget c (rename_keys old new d) = dget c d.
Proof.
  intros H H'. induction d as [|[k v] d IH]; [reflexivity|]. cbn [rename_keys map fst snd dget]. fold (rename_keys old new d). rewrite IH. unfold swap. destruct (name_dec k old) as [E|E].
  - subst k. destruct (name_dec new c); [congruence|]. destruct (name_dec old c); congruence.
  - reflexivity.
Qed.
Lemma rename_new {X} old new (d : list (name * X)) : ~ In new (map fst d) -> dget new (rename_keys old new d) = dget old d.
Proof.
  induction d as [|[k v] d IH]; intros H; [reflexivity|]. cbn [rename_keys map fst snd dget]. fold (rename_keys old new d). rewrite IH by (intros I; apply H; now right). unfold swap. destruct (name_dec k old) as [E|E].
  - subst k. destruct (name_dec new new); [|congruence]. destruct (name_dec old old); congruence.
  - destruct (name_dec k new) as [E'|E']; [subst; exfalso; apply H; now left|reflexivity].
Qed.
Lemma rename_old_id {X} old (d : list (name * X)) : rename_keys old old d = d.
Proof. unfold rename_keys. rewrite <- (map_id d) at 2. apply map_ext. intros [k v]. cbn [fst snd]. unfold swap. destruct (name_dec k old); now subst. Qed.

(** [r] is the table [d] with its totals called [k] *)
Definition named (KN CN : list name) (n : nat) (k : name) (d r : mds) : Prop :=
  totalled KN CN n k k r /\ (exists s f, totalled KN CN n s f d) /\
  (forall c, In c (KN ++ CN) -> col c r = col c d) /\ col k r = row_totals d /\
  (forall c, In c CN -> foot k r c = col_total d c) /\ foot k r k = grand_total d /\ data_of r = data_of d.
Lemma data_laid KN CN SN n (m : mds) : laid_out KN CN SN n m -> data_of m = map snd (skipn (length KN) (m_cols m)).
Proof.
  intros L. assert (L' := L). destruct L' as (_ & ND & LB & _). destruct (split_layout _ _ _ _ _ L) as (key & cells & sums & E & K & C & S). unfold data_of. f_equal. rewrite E, LB, filter_app. rewrite <- K, map_length, skipn_app, skipn_all, Nat.sub_diag. cbn [skipn app].
  assert (F1 : forall l : list (name * list V), (forall c, In c (map fst l) -> In c KN) -> filter (fun p => if in_dec name_dec (fst p) KN then false else true) l = []).
  { induction l as [|x l IH]; intros H; [reflexivity|]. cbn [filter]. destruct (in_dec name_dec (fst x) KN) as [D|D]; [apply IH; intros c I; apply H; now right|exfalso; apply D, H; now left]. }
  assert (F2 : forall l : list (name * list V), (forall c, In c (map fst l) -> ~ In c KN) -> filter (fun p => if in_dec name_dec (fst p) KN then false else true) l = l).
  { induction l as [|x l IH]; intros H; [reflexivity|]. cbn [filter]. destruct (in_dec name_dec (fst x) KN) as [D|D]; [exfalso; apply (H (fst x)); [now left|exact D]|]. f_equal. apply IH. intros c I. apply H. now right. }
  rewrite K. rewrite F1 by (now rewrite K). rewrite F2; [reflexivity|]. intros c I J. rewrite map_app, C, S in I. exact (proj2 (proj2 (nodup_app _ _ ND)) c J I).
Qed.

Lemma dset_all_fresh (vals : list (name * V)) : NoDup (map fst vals) -> dset_all vals [] = vals.
Proof. intros H. now apply (dset_all_id vals []). Qed.

Lemma rename_summary_ok KN CN n s f k d : totalled KN CN n s f d -> ~ In k (KN ++ CN) -> exists r, rename_summary k d = Some r /\ named KN CN n k d r.
Proof.
  intros T FK. assert (T' := T). destruct T' as ((NM & ND & LB & SM & LN) & fd & FE & FND & FI).
  unfold rename_summary. rewrite SM.
  assert (NS : ~ In s (KN ++ CN)) by (rewrite app_assoc in ND; destruct (nodup_app _ _ ND) as (_ & _ & X); intros I; apply (X s I); now left).
  assert (NK : k <> s -> ~ In k (KN ++ CN ++ [s])) by (intros Hk I; rewrite app_assoc in I; apply in_app_or in I; destruct I as [I|[I|[]]]; [contradiction|congruence]).
  set (d1 := mkM (rename_keys s k (m_cols d)) KN [k] (map (fun p => (fst p, rename_keys s k (snd p))) (m_foot d))).
  assert (CR : col_rename s k d = Some d1).
  { unfold col_rename, d1. destruct (name_dec s k) as [E|E].
    - subst k. rewrite !rename_old_id, FE. cbn [map fst snd]. rewrite rename_old_id. rewrite <- LB, <- SM, <- FE. now destruct d.
    - unfold names. rewrite NM. assert (M1 : mem s (KN ++ CN ++ [s]) = true) by (apply mem_in; apply in_or_app; right; apply in_or_app; right; now left). assert (M2 : mem k (KN ++ CN ++ [s]) = false) by (apply mem_not; apply NK; congruence). rewrite M1, M2. cbn [negb orb]. rewrite LB, SM. cbn [map]. rewrite swap_same, swap_list; [reflexivity|]. intros I. apply NS. apply in_or_app. now left. }
  rewrite CR. unfold d1. rewrite FE. cbn [m_foot map fst snd].
  assert (NM1 : map fst (rename_keys s k (m_cols d)) = KN ++ CN ++ [k]).
  { rewrite rename_names, NM, !map_app. cbn [map]. rewrite swap_same, !swap_list; [reflexivity| |]; intros I; apply NS; apply in_or_app; [now right|now left]. }
  assert (FN1 : map fst (rename_keys s k fd) = map (swap s k) (map fst fd)) by apply rename_names.
  assert (FI1 : incl (map fst (rename_keys s k fd)) (CN ++ [k])).
  { rewrite FN1. intros c I. apply in_map_iff in I. destruct I as (c' & E & I). apply FI in I. apply in_app_or in I. subst c. apply in_or_app. destruct I as [I|[I|[]]]; [left; rewrite swap_other; [exact I|intros ->; apply NS; apply in_or_app; now right]|subst c'; right; rewrite swap_same; now left]. }
  assert (KF : k <> s -> ~ In k (map fst fd)) by (intros Hk I; apply FI in I; apply in_app_or in I; destruct I as [I|[I|[]]]; [apply FK; apply in_or_app; now right|congruence]).
  assert (FND1 : NoDup (map fst (rename_keys s k fd))).
  { destruct (name_dec k s) as [E|E]; [subst; now rewrite rename_old_id|]. rewrite FN1. clear -FND KF E. specialize (KF E). induction (map fst fd) as [|c l IH]; cbn [map]; [constructor|]. inversion FND as [|? ? N1 N2]; subst. constructor; [|apply IH; [exact N2|intros I; apply KF; now right]]. intros I. apply in_map_iff in I. destruct I as (c' & E' & I). unfold swap in E'. destruct (name_dec c' s) as [D|D]; destruct (name_dec c s) as [D'|D'].
    - congruence.
    - subst c. apply KF. now left.
    - subst c'. apply KF. now right.
    - congruence. }
  unfold footer_set, footer_remove. cbn [m_cols m_labels m_sums m_foot filter fst]. destruct (name_dec f f); [|congruence]. cbn [dget].
  assert (FA : forallb (fun p => mem (fst p) (names (rename_keys s k (m_cols d)))) (rename_keys s k fd) = true).
  { apply forallb_forall. intros p I. apply mem_in. unfold names. rewrite NM1. apply (in_map fst) in I. apply FI1 in I. apply in_or_app. right. exact I. }
  rewrite FA, dset_all_fresh by exact FND1. cbn [dset]. eexists. split; [reflexivity|].
  assert (ND1 : NoDup (KN ++ CN ++ [k])) by (rewrite app_assoc; apply nodup_cat; [rewrite app_assoc in ND; now apply nodup_app in ND|repeat constructor; intros []|intros x I [J|[]]; subst; contradiction]).
  assert (LR : laid_out KN CN [k] n (mkM (rename_keys s k (m_cols d)) KN [k] [(k, rename_keys s k fd)])).
  { split; [exact NM1|split; [exact ND1|split; [reflexivity|split; [reflexivity|]]]].
    cbn [m_cols]. intros c v I. apply in_map_iff in I. destruct I as ([c' v'] & E & I). cbn [fst snd] in E. injection E as _ <-. now apply (LN c'). }
  split; [|split; [now exists s, f|]].
  - split; [exact LR|].
    exists (rename_keys s k fd). split; [reflexivity|]. split; [exact FND1|exact FI1].
  - rewrite (data_laid _ _ _ _ _ LR), (data_laid _ _ _ _ _ (proj1 T)). unfold col, foot, row_totals, col_total, grand_total, col_total. cbn [m_cols m_foot m_sums dget]. rewrite SM, FE. destruct (name_dec k k); [|congruence]. split; [|split; [|split; [|split]]].
    + intros c I. apply rename_other; intros ->; contradiction.
    + unfold col. destruct (name_dec k s) as [E|E]; [subst; now rewrite rename_old_id|]. apply rename_new. rewrite NM. now apply NK.
    + intros c I. apply rename_other; intros ->; [apply NS|apply FK]; apply in_or_app; now right.
    + destruct (name_dec k s) as [E|E]; [subst; now rewrite rename_old_id|]. apply rename_new. now apply KF.
    + unfold rename_keys. rewrite <- !skipn_map, map_map. reflexivity.
Qed.

(** ** histories *)
Lemma given_snoc (ops : list top) : forall o k, given (V := V) (ops ++ [o]) k = match given [o] k with Some d => Some d | None => given ops k end.
Proof.
  induction ops as [|p ops IH]; intros o k; [cbn [app]; now destruct (given [o] k)|]. cbn [app]. change (given (p :: ops ++ [o]) k) with (match given (ops ++ [o]) k with Some d => Some d | None => match p with TSet k' d => if name_dec k' k then Some d else None | _ => None end end). rewrite IH. change (given (p :: ops) k) with (match given ops k with Some d => Some d | None => match p with TSet k' d => if name_dec k' k then Some d else None | _ => None end end). destruct (given [o] k); reflexivity.
Qed.
Lemma add_key_spec k l : add_key k l = if in_dec name_dec k l then l else l ++ [k].
Proof. unfold add_key. destruct (in_dec name_dec k l) as [I|I]; [apply mem_in in I|apply mem_not in I]; now rewrite I. Qed.

Variable inv : V.
Variable blank : V -> bool.
Notation tstep := (tstep blank).
Notation tfinal := (tfinal blank).

Lemma nodup_snoc_rev k l : nodup name_dec (k :: l) = if in_dec name_dec k l then nodup name_dec l else k :: nodup name_dec l.
Proof. reflexivity. Qed.
Lemma add_keys l : fold_left (fun a k => add_key k a) l [] = first_once l.
Proof.
  unfold first_once. rewrite <- (rev_involutive l) at 1. induction (rev l) as [|k r IH]; [reflexivity|]. cbn [rev]. rewrite fold_left_app. cbn [fold_left]. rewrite IH, add_key_spec, nodup_snoc_rev. destruct (in_dec name_dec k (rev (nodup name_dec r))) as [I|I]; destruct (in_dec name_dec k r) as [J|J]; try reflexivity; exfalso; [apply J|apply I].
  - apply in_rev in I. now apply nodup_In in I.
  - apply in_rev. rewrite rev_involutive. now apply nodup_In.
Qed.

Variables (KN CN : list name) (n : nat).
Definition tinv (ops : list top) (t : atable) : Prop :=
  t_rows t = footers_of ops /\ t_cols t = margins_of ops /\ t_def t = current ops /\
  (forall k, match given ops k with None => dget k (t_inner t) = None | Some d => ~ In k (KN ++ CN) /\ exists r, dget k (t_inner t) = Some r /\ named KN CN n k d r end).

Lemma gen_table nm b t : fst (gen blank nm b t) = mkT (t_inner t) (t_rows t) (t_cols t) (match nm with Some k => Some k | None => t_def t end).
Proof. unfold gen. destruct nm as [k|]; [reflexivity|]. destruct t as [i r c [k|]]; reflexivity. Qed.
Lemma tstep_inv ops t o : tinv ops t -> fits KN CN n o -> tinv (ops ++ [o]) (tstep t o).
Proof.
  intros (HR & HC & HD & HI) F. unfold tinv, footers_of, margins_of, current. rewrite !fold_left_app. fold (footers_of ops). fold (margins_of ops). fold (current ops). cbn [fold_left].
  destruct o as [k d|k|l|l|nm b]; cbn [MargModel.tstep].
  - destruct F as (FK & s & f & T). destruct (rename_summary_ok _ _ _ _ _ _ _ T FK) as (r & E & NM). unfold at_set. rewrite E. cbn [fst t_rows t_cols t_def t_inner then_names].
    split; [now rewrite add_key_spec, HR|]. split; [now rewrite add_key_spec, HC|]. split; [reflexivity|].
    intros k'. rewrite given_snoc. cbn [given]. rewrite dget_dset. destruct (name_dec k k') as [D|D].
    + subst k'. split; [exact FK|]. exists r. split; [|exact NM]. destruct (name_dec k k); congruence.
    + specialize (HI k'). destruct (name_dec k' k); [congruence|]. exact HI.
  - cbn [at_get fst t_rows t_cols t_def t_inner then_names]. repeat (split; [assumption || reflexivity|]). intros k'. rewrite given_snoc. exact (HI k').
  - unfold set_margins. cbn [t_rows t_cols t_def t_inner then_names]. rewrite add_keys. repeat (split; [assumption || reflexivity|]). intros k'. rewrite given_snoc. exact (HI k').
  - unfold set_footers. cbn [t_rows t_cols t_def t_inner then_names]. rewrite add_keys. repeat (split; [assumption || reflexivity|]). intros k'. rewrite given_snoc. exact (HI k').
  - rewrite gen_table. cbn [t_rows t_cols t_def t_inner then_names]. split; [exact HR|]. split; [exact HC|]. split; [destruct nm; [reflexivity|exact HD]|]. intros k'. rewrite given_snoc. exact (HI k').
Qed.
Lemma tfinal_inv ops : Forall (fits KN CN n) ops -> tinv ops (tfinal ops).
Proof.
  unfold MargModel.tfinal. induction ops as [|o ops IH] using rev_ind; intros F.
  - repeat split.
  - rewrite fold_left_app. cbn [fold_left]. apply Forall_app in F. destruct F as [F1 F2]. apply tstep_inv; [now apply IH|]. now inversion F2.
Qed.
End R.
