(** the history of a Multiset; schemas *)
From Coq Require Import List Arith Bool Lia.
From Verif Require Import FlattenModel FlattenProofs MergeModel MergeColsProofs2 DsModel DsSpec DsProofs DsProofs3 DsProofs4 DsProofs5 AggProofs2 MuSpec MuModel MuSpec2 MuProofs MuProofs4.
Import ListNotations.

Section Hist.
Context {M : Type}.
Variable valid : name -> bool.
Notation state := (state (M := M)).
Lemma in_dset {X} n (v : X) (d : list (name * X)) p : In p (dset n v d) -> p = (n, v) \/ In p d.
Proof.
  induction d as [|[a b] d IH]; cbn [dset]; [intros [<-|[]]; now left|]. destruct (name_dec a n) as [->|].
  - intros [<-|H]; [now left|right; now right].
  - intros [<-|H]; [right; now left|]. destruct (IH H); [now left|right; now right].
Qed.
Lemma in_dset_all {X} (l d : list (name * X)) p : In p (dset_all l d) -> In p l \/ In p d.
Proof.
  unfold dset_all. revert d. induction l as [|[n v] l IH]; intros d; [now right|]. cbn [fold_left fst snd]. intros H. apply IH in H. destruct H as [H|H]; [left; now right|]. apply in_dset in H. destruct H as [->|H]; [left; now left|now right].
Qed.
Lemma clash_ok (r v : option nat) : clash r v = false -> r = v \/ r = None \/ r = Some 0.
Proof. unfold clash. destruct r as [[|k]|]; auto. destruct v as [m|]; [|discriminate]. intros H. apply negb_false_iff, Nat.eqb_eq in H. left. congruence. Qed.
Lemma even_set (s : state) n v : even s -> clash (st_nrows s) (snd v) = false -> (exists k, snd v = Some (S k)) -> even (mkState (dset n v (st_items s)) (snd v) (st_locked s)).
Proof.
  intros E C (k & K) p Hp. cbn [st_items st_nrows] in *. apply in_dset in Hp. destruct Hp as [->|Hp]; [cbn [snd]; eauto|]. destruct (E p Hp) as (E1 & k' & E2). rewrite E1. split; [|eauto]. destruct (clash_ok _ _ C) as [->|[Q|Q]]; [reflexivity| |]; congruence.
Qed.
Lemma even_attr (s : state) n v : even s -> st_items s <> [] -> clash (st_nrows s) (snd v) = false -> even (mkState (dset n v (st_items s)) (st_nrows s) (st_locked s)).
Proof.
  intros E NE C p Hp. cbn [st_items st_nrows] in *. assert (X : exists k, st_nrows s = Some (S k)) by (destruct (st_items s) as [|q r] eqn:EQ; [congruence|]; apply (E q); rewrite EQ; now left).
  apply in_dset in Hp. destruct Hp as [->|Hp]; [|now apply E]. cbn [snd]. split; [|exact X]. destruct X as (k & X). destruct (clash_ok _ _ C) as [<-|[Q|Q]]; [reflexivity| |]; congruence.
Qed.
Lemma even_items (s : state) l : even s -> (forall p, In p l -> exists k, snd (snd p) = Some (S k)) -> even (fst (set_items l s)).
Proof.
  revert s. induction l as [|[n v] l IH]; intros s E H; [exact E|]. cbn [set_items]. unfold set_attr. destruct (st_locked s); [exact E|]. destruct (clash (st_nrows s) (snd v)) eqn:C; [exact E|]. apply IH; [|intros p Hp; apply H; now right]. cbn [st_items st_locked].
  apply (even_set (mkState (st_items s) (st_nrows s) (st_locked s))); [destruct s; exact E|exact C|]. apply (H (n, v)). now left.
Qed.
Lemma req_some l k r : req_rows l (Some (S k)) = Some r -> r = Some (S k) /\ forall v, In v l -> v = Some (S k).
Proof.
  induction l as [|v l IH]; cbn [req_rows]; [intros [= <-]; split; [reflexivity|intros v []]|]. destruct v as [m|]; [|discriminate]. destruct (m =? S k) eqn:E; [|discriminate]. apply Nat.eqb_eq in E. subst m. intros H. destruct (IH H) as (-> & A). split; [reflexivity|]. intros v [<-|Hv]; [reflexivity|now apply A].
Qed.
Theorem step_even (s : state) o : even s -> ordinary o -> match o with SetAttr _ _ => st_items s <> [] | _ => True end -> even (fst (step valid s o)).
Proof.
  intros E (G & NM) NE. destruct o as [l|n v|ns vs|n v|n| | |n k]; cbn [step].
  - destruct (req_rows _ (Some 0)) as [r|] eqn:ER; [|exact E]. cbn [fst]. intros p Hp. cbn [st_items st_nrows] in *. apply in_dset_all in Hp. destruct Hp as [Hp|[]]. destruct l as [|q l]; [destruct Hp|]. cbn [map req_rows] in ER.
    destruct (G (snd q)) as (k & K); [cbn [given map]; now left|]. rewrite K in ER. apply req_some in ER. destruct ER as (-> & A). split; [|eauto]. destruct Hp as [<-|Hp]; [exact K|]. apply A. apply in_map_iff. exists p. auto.
  - unfold set_item. destruct (clash (st_nrows s) (snd v)) eqn:C; [exact E|]. destruct (_ || _); [|exact E]. unfold set_attr. destruct (st_locked s) eqn:LK; [exact E|]. rewrite C. cbn [fst st_items st_locked]. rewrite <- LK. apply even_set; [exact E|exact C|]. apply G. now left.
  - destruct (forallb _ ns); [|exact E]. apply even_items; [exact E|]. intros [n v] Hp. apply G. cbn [given snd]. now apply in_combine_r in Hp.
  - destruct (_ || _); [|exact E]. unfold set_attr. destruct (st_locked s) eqn:LK; [exact E|]. destruct (clash (st_nrows s) (snd v)) eqn:C; [exact E|]. cbn [fst]. rewrite <- LK. now apply even_attr.
  - destruct (st_locked s); [exact E|]. destruct (mem n _); [|exact E]. cbn [fst]. intros p Hp. cbn [st_items st_nrows] in *. assert (Hp' := Hp). unfold del in Hp. apply filter_In in Hp. destruct (del n (st_items s)) as [|q r]; [destruct Hp'|]. apply E. tauto.
  - exact E.
  - exact E.
  - destruct NM.
Qed.
Theorem run_even os : forall s : state, even s -> orderly valid s os -> even (fold_left (fun s o => fst (step valid s o)) os s).
Proof. induction os as [|o os IH]; intros s E H; [exact E|]. destruct H as (H1 & H2 & H3). cbn [fold_left]. apply IH; [now apply step_even|exact H3]. Qed.
End Hist.

Section Schemas.
Context {Txt : Type}.
Variables no_description no_steward : Txt.
Variables k_type k_extra k_missing : name.
Notation obj := (obj Txt).
Notation schema := (schema Txt).
Notation apply_schema := (apply_schema no_description no_steward k_type k_extra k_missing).
Notation described := (described no_description no_steward).
Lemma obj_rect' (P : obj -> Prop) : (forall t m, P (Array t m)) -> (forall t m items, Forall (fun p => P (snd p)) items -> P (Cont t m items)) -> P Other -> forall o, P o.
Proof.
  intros A B C. fix IH 1. intros [t m|t m items|]; [apply A| |exact C]. apply B. induction items as [|[k x] items IHi]; constructor; [apply IH|exact IHi].
Qed.
Lemma spelled_inv a st (cs : list (name * schema)) : spelled (Schema a st cs) -> (forall k e, dget k cs = Some e -> blank e = false) /\ (forall k e, dget k cs = Some e -> spelled e).
Proof.
  cbn [spelled]. intros H. assert (G : forall k e, In (k, e) cs -> blank e = false /\ spelled e).
  { induction cs as [|p cs IH]; [intros k e []|]. cbn [fold_right] in H. intros k e [->|Hp]; [cbn [snd] in H; tauto|]. apply (IH (proj2 (proj2 H)) k e Hp). }
  split; intros k e Q; apply dget_some_in in Q; now apply (G k e).
Qed.
Lemma distinct_inv t m (items : list (name * obj)) : distinct (Cont t m items) -> NoDup (map fst items) /\ (forall k x, In (k, x) items -> distinct x).
Proof.
  cbn [distinct]. intros (ND & H). split; [exact ND|]. clear ND. induction items as [|p items IH]; [intros k x []|]. cbn [fold_right] in H. intros k x [->|Hp]; [exact (proj1 H)|]. exact (IH (proj2 H) k x Hp).
Qed.
Lemma check_ok type st : check_type k_type type st = [] <-> type_fits st type.
Proof.
  unfold check_type, type_fits. destruct st as [[|x y]|]; [split; auto| |split; auto]. destruct (name_dec type (x :: y)) as [->|N]; split; auto; [discriminate|]. intros [Q|Q]; [discriminate|congruence].
Qed.
(** the loop over the items *)
Definition go (cs : list (name * schema)) := fix go (its : list (name * obj)) (res : list (name * entry)) : option (list (name * obj) * list (name * entry)) :=
                   match its with
                   | [] => Some ([], res)
                   | (k, x) :: r =>
                       match dget k cs with
                       | Some e =>
                           if blank e then
                             match go r (dset k_extra (Text k) res) with Some (r', res') => Some ((k, x) :: r', res') | None => None end
                           else
                             match apply_schema x e with
                             | None => None
                             | Some (x', er) =>
                                 match go r (match er with [] => res | _ => dset k (Sub er) res end) with
                                 | Some (r', res') => Some ((k, x') :: r', res')
                                 | None => None
                                 end
                             end
                       | None => match go r (dset k_extra (Text k) res) with Some (r', res') => Some ((k, x) :: r', res') | None => None end
                       end
                   end.
Lemma apply_cont type m items a st cs : apply_schema (Cont type m items) (Schema a st cs) =
  match cs with
  | [] => Some (Cont type (Some (described a)) items, check_type k_type type st)
  | _ => match go cs items (check_type k_type type st) with
         | None => None
         | Some (items', res) => Some (Cont type (Some (described a)) items', fold_left (fun res k => if mem k (map fst items) then res else dset k_missing (Text k) res) (map fst cs) res)
         end
  end.
Proof. destruct cs; reflexivity. Qed.
Lemma dset_ne {X} k (v : X) d : dset k v d <> [].
Proof. destruct d as [|[a b] d]; cbn [dset]; [discriminate|]. destruct (name_dec a k); discriminate. Qed.
Lemma missing_ne cs its res : fold_left (fun res k => if mem k its then res else dset k_missing (Text k) res) cs res = [] <-> res = [] /\ incl cs its.
Proof.
  revert res. induction cs as [|c cs IH]; intros res; cbn [fold_left]; [split; [intros ->; split; [reflexivity|intros x []]|tauto]|]. rewrite IH. destruct (mem c its) eqn:E.
  - apply mem_true in E. split; intros (A & B); (split; [exact A|]); [intros x [<-|Hx]; [exact E|now apply B]|intros x Hx; apply B; now right].
  - apply mem_false in E. split; intros (A & B); [now apply dset_ne in A|]. elim E. apply B. now left.
Qed.
(** no empty dictionary among the schemas of the contents *)
Lemma go_spec cs (items : list (name * obj)) :
  (forall k e, dget k cs = Some e -> blank e = false) ->
  forall res its' res', go cs items res = Some (its', res') ->
  Forall2 (fun p q => fst q = fst p /\ match dget (fst p) cs with Some e => exists er, apply_schema (snd p) e = Some (snd q, er) | None => snd q = snd p end) items its' /\
  (res' = [] <-> res = [] /\ forall k x, In (k, x) items -> exists e x', dget k cs = Some e /\ apply_schema x e = Some (x', [])).
Proof.
  intros NB. induction items as [|[k x] items IH]; intros res its' res'; cbn [go].
  - intros [= <- <-]. split; [constructor|]. split; [intros ->; split; [reflexivity|intros k x []]|tauto].
  - destruct (dget k cs) as [e|] eqn:ED.
    + rewrite (NB k e ED). destruct (apply_schema x e) as [[x' er]|] eqn:EA; [|discriminate]. destruct (go cs items _) as [[r' rs]|] eqn:EG; [|discriminate]. intros [= <- <-]. destruct (IH _ _ _ EG) as (F & R). split.
      * constructor; [|exact F]. cbn [fst snd]. split; [reflexivity|]. rewrite ED. eauto.
      * rewrite R. split.
        -- intros (Q & H). destruct er as [|y er]; [|now apply dset_ne in Q]. split; [exact Q|]. intros k' y [[= <- <-]|Hy]; [eauto|now apply H].
        -- intros (-> & H). destruct (H k x (or_introl eq_refl)) as (e' & x2 & A & B). rewrite ED in A. injection A as <-. rewrite EA in B. injection B as -> ->. split; [reflexivity|]. intros k' y Hy. apply H. now right.
    + destruct (go cs items _) as [[r' rs]|] eqn:EG; [|discriminate]. intros [= <- <-]. destruct (IH _ _ _ EG) as (F & R). split.
      * constructor; [|exact F]. cbn [fst snd]. split; [reflexivity|]. now rewrite ED.
      * rewrite R. split; [intros (Q & _); now apply dset_ne in Q|]. intros (_ & H). destruct (H k x (or_introl eq_refl)) as (e & x' & A & _). congruence.
Qed.
Theorem fits_iff (o : obj) : forall s o' r, distinct o -> spelled s -> apply_schema o s = Some (o', r) -> (r = [] <-> fits o s).
Proof.
  induction o as [t m|t m items IH|] using obj_rect'; intros [a st cs] o' r DI SP.
  - cbn [MuModel.apply_schema]. destruct cs; [|discriminate]. intros [= <- <-]. rewrite check_ok. split; [now constructor|]. intros F. inversion F; subst. assumption.
  - rewrite apply_cont. destruct cs as [|c0 cr] eqn:EC.
    + intros [= <- <-]. rewrite check_ok. split; [now constructor|]. intros F. inversion F; subst; assumption.
    + rewrite <- EC in *. assert (NE : cs <> []) by (rewrite EC; discriminate). clear EC c0 cr. destruct (go cs items _) as [[its' res']|] eqn:EG; [|destruct cs; [congruence|discriminate]]. intros H.
      assert (H2 : fold_left (fun res k => if mem k (map fst items) then res else dset k_missing (Text k) res) (map fst cs) res' = r) by (destruct cs; [congruence|injection H as _ H; exact H]). clear H. subst r.
      destruct (spelled_inv a st cs SP) as (NB & SUB). destruct (distinct_inv t m items DI) as (ND & DSUB).
      destruct (go_spec cs items NB _ _ _ EG) as (F2 & RE). rewrite missing_ne, RE, check_ok. rewrite Forall_forall in IH. split.
      * intros ((TF & ALL) & MI). apply FitsAll; [exact TF| |].
        -- intros k. split; [|now apply MI]. intros Hk. apply in_map_iff in Hk. destruct Hk as ([k' x] & <- & Hx). destruct (ALL k' x Hx) as (e & x' & A & _). apply dget_some_in in A. now apply (in_map fst) in A.
        -- intros k x e Hx He. apply dget_some_in in Hx. destruct (ALL k x Hx) as (e' & x' & A & B). rewrite He in A. injection A as <-. apply (IH (k, x) Hx e x' []); [now apply (DSUB k)|now apply (SUB k)|exact B|reflexivity].
      * intros F. inversion F as [| | |? ? ? ? ? ? TF SAME FX]; subst; [congruence|]. split; [split; [exact TF|]|intros k Hk; now apply SAME].
        intros k x Hx. pose proof (dget_in k x items ND Hx) as G. assert (Hk : In k (map fst cs)) by (apply SAME; now apply (in_map fst) in Hx). destruct (dget k cs) as [e|] eqn:ED; [|apply dget_none in ED; contradiction].
        exists e. assert (AP : exists x' er, apply_schema x e = Some (x', er)).
        { clear - F2 Hx ED. induction F2 as [|p q l l' (E1 & E2) F2 IH]; [destruct Hx|]. destruct Hx as [->|Hx]; [|now apply IH]. cbn [fst snd] in E2. rewrite ED in E2. destruct E2 as (er & E2). eauto. }
        destruct AP as (x' & er & AP). exists x'. split; [reflexivity|]. rewrite AP. f_equal. f_equal. apply (IH (k, x) Hx e x' er); [now apply (DSUB k)|now apply (SUB k)|exact AP|]. apply FX with k; assumption.
  - cbn [MuModel.apply_schema]. intros [= <- <-]. split; [constructor|reflexivity].
Qed.
Theorem keeps (o : obj) : forall s o' r, apply_schema o s = Some (o', r) -> bare o' = bare o.
Proof.
  induction o as [t m|t m items IH|] using obj_rect'; intros [a st cs] o' r.
  - cbn [MuModel.apply_schema]. destruct cs; [|discriminate]. now intros [= <- <-].
  - rewrite apply_cont. destruct cs as [|c0 cr] eqn:EC; [now intros [= <- <-]|]. rewrite <- EC in *. destruct (go cs items _) as [[its' res']|] eqn:EG; [|discriminate]. intros [= <- _]. cbn [bare]. f_equal.
    clear EC. revert its' res' EG. generalize (check_type k_type t st). induction items as [|[k x] items IHi]; intros res its' res'; cbn [go]; [now intros [= <- <-]|]. inversion IH as [|? ? IH1 IH2]; subst. specialize (IHi IH2).
    destruct (dget k cs) as [e|]; [destruct (blank e); [|destruct (apply_schema x e) as [[x' er]|] eqn:EA; [|discriminate]]|]; destruct (go cs items _) as [[r' rs]|] eqn:EG; try discriminate; intros [= <- <-]; cbn [map fst snd]; (apply f_equal2; [|exact (IHi _ _ _ EG)]); try reflexivity.
    cbn [snd] in IH1. now rewrite (IH1 _ _ _ EA).
  - cbn [MuModel.apply_schema]. now intros [= <- <-].
Qed.
Theorem tells (o : obj) : forall s o' r, spelled s -> apply_schema o s = Some (o', r) -> forall p x', at_path p o' = Some x' ->
  match schema_at p s with
  | Some e => x' = Other \/ about_of x' = Some (described (s_about e))
  | None => exists x, at_path p o = Some x /\ about_of x' = about_of x
  end.
Proof.
  induction o as [t m|t m items IH|] using obj_rect'; intros [a st cs] o' r SP.
  - cbn [MuModel.apply_schema]. destruct cs; [|discriminate]. intros [= <- <-] [|k p] x'; cbn [at_path]; [|discriminate]. intros [= <-]. right. reflexivity.
  - rewrite apply_cont. destruct cs as [|c0 cr] eqn:EC.
    + intros [= <- <-] [|k p] x'; cbn [at_path schema_at s_contents dget]; [intros [= <-]; right; reflexivity|]. intros H. exists x'. split; [exact H|reflexivity].
    + rewrite <- EC in *. destruct (go cs items _) as [[its' res']|] eqn:EG; [|discriminate]. intros H.
      assert (EO : o' = Cont t (Some (described a)) its') by (injection H; congruence). clear H. subst o'.
      destruct (spelled_inv a st cs SP) as (NB & SUB). destruct (go_spec cs items NB _ _ _ EG) as (F2 & _). rewrite Forall_forall in IH.
      intros [|k p] x'; [cbn [at_path schema_at]; intros [= <-]; right; reflexivity|]. cbn [at_path schema_at s_contents]. destruct (dget k its') as [y'|] eqn:ED; [|discriminate]. intros H.
      assert (X : exists y, In (k, y) items /\ dget k items = Some y /\ match dget k cs with Some e => exists er, apply_schema y e = Some (y', er) | None => y' = y end).
      { clear - F2 ED. induction F2 as [|[k1 y1] [k2 y2] l l' (E1 & E2) F2 IH]; [discriminate|]. cbn [fst snd] in *. subst k2. cbn [dget] in *. destruct (name_dec k1 k) as [->|].
        - injection ED as <-. exists y1. split; [now left|]. split; [reflexivity|exact E2].
        - destruct (IH ED) as (y & A & B). exists y. split; [now right|exact B]. }
      destruct X as (y & Hy & Gy & X). destruct (dget k cs) as [e|] eqn:Ek.
      * destruct X as (er & X). pose proof (IH (k, y) Hy e y' er (SUB k e Ek) X p x' H) as G. destruct (schema_at p e); [exact G|]. rewrite Gy. exact G.
      * subst y'. exists x'. rewrite Gy. auto.
  - cbn [MuModel.apply_schema]. intros [= <- <-] [|k p] x'; cbn [at_path]; [|discriminate]. intros [= <-]. now left.
Qed.
Theorem answers (o : obj) : forall s, distinct o -> spelled s -> askable o s -> exists o' r, apply_schema o s = Some (o', r).
Proof.
  induction o as [t m|t m items IH|] using obj_rect'; intros [a st cs] DI SP AK.
  - cbn [MuModel.apply_schema]. pose proof (AK [] t m _ eq_refl eq_refl) as Q. cbn [s_contents] in Q. rewrite Q. eauto.
  - rewrite apply_cont. destruct cs as [|c0 cr] eqn:EC; [eauto|]. rewrite <- EC in *. destruct (spelled_inv a st cs SP) as (NB & SUB). destruct (distinct_inv t m items DI) as (ND & DSUB).
    assert (G : forall res, exists its' res', go cs items res = Some (its', res')); [|destruct (G (check_type k_type t st)) as (i' & r' & ->); eauto].
    assert (AM : forall k x e, In (k, x) items -> dget k cs = Some e -> exists x' er, apply_schema x e = Some (x', er)).
    { rewrite Forall_forall in IH. intros k x e Hx He. apply (IH (k, x) Hx e); [now apply (DSUB k)|now apply (SUB k)|]. intros p t' m' e' P1 P2. apply (AK (k :: p) t' m' e').
      - cbn [at_path]. rewrite (dget_in k x items ND Hx). exact P1.
      - cbn [schema_at s_contents]. now rewrite He. }
    clear IH AK DI ND DSUB. induction items as [|[k x] items IHi]; intros res; cbn [go]; [eauto|]. specialize (IHi (fun k0 x0 e H => AM k0 x0 e (or_intror H))).
    destruct (dget k cs) as [e|] eqn:Ek; [rewrite (NB k e Ek); destruct (AM k x e (or_introl eq_refl) Ek) as (x' & er & ->)|].
    + destruct (IHi (match er with [] => res | _ => dset k (Sub er) res end)) as (i' & r' & ->). eauto.
    + destruct (IHi (dset k_extra (Text k) res)) as (i' & r' & ->). eauto.
  - cbn [MuModel.apply_schema]. eauto.
Qed.
End Schemas.
