(** Proofs about the Dataset container (1): memory, columns, the row-count invariant. *)
From Coq Require Import List Arith Bool ZArith Lia.
From Verif Require Import FlattenModel FlattenProofs MergeModel MergeFacts DsModel DsProofs DsProofs3 SortProofs2 TabModel TabSpec.
Import ListNotations.

Lemma upd_len {X} i (v : X) l : length (upd i v l) = length l.
Proof. apply upd_length. Qed.
Lemma scatter_len {X} idx : forall (vals l : list X), length (scatter idx vals l) = length l.
Proof. induction idx as [|i r IH]; intros [|v vs] l; cbn; auto. now rewrite IH, upd_len. Qed.

Section Tab.
Context {V : Type}.
Variable junk inv : V.
Notation read := (read junk).
Implicit Types w : world V.

Lemma read_length w a : length (read w a) = alen a.
Proof. unfold TabModel.read. now rewrite map_length. Qed.
Lemma read_alloc w l a : base a < length (mem w) -> read (fst (alloc w l)) a = read w a.
Proof. intros H. unfold TabModel.read, block. cbn. apply map_ext. intros p. now rewrite app_nth1. Qed.
Lemma inside_alloc w l a : inside w a -> inside (fst (alloc w l)) a.
Proof.
  intros (A & B & C). repeat split; auto; unfold block in *; cbn; [rewrite app_length; lia|].
  intros p Hp. rewrite app_nth1 by assumption. auto.
Qed.
Lemma alloc_inside w l : inside (fst (alloc w l)) (snd (alloc w l)).
Proof.
  unfold inside, block. cbn. rewrite app_length, app_nth2, Nat.sub_diag by lia. cbn. split; [lia|]. split.
  - intros p Hp. apply in_seq in Hp. lia.
  - apply seq_NoDup.
Qed.
Lemma alloc_read w l : read (fst (alloc w l)) (snd (alloc w l)) = l.
Proof.
  unfold TabModel.read, block. cbn. rewrite app_nth2, Nat.sub_diag by lia. cbn.
  apply nth_ext with (d := junk) (d' := junk); [now rewrite map_length, seq_length|].
  intros k Hk. rewrite map_length, seq_length in Hk.
  rewrite (nth_indep _ junk (nth 0 l junk)) by (now rewrite map_length, seq_length).
  rewrite map_nth with (f := fun p => nth p l junk) (d := 0). now rewrite seq_nth.
Qed.
Lemma alloc_alen w l : alen (snd (alloc w l)) = length l.
Proof. cbn. unfold alen. cbn. apply seq_length. Qed.

(** memory only grows *)
Definition grows w w' := forall a, inside w a -> inside w' a /\ read w' a = read w a.
Lemma grows_refl w : grows w w. Proof. split; auto. Qed.
Lemma grows_trans w1 w2 w3 : grows w1 w2 -> grows w2 w3 -> grows w1 w3.
Proof. intros A B a I. destruct (A a I) as [I2 E]. destruct (B a I2) as [I3 E3]. split; congruence. Qed.
Lemma grows_alloc w l : grows w (fst (alloc w l)).
Proof. intros a I. split; [now apply inside_alloc|apply read_alloc, I]. Qed.

(** ** check_addtype *)
Lemma repeat1_len (l : list V) n : length l = 1 -> length (repeat1 l n) = n.
Proof. destruct l as [|x [|y r]]; cbn; try discriminate. intros _. apply repeat_length. Qed.

Definition finish w (nr : option nat) (a : array) : world V * option nat * (array + exn) :=
  let '(w, a) := match nr with
                 | Some n => if (alen a =? 1) && (1 <? n) then alloc w (repeat1 (read w a) n) else (w, a)
                 | None => (w, a)
                 end in
  match check_add_dimensions nr (alen a) with
  | (nr, None) => (w, nr, inl a)
  | (nr, Some e) => (w, nr, inr e)
  end.
Lemma finish_spec w nr a : inside w a ->
  exists w' r, finish w nr a = (w', match nr with Some n => Some n | None => Some (alen a) end, r) /\ grows w w' /\
   match r with
   | inl a' => inside w' a' /\ Some (alen a') = (match nr with Some n => Some n | None => Some (alen a) end) /\
      as_column junk w (alen a') (VArr a) = Some (read w' a') /\
      (match nr with Some n => alen a = n | None => True end -> a' = a /\ w' = w)
   | inr e => e = EValue /\ exists n, nr = Some n /\ as_column junk w n (VArr a) = None
   end.
Proof.
  intros I. unfold finish.
  destruct nr as [n|]; cbn [check_add_dimensions].
  - destruct (Nat.eqb_spec (alen a) 1) as [E1|E1], (Nat.ltb_spec 1 n) as [L|L]; cbn [andb]; cbv zeta.
    + destruct (alloc w (repeat1 (read w a) n)) as [w' a'] eqn:EA.
      assert (EL : alen a' = n).
      { replace a' with (snd (alloc w (repeat1 (read w a) n))) by now rewrite EA. rewrite alloc_alen. apply repeat1_len. now rewrite read_length. }
      cbn [check_add_dimensions]. rewrite EL, Nat.eqb_refl. exists w', (inl a'). split; [reflexivity|].
      replace w' with (fst (alloc w (repeat1 (read w a) n))) by now rewrite EA.
      replace a' with (snd (alloc w (repeat1 (read w a) n))) in * by now rewrite EA.
      split; [apply grows_alloc|]. split; [apply alloc_inside|]. rewrite EL. split; [reflexivity|]. rewrite alloc_read. split; [|lia].
      cbn [as_column]. rewrite E1. replace (1 =? n) with false by (symmetry; apply Nat.eqb_neq; lia).
      pose proof (read_length w a) as RL. destruct (read w a) as [|x [|y r]]; cbn in RL; try lia. cbn [repeat1].
      replace (1 <=? n) with true by (symmetry; apply Nat.leb_le; lia). reflexivity.
    + exists w. destruct (Nat.eqb_spec n (alen a)) as [En|En].
      * exists (inl a). split; [reflexivity|]. split; [apply grows_refl|]. split; [assumption|]. split; [congruence|]. split; [|auto].
        cbn [as_column]. now rewrite Nat.eqb_refl.
      * exists (inr EValue). split; [reflexivity|]. split; [apply grows_refl|]. split; [reflexivity|]. exists n. split; [reflexivity|].
        cbn [as_column]. rewrite (proj2 (Nat.eqb_neq _ _)) by congruence.
        destruct (read w a) as [|x [|y r]]; auto. replace (1 <=? n) with false by (symmetry; apply Nat.leb_gt; lia). reflexivity.
    + exists w. destruct (Nat.eqb_spec n (alen a)) as [En|En].
      * exists (inl a). split; [reflexivity|]. split; [apply grows_refl|]. split; [assumption|]. split; [congruence|]. split; [|auto].
        cbn [as_column]. now rewrite Nat.eqb_refl.
      * exists (inr EValue). split; [reflexivity|]. split; [apply grows_refl|]. split; [reflexivity|]. exists n. split; [reflexivity|].
        cbn [as_column]. rewrite (proj2 (Nat.eqb_neq _ _)) by congruence.
        pose proof (read_length w a) as RL. destruct (read w a) as [|x [|y r]]; cbn in RL; auto. lia.
    + exists w. destruct (Nat.eqb_spec n (alen a)) as [En|En].
      * exists (inl a). split; [reflexivity|]. split; [apply grows_refl|]. split; [assumption|]. split; [congruence|]. split; [|auto].
        cbn [as_column]. now rewrite Nat.eqb_refl.
      * exists (inr EValue). split; [reflexivity|]. split; [apply grows_refl|]. split; [reflexivity|]. exists n. split; [reflexivity|].
        cbn [as_column]. rewrite (proj2 (Nat.eqb_neq _ _)) by congruence.
        pose proof (read_length w a) as RL. destruct (read w a) as [|x [|y r]]; cbn in RL; auto. lia.
  - cbn zeta. exists w, (inl a). split; [reflexivity|]. split; [apply grows_refl|]. split; [assumption|]. split; [reflexivity|]. split; [|auto].
    cbn [as_column]. now rewrite Nat.eqb_refl.
Qed.

Definition value_inside w (v : value V) := match v with VArr a => inside w a | _ => True end.

(** the fate of [_nrows] *)
Definition rows_after (nr : option nat) (v : value V) : option nat :=
  match nr with
  | Some n => Some n
  | None => match v with VArr a => Some (alen a) | VList l => Some (length l) | VScalar _ => Some 1 | VObjects n => Some n | VSet => None end
  end.
Lemma finish_exact w n a : inside w a -> alen a = n -> finish w (Some n) a = (w, Some n, inl a).
Proof.
  intros I E. unfold finish. replace ((alen a =? 1) && (1 <? n)) with false.
  - cbn. now rewrite E, Nat.eqb_refl.
  - symmetry. apply andb_false_iff. destruct (Nat.eqb_spec (alen a) 1); [right; apply Nat.ltb_ge; lia|now left].
Qed.
Lemma check_addtype_spec w nr v : value_inside w v ->
  exists w' r, check_addtype junk w nr v = (w', rows_after nr v, r) /\ grows w w' /\
   match r with
   | inl a => inside w' a /\ Some (alen a) = rows_after nr v /\ as_column junk w (alen a) v = Some (read w' a)
   | inr e => forall n, nr = Some n -> as_column junk w n v = None
   end.
Proof.
  intros I. destruct v as [a|l|x|k|]; cbn [value_inside] in I.
  - destruct (finish_spec w nr a I) as (w' & r & E & G & H). exists w', r.
    split; [change (finish w nr a = (w', rows_after nr (VArr a), r)); rewrite E; now destruct nr|]. split; [assumption|].
    destruct r as [a'|e].
    + destruct H as (A & B & C & _). split; [assumption|]. split; [|assumption]. rewrite B. now destruct nr.
    + destruct H as (-> & n & -> & D). intros n' [= <-]. exact D.
  - set (n := match nr with Some n => n | None => length l end).
    assert (ER : rows_after nr (VList l) = Some n) by (subst n; now destruct nr).
    rewrite ER. unfold check_addtype. cbv zeta. fold n.
    set (l' := if (length l =? 1) && negb (n =? 1) then repeat1 l n else l).
    assert (AC : length l' = n -> as_column junk w n (VList l) = Some l').
    { intros E. unfold l' in *. cbn [as_column]. destruct l as [|x [|y r]]; [| |change ((length (x :: y :: r) =? 1) && negb (n =? 1)) with false in *; cbv iota in *]; [cbn [length Nat.eqb andb] in *..|].
      - now rewrite <- E.
      - destruct (Nat.eqb_spec n 1) as [->|]; cbn [negb] in *; auto.
      - rewrite E, Nat.eqb_refl. reflexivity. }
    assert (NC : length l' <> n -> as_column junk w n (VList l) = None).
    { intros E. unfold l' in *. cbn [as_column]. destruct l as [|x [|y r]]; [| |change ((length (x :: y :: r) =? 1) && negb (n =? 1)) with false in *; cbv iota in *]; [cbn [length Nat.eqb andb] in *..|].
      - destruct n; auto. congruence.
      - exfalso. apply E. destruct (Nat.eqb_spec n 1) as [Hn|]; cbn [negb repeat1]; [cbn; lia|apply repeat_length].
      - rewrite (proj2 (Nat.eqb_neq _ _)) by assumption. reflexivity. }
    destruct (Nat.eqb_spec (length l') n) as [E|E].
    + change (alloc w l') with (fst (alloc w l'), snd (alloc w l')). cbv iota beta.
      exists (fst (alloc w l')), (inl (snd (alloc w l'))).
      split; [exact (finish_exact _ n _ (alloc_inside w l') (eq_trans (alloc_alen w l') E))|].
      split; [apply grows_alloc|]. split; [apply alloc_inside|]. rewrite alloc_alen, E. split; [reflexivity|]. rewrite alloc_read. auto.
    + exists w, (inr EValue). split; [reflexivity|]. split; [apply grows_refl|]. intros n' En.
      assert (n' = n) by (subst n; now rewrite En). subst n'. auto.
  - set (n := match nr with Some n => n | None => 1 end).
    assert (ER : rows_after nr (VScalar x) = Some n) by (subst n; now destruct nr).
    rewrite ER. unfold check_addtype. cbv zeta. fold n.
    change (alloc w (repeat x n)) with (fst (alloc w (repeat x n)), snd (alloc w (repeat x n))). cbv iota beta.
    exists (fst (alloc w (repeat x n))), (inl (snd (alloc w (repeat x n)))).
    assert (EL : alen (snd (alloc w (repeat x n))) = n) by (rewrite alloc_alen; apply repeat_length).
    split; [exact (finish_exact _ n _ (alloc_inside _ _) EL)|].
    split; [apply grows_alloc|]. split; [apply alloc_inside|]. rewrite EL. split; [reflexivity|]. rewrite alloc_read. reflexivity.
  - unfold check_addtype. cbv zeta. exists w.
    destruct ((k =? match nr with Some n => n | None => k end) || (k =? 1)); eexists; (split; [destruct nr; reflexivity|]);
      (split; [apply grows_refl|]); intros; reflexivity.
  - exists w, (inr EType). split; [destruct nr; reflexivity|]. split; [apply grows_refl|]. reflexivity.
Qed.

End Tab.
