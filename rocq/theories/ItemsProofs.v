(** Proofs for C10-C12, C14. *)
From Coq Require Import String Ascii List Arith Bool Lia Permutation.
From Verif Require Import ItemsModel ItemsSpec ItemsFacts.
Import ListNotations.
Open Scope list_scope.

Section P.
Context {V A : Type}.
Variable attr_kind : string -> option bool.
Variable restricted : string -> bool.
Implicit Types st : struct V A.
Implicit Types d : container V A.
Notation valid := (valid_colname restricted).
Notation setattr := (setattr attr_kind restricted).
Notation step := (step attr_kind restricted).
Notation col_set_value := (col_set_value restricted).
Notation col_rename := (col_rename restricted).

(** *** basic shape lemmas *)
Lemma update_sort_items n st : items (update_sort n st) = items st.
Proof. unfold update_sort. destruct (sortl st) as [l|]; [destruct (smem n l)|]; reflexivity. Qed.
Lemma update_sort_ncols n st : ncols (update_sort n st) = ncols st.
Proof. unfold update_sort. destruct (sortl st) as [l|]; [destruct (smem n l)|]; reflexivity. Qed.
Lemma update_sort_locked n st : locked (update_sort n st) = locked st.
Proof. unfold update_sort. destruct (sortl st) as [l|]; [destruct (smem n l)|]; reflexivity. Qed.
Lemma update_sort_sub n st l : sortl (update_sort n st) = Some l -> sortl st = Some l /\ ~ In n l.
Proof.
  unfold update_sort. destruct (sortl st) as [l'|] eqn:G.
  - destruct (smem n l') eqn:M; cbn; [discriminate|]. rewrite G. intros [= <-].
    split; [reflexivity|]. now apply smem_not.
  - rewrite G. discriminate.
Qed.

Definition target (n : string) : string :=
  match n with
  | EmptyString => n
  | String c _ => if negb (valid n) && a_lower c then capitalize n else n
  end.
Lemma target_valid n : valid n = true -> target n = n.
Proof. unfold target. intros ->. destruct n; reflexivity. Qed.
Lemma valid_nonempty n : valid n = true -> n <> EmptyString.
Proof. now intros H ->. Qed.
Lemma valid_no_underscore n : valid n = true -> starts_underscore n = false.
Proof.
  destruct n as [|c r]; [reflexivity|]. cbn. destruct (Ascii.eqb c "_"); [discriminate|reflexivity].
Qed.
Lemma valid_not_restricted n : valid n = true -> restricted n = false.
Proof. destruct n as [|c r]; cbn; [discriminate|]. destruct (restricted _); [rewrite andb_false_r; discriminate|reflexivity]. Qed.

Lemma col_set_value_items n v st :
  items (fst (col_set_value n v st)) = match n with EmptyString => items st | _ => item_set_value (target n) v (items st) end.
Proof. destruct n as [|c r]; [reflexivity|]. cbn [col_set_value fst]. now rewrite update_sort_items. Qed.
Lemma col_set_value_exc n v st : n <> EmptyString -> snd (col_set_value n v st) = None.
Proof. destruct n; [congruence|reflexivity]. Qed.
Lemma col_set_value_ncols n v st : ncols (fst (col_set_value n v st)) = ncols st.
Proof. destruct n as [|c r]; [reflexivity|]. cbn [col_set_value fst]. now rewrite update_sort_ncols. Qed.
Lemma col_set_value_locked n v st : locked (fst (col_set_value n v st)) = locked st.
Proof. destruct n as [|c r]; [reflexivity|]. cbn [col_set_value fst]. now rewrite update_sort_locked. Qed.

Lemma col_set_value_nodup n v st : NoDup (keys (items st)) -> NoDup (keys (items (fst (col_set_value n v st)))).
Proof. rewrite col_set_value_items. destruct n; [auto|]. apply item_set_nodup. Qed.

Lemma addnew_items n v st : items (fst (addnewitem restricted n v st)) = items (fst (col_set_value n v st)).
Proof. unfold addnewitem. destruct (col_set_value n v st) as [s [e|]]; reflexivity. Qed.

Lemma setattr_nodup n v st : NoDup (keys (items st)) -> NoDup (keys (items (fst (setattr n v st)))).
Proof.
  intros H. unfold ItemsModel.setattr, replaceitem.
  destruct (starts_underscore n); [exact H|]. destruct (locked st); [exact H|].
  destruct (dmem n (items st)).
  - apply col_set_value_nodup. now rewrite update_sort_items.
  - destruct (attr_kind n) as [[|]|]; [exact H| |].
    + apply col_set_value_nodup. now rewrite update_sort_items.
    + rewrite addnew_items. now apply col_set_value_nodup.
Qed.
Lemma deleteitem_nodup n st : NoDup (keys (items st)) -> NoDup (keys (items (fst (deleteitem n st)))).
Proof.
  intros H. unfold deleteitem. destruct (dmem n (items st)); [|exact H]. cbn [fst].
  rewrite update_sort_items. now apply nodup_ddel.
Qed.

Lemma rename_keys_inj (old new : string) l : ~ In new l -> NoDup l ->
  NoDup (map (fun k => if String.eqb k old then new else k) l).
Proof.
  intros N H. apply nodup_map_inj; [|exact H]. intros a b Ha Hb.
  seq a old; seq b old; intros; subst; auto; contradiction.
Qed.
Lemma item_rename_ok old new d : NoDup (keys d) -> old <> new -> In old (keys d) -> ~ In new (keys d) ->
  item_rename old new d =
  (map (fun kv => (if String.eqb (fst kv) old then new else fst kv, snd kv)) d, None).
Proof.
  intros N H I J. unfold item_rename.
  apply eqb_no in H. rewrite H. apply dmem_in in I. rewrite I. apply dmem_not in J. rewrite J. cbn.
  f_equal. apply (rebuild_map (fun k => if String.eqb k old then new else k)).
  apply rename_keys_inj; [now apply dmem_not|exact N].
Qed.
(** all the ways [item_rename] can answer *)
Lemma item_rename_cases old new d : NoDup (keys d) ->
  (old = new /\ item_rename old new d = (d, None)) \/
  (old <> new /\ (~ In old (keys d) \/ In new (keys d)) /\ item_rename old new d = (d, Some EValue)) \/
  (old <> new /\ In old (keys d) /\ ~ In new (keys d) /\
   item_rename old new d = (map (fun kv => (if String.eqb (fst kv) old then new else fst kv, snd kv)) d, None)).
Proof.
  intros N. seq old new; [left; unfold item_rename; now rewrite String.eqb_refl|]. right.
  destruct (dmem old d) eqn:I; [destruct (dmem new d) eqn:J|].
  - left. split; [assumption|]. split; [right; now apply dmem_in|]. unfold item_rename. apply eqb_no in n. now rewrite n, I, J.
  - right. split; [assumption|]. split; [now apply dmem_in|]. split; [now apply dmem_not|].
    apply item_rename_ok; auto; [now apply dmem_in|now apply dmem_not].
  - left. split; [assumption|]. split; [left; now apply dmem_not|]. unfold item_rename. apply eqb_no in n. now rewrite n, I.
Qed.

Lemma keys_map_entry {E} (f : string -> string) (d : dict E) :
  keys (map (fun kv => (f (fst kv), snd kv)) d) = map f (keys d).
Proof. unfold keys. rewrite !map_map. reflexivity. Qed.

Lemma col_rename_nodup o n st : NoDup (keys (items st)) -> NoDup (keys (items (fst (col_rename o n st)))).
Proof.
  intros H. unfold ItemsModel.col_rename.
  destruct (String.eqb o n); [exact H|]. destruct (locked st); [exact H|].
  destruct (negb (valid n)); [exact H|].
  destruct (item_rename_cases o n (items st) H) as [[_ ->]|[(_ & _ & ->)|(Hn & I & J & ->)]]; cbn; try exact H.
  refine (eq_ind_r (@NoDup string) _ (keys_map_entry (fun k => if String.eqb k o then n else k) (items st))).
  now apply rename_keys_inj.
Qed.

Definition front_of cols d : container V A :=
  fold_left (fun acc cn => match dget cn d with Some e => dset cn e acc | None => acc end) cols [].
Lemma move_front_nodup cols d : NoDup (keys d) -> NoDup (keys (fst (item_move_to_front cols d))).
Proof.
  intros H. unfold item_move_to_front. destruct (too_many cols d); [exact H|]. cbn [fst].
  fold (front_of cols d).
  assert (F : NoDup (keys (front_of cols d))).
  { unfold front_of. assert (G : forall l (acc : container V A), NoDup (keys acc) -> NoDup (keys (fold_left
      (fun acc cn => match dget cn d with Some e => dset cn e acc | None => acc end) l acc))).
    { induction l as [|x l IH]; cbn; intros acc K; [exact K|]. apply IH. destruct (dget x d); [now apply nodup_dset|exact K]. }
    apply G. constructor. }
  assert (G : forall l (acc : container V A), NoDup (keys acc) -> NoDup (keys (fold_left
     (fun acc kv => if dmem (fst kv) acc then acc else dset (fst kv) (snd kv) acc) l acc))).
  { induction l as [|x l IH]; cbn; intros acc K; [exact K|]. apply IH. destruct (dmem _ _); [exact K|now apply nodup_dset]. }
  now apply G.
Qed.
Lemma move_back_nodup cols d : NoDup (keys d) -> NoDup (keys (fst (item_move_to_back cols d))).
Proof.
  intros H. unfold item_move_to_back. destruct (too_many cols d); [exact H|]. cbn [fst].
  revert d H. induction cols as [|x l IH]; cbn; intros d K; [exact K|].
  apply IH. destruct (dget x d); [|exact K]. now apply nodup_dset, nodup_ddel.
Qed.
Lemma bind_inv (P : struct V A -> Prop) r f :
  P (fst r) -> (forall s, P s -> P (fst (f s))) -> P (fst (bind r f)).
Proof. destruct r as [s [e|]]; cbn; auto. Qed.

Lemma swap_assign_nodup temp tos : forall froms st, NoDup (keys (items st)) ->
  NoDup (keys (items (fst (swap_assign attr_kind restricted temp tos froms st)))).
Proof.
  induction tos as [|k1 tos IH]; cbn; intros froms st H; [exact H|].
  destruct froms as [|k2 froms]; [exact H|]. destruct (dget k2 temp); [|exact H].
  apply (bind_inv (fun s => NoDup (keys (items s)))); [now apply setattr_nodup|]. intros s Hs. now apply IH.
Qed.
Lemma col_swap_nodup f t st : NoDup (keys (items st)) -> NoDup (keys (items (fst (col_swap attr_kind restricted f t st)))).
Proof.
  intros H. unfold col_swap. destruct (locked st); [exact H|]. destruct (names_eqb f t); [exact H|].
  destruct (negb _); [exact H|]. destruct (swap_temp f st); [|exact H]. now apply swap_assign_nodup.
Qed.
Lemma do_renames_nodup rs : forall st, NoDup (keys (items st)) -> NoDup (keys (items (fst (do_renames restricted rs st)))).
Proof.
  induction rs as [|[o n] rs IH]; cbn; intros st H; [exact H|].
  apply (bind_inv (fun s => NoDup (keys (items s)))); [now apply col_rename_nodup|]. intros s Hs. now apply IH.
Qed.
Lemma do_swaps_nodup rs : forall st, NoDup (keys (items st)) -> NoDup (keys (items (fst (do_swaps attr_kind restricted rs st)))).
Proof.
  induction rs as [|[o n] rs IH]; cbn; intros st H; [exact H|].
  apply (bind_inv (fun s => NoDup (keys (items s)))); [now apply col_swap_nodup|]. intros s Hs. now apply IH.
Qed.
Lemma col_map_nodup m st : NoDup (keys (items st)) -> NoDup (keys (items (fst (col_map attr_kind restricted m st)))).
Proof.
  intros H. unfold col_map. destruct (locked st); [exact H|]. destruct (_ <? _); [exact H|].
  destruct (existsb _ _); [|now apply do_renames_nodup].
  destruct (safe_reorder m (keys (items st))) as [[ren sw]|e]; [|exact H].
  apply (bind_inv (fun s => NoDup (keys (items s)))); [now apply do_renames_nodup|]. intros s Hs. now apply do_swaps_nodup.
Qed.

Lemma remove_nodup l : forall st, NoDup (keys (items st)) ->
  NoDup (keys (items (fold_left (fun s n => fst (deleteitem n s)) l st))).
Proof. induction l as [|x l IH]; cbn; intros st H; [exact H|]. apply IH. now apply deleteitem_nodup. Qed.

Lemma step_nodup o st : NoDup (keys (items st)) -> NoDup (keys (items (fst (step o st)))).
Proof.
  intros H. destruct o; cbn [ItemsModel.step].
  - now apply setattr_nodup.
  - unfold setitem. destruct (valid n); [now apply setattr_nodup|exact H].
  - unfold delattr. destruct (locked st); [exact H|now apply deleteitem_nodup].
  - unfold col_remove. destruct (locked st); [exact H|]. now apply remove_nodup.
  - now apply col_rename_nodup.
  - unfold col_move_to_front. destruct (locked st); [exact H|].
    pose proof (move_front_nodup l (items st) H). destruct (item_move_to_front l (items st)). exact H0.
  - unfold col_move_to_back. destruct (locked st); [exact H|].
    pose proof (move_back_nodup l (items st) H). destruct (item_move_to_back l (items st)). exact H0.
  - apply rebuild_nodup.
  - apply rebuild_nodup.
  - unfold col_str_replace, item_str_replace.
    destruct (existsb _ _); [exact H|]. destruct (existsb _ _); [|exact H].
    destruct (sortl st); cbn; apply rebuild_nodup.
  - unfold col_set_attribute, item_set_attribute. destruct (dget n (items st)) as [[v a]|]; cbn; [|exact H].
    now apply nodup_dset.
  - unfold set_sortlist. destruct (forallb _ _); exact H.
  - now apply col_swap_nodup.
  - now apply col_map_nodup.
  - exact H.
Qed.

Lemma run_nodup_gen ops : forall st, NoDup (keys (items st)) ->
  NoDup (keys (items (fold_left (fun s o => fst (step o s)) ops st))).
Proof. induction ops as [|o r IH]; cbn; intros st H; [exact H|]. apply IH. now apply step_nodup. Qed.

Lemma names_distinct ops : NoDup (colnames (run (V:=V) (A:=A) attr_kind restricted ops)).
Proof. apply run_nodup_gen. constructor. Qed.

Lemma retrievable_gen st : NoDup (colnames st) ->
  forall n, In n (colnames st) <-> exists v, value st n = Some v.
Proof. intros _ n. apply value_some. Qed.

(** *** C10: set and delete *)
Lemma set_effect st n v :
  NoDup (colnames st) -> locked st = false -> valid n = true ->
  (In n (colnames st) \/ attr_kind n = None) ->
  let st' := fst (setattr n v st) in
  snd (setattr n v st) = None /\
  (In n (colnames st) -> colnames st' = colnames st /\ ncols st' = ncols st) /\
  (~ In n (colnames st) -> colnames st' = colnames st ++ [n] /\ ncols st' = S (ncols st)) /\
  (forall k, value st' k = if String.eqb k n then Some v else value st k) /\
  (forall k, attr st' k = attr st k).
Proof.
  intros N L Va Ha. unfold ItemsModel.setattr. rewrite (valid_no_underscore _ Va), L.
  destruct (dmem n (items st)) eqn:M; cbn zeta.
  - unfold replaceitem.
    split; [apply col_set_value_exc; now apply valid_nonempty|].
    split; [|split; [|split]].
    + intros _. rewrite col_set_value_ncols, update_sort_ncols. split; [|reflexivity].
      unfold colnames. rewrite col_set_value_items, update_sort_items, (target_valid _ Va).
      destruct n; [discriminate|]. fold (keys (items st)) in *.
      transitivity (keys (item_set_value (String a n) v (items st))); [reflexivity|]. now rewrite item_set_keys, M.
    + intros H. elim H. now apply dmem_in.
    + intros k. rewrite !value_dget, col_set_value_items, update_sort_items, (target_valid _ Va).
      destruct n; [discriminate|]. apply item_set_get.
    + intros k. rewrite !attr_dget, col_set_value_items, update_sort_items, (target_valid _ Va).
      destruct n; [discriminate|]. apply item_set_attr.
  - destruct Ha as [Ha|Ha]; [apply dmem_in in Ha; congruence|]. rewrite Ha. unfold addnewitem.
    pose proof (col_set_value_exc n v st (valid_nonempty _ Va)) as E.
    pose proof (col_set_value_ncols n v st) as C. pose proof (col_set_value_items n v st) as I.
    destruct (col_set_value n v st) as [s e]. cbn in E, C, I. subst e. cbn [fst snd].
    rewrite (target_valid _ Va) in I.
    assert (I' : items s = item_set_value n v (items st)) by (destruct n; [discriminate|exact I]).
    split; [reflexivity|]. split; [|split; [|split]].
    + intros H. apply dmem_in in H. congruence.
    + intros _. cbn. rewrite C. split; [|reflexivity]. unfold colnames. cbn. rewrite I'.
      transitivity (keys (item_set_value n v (items st))); [reflexivity|]. now rewrite item_set_keys, M.
    + intros k. rewrite !value_dget. cbn [items with_ncols]. rewrite I'. apply item_set_get.
    + intros k. rewrite !attr_dget. cbn [items with_ncols]. rewrite I'. apply item_set_attr.
Qed.

Lemma delete_effect st n :
  NoDup (colnames st) -> locked st = false ->
  let st' := fst (delattr n st) in
  (In n (colnames st) ->
     snd (delattr n st) = None /\ colnames st' = filter (fun k => negb (String.eqb n k)) (colnames st) /\
     ncols st' = ncols st - 1 /\
     (forall k, k <> n -> value st' k = value st k /\ attr st' k = attr st k) /\ value st' n = None) /\
  (~ In n (colnames st) -> delattr n st = (st, Some EIndex)).
Proof.
  intros N L. unfold delattr. rewrite L. unfold deleteitem. cbn zeta. split.
  - intros H. assert (M : dmem n (items st) = true) by now apply dmem_in. rewrite M. cbn [fst snd].
    split; [reflexivity|]. unfold colnames. rewrite update_sort_items, update_sort_ncols. cbn [items ncols with_ncols with_items].
    split; [exact (keys_ddel n (items st) N)|]. split; [reflexivity|]. split.
    + intros k Hk. rewrite !value_dget, !attr_dget, update_sort_items. cbn [items with_ncols with_items].
      unfold item_get_value. rewrite (dget_ddel k n _ N). apply eqb_no in Hk. rewrite Hk. split; reflexivity.
    + rewrite value_dget, update_sort_items. cbn [items with_ncols with_items].
      unfold item_get_value. now rewrite (dget_ddel n n _ N), String.eqb_refl.
  - intros H. apply dmem_not in H. unfold dmem in *. fold (keys (items st)) in H. now rewrite H.
Qed.

(** *** C10: the whole invariant over ordinary histories *)
Record Inv st : Prop := mkInv {
  inv_nodup : NoDup (keys (items st));
  inv_valid : Forall (fun n => valid n = true) (keys (items st));
  inv_count : ncols st = length (items st);
  inv_sort : forall l, sortl st = Some l -> forall c, In c l -> In c (keys (items st)) }.

Lemma inv_with_same st st' : items st' = items st -> ncols st' = ncols st ->
  (forall l, sortl st' = Some l -> sortl st = Some l) -> Inv st -> Inv st'.
Proof.
  intros I C S [N Va Co So]. constructor; rewrite ?I, ?C; auto. intros l H c Hc. rewrite ?I. apply (So l); auto.
Qed.
Lemma inv_update_sort n st : Inv st -> Inv (update_sort n st).
Proof.
  apply inv_with_same; [apply update_sort_items|apply update_sort_ncols|].
  intros l H. now apply update_sort_sub in H.
Qed.

Lemma length_item_set k v d : length (item_set_value k v d) = if dmem k d then length d else S (length d).
Proof.
  pose proof (item_set_keys k v d) as K. apply (f_equal (@length _)) in K. unfold keys in K.
  rewrite map_length in K. rewrite K. destruct (dmem k d).
  - apply map_length.
  - rewrite app_length, map_length. cbn. lia.
Qed.

Lemma item_set_in k v d x : In x (keys (item_set_value k v d)) <-> x = k \/ In x (keys d).
Proof.
  rewrite item_set_keys. destruct (dmem k d) eqn:G.
  - apply dmem_in in G. split; [auto|intros [->|]; auto].
  - rewrite in_app_iff. cbn. split; intros; intuition congruence.
Qed.

Lemma put_inv n v st c' : Inv st -> valid n = true ->
  c' = (if dmem n (items st) then ncols st else S (ncols st)) ->
  Inv (mkS (item_set_value n v (items st)) c' (sortl (update_sort n st)) (locked st)).
Proof.
  intros [N Va Co So] H ->. constructor; cbn.
  - now apply item_set_nodup.
  - apply Forall_forall. intros x Hx. apply item_set_in in Hx. destruct Hx as [->|Hx]; [exact H|].
    rewrite Forall_forall in Va. auto.
  - rewrite length_item_set, Co. destruct (dmem n (items st)); reflexivity.
  - intros l Hl c Hc. apply update_sort_sub in Hl. apply item_set_in. right. apply (So l); tauto.
Qed.

Lemma col_set_value_valid n v st : valid n = true ->
  col_set_value n v st = (update_sort n (with_items st (item_set_value n v (items st))), None).
Proof.
  intros H. unfold ItemsModel.col_set_value. destruct n; [discriminate|]. rewrite H. reflexivity.
Qed.

Lemma update_sort_eq n d c sl lk :
  update_sort n (mkS d c sl lk : struct V A) = mkS d c (sortl (update_sort n (mkS d c sl lk : struct V A))) lk.
Proof. unfold update_sort. cbn. destruct sl as [l|]; [destruct (smem n l)|]; reflexivity. Qed.

Lemma inv_col_set n v st : Inv st -> valid n = true -> dmem n (items st) = true ->
  Inv (fst (col_set_value n v st)).
Proof.
  intros I H M. rewrite col_set_value_valid by exact H. cbn [fst]. apply inv_update_sort.
  destruct I as [N Va Co So]. constructor; cbn.
  - now apply item_set_nodup.
  - apply Forall_forall. intros x Hx. apply item_set_in in Hx. destruct Hx as [->|Hx]; [exact H|].
    rewrite Forall_forall in Va. auto.
  - now rewrite length_item_set, M.
  - intros l Hl c Hc. apply item_set_in. right. apply (So l); auto.
Qed.
Lemma inv_addnew n v st : Inv st -> valid n = true -> dmem n (items st) = false ->
  Inv (fst (addnewitem restricted n v st)).
Proof.
  intros I H M. unfold addnewitem. rewrite col_set_value_valid by exact H. cbn [fst].
  set (s := update_sort n _).
  assert (E1 : items s = item_set_value n v (items st)) by (unfold s; now rewrite update_sort_items).
  assert (E2 : ncols s = ncols st) by (unfold s; now rewrite update_sort_ncols).
  assert (E3 : forall l, sortl s = Some l -> sortl st = Some l).
  { intros l Hl. unfold s in Hl. apply update_sort_sub in Hl. tauto. }
  destruct I as [N Va Co So]. constructor; cbn; rewrite ?E1, ?E2.
  - now apply item_set_nodup.
  - apply Forall_forall. intros x Hx. apply item_set_in in Hx. destruct Hx as [->|Hx]; [exact H|].
    rewrite Forall_forall in Va. auto.
  - now rewrite length_item_set, M, Co.
  - intros l Hl c Hc. apply item_set_in. right. apply (So l); auto.
Qed.

Hypothesis CAR : class_attributes_restricted attr_kind restricted.

Lemma inv_setattr n v st : Inv st -> valid n = true \/ starts_underscore n = true \/ In n (keys (items st)) ->
  Inv (fst (setattr n v st)).
Proof.
  intros I H. unfold ItemsModel.setattr.
  destruct (starts_underscore n) eqn:U; [exact I|].
  assert (Va : valid n = true).
  { destruct H as [H|[H|H]]; [exact H|discriminate|]. destruct I as [_ Va _ _]. rewrite Forall_forall in Va. auto. }
  destruct (locked st); [exact I|].
  destruct (dmem n (items st)) eqn:M.
  - unfold replaceitem. apply inv_col_set; [now apply inv_update_sort|exact Va|now rewrite update_sort_items].
  - destruct (attr_kind n) as [[|]|] eqn:K.
    + exact I.
    + exfalso. pose proof (CAR n) as C. rewrite K, (valid_not_restricted _ Va) in C.
      assert (false = true) by (apply C; discriminate). discriminate.
    + now apply inv_addnew.
Qed.

Lemma inv_deleteitem n st : Inv st -> Inv (fst (deleteitem n st)).
Proof.
  intros I. unfold deleteitem. destruct (dmem n (items st)) eqn:M; [|exact I]. cbn [fst].
  destruct I as [N Va Co So]. constructor; rewrite ?update_sort_items, ?update_sort_ncols; cbn.
  - now apply nodup_ddel.
  - apply Forall_forall. intros x Hx. apply in_keys_ddel in Hx; [|exact N]. rewrite Forall_forall in Va. apply Va. tauto.
  - now rewrite length_ddel, Co.
  - intros l Hl c Hc. apply update_sort_sub in Hl. cbn in Hl. destruct Hl as [Hl Hn].
    apply in_keys_ddel; [exact N|]. split; [intros ->; contradiction|]. apply (So l); auto.
Qed.

Lemma inv_mapped st f : Inv st -> NoDup (map f (keys (items st))) -> Forall (fun n => valid n = true) (map f (keys (items st))) ->
  forall sl, (forall l, sl = Some l -> exists l0, sortl st = Some l0 /\ l = map f l0) ->
  Inv (with_sortl (with_items st (map (fun kv => (f (fst kv), snd kv)) (items st))) sl).
Proof.
  intros [N Va Co So] Nf Vf sl Hs.
  pose proof (keys_map_entry f (items st)) as K.
  pose proof (map_length (fun kv => (f (fst kv), snd kv)) (items st)) as L.
  remember (map (fun kv => (f (fst kv), snd kv)) (items st)) as d' eqn:Ed. clear Ed.
  constructor; cbn [items ncols sortl with_items with_sortl]; rewrite ?K; auto.
    now rewrite L.
  - intros l Hl c Hc. destruct (Hs l Hl) as (l0 & E & ->).
    apply in_map_iff in Hc. destruct Hc as (y & <- & Hy). apply in_map. apply (So l0); auto.
Qed.
Lemma inv_col_rename o n st : Inv st -> Inv (fst (col_rename o n st)).
Proof.
  intros I. unfold ItemsModel.col_rename.
  destruct (String.eqb_spec o n); [exact I|]. destruct (locked st); [exact I|].
  destruct (valid n) eqn:Vn; cbn [negb]; [|exact I].
  pose proof I as [N Va Co So].
  destruct (item_rename_cases o n (items st) N) as [[Q _]|[(_ & _ & ->)|(Hn & Io & J & ->)]]; [congruence| |]; cbn [fst].
  - revert I. apply inv_with_same; auto.
  - set (f := fun k => if String.eqb k o then n else k).
    apply (inv_mapped st f); auto.
    + now apply rename_keys_inj.
    + apply Forall_forall. intros x Hx. apply in_map_iff in Hx. destruct Hx as (y & <- & Hy).
      rewrite Forall_forall in Va. unfold f. destruct (String.eqb y o); auto.
    + intros l Hl. destruct (sortl st) as [l0|] eqn:S0; [|discriminate]. injection Hl as <-. eauto.
Qed.

Lemma inv_keys_perm st d : Inv st -> NoDup (keys d) -> length d = length (items st) ->
  (forall x, In x (keys d) <-> In x (keys (items st))) -> Inv (with_items st d).
Proof.
  intros [N Va Co So] Nd L E. constructor; cbn; auto.
  - apply Forall_forall. intros x Hx. rewrite Forall_forall in Va. apply Va. now apply E.
  - congruence.
  - intros l Hl c Hc. apply E. apply (So l); auto.
Qed.

Lemma inv_map st f : Inv st -> NoDup (map f (keys (items st))) -> Forall (fun n => valid n = true) (map f (keys (items st))) ->
  forall sl, (forall l, sl = Some l -> exists l0, sortl st = Some l0 /\ l = map f l0) ->
  Inv (with_sortl (with_items st (rebuild f (items st))) sl).
Proof.
  intros I Nf Vf sl Hs. rewrite rebuild_map by exact Nf. now apply inv_mapped.
Qed.

(** *** C12: moves *)
Lemma fromkeys_fo l : first_occurrences l (fromkeys l).
Proof. induction l; cbn; constructor; assumption. Qed.
Lemma fromkeys_in x l : In x (fromkeys l) <-> In x l.
Proof.
  induction l as [|y l IH]; cbn; [tauto|]. rewrite filter_In, IH.
  seq y x; cbn; intuition congruence.
Qed.
Lemma fromkeys_nodup l : NoDup (fromkeys l).
Proof.
  induction l as [|y l IH]; cbn; constructor.
  - rewrite filter_In, String.eqb_refl. intros [_ H]. discriminate.
  - now apply NoDup_filter.
Qed.
Lemma fromkeys_snoc l x : fromkeys (l ++ [x]) = if smem x l then fromkeys l else fromkeys l ++ [x].
Proof.
  induction l as [|y l IH]; cbn; [reflexivity|].
  rewrite IH. unfold smem in *. cbn. seq x y; cbn [orb].
  - destruct (existsb (String.eqb y) l); [reflexivity|].
    rewrite filter_app. cbn. rewrite String.eqb_refl. cbn. now rewrite app_nil_r.
  - destruct (existsb (String.eqb x) l); [reflexivity|].
    rewrite filter_app. cbn. seq y x; [congruence|]. reflexivity.
Qed.

Lemma front_of_spec d cols :
  keys (front_of cols d) = fromkeys (filter (fun c => dmem c d) cols) /\
  (forall k, dget k (front_of cols d) = if smem k cols then dget k d else None).
Proof.
  induction cols as [|c cols IH] using rev_ind; [split; reflexivity|].
  unfold front_of in *. rewrite fold_left_app. cbn [fold_left]. destruct IH as [K G].
  fold (front_of cols d) in *. set (acc := front_of cols d) in *. rewrite filter_app. cbn [filter].
  destruct (dget c d) as [e|] eqn:D.
  - assert (M : dmem c d = true) by (apply dmem_in; exact (dget_in_keys _ _ _ D)). rewrite M.
    rewrite fromkeys_snoc, keys_dset, <- K. split.
    + replace (dmem c acc) with (smem c (filter (fun c => dmem c d) cols)); [reflexivity|].
      apply eq_true_iff_eq. rewrite smem_in, dmem_in, K, fromkeys_in. reflexivity.
    + intros k. rewrite dget_dset. unfold smem in *. rewrite existsb_app. cbn. seq k c.
      * rewrite orb_true_r. now rewrite D.
      * now rewrite !orb_false_r, G.
  - assert (M : dmem c d = false) by (apply dmem_not; apply dget_none; exact D). rewrite M, app_nil_r.
    split; [exact K|]. intros k. rewrite G. unfold smem in *. rewrite existsb_app. cbn. rewrite orb_false_r. seq k c.
    + rewrite orb_true_r, D. destruct (existsb _ _); reflexivity.
    + now rewrite !orb_false_r.
Qed.
Lemma rest_fold (l : container V A) : forall acc, NoDup (keys l) ->
  fold_left (fun acc kv => if dmem (fst kv) acc then acc else dset (fst kv) (snd kv) acc) l acc =
  acc ++ filter (fun kv => negb (dmem (fst kv) acc)) l.
Proof.
  induction l as [|[k e] r IH]; cbn; intros acc N; [now rewrite app_nil_r|].
  apply NoDup_cons_iff in N. destruct N as [N1 N2].
  destruct (dmem k acc) eqn:M; cbn [negb].
  - now apply IH.
  - rewrite IH by exact N2. rewrite dset_fresh by now apply dmem_not.
    rewrite <- app_assoc. cbn. f_equal. f_equal. apply filter_ext_in. intros [q x] Hq. cbn.
    f_equal. apply eq_true_iff_eq. rewrite !dmem_in. unfold keys. rewrite map_app, in_app_iff. cbn.
    split; [|tauto]. intros [H|[H|[]]]; [exact H|]. subst. elim N1. exact (in_map fst _ _ Hq).
Qed.
Lemma dget_app k (a b : container V A) : dget k (a ++ b) = match dget k a with Some e => Some e | None => dget k b end.
Proof. induction a as [|[q x] a IH]; cbn; [reflexivity|]. seq k q; [reflexivity|exact IH]. Qed.
Lemma dget_filter k f (d : container V A) : (forall e e', f (k, e) = f (k, e')) ->
  dget k (filter f d) = match dget k d with Some e => if f (k, e) then Some e else None | None => None end.
Proof.
  intros Hf. induction d as [|[q x] r IH]; cbn; [reflexivity|].
  seq k q.
  - destruct (f (q, x)) eqn:F; cbn; [now rewrite String.eqb_refl|]. rewrite IH.
    destruct (dget q r) as [e|]; [|reflexivity]. now rewrite (Hf e x), F.
  - destruct (f (q, x)); cbn; [apply eqb_no in n; rewrite n|]; exact IH.
Qed.
Lemma filter_map_keys (f : string -> bool) (d : container V A) :
  keys (filter (fun kv => f (fst kv)) d) = filter f (keys d).
Proof. induction d as [|[k e] r IH]; cbn; [reflexivity|]. destruct (f k); cbn; unfold keys in *; now rewrite IH. Qed.

Lemma move_front_effect cols d : NoDup (keys d) -> length cols <= length d ->
  exists d', item_move_to_front cols d = (d', None) /\
    keys d' = fromkeys (filter (fun c => dmem c d) cols) ++ filter (fun k => negb (smem k cols)) (keys d) /\
    (forall k, dget k d' = dget k d).
Proof.
  intros N L. unfold item_move_to_front, too_many.
  assert (T : (length d <? length cols) = false) by (apply Nat.ltb_ge; exact L). rewrite T.
  eexists. split; [reflexivity|]. fold (front_of cols d).
  destruct (front_of_spec d cols) as [K G]. rewrite (rest_fold d _ N). split.
  - unfold keys at 1. rewrite map_app. fold (keys (front_of cols d)). rewrite K. f_equal.
    etransitivity; [apply (filter_map_keys (fun k => negb (dmem k (front_of cols d))))|].
    apply filter_ext_in. intros k Hk. f_equal. apply eq_true_iff_eq.
    rewrite dmem_in, K, fromkeys_in, filter_In, smem_in, dmem_in. tauto.
  - intros k. rewrite dget_app, G, dget_filter by reflexivity. cbn [fst].
    destruct (smem k cols) eqn:S.
    + destruct (dget k d) eqn:D; reflexivity.
    + destruct (dget k d) eqn:D; [|reflexivity].
      assert (M : dmem k (front_of cols d) = false).
      { apply dmem_not. rewrite K, fromkeys_in, filter_In. intros [H _]. apply smem_in in H. congruence. }
      now rewrite M.
Qed.

Definition back_of cols d : container V A :=
  fold_left (fun acc cn => match dget cn acc with Some e => dset cn e (ddel cn acc) | None => acc end) cols d.
Lemma filter_filter {X} (f g : X -> bool) l : filter f (filter g l) = filter (fun x => g x && f x) l.
Proof. induction l as [|x l IH]; cbn; [reflexivity|]. destruct (g x); cbn; [destruct (f x)|]; now rewrite IH. Qed.
Lemma filter_rev {X} (f : X -> bool) l : filter f (rev l) = rev (filter f l).
Proof.
  induction l as [|x l IH]; cbn; [reflexivity|]. rewrite filter_app, IH. cbn.
  destruct (f x); cbn; [reflexivity|now rewrite app_nil_r].
Qed.
Lemma back_of_spec d cols : NoDup (keys d) ->
  keys (back_of cols d) = filter (fun k => negb (smem k cols)) (keys d) ++
                          rev (fromkeys (rev (filter (fun c => dmem c d) cols))) /\
  NoDup (keys (back_of cols d)) /\ (forall k, dget k (back_of cols d) = dget k d).
Proof.
  intros N. induction cols as [|c cols IH] using rev_ind.
  - cbn. rewrite app_nil_r. split; [|split; [exact N|reflexivity]].
    symmetry. apply filter_all. reflexivity.
  - destruct IH as (K & Nb & G). unfold back_of in *. rewrite fold_left_app. cbn [fold_left].
    fold (back_of cols d) in *. set (acc := back_of cols d) in *. rewrite filter_app, rev_app_distr. cbn [filter].
    rewrite G. destruct (dget c d) as [e|] eqn:D.
    + assert (M : dmem c d = true) by (apply dmem_in; exact (dget_in_keys _ _ _ D)). rewrite M.
      assert (Ma : ~ In c (keys (ddel c acc))).
      { rewrite in_keys_ddel by exact Nb. tauto. }
      split; [|split].
      * rewrite keys_dset. apply dmem_not in Ma. rewrite Ma, keys_ddel, K by exact Nb.
        rewrite filter_app, filter_filter. cbn [rev app fromkeys]. rewrite <- app_assoc. f_equal.
        -- apply filter_ext. intros x. unfold smem. rewrite existsb_app. cbn. rewrite orb_false_r, negb_orb.
           f_equal. now rewrite String.eqb_sym.
        -- cbn. rewrite filter_rev. reflexivity.
      * apply nodup_dset. now apply nodup_ddel.
      * intros k. rewrite dget_dset, dget_ddel by exact Nb. seq k c; [now rewrite D|apply G].
    + assert (M : dmem c d = false) by (apply dmem_not; apply dget_none; exact D). rewrite M. cbn [rev app].
      split; [|split; [exact Nb|exact G]]. rewrite K. f_equal. apply filter_ext_in. intros x Hx.
      unfold smem. rewrite existsb_app. cbn. rewrite orb_false_r. seq x c; [|now rewrite orb_false_r].
      apply dmem_in in Hx. congruence.
Qed.
Lemma move_back_effect cols d : NoDup (keys d) -> length cols <= length d ->
  exists d', item_move_to_back cols d = (d', None) /\
    keys d' = filter (fun k => negb (smem k cols)) (keys d) ++
              rev (fromkeys (rev (filter (fun c => dmem c d) cols))) /\
    (forall k, dget k d' = dget k d).
Proof.
  intros N L. unfold item_move_to_back, too_many.
  assert (T : (length d <? length cols) = false) by (apply Nat.ltb_ge; exact L). rewrite T.
  eexists. split; [reflexivity|]. destruct (back_of_spec d cols N) as (K & _ & G). split; [exact K|exact G].
Qed.

Lemma dget_same_perm (d d' : container V A) : NoDup (keys d) -> NoDup (keys d') -> (forall k, dget k d' = dget k d) -> Permutation d d'.
Proof.
  intros N N' G. apply NoDup_Permutation.
  - revert N. unfold keys. apply NoDup_map_inv.
  - revert N'. unfold keys. apply NoDup_map_inv.
  - intros [k e]. split; intros H.
    + apply dget_some_in. rewrite G. now apply in_dget.
    + apply dget_some_in. rewrite <- G. now apply in_dget.
Qed.

Lemma inv_front cols st : Inv st -> Inv (fst (col_move_to_front cols st)).
Proof.
  intros I. unfold col_move_to_front. destruct (locked st); [exact I|].
  pose proof (inv_nodup _ I) as N.
  destruct (le_lt_dec (length cols) (length (items st))) as [L|L].
  - destruct (move_front_effect cols (items st) N L) as (d' & E & K & G).
    pose proof (move_front_nodup cols _ N) as N'. rewrite E in *. cbn in *.
    pose proof (dget_same_perm _ _ N N' G) as P. apply inv_keys_perm; auto.
    + symmetry. now apply Permutation_length.
    + intros x. split; intros H; eapply Permutation_in; try exact H; apply Permutation_map;
        [symmetry; exact P|exact P].
  - unfold item_move_to_front, too_many.
    assert (T : (length (items st) <? length cols) = true) by (apply Nat.ltb_lt; exact L). rewrite T. cbn.
    revert I. apply inv_with_same; auto.
Qed.
Lemma inv_back cols st : Inv st -> Inv (fst (col_move_to_back cols st)).
Proof.
  intros I. unfold col_move_to_back. destruct (locked st); [exact I|].
  pose proof (inv_nodup _ I) as N.
  destruct (le_lt_dec (length cols) (length (items st))) as [L|L].
  - destruct (move_back_effect cols (items st) N L) as (d' & E & K & G).
    pose proof (move_back_nodup cols _ N) as N'. rewrite E in *. cbn in *.
    pose proof (dget_same_perm _ _ N N' G) as P. apply inv_keys_perm; auto.
    + symmetry. now apply Permutation_length.
    + intros x. split; intros H; eapply Permutation_in; try exact H; apply Permutation_map;
        [symmetry; exact P|exact P].
  - unfold item_move_to_back, too_many.
    assert (T : (length (items st) <? length cols) = true) by (apply Nat.ltb_lt; exact L). rewrite T. cbn.
    revert I. apply inv_with_same; auto.
Qed.

(** [setattr] on existing columns keeps every existing column, so swaps stay within [Inv] *)
Lemma setattr_keeps_in n v st x : Inv st -> In n (keys (items st)) -> In x (keys (items st)) ->
  In x (keys (items (fst (setattr n v st)))).
Proof.
  intros I Hn Hx. unfold ItemsModel.setattr. destruct (starts_underscore n); [exact Hx|].
  destruct (locked st); [exact Hx|]. assert (M : dmem n (items st) = true) by now apply dmem_in. rewrite M.
  unfold replaceitem. pose proof (inv_valid _ I) as Va. rewrite Forall_forall in Va.
  rewrite col_set_value_valid by auto. cbn [fst]. rewrite update_sort_items. cbn. rewrite update_sort_items.
  apply item_set_in. now right.
Qed.
Lemma inv_swap_assign temp tos : forall froms st, Inv st -> (forall k, In k tos -> In k (keys (items st))) ->
  Inv (fst (swap_assign attr_kind restricted temp tos froms st)).
Proof.
  induction tos as [|k1 tos IH]; cbn; intros froms st I H; [exact I|].
  destruct froms as [|k2 froms]; [exact I|]. destruct (dget k2 temp); [|exact I].
  unfold bind. pose proof (inv_setattr k1 v st I (or_intror (or_intror (H k1 (or_introl eq_refl))))) as I'.
  pose proof (fun x => setattr_keeps_in k1 v st x I (H k1 (or_introl eq_refl))) as Kp.
  destruct (setattr k1 v st) as [s [e|]]; cbn in *; [exact I'|]. apply IH; [exact I'|]. intros k Hk. apply Kp. auto.
Qed.
Lemma swap_temp_some froms st t : swap_temp froms st = Some t -> forall k, In k froms -> In k (keys (items st)).
Proof.
  revert t. induction froms as [|x r IH]; cbn; intros t H k Hk; [contradiction|].
  destruct (item_get_value x (items st)) eqn:G; [|discriminate]. destruct (swap_temp r st) eqn:T; [|discriminate].
  destruct Hk as [->|Hk]; [|eapply IH; eauto].
  unfold item_get_value in G. destruct (dget k (items st)) eqn:D; [|discriminate]. exact (dget_in_keys _ _ _ D).
Qed.
Lemma seteq_in a b : seteq a b = true -> forall x, In x a <-> In x b.
Proof.
  unfold seteq. rewrite andb_true_iff, !forallb_forall. intros [H1 H2] x. split; intros H; apply smem_in; auto.
Qed.
Lemma inv_col_swap f t st : Inv st -> Inv (fst (col_swap attr_kind restricted f t st)).
Proof.
  intros I. unfold col_swap. destruct (locked st); [exact I|]. destruct (names_eqb f t); [exact I|].
  destruct ((length f =? length t) && nodupb f && seteq f t) eqn:C; cbn [negb]; [|exact I].
  destruct (swap_temp f st) eqn:T; [|exact I]. apply andb_true_iff in C. destruct C as [_ C].
  apply inv_swap_assign; [exact I|]. intros k Hk. eapply swap_temp_some; [exact T|]. now apply (seteq_in _ _ C).
Qed.
Lemma inv_do_renames rs : forall st, Inv st -> Inv (fst (do_renames restricted rs st)).
Proof.
  induction rs as [|[o n] rs IH]; cbn; intros st H; [exact H|].
  apply (bind_inv Inv); [now apply inv_col_rename|]. intros s Hs. now apply IH.
Qed.
Lemma inv_do_swaps rs : forall st, Inv st -> Inv (fst (do_swaps attr_kind restricted rs st)).
Proof.
  induction rs as [|[o n] rs IH]; cbn; intros st H; [exact H|].
  apply (bind_inv Inv); [now apply inv_col_swap|]. intros s Hs. now apply IH.
Qed.
Lemma inv_col_map m st : Inv st -> Inv (fst (col_map attr_kind restricted m st)).
Proof.
  intros H. unfold col_map. destruct (locked st); [exact H|]. destruct (_ <? _); [exact H|].
  destruct (existsb _ _); [|now apply inv_do_renames].
  destruct (safe_reorder m (keys (items st))) as [[ren sw]|e]; [|exact H].
  apply (bind_inv Inv); [now apply inv_do_renames|]. intros s Hs. now apply inv_do_swaps.
Qed.
Lemma inv_remove l : forall st, Inv st -> Inv (fold_left (fun s n => fst (deleteitem n s)) l st).
Proof. induction l as [|x l IH]; cbn; intros st H; [exact H|]. apply IH. now apply inv_deleteitem. Qed.

Lemma inv_step o st : Inv st -> ordinary restricted st o -> Inv (fst (step o st)).
Proof.
  intros I H. pose proof (inv_nodup _ I) as N. destruct o; cbn [ItemsModel.step]; cbn [ordinary] in H.
  - apply inv_setattr; [exact I|]. unfold ok_name in H. tauto.
  - unfold setitem. destruct (valid n) eqn:Vn; [|exact I]. apply inv_setattr; auto.
  - unfold delattr. destruct (locked st); [exact I|now apply inv_deleteitem].
  - unfold col_remove. destruct (locked st); [exact I|]. now apply inv_remove.
  - now apply inv_col_rename.
  - now apply inv_front.
  - now apply inv_back.
  - unfold col_add_prefix. cbn [fst]. apply inv_map; auto.
    + apply nodup_map_inj; [|exact N]. intros a b _ _. apply append_inj_l.
    + intros l Hl. destruct (sortl st) as [l0|]; [|discriminate]. exists l0. split; [reflexivity|]. now injection Hl.
  - unfold col_add_suffix. cbn [fst]. apply inv_map; auto.
    + apply nodup_map_inj; [|exact N]. intros a b _ _. apply append_inj_r.
    + intros l Hl. destruct (sortl st) as [l0|]; [|discriminate]. exists l0. split; [reflexivity|]. now injection Hl.
  - destruct H as (S & Nf & Vf). unfold col_str_replace, item_str_replace.
    destruct (existsb _ _); [exact I|]. destruct (existsb _ _); rewrite ?S; cbn.
    + pose proof (inv_map st (sreplace o n max) I Nf Vf None) as R. rewrite <- S in R.
      assert (Inv (with_sortl (with_items st (rebuild (sreplace o n max) (items st))) (sortl st))) as Q.
      { apply R. rewrite S. discriminate. }
      exact Q.
    + revert I. apply inv_with_same; auto.
  - unfold col_set_attribute, item_set_attribute. destruct (dget n (items st)) as [[v a]|] eqn:D; cbn.
    + assert (M : dmem n (items st) = true) by (apply dmem_in; exact (dget_in_keys _ _ _ D)).
      apply inv_keys_perm; auto.
      * now apply nodup_dset.
      * now apply length_dset_mem.
      * intros x. now rewrite keys_dset, M.
    + revert I. apply inv_with_same; auto.
  - unfold set_sortlist. destruct (forallb _ _) eqn:F; [|exact I]. destruct I as [N' Va Co So]. constructor; cbn; auto.
    intros l0 [= <-] c Hc. rewrite forallb_forall in F. now apply dmem_in, F.
  - now apply inv_col_swap.
  - now apply inv_col_map.
  - revert I. apply inv_with_same; auto.
Qed.

Lemma inv_empty : Inv empty_struct.
Proof. constructor; cbn; [constructor|constructor|reflexivity|discriminate]. Qed.

Lemma inv_history ops : forall st, Inv st -> ordinary_history attr_kind restricted st ops ->
  Inv (fold_left (fun s o => fst (step o s)) ops st).
Proof.
  induction ops as [|o r IH]; cbn; intros st I H; [exact I|]. destruct H as [H1 H2].
  apply IH; [now apply inv_step|exact H2].
Qed.

Lemma ordinary_invariant ops : ordinary_history attr_kind restricted empty_struct ops ->
  let st := run (V:=V) (A:=A) attr_kind restricted ops in
  ncols st = length (colnames st) /\ Forall (ok_name restricted) (colnames st) /\
  (forall l c, sortl st = Some l -> In c l -> In c (colnames st)).
Proof.
  intros H. destruct (inv_history ops _ inv_empty H) as [N Va Co So]. fold (run attr_kind restricted ops) in *.
  split; [unfold colnames; rewrite map_length; exact Co|]. split; [exact Va|]. intros l c Hl Hc. exact (So l Hl c Hc).
Qed.
End P.
