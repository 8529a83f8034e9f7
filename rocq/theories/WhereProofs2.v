From Coq Require Import List Arith ZArith Bool Lia.
From Verif Require Import FlattenModel GroupModel GroupFacts FlattenProofs GroupingModel GroupingSpec GroupingProofs GroupingProofs2 LosslessModel LosslessProofs WhereModel WhereSpec WhereProofs.
Import ListNotations.
Open Scope Z_scope.

Lemma conv_arr_len junk c d l : length (conv junk c (OArr d l)) = length l.
Proof. cbn [conv]. destruct (dt_dec d c); now rewrite ?map_length. Qed.
Lemma where_num_none junk cond d1 d2 x y : (2 <= length cond)%nat ->
  where_num junk cond (OArr d1 x) (OArr d2 y) = None <->
  ~ (length x = 1%nat \/ length x = length cond) \/ ~ (length y = 1%nat \/ length y = length cond).
Proof.
  intros L. unfold where_num, common_dtype. cbn [opd_type]. set (c := if dt_dec d1 d2 then d1 else result_type d1 d2).
  pose proof (pick_where_none cond (conv junk c (OArr d1 x)) (conv junk c (OArr d2 y)) L) as P. rewrite !conv_arr_len in P. rewrite <- P.
  destruct (pick_where cond _ _); cbn [option_map]; split; congruence.
Qed.

Lemma spread_id {X} n (l : list X) : length l = n -> spread n l = l.
Proof. destruct l as [|a [|b r]]; cbn [spread]; intros <-; reflexivity. Qed.
Lemma where_one_ok junk b d1 d2 c x y : length x = length y -> x <> [] ->
  find_lossless d1 d2 = Some c -> Forall (holds_value d1) x -> Forall (holds_value d2) y -> ~ In None x -> ~ In None y ->
  where_one junk b d1 x d2 y = Some (c, if b then x else y).
Proof.
  intros L Ne F Fx Fy Nx Ny. unfold where_one.
  assert (C : (if dt_dec d1 d2 then d1 else result_type d1 d2) = c) by (pose proof (common_lossless d1 [] d2 [] c F) as Q; unfold common_dtype in Q; cbn [opd_type] in Q; congruence).
  rewrite C. cbv zeta. rewrite Forall_forall in Fx, Fy.
  assert (Ex : (if dt_dec d1 c then x else map (np_cast junk d1 c) x) = x).
  { destruct (dt_dec d1 c); [reflexivity|]. apply np_cast_id; [|intros _; exact Nx]. intros v K. exact (proj1 (find_lossless_holds d1 d2 c F v) (Fx _ K)). }
  assert (Ey : (if dt_dec d2 c then y else map (np_cast junk d2 c) y) = y).
  { destruct (dt_dec d2 c); [reflexivity|]. apply np_cast_id; [|intros _; exact Ny]. intros v K. exact (proj2 (find_lossless_holds d1 d2 c F v) (Fy _ K)). }
  rewrite Ex, Ey, pick_where_one. cbv zeta. rewrite <- L, Nat.max_id.
  assert (Z0 : (length x =? 0)%nat = false) by (destruct x; [congruence|reflexivity]). rewrite Z0. cbn [orb].
  assert (F1 : fits_len (length x) x = true) by (apply fits_len_iff; now right). assert (F2 : fits_len (length x) y = true) by (apply fits_len_iff; now right; rewrite L).
  rewrite F1, F2. cbn [andb option_map]. rewrite !spread_id by congruence. now destruct b.
Qed.

(** Categoricals *)
Lemma firstn_shows {B} n (codes : list nat) (us : list B) : firstn n (shows codes us) = shows (firstn n codes) us.
Proof. unfold shows. now rewrite firstn_map. Qed.
Lemma skipn_shows {B} n (codes : list nat) (us : list B) : skipn n (shows codes us) = shows (skipn n codes) us.
Proof. unfold shows. now rewrite skipn_map. Qed.
Lemma row_at_map {X Y} (f : X -> Y) l i : row_at (map f l) i = option_map f (row_at l i).
Proof. destruct l as [|a [|b r]]; cbn [row_at map]; [now destruct i|reflexivity|apply (nth_error_map f i (a :: b :: r))]. Qed.
Lemma chosen_map {X Y} (f : X -> Y) cond (x y : nat -> option X) i : option_map f (chosen cond x y i) = chosen cond (fun i => option_map f (x i)) (fun i => option_map f (y i)) i.
Proof. unfold chosen. now destruct (nth_error cond i) as [[|]|]. Qed.

Section Cats.
Context {B : Type}.
Implicit Types (us newu : list B).
Lemma fix_codes_in junk newu uslice us old : numbered newu uslice us -> codes_in (length us) old -> codes_in (length newu) (fix_codes junk 1 uslice old).
Proof.
  intros N C. unfold fix_codes. cbn [Nat.eqb]. induction old as [|o old IH]; [constructor|]. inversion C as [|? ? Ho Hr]; subst. cbn [map combine fst snd]. constructor; [|apply IH; exact Hr].
  destruct o as [|k]; cbn [Nat.eqb]; [lia|]. replace (Z.of_nat (S k) - 1) with (Z.of_nat k) by lia.
  destruct (some_lt us k) as [b Eb]; [lia|]. destruct (Forall2_nth _ _ _ N _ _ Eb) as [c [Ec Hc]]. rewrite (mbget_error _ _ _ _ Ec).
  destruct c as [|c]; [lia|]. cbn [GroupingModel.shown] in Hc. assert (nth_error newu c <> None) as Q by congruence. apply nth_error_Some in Q. lia.
Qed.
Lemma fix_all_in junk newu : forall uss iks uk, numbered newu uk (concat uss) -> Forall2 (fun ik us => codes_in (length us) ik) iks uss ->
  codes_in (length newu) (fix_all junk 1 uk (map (@length B) uss) iks).
Proof.
  induction uss as [|us uss IH]; intros iks uk N F; inversion F as [|ik ? iks' ? Hc Hr]; subst; cbn [map fix_all]; [constructor|].
  cbn [concat] in N. apply numbered_app in N. destruct N as [N1 N2]. apply Forall_app. split; [exact (fix_codes_in junk newu _ us ik N1 Hc)|apply IH; assumption].
Qed.
Variables (junk : nat) (crc : list B -> Z) (grp : list B -> list B * list nat).
Hypothesis grp_ok : forall l, grouping_of (map Some l) (fst (grp l)) (snd (grp l)).
Lemma merge_two_in cx cy (ux uy : list B) : (length ux = length uy -> crc ux = crc uy -> ux = uy) ->
  codes_in (length ux) cx -> codes_in (length uy) cy ->
  let out := merge_cats junk 1 crc grp [cx; cy] [ux; uy] in codes_in (length (snd out)) (fst out).
Proof using grp_ok.
  intros E Cx Cy. unfold merge_cats. cbn [crc_match forallb]. rewrite andb_true_r. destruct ((length uy =? length ux)%nat && (crc uy =? crc ux)) eqn:M.
  - apply andb_true_iff in M. destruct M as [M1 M2]. apply Nat.eqb_eq in M1. apply Z.eqb_eq in M2. rewrite (E (eq_sym M1) (eq_sym M2)) in *. cbn [concat fst snd]. rewrite app_nil_r. apply Forall_app. split; assumption.
  - unfold hstack_groupings. pose proof (grp_ok (concat [ux; uy])) as G. destruct (grp (concat [ux; uy])) as [newu uk]. cbn [fst snd Nat.eqb] in *.
    apply fix_all_in; [apply numbered_of; exact G|]. repeat constructor; assumption.
Qed.
Lemma chosen_in {X} cond (x y : list X) i v : chosen cond (row_at x) (row_at y) i = Some v -> In v x \/ In v y.
Proof using. unfold chosen. destruct (nth_error cond i) as [[|]|]; intros E; [left|right|discriminate]; exact (row_at_in _ _ _ E). Qed.
Lemma app_split {X} (a b c d : list X) : a ++ b = c ++ d -> length a = length c -> a = c /\ b = d.
Proof using. revert c. induction a as [|x a IH]; intros [|y c] E L; try discriminate; [now split|]. cbn in E. injection E as -> E. destruct (IH c E) as [-> ->]; [cbn in L; lia|now split]. Qed.

Lemma where_cat_ok cond cx ux cy uy : (2 <= length cond)%nat ->
  (length cx = 1%nat \/ length cx = length cond) -> (length cy = 1%nat \/ length cy = length cond) ->
  (length ux = length uy -> crc ux = crc uy -> ux = uy) -> NoDup ux -> NoDup uy -> valid_codes cx ux -> valid_codes cy uy ->
  exists codes cats, where_cat junk 1 crc grp cond cx ux cy uy = Some (codes, cats) /\ length codes = length cond /\
    NoDup cats /\ valid_codes codes cats /\
    forall i, (i < length cond)%nat -> nth_error (shows codes cats) i = chosen cond (row_at (shows cx ux)) (row_at (shows cy uy)) i.
Proof using grp_ok.
  intros L Lx Ly E Dx Dy Vx Vy. unfold where_cat.
  pose proof (merge_two_in cx cy ux uy E Vx Vy) as V. 
  destruct (merge_cats_1 junk crc grp grp_ok [cx; cy] [ux; uy]) as [Sh Nd].
  - discriminate.
  - intros v w [<-|[<-|[]]] [<-|[<-|[]]] Hl Hc; try reflexivity; [exact (E Hl Hc)|symmetry; exact (E (eq_sym Hl) (eq_sym Hc))].
  - intros us [<-|[<-|[]]]; assumption.
  - repeat constructor; assumption.
  - cbv zeta in *. set (z := merge_cats junk 1 crc grp [cx; cy] [ux; uy]) in *. destruct z as [zc zu]. cbn [fst snd] in *.
    cbn [combine map concat fst snd] in Sh. rewrite app_nil_r in Sh.
    assert (Lz : length zc = (length cx + length cy)%nat) by (apply (f_equal (@length _)) in Sh; rewrite app_length, !map_length in Sh; exact Sh).
    rewrite <- (firstn_skipn (length cx) zc) in Sh. rewrite map_app in Sh. apply app_split in Sh; [|rewrite !map_length, firstn_length; lia]. destruct Sh as [S1 S2].
    set (zx := firstn (length cx) zc) in *. set (zy := skipn (length cx) zc) in *.
    assert (L1 : length zx = length cx) by (unfold zx; rewrite firstn_length; lia). assert (L2 : length zy = length cy) by (unfold zy; rewrite skipn_length; lia).
    destruct (pick_where_many cond zx zy L) as (codes & Ec & Lc & Hc); [rewrite L1; exact Lx|rewrite L2; exact Ly|]. rewrite Ec.
    assert (Vc : valid_codes codes zu).
    { apply Forall_forall. intros c I. apply In_nth_error in I. destruct I as [i Ei]. assert (Hi : (i < length cond)%nat) by (rewrite <- Lc; apply nth_error_Some; congruence).
      rewrite (Hc i Hi) in Ei. apply chosen_in in Ei. unfold codes_in in V. rewrite Forall_forall in V. apply V. rewrite <- (firstn_skipn (length cx) zc). apply in_app_iff. exact Ei. }
    assert (Vb : forallb (fun c => (c <=? length zu)%nat) codes = true) by (apply forallb_forall; intros c I; apply Nat.leb_le; unfold valid_codes in Vc; rewrite Forall_forall in Vc; auto).
    rewrite Vb. exists codes, zu. split; [reflexivity|]. split; [exact Lc|]. split; [exact Nd|]. split; [exact Vc|].
    intros i Hi. change (shows codes zu) with (map (GroupingModel.shown zu) codes). change (shows cx ux) with (map (GroupingModel.shown ux) cx). change (shows cy uy) with (map (GroupingModel.shown uy) cy).
    rewrite <- S1, <- S2, nth_error_map, (Hc i Hi), chosen_map. apply chosen_ext; intros _; symmetry; apply row_at_map.
Qed.
End Cats.

(** mapped *)
Lemma snd_combine {X Y} : forall (a : list X) (b : list Y), length a = length b -> map snd (combine a b) = b.
Proof. induction a as [|x a IH]; intros [|y b] L; try discriminate; [reflexivity|]. cbn [combine map snd]. f_equal. apply IH. cbn in L; lia. Qed.
Lemma by_name_new m s c : ~ In s (map snd m) -> by_name m s c = m ++ [(c, s)].
Proof.
  induction m as [|[c' s'] r IH]; intros N; [reflexivity|]. cbn [by_name]. destruct (name_dec s' s) as [->|]; [exfalso; apply N; now left|]. cbn [app]. f_equal. apply IH. intros K. apply N. now right.
Qed.
Lemma dict_by_name_id m : NoDup (map snd m) -> dict_by_name m = m.
Proof.
  intros H. unfold dict_by_name. assert (G : forall m a, NoDup (map snd (a ++ m)) -> fold_left (fun d p => by_name d (snd p) (fst p)) m a = a ++ m).
  { clear. induction m as [|[c s] m IH]; intros a N; cbn [fold_left fst snd]; [now rewrite app_nil_r|]. rewrite by_name_new.
    - rewrite IH; [now rewrite <- app_assoc|]. now rewrite <- app_assoc.
    - rewrite map_app in N. cbn [map] in N. apply NoDup_remove_2 in N. intros K. apply N. apply in_app_iff. now left. }
  rewrite (G m []); [reflexivity|exact H].
Qed.
Lemma same_mapping_refl m : same_mapping m m = true.
Proof. unfold same_mapping. destruct (list_eq_dec Z.eq_dec _ _); [|congruence]. destruct (list_eq_dec name_dec _ _); congruence. Qed.
Lemma map_get_seq : forall (names : list name) k j, (j < length names)%nat -> map_get (combine (map Z.of_nat (seq k (length names))) names) (Z.of_nat (k + j)) = nth_error names j.
Proof.
  induction names as [|s names IH]; intros k j H; cbn [length] in H; [lia|]. cbn [length seq map combine map_get]. destruct j as [|j].
  - rewrite Nat.add_0_r, Z.eqb_refl. reflexivity.
  - destruct (Z.eqb_spec (Z.of_nat k) (Z.of_nat (k + S j))); [lia|]. cbn [nth_error]. rewrite <- (IH (S k) j) by lia. f_equal. lia.
Qed.
Lemma where_mapped_ok cond cx cy names : (2 <= length cond)%nat -> length cx = length cond -> length cy = length cond ->
  NoDup names -> (forall c, In c cx \/ In c cy -> 1 <= c <= Z.of_nat (length names)) ->
  let m := combine (map Z.of_nat (seq 1 (length names))) names in
  exists codes, where_mapped cond cx m cy m = Some (codes, names) /\ length codes = length cond /\
    forall i, (i < length cond)%nat -> option_map (fun c => nth_error names (Z.to_nat c - 1)) (nth_error codes i) =
      chosen cond (fun i => option_map (map_get m) (nth_error cx i)) (fun i => option_map (map_get m) (nth_error cy i)) i.
Proof.
  intros L Lx Ly Nd R m. unfold where_mapped, hstack_mapped. cbn [forallb]. rewrite same_mapping_refl. cbn [andb fst snd concat].
  assert (Sm : map snd m = names) by (unfold m; rewrite snd_combine; [reflexivity|now rewrite map_length, seq_length]).
  assert (Lm : length m = length names) by (rewrite <- (map_length snd m), Sm; reflexivity).
  rewrite dict_by_name_id by (now rewrite Sm). rewrite Lm, app_nil_r, firstn_app, Nat.sub_diag, firstn_all, firstn_O, app_nil_r, skipn_app, Nat.sub_diag, skipn_all, skipn_O. cbn [app].
  destruct (pick_where_many cond cx cy L) as (codes & Ec & Lc & Hc); [now right|now right|]. rewrite Ec.
  assert (Q : forall i c, nth_error codes i = Some c -> 1 <= c <= Z.of_nat (length names)).
  { intros i c Ei. assert (Hi : (i < length cond)%nat) by (rewrite <- Lc; apply nth_error_Some; congruence). rewrite (Hc i Hi) in Ei. apply chosen_in in Ei. apply R. tauto. }
  assert (Vb : forallb (fun c => (0 <=? c) && (c <=? Z.of_nat (length names))) codes = true).
  { apply forallb_forall. intros c I. apply In_nth_error in I. destruct I as [i Ei]. apply Q in Ei. apply andb_true_iff. split; apply Z.leb_le; lia. }
  rewrite Vb, Sm. exists codes. split; [reflexivity|]. split; [exact Lc|]. intros i Hi.
  assert (Rw : forall l : list Z, length l = length cond -> row_at l i = nth_error l i) by (intros [|a [|b r]] Ll; cbn [length] in Ll; try reflexivity; lia).
  assert (T : option_map (fun c => nth_error names (Z.to_nat c - 1)) (nth_error codes i) = option_map (map_get m) (nth_error codes i)).
  { destruct (nth_error codes i) as [c|] eqn:Ei; [|reflexivity]. cbn [option_map]. f_equal. apply Q in Ei. unfold m. rewrite <- (map_get_seq names 1 (Z.to_nat c - 1)) by lia. f_equal. lia. }
  rewrite T, (Hc i Hi), chosen_map. apply chosen_ext; intros _; f_equal; apply Rw; assumption.
Qed.

(** ---------- assignment ---------- *)
Lemma forallb_not n idx : forallb (fun i => (i <? n)%nat) idx = false -> exists i, In i idx /\ (n <= i)%nat.
Proof.
  induction idx as [|i idx IH]; [discriminate|]. cbn [forallb]. destruct (Nat.ltb_spec i n); cbn [andb]; intros F; [|exists i; split; [now left|lia]]. destruct (IH F) as (j & A & B). exists j. split; [now right|exact B].
Qed.
Lemma setitem_none junk d1 d2 l v idx : setitem_num junk d1 l idx (OArr d2 v) = None <->
  (exists i, In i idx /\ (length l <= i)%nat) \/ (length v <> 1%nat /\ length v <> length idx).
Proof.
  unfold setitem_num, assign. destruct (forallb (fun i => (i <? length l)%nat) idx) eqn:F; destruct (fits_len (length idx) (conv junk d1 (OArr d2 v))) eqn:G; cbn [andb].
  - split; [discriminate|]. apply fits_len_iff in G. rewrite conv_arr_len in G. rewrite forallb_forall in F. intros [(i & I & K)|[A B]]; [apply F in I; apply Nat.ltb_lt in I; lia|tauto].
  - split; [intros _|reflexivity]. right. rewrite <- (conv_arr_len junk d1 d2 v). split; intros K; assert (fits_len (length idx) (conv junk d1 (OArr d2 v)) = true) by (apply fits_len_iff; tauto); congruence.
  - split; [intros _|reflexivity]. left. apply forallb_not in F. exact F.
  - split; [intros _|reflexivity]. left. apply forallb_not in F. exact F.
Qed.

(** masks *)
Lemma where_true_from (m : list bool) : forall k, map fst (filter (fun p => snd p) (combine (seq k (length m)) m)) = map (fun i => (k + i)%nat) (where_true m).
Proof.
  unfold where_true. assert (G : forall (m : list bool) k, map fst (filter (fun p => snd p) (combine (seq (S k) (length m)) m)) = map S (map fst (filter (fun p => snd p) (combine (seq k (length m)) m)))).
  { clear. induction m as [|b m IH]; intros k; [reflexivity|]. cbn [length seq combine filter snd]. destruct b; cbn [map fst]; now rewrite (IH (S k)). }
  induction k as [|k IH]; [cbn; now rewrite map_id|]. rewrite G, IH, map_map. apply map_ext. reflexivity.
Qed.
Lemma where_true_cons b m : where_true (b :: m) = (if b then [O] else []) ++ map S (where_true m).
Proof. unfold where_true at 1. cbn [length seq combine filter snd]. destruct b; cbn [map fst app]; rewrite where_true_from; [f_equal|]; apply map_ext; reflexivity. Qed.
Lemma where_true_len m : length (where_true m) = length (filter (fun b => b) m).
Proof. induction m as [|b m IH]; [reflexivity|]. rewrite where_true_cons, app_length, map_length, IH. now destruct b. Qed.
Lemma where_true_lt m : Forall (fun i => (i < length m)%nat) (where_true m).
Proof. induction m as [|b m IH]; [constructor|]. rewrite where_true_cons. apply Forall_app. split; [destruct b; [constructor; [cbn; lia|constructor]|constructor]|]. apply Forall_map. revert IH. apply Forall_impl. cbn; intros; lia. Qed.
Lemma last_put_S {X} idx (vals : list X) j : last_put (map S idx) vals (S j) = last_put idx vals j.
Proof. revert vals. induction idx as [|i idx IH]; intros [|v vals]; try reflexivity. cbn [map last_put]. now rewrite IH. Qed.
Lemma last_put_S0 {X} idx (vals : list X) : last_put (map S idx) vals 0 = None.
Proof. revert vals. induction idx as [|i idx IH]; intros [|v vals]; try reflexivity. cbn [map last_put]. now rewrite IH. Qed.
Lemma last_put_mask {X} : forall (m : list bool) (vals : list X) j, length vals = length (filter (fun b => b) m) ->
  last_put (where_true m) vals j = match nth_error m j with Some true => nth_error vals (length (filter (fun b => b) (firstn j m))) | _ => None end.
Proof.
  induction m as [|b m IH]; intros vals j L; [destruct j; reflexivity|]. rewrite where_true_cons. destruct b; cbn [app filter] in *.
  - destruct vals as [|v vals]; [discriminate|]. cbn [last_put]. destruct j as [|j]; cbn [nth_error firstn filter length].
    + now rewrite last_put_S0.
    + rewrite last_put_S, IH by (cbn in L; lia). cbn [Nat.eqb]. destruct (nth_error m j) as [[|]|]; try reflexivity. cbn [nth_error]. now destruct (nth_error vals _).
  - destruct j as [|j]; cbn [nth_error firstn filter]; [apply last_put_S0|]. rewrite last_put_S. apply IH, L.
Qed.
Lemma setitem_mask_ok junk d l m o : length m = length l -> operand_ok (length (filter (fun b => b) m)) o ->
  Forall (holds_value d) (rows_of o (length (filter (fun b => b) m))) ->
  exists l', setitem_mask junk d l m o = Some l' /\ length l' = length l /\
    forall j, nth_error l' j = match nth_error m j with
                               | Some true => nth_error (rows_of o (length (filter (fun b => b) m))) (length (filter (fun b => b) (firstn j m)))
                               | _ => nth_error l j
                               end.
Proof.
  intros L K H. unfold setitem_mask. rewrite L, Nat.eqb_refl. set (n := length (filter (fun b => b) m)) in *.
  pose proof (where_true_len m) as Ln. fold n in Ln.
  assert (Lr : length (rows_of o n) = n) by (apply rows_of_len, K).
  destruct (setitem_ok junk d l (where_true m) o) as (l' & E & Ll & Hl).
  - now rewrite Ln.
  - rewrite <- L. apply where_true_lt.
  - rewrite Ln. intros i v Q. rewrite Forall_forall in H. apply last_put_in in Q. destruct Q as (k & _ & Q). exact (H _ (nth_error_In _ _ Q)).
  - exists l'. split; [exact E|]. split; [exact Ll|]. intros j. rewrite Hl, Ln, last_put_mask by exact Lr.
    destruct (nth_error m j) as [[|]|] eqn:Ej; try reflexivity. destruct (nth_error (rows_of o n) _) eqn:Q; [reflexivity|]. exfalso. apply nth_error_None in Q. rewrite Lr in Q.
    assert (P : (length (filter (fun b => b) (firstn j m)) < n)%nat); [|lia]. unfold n. clear - Ej. revert j Ej. induction m as [|b m IH]; intros [|j] Ej; try discriminate; cbn [nth_error] in Ej.
    + injection Ej as ->. cbn. lia.
    + apply IH in Ej. cbn [firstn filter]. destruct b; cbn [length]; lia.
Qed.
