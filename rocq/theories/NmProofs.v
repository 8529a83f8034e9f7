(** Proofs about set_name and the names of columns. *)
From Coq Require Import List Ascii String Bool Arith Lia DecimalString DecimalNat FinFun.
From Verif Require Import NmModel.
Import ListNotations.
Local Open Scope list_scope.

Lemma T_inj a b : T a = T b -> a = b.
Proof. intros H. apply (f_equal string_of_list_ascii) in H. unfold T in H. now rewrite !string_of_list_ascii_of_string in H. Qed.
Lemma str_inj i j : str i = str j -> i = j.
Proof.
  unfold str. intros H. apply T_inj in H. apply (f_equal NilEmpty.uint_of_string) in H. rewrite !NilEmpty.usu in H. injection H as H. now apply Unsigned.to_uint_inj.
Qed.
Lemma numbered_inj name i j : numbered name i = numbered name j -> i = j.
Proof. unfold numbered. intros H. apply app_inv_head in H. apply app_inv_head in H. now apply str_inj. Qed.

Lemma nodup_map_in {X Y} (f : X -> Y) l : NoDup l -> (forall a b, In a l -> In b l -> f a = f b -> a = b) -> NoDup (map f l).
Proof.
  induction l as [|x l IH]; intros N I; cbn; [constructor|]. inversion_clear N as [|? ? N1 N2]. constructor.
  - rewrite in_map_iff. intros (y & E & J). apply I in E; [congruence|now right|now left].
  - apply IH; [exact N2|]. intros a b A B. apply I; now right.
Qed.
Section Names.
Context {V : Type}.
Implicit Types d out : list (text * V).
Lemma dput_new k (v : V) d : ~ In k (map fst d) -> dput k v d = d ++ [(k, v)].
Proof. induction d as [|[a b] r IH]; cbn; intros H; [reflexivity|]. destruct (text_dec a k) as [->|]; [tauto|]. rewrite IH by tauto. reflexivity. Qed.
(** distinct new names: the dictionary is the list *)
Lemma fold_put (f : text * V -> text) (l : list (text * V)) : forall out, NoDup (map fst out ++ map f l) ->
  fold_left (fun o p => dput (f p) (snd p) o) l out = out ++ map (fun p => (f p, snd p)) l.
Proof.
  induction l as [|p l IH]; intros out N; cbn; [now rewrite app_nil_r|]. cbn in N.
  assert (A : ~ In (f p) (map fst out)). { apply NoDup_remove_2 in N. rewrite in_app_iff in N. tauto. }
  rewrite dput_new by exact A. rewrite IH; [now rewrite <- app_assoc|]. rewrite map_app, <- app_assoc. exact N.
Qed.
Definition nm (name : text) (i : nat) (k : text) : text := if text_dec k (numbered (T "key") i) then numbered name i else k.
Fixpoint new_names (name : text) (i : nat) d : list text := match d with [] => [] | (k, _) :: r => nm name i k :: new_names name (S i) r end.
Lemma rename_list name d : forall i out, NoDup (map fst out ++ new_names name i d) -> rename name i d out = out ++ combine (new_names name i d) (map snd d).
Proof.
  induction d as [|[k v] r IH]; intros i out N; cbn; [now rewrite app_nil_r|]. cbn in N. fold (nm name i k).
  assert (A : ~ In (nm name i k) (map fst out)). { apply NoDup_remove_2 in N. rewrite in_app_iff in N. tauto. }
  rewrite dput_new by exact A. rewrite IH; [now rewrite <- app_assoc|]. rewrite map_app, <- app_assoc. exact N.
Qed.
Lemma new_names_nth name d : forall i j, nth_error (new_names name i d) j = option_map (fun p => nm name (i + j) (fst p)) (nth_error d j).
Proof.
  induction d as [|[k v] r IH]; intros i [|j]; cbn; try reflexivity; [now rewrite Nat.add_0_r|]. rewrite IH. now rewrite Nat.add_succ_r.
Qed.
Lemma new_names_length name d i : List.length (new_names name i d) = List.length d.
Proof. revert i. induction d as [|[k v] r IH]; intros i; cbn; [reflexivity|]. now rewrite IH. Qed.
Lemma new_names_nodup name d : NoDup (map fst d) ->
  (forall i k v j, nth_error d i = Some (k, v) -> k <> numbered (T "key") i -> j < List.length d -> k <> numbered name j) -> NoDup (new_names name 0 d).
Proof.
  intros N C. apply NoDup_nth_error. intros i j Hi E. rewrite new_names_length in Hi. rewrite !new_names_nth in E. cbn [Nat.add] in E.
  destruct (nth_error d i) as [[k v]|] eqn:Di; [|apply nth_error_None in Di; lia]. destruct (nth_error d j) as [[k' v']|] eqn:Dj; [|discriminate E].
  cbn in E. injection E as E. assert (Hj : j < List.length d) by (apply nth_error_Some; congruence). unfold nm in E.
  destruct (text_dec k (numbered (T "key") i)) as [K|K], (text_dec k' (numbered (T "key") j)) as [K'|K'].
  - now apply numbered_inj in E.
  - exfalso. exact (C j k' v' i Dj K' Hi (eq_sym E)).
  - exfalso. exact (C i k v j Di K Hj E).
  - subst k'. apply (proj1 (NoDup_nth_error (map fst d)) N); [now rewrite map_length|]. now rewrite !nth_error_map, Di, Dj.
Qed.
Theorem set_name_ok name d : NoDup (map fst d) ->
  (List.length d <> 1 -> forall i k v j, nth_error d i = Some (k, v) -> k <> numbered (T "key") i -> j < List.length d -> k <> numbered name j) ->
  map snd (set_name name d) = map snd d /\ NoDup (map fst (set_name name d)) /\
  forall i k v, nth_error d i = Some (k, v) -> nth_error (set_name name d) i = Some (new_name name (List.length d) i k, v).
Proof.
  intros N C. destruct d as [|[k1 v1] [|[k2 v2] r]] eqn:D.
  - cbn. split; [reflexivity|]. split; [constructor|]. intros [|i] k v E; discriminate E.
  - cbn. split; [reflexivity|]. split; [repeat constructor; intros []|]. intros [|[|i]] k v E; cbn in E; try discriminate E. injection E as <- <-. reflexivity.
  - rewrite <- D in *. assert (L : List.length d <> 1) by (rewrite D; cbn; lia). assert (S : set_name name d = rename name 0 d []) by now rewrite D.
    pose proof (new_names_nodup name d N (C L)) as NN. rewrite S, rename_list by exact NN. cbn [app]. clear S D.
    assert (Le : List.length (new_names name 0 d) = List.length (map snd d)) by now rewrite new_names_length, map_length.
    assert (F : map fst (combine (new_names name 0 d) (map snd d)) = new_names name 0 d /\ map snd (combine (new_names name 0 d) (map snd d)) = map snd d).
    { revert Le. generalize (new_names name 0 d) (map snd d). clear. intros a. induction a as [|x a IH]; intros [|y b] L; cbn in *; try discriminate; [auto|]. destruct (IH b ltac:(lia)) as [-> ->]. auto. }
    destruct F as [F1 F2]. rewrite F1, F2. split; [reflexivity|]. split; [exact NN|]. intros i k v E.
    assert (A : nth_error (new_names name 0 d) i = Some (nm name i k)) by (rewrite new_names_nth, E; reflexivity).
    assert (B : nth_error (map snd d) i = Some v) by now rewrite nth_error_map, E.
    unfold new_name. apply Nat.eqb_neq in L. rewrite L. fold (nm name i k). revert A B. generalize (nm name i k) (new_names name 0 d) (map snd d). clear. intros z a. revert i. induction a as [|x a IH]; intros [|i] [|y b] A B; cbn in *; try discriminate; [now injection A as ->; injection B as ->|now apply IH].
Qed.

(** ** Names of columns *)
Variable kw attr : text -> bool.
Definition more (name : text) (n : nat) : text := name ++ repeat us n.
Lemma more_S name n : more (name ++ [us]) n = more name (S n).
Proof. unfold more. rewrite <- app_assoc. reflexivity. Qed.
Lemma more_inj name n m : more name n = more name m -> n = m.
Proof. unfold more. intros H. apply (f_equal (@List.length ascii)) in H. rewrite !app_length, !repeat_length in H. lia. Qed.
Lemma avoid_more c : forall f name, exists n, avoid f c name = more name n /\ n <= f /\ (forall k, k < n -> In (more name k) c) /\ (n < f -> ~ In (more name n) c).
Proof.
  induction f as [|f IH]; intros name; cbn.
  - exists 0. unfold more. cbn. rewrite app_nil_r. repeat split; lia.
  - unfold isin. destruct (in_dec text_dec name c) as [J|J].
    + destruct (IH (name ++ [us])) as (n & -> & L & A & B). exists (S n). rewrite more_S. split; [reflexivity|]. split; [lia|]. split.
      * intros [|k] H; [unfold more; cbn; now rewrite app_nil_r|]. rewrite <- more_S. apply A. lia.
      * rewrite <- more_S. intros H. apply B. lia.
    + exists 0. unfold more. cbn. rewrite app_nil_r. repeat split; try lia. tauto.
Qed.
(** the loop ends at a name that is not taken, if some name was not among them *)
Lemma avoid_fresh c name x : In x c -> (forall n, x <> more name n) -> ~ In (avoid (List.length c) c name) c.
Proof.
  intros X NX. destruct (avoid_more c (List.length c) name) as (n & -> & L & A & B).
  destruct (Nat.eq_dec n (List.length c)) as [E|E]; [|apply B; lia]. exfalso.
  assert (I : incl (x :: map (more name) (seq 0 n)) c). { intros y [<-|J]; [exact X|]. apply in_map_iff in J. destruct J as (k & <- & J). apply in_seq in J. apply A. lia. }
  assert (ND : NoDup (x :: map (more name) (seq 0 n))).
  { constructor; [rewrite in_map_iff; intros (k & J & _); exact (NX k (eq_sym J))|]. apply FinFun.Injective_map_NoDup; [intros a b; apply more_inj|apply seq_NoDup]. }
  pose proof (NoDup_incl_length ND I) as Q. cbn in Q. rewrite map_length, seq_length in Q. lia.
Qed.
Hypothesis kw_end : forall s, kw (s ++ [us]) = false.
Lemma last_us : forall a b n m, (forall s, a <> s ++ [us]) -> (forall s, b <> s ++ [us]) -> more a n = more b m -> a = b.
Proof.
  intros a b n. revert b. induction n as [|n IH]; intros b [|m] A B H.
  - unfold more in H. cbn in H. now rewrite !app_nil_r in H.
  - exfalso. unfold more in H. cbn [repeat] in H. rewrite app_nil_r in H. rewrite repeat_cons in H. rewrite app_assoc in H. exact (A _ H).
  - exfalso. unfold more in H. cbn [repeat] in H. rewrite (app_nil_r b) in H. rewrite repeat_cons in H. rewrite app_assoc in H. exact (B _ (eq_sym H)).
  - unfold more in H. cbn [repeat] in H. rewrite !repeat_cons, !app_assoc in H. apply app_inj_tail in H. destruct H as [H _]. exact (IH b m A B H).
Qed.
Lemma kw_noend s : kw s = true -> forall t, s <> t ++ [us].
Proof. intros H t ->. rewrite kw_end in H. discriminate H. Qed.
Lemma lstrip_id t : match t with [] => True | c :: _ => c <> us end -> lstrip_us t = t.
Proof. destruct t as [|c r]; [reflexivity|]. cbn. intros H. destruct (ascii_dec c us); [congruence|reflexivity]. Qed.
(** the names of a container without underscores in front and without methods *)
Section Container.
Variable c : list text.
Hypothesis C1 : forall t, In t c -> match t with [] => True | x :: _ => x <> us end.
Hypothesis C2 : forall t, In t c -> attr t = false.
Lemma escape_kw t : In t c -> kw t = true -> exists n, escape kw attr c t = more t (S n) /\ ~ In (more t (S n)) c.
Proof.
  intros J K. unfold escape. rewrite lstrip_id by now apply C1. rewrite K. destruct (avoid_more c (List.length c) (t ++ [us])) as (n & E & _). exists n. rewrite <- more_S, <- E. split; [reflexivity|].
  apply (avoid_fresh c (t ++ [us]) t J). intros k H. rewrite more_S in H. unfold more in H. apply (f_equal (@List.length ascii)) in H. rewrite app_length, repeat_length in H. lia.
Qed.
Lemma escape_other t : In t c -> kw t = false -> escape kw attr c t = t.
Proof. intros J K. unfold escape. rewrite lstrip_id by now apply C1. rewrite K, C2 by exact J. reflexivity. Qed.
Lemma escape_inj a b : In a c -> In b c -> escape kw attr c a = escape kw attr c b -> a = b.
Proof.
  intros A B E. destruct (kw a) eqn:KA, (kw b) eqn:KB.
  - destruct (escape_kw a A KA) as (n & En & _), (escape_kw b B KB) as (m & Em & _). rewrite En, Em in E. eapply last_us; [apply kw_noend; exact KA|apply kw_noend; exact KB|exact E].
  - destruct (escape_kw a A KA) as (n & En & F). rewrite En, (escape_other b B KB) in E. rewrite E in F. tauto.
  - destruct (escape_kw b B KB) as (n & En & F). rewrite En, (escape_other a A KA) in E. rewrite <- E in F. tauto.
  - rewrite (escape_other a A KA), (escape_other b B KB) in E. exact E.
Qed.
End Container.
Theorem columns_ok d : NoDup (map fst d) -> (forall t, In t (map fst d) -> match t with [] => True | x :: _ => x <> us end) -> (forall t, In t (map fst d) -> attr t = false) ->
  h5_columns kw attr d = map (fun p => (escape kw attr (map fst d) (fst p), snd p)) d /\ NoDup (map fst (h5_columns kw attr d)).
Proof.
  intros N C1 C2. assert (NN : NoDup (map (fun p : text * V => escape kw attr (map fst d) (fst p)) d)).
  { rewrite <- (map_map fst (escape kw attr (map fst d))). assert (I : forall a b, In a (map fst d) -> In b (map fst d) -> escape kw attr (map fst d) a = escape kw attr (map fst d) b -> a = b) by (apply escape_inj; assumption).
    now apply nodup_map_in. }
  assert (E : h5_columns kw attr d = map (fun p => (escape kw attr (map fst d) (fst p), snd p)) d).
  { unfold h5_columns. rewrite (fold_put (fun p => escape kw attr (map fst d) (fst p)) d []) by exact NN. reflexivity. }
  split; [exact E|]. rewrite E, map_map. exact NN.
Qed.
End Names.
