(** Proofs about where save_sds writes and when it asks. *)
From Coq Require Import List Ascii String Bool Arith Lia.
From Verif Require Import OvModel.
Import ListNotations.
Local Open Scope list_scope.

Lemma text_eqb_eq a b : text_eqb a b = true <-> a = b.
Proof. unfold text_eqb. destruct (list_eq_dec ascii_dec a b); split; congruence. Qed.
Lemma ends_spec t e : ends t e = true <-> exists p, t = p ++ e.
Proof.
  unfold ends. rewrite text_eqb_eq. split.
  - intros H. exists (firstn (List.length t - List.length e) t). rewrite <- H at 2. symmetry. apply firstn_skipn.
  - intros [p ->]. rewrite app_length. replace (List.length p + List.length e - List.length e) with (List.length p) by lia.
    rewrite skipn_app, skipn_all, Nat.sub_diag. reflexivity.
Qed.
Lemma bool_iff a b : (a = true <-> b = true) -> a = b.
Proof. destruct a, b; intuition. Qed.

Lemma app_split {X} (x1 x2 y1 y2 : list X) : x1 ++ x2 = y1 ++ y2 ->
  exists l, (x1 = y1 ++ l /\ y2 = l ++ x2) \/ (y1 = x1 ++ l /\ x2 = l ++ y2).
Proof.
  revert y1. induction x1 as [|a x1 IH]; intros y1 H.
  - exists y1. right. auto.
  - destruct y1 as [|b y1].
    + exists (a :: x1). left. auto.
    + cbn in H. injection H as -> H. destruct (IH y1 H) as (l & [[-> ->]|[-> ->]]); exists l; [left|right]; auto.
Qed.
Lemma lower_sep c : lower c = sep -> c = sep.
Proof. destruct c as [[] [] [] [] [] [] [] []]; vm_compute; congruence. Qed.
Lemma sep_lower : lower sep = sep. Proof. reflexivity. Qed.
Lemma ext_nosep : ~ In sep ext.
Proof. vm_compute. intuition discriminate. Qed.
(** after a separator the extension is that of the last part *)
Lemma ends_after q b : sds_endswith (q ++ sep :: b) = sds_endswith b.
Proof.
  apply bool_iff. unfold sds_endswith. rewrite !ends_spec, map_app. cbn [map]. rewrite sep_lower. split.
  - intros [p H]. replace (map lower q ++ sep :: map lower b) with ((map lower q ++ [sep]) ++ map lower b) in H by now rewrite <- app_assoc.
    destruct (app_split _ _ _ _ H) as (l & [[E F]|[E F]]); [|now exists l].
    destruct l as [|x l] using rev_ind; [exists []; now cbn in F |]. exfalso. rewrite app_assoc in E. apply app_inj_tail in E. destruct E as [_ <-].
    apply ext_nosep. rewrite F. apply in_or_app. left. apply in_or_app. right. now left.
  - intros [p ->]. exists ((map lower q ++ [sep]) ++ p). now rewrite <- !app_assoc.
Qed.
Lemma take_split f (t : text) : exists r, t = take_while f t ++ r /\ match r with [] => True | c :: _ => f c = false end.
Proof.
  induction t as [|c t (r & E & H)]; cbn; [now exists []|]. destruct (f c) eqn:F.
  - exists r. cbn. now rewrite <- E.
  - exists (c :: t). cbn. auto.
Qed.
Lemma base_ends p : no_sep_at_end p -> sds_endswith (basename p) = sds_endswith p.
Proof.
  intros N. unfold basename. unfold no_sep_at_end in N. assert (D : drop_while is_sep (rev p) = rev p). { destruct (rev p) as [|c r]; [reflexivity|]. cbn. now rewrite N. }
  rewrite D. destruct (take_split (fun c => negb (is_sep c)) (rev p)) as (r & E & H). set (b := take_while _ (rev p)) in *.
  apply (f_equal (@rev ascii)) in E. rewrite rev_involutive, rev_app_distr in E. destruct r as [|c r]; [cbn in E; now rewrite <- E|].
  assert (c = sep). { apply negb_false_iff in H. now apply Ascii.eqb_eq. } subst c. cbn in E. rewrite <- app_assoc in E. cbn in E. rewrite E. symmetry. apply ends_after.
Qed.
Lemma parse_id n : ~ In sep n -> parse_nested n = n.
Proof.
  intros H. unfold parse_nested. rewrite <- map_id. apply map_ext_in. intros c J. unfold is_sep. destruct (Ascii.eqb_spec c sep) as [->|]; [tauto|reflexivity].
Qed.

(** ** The answers *)
Lemma infix_two a x y : infix a [x; y] = true <-> a = [] \/ a = [x] \/ a = [y] \/ a = [x; y].
Proof.
  destruct a as [|c [|d [|e a]]]; cbn; rewrite ?andb_true_r, ?andb_false_r, ?orb_false_r.
  - intuition congruence.
  - rewrite orb_true_iff, !Ascii.eqb_eq. intuition congruence.
  - rewrite andb_true_iff, !Ascii.eqb_eq. intuition congruence.
  - intuition congruence.
Qed.
Lemma infix_yes a : plain a -> infix a (T "Yy") = true <-> yes a.
Proof. intros (A & B & C). change (T "Yy") with ["Y"; "y"]%char in *. rewrite infix_two. unfold yes. change (T "Y") with ["Y"]%char. change (T "y") with ["y"]%char. tauto. Qed.
Lemma infix_no a : plain a -> infix a (T "Nn") = true <-> no a.
Proof. intros (A & B & C). change (T "Nn") with ["N"; "n"]%char in *. rewrite infix_two. unfold no. change (T "N") with ["N"]%char. change (T "n") with ["n"]%char. tauto. Qed.
Lemma yes_not_no a : yes a -> ~ no a.
Proof. intros [-> | ->] [H|H]; discriminate H. Qed.
Definition decided (r : option bool) (answers : list text) : Prop :=
  match r with Some true => answered yes answers | Some false => answered no answers | None => undecided answers end.
Lemma decided_cons r a answers : ~ yes a -> ~ no a -> decided r answers -> decided r (a :: answers).
Proof.
  intros Y N. destruct r as [[]|]; cbn.
  - intros (b & x & c & -> & P & Q). exists (a :: b), x, c. split; [reflexivity|]. split; [exact P|]. intros z [<-|J]; auto.
  - intros (b & x & c & -> & P & Q). exists (a :: b), x, c. split; [reflexivity|]. split; [exact P|]. intros z [<-|J]; auto.
  - intros H z [<-|J]; auto.
Qed.
Lemma ask_file_ok answers : Forall plain answers -> decided (ask_file answers) answers.
Proof.
  induction 1 as [|a r P F IH]; cbn [ask_file]; [intros b []|].
  destruct (infix a (T "Yy")) eqn:E1.
  - exists [], a, r. split; [reflexivity|]. split; [now apply infix_yes|intros b []].
  - destruct (infix a (T "Nn")) eqn:E2.
    + exists [], a, r. split; [reflexivity|]. split; [now apply infix_no|intros b []].
    + apply decided_cons; [rewrite <- infix_yes by exact P; congruence|rewrite <- infix_no by exact P; congruence|exact IH].
Qed.
Lemma one_of_two a x y : one_of a [x; y] = true <-> a = x \/ a = y.
Proof. unfold one_of. cbn. rewrite orb_false_r, orb_true_iff, !text_eqb_eq. reflexivity. Qed.
Lemma ask_dir_ok answers : decided (ask_dir answers) answers.
Proof.
  induction answers as [|a r IH]; cbn [ask_dir]; [intros b []|].
  destruct (one_of a [T "Y"; T "y"]) eqn:E1.
  - exists [], a, r. split; [reflexivity|]. split; [now apply one_of_two|intros b []].
  - destruct (one_of a [T "N"; T "n"]) eqn:E2.
    + exists [], a, r. split; [reflexivity|]. split; [now apply one_of_two|intros b []].
    + apply decided_cons; [unfold yes; rewrite <- one_of_two; congruence|unfold no; rewrite <- one_of_two; congruence|exact IH].
Qed.

(** ** The paths *)
Section Disk.
Variable isfile isdir : text -> bool.
(** the path that is looked at *)
Lemma single_at path name overwrite append answers :
  let p := fst (full_path path name) in
  (name = None -> no_sep_at_end path) -> lower_ext p ->
  exists nm, path_single isfile isdir path name overwrite append answers =
    if isfile (target p) then if append || overwrite then Go (target p) nm else match ask_file answers with None => Ask | Some false => No | Some true => Go (target p) nm end
    else if isdir (target p) then TypeErr else Go (target p) nm.
Proof.
  intros p N L. assert (B : sds_endswith (snd (full_path path name)) = ends p ext).
  { rewrite <- L. unfold p. destruct name as [n|]; cbn [full_path fst snd]; [now rewrite ends_after|apply base_ends; auto]. }
  unfold path_single. unfold p in *. destruct (full_path path name) as [q b]. cbn [fst snd] in *.
  rewrite B. unfold target. destruct append; cbn [orb]; destruct (ends q ext); eexists; reflexivity.
Qed.
Lemma target_idem p : target (target p) = target p.
Proof.
  unfold target at 2 3. destruct (ends p ext) eqn:E; unfold target; [now rewrite E|]. replace (ends (p ++ ext) ext) with true; [reflexivity|]. symmetry. apply ends_spec. now exists p.
Qed.
Lemma answers_outcome answers f (o : outcome) : Forall plain answers ->
  o = (if isfile f then match ask_file answers with None => Asking | Some false => Declined | Some true => Writes f end
       else if isdir f then Raises else Writes f) -> asks_first isfile isdir answers f o.
Proof.
  intros P ->. pose proof (ask_file_ok answers P) as D. destruct (isfile f) eqn:F.
  - destruct (ask_file answers) as [[]|]; cbn in *; auto.
  - destruct (isdir f) eqn:G; cbn; auto. split; [reflexivity|congruence].
Qed.
Theorem array_asks path name answers : (name = None -> no_sep_at_end path) -> lower_ext (fst (full_path path name)) -> Forall plain answers ->
  asks_first isfile isdir answers (target (fst (full_path path name))) (save_array isfile isdir path name false answers).
Proof.
  intros N L P. apply answers_outcome; [exact P|]. unfold save_array. destruct (single_at path name false false answers N L) as (nm & ->). cbn [orb].
  destruct (isfile _); [destruct (ask_file answers) as [[]|]|destruct (isdir _)]; rewrite ?target_idem; reflexivity.
Qed.
Theorem dataset_asks path name answers : (name = None -> no_sep_at_end path) -> lower_ext (fst (full_path path name)) ->
  (forall n, name = Some n -> ~ In sep n /\ bad_leaf n = false) -> Forall plain answers ->
  asks_first isfile isdir answers (target (fst (full_path path name))) (save_dataset isfile isdir path name false false answers).
Proof.
  intros N L B P. apply answers_outcome; [exact P|]. unfold save_dataset. destruct (single_at path name false false answers N L) as (nm & ->). cbn [orb].
  assert (W : match name with None => Writes (target path) | Some n => if bad_leaf n then Raises else Writes (target (path ++ sep :: n)) end = Writes (target (fst (full_path path name)))).
  { destruct name as [n|]; [|reflexivity]. destruct (B n eq_refl) as [S ->]. cbn [full_path fst]. now rewrite parse_id. }
  destruct (isfile _); [destruct (ask_file answers) as [[]|]|destruct (isdir _)]; rewrite ?W; reflexivity.
Qed.
Theorem struct_asks path name answers : no_sep_at_end path -> lower_ext path -> Forall plain answers ->
  asks_first isfile isdir answers (target path) (save_struct isfile isdir false path name false answers).
Proof. intros N L P. exact (array_asks path None answers (fun _ => N) L P). Qed.
Theorem dir_asks path name answers :
  match save_struct isfile isdir true path name false answers with
  | WritesDir d => d = path /\ (isfile path = true \/ isdir path = true -> answered yes answers)
  | Declined => (isfile path = true \/ isdir path = true) /\ answered no answers
  | Asking => (isfile path = true \/ isdir path = true) /\ undecided answers
  | _ => False
  end.
Proof.
  unfold save_struct, path_multi. pose proof (ask_dir_ok answers) as D. pose proof (orb_true_iff (isfile path) (isdir path)) as O. destruct (isfile path || isdir path).
  - destruct (ask_dir answers) as [[]|]; cbn in *; tauto.
  - split; [reflexivity|]. intros H. apply O in H. discriminate H.
Qed.
(** with overwrite nothing is asked *)
Theorem overwrite_never_asks path name answers : save_array isfile isdir path name true answers = save_array isfile isdir path name true [] /\
  (forall append, save_dataset isfile isdir path name true append answers = save_dataset isfile isdir path name true append []) /\
  (forall nested, save_struct isfile isdir nested path name true answers = save_struct isfile isdir nested path name true []) /\
  save_array isfile isdir path name true [] <> Asking /\ (forall append, save_dataset isfile isdir path name true append [] <> Asking) /\ (forall nested, save_struct isfile isdir nested path name true [] <> Asking).
Proof.
  assert (S : forall nm ap ans, path_single isfile isdir path nm true ap ans = path_single isfile isdir path nm true ap [] /\ path_single isfile isdir path nm true ap [] <> Ask /\ path_single isfile isdir path nm true ap [] <> No).
  { intros nm ap ans. unfold path_single. destruct (full_path path nm) as [p b]. destruct ap; destruct (sds_endswith b); destruct (isfile _); try destruct (isdir _); repeat split; discriminate. }
  assert (M : forall e ans, path_multi e true ans = Some true) by (intros [] ans; reflexivity).
  unfold save_array, save_dataset, save_struct. split; [now rewrite (proj1 (S name false answers))|]. split; [intros ap; now rewrite (proj1 (S name ap answers))|].
  split; [intros nested; rewrite !M; now rewrite (proj1 (S None false answers))|].
  split; [destruct (S name false []) as (_ & A & B); destruct (path_single _ _ _ name true false []); congruence|].
  split.
  - intros ap. destruct (S name ap []) as (_ & A & B). destruct (path_single _ _ _ name true ap []); try congruence. destruct name as [n|]; [destruct (bad_leaf n)|]; discriminate.
  - intros nested. rewrite M. destruct nested; [discriminate|]. destruct (S None false []) as (_ & A & B). destruct (path_single _ _ _ None true false []); congruence.
Qed.
End Disk.
(** ** Names *)
Lemma ends_sds x : ends x ext = true -> sds_endswith x = true.
Proof. unfold sds_endswith. rewrite !ends_spec. intros [p ->]. exists (map lower p). now rewrite map_app. Qed.
Theorem names_apart path n m : n <> m -> sds_endswith n = false -> sds_endswith m = false -> target (path ++ sep :: n) <> target (path ++ sep :: m).
Proof.
  intros D N M. rewrite <- (ends_after path) in N, M. unfold target.
  destruct (ends (path ++ sep :: n) ext) eqn:E; [apply ends_sds in E; congruence|]. destruct (ends (path ++ sep :: m) ext) eqn:E'; [apply ends_sds in E'; congruence|].
  intros H. apply app_inv_tail in H. apply app_inv_head in H. congruence.
Qed.
