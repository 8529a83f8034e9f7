(** Properties C169 to C173: loading several .sds files. *)
From Coq Require Import List Arith ZArith Bool Lia Sorted.
From Verif Require Import GroupModel GroupFacts FlattenModel DsModel GroupingModel GroupingSpec PdsModel DsProofs3 StSpec StProofs MsModel MsSpec MsProofs MsProofs2 MsProofs3.
Import ListNotations.

Ltac nd := repeat constructor; cbn; intuition congruence.
Ltac nobang := let E := fresh in intros [E|[]]; vm_compute in E; discriminate E.
Ltac fcol := split; [cbn [fst]; nobang|split; [reflexivity|cbn; first [exact I|split; [nd|first [left; split; [reflexivity|repeat constructor; cbn; lia]|right; split; [reflexivity|repeat constructor; cbn; lia]]]]]].
Ltac fok := split; [nd|repeat (apply Forall_cons; [fcol|]); apply Forall_nil].
Ltac fsok := repeat (apply Forall_cons; [fok|]); apply Forall_nil.

(** *** C169: files stacked into one Dataset *)
(** Saved Datasets that agree on the class of each column (and have each base 0 Categorical in every file) load as one Dataset:
    its columns are the columns of all files, in order of first appearance; every column shows, file after file, what the column of
    that file shows, and invalids of its kind for every row of a file without the column; its class data and base are those of the files. *)
Theorem C169_stacked_load_partial :
  forall (V B M : Type) (crc : list B -> Z) (grp : list B -> list B * list nat) (junk : nat),
  (forall l, grouping_of (map Some l) (fst (grp l)) (snd (grp l))) ->
  forall (fs : list (file V B M)), Forall file_ok fs -> agree fs -> base0_everywhere fs -> crc_ok crc fs -> all_names fs <> [] ->
  exists cols cuts, load_stacked crc grp junk fs = Some (cols, cuts) /\
    map fst cols = firsts (all_names fs) /\
    forall n o, In (n, o) cols -> forall f c, In f fs -> dget n (f_cols f) = Some c ->
      out_shows o = concat (map (contributes n c) fs) /\
      match c, o with Plain m _, OPlain m' _ => m = m' | Cat b _ _, OCat b' _ _ => b = b' | _, _ => False end.
Proof.
  intros V B M crc grp junk G fs F A B0 CR NE. destruct (stacked_ok crc grp junk G fs F A B0 CR NE) as [cols [E [Nm H]]].
  exists cols, (cumsum (map f_rows fs)). split; [exact E|]. split; [exact Nm|]. exact H.
Qed.
Print Assumptions C169_stacked_load_partial.

Definition ms_grp (l : list nat) := (uniques Nat.eqb (map Some l), ikeys Nat.eqb (map Some l)).
Definition ms_crc (l : list nat) : Z := fold_left (fun a x => (a * 100 + Z.of_nat x)%Z) l 1%Z.
Definition ms_f1 : file nat nat nat := {| f_rows := 3; f_cols := [([97], Cat 1 [2; 0; 1] [7; 8]); ([98], Plain (Some 5) [10; 11; 12])] |}.
Definition ms_f2 : file nat nat nat := {| f_rows := 2; f_cols := [([99], Plain None [20; 21])] |}.
Definition ms_f3 : file nat nat nat := {| f_rows := 2; f_cols := [([98], Plain (Some 5) [30; 31]); ([97], Cat 1 [1; 2] [9; 7])] |}.
Example C169_case :
  let fs := [ms_f1; ms_f2; ms_f3] in
  (forall l, grouping_of (map Some l) (fst (ms_grp l)) (snd (ms_grp l))) /\
  Forall file_ok fs /\ agree fs /\ base0_everywhere fs /\ crc_ok ms_crc fs /\ all_names fs <> [] /\
  load_stacked ms_crc ms_grp 99 fs = Some ([([97], OCat 1 [2; 0; 1; 0; 0; 3; 1] [7; 8; 9]);
    ([98], OPlain (Some 5) [CV 10; CV 11; CV 12; CGap; CGap; CV 30; CV 31]);
    ([99], OPlain None [CGap; CGap; CGap; CV 20; CV 21; CGap; CGap])], [3; 5; 7]).
Proof.
  cbv zeta. split; [intros l; apply (ikeys_grouping Nat.eqb Nat.eqb_eq)|].
  assert (Cols : forall n f c, In f [ms_f1; ms_f2; ms_f3] -> dget n (f_cols f) = Some c ->
     (n = [97] /\ ((f = ms_f1 /\ c = Cat 1 [2; 0; 1] [7; 8]) \/ (f = ms_f3 /\ c = Cat 1 [1; 2] [9; 7]))) \/
     (n = [98] /\ (exists l, c = Plain (Some 5) l)) \/ (n = [99] /\ (exists l, c = Plain None l))).
  { intros n f c If D. apply dget_some_in in D.
    destruct If as [<-|[<-|[<-|[]]]]; cbn in D; intuition; match goal with H : (_, _) = (_, _) |- _ => inversion H; subst end; eauto 10. }
  split.
  { fsok. }
  split.
  { intros n f g c d If Ig Df Dg. destruct (Cols _ _ _ If Df) as [[-> C1]|[[-> C1]|[-> C1]]]; destruct (Cols _ _ _ Ig Dg) as [[E C2]|[[E C2]|[E C2]]]; try discriminate E.
    - destruct C1 as [[_ ->]|[_ ->]]; destruct C2 as [[_ ->]|[_ ->]]; reflexivity.
    - destruct C1 as [? ->]; destruct C2 as [? ->]; reflexivity.
    - destruct C1 as [? ->]; destruct C2 as [? ->]; reflexivity. }
  split.
  { intros n f g c If Ig Df Fm. destruct (Cols _ _ _ If Df) as [[-> [[_ ->]|[_ ->]]]|[[-> [? ->]]|[-> [? ->]]]]; discriminate Fm. }
  split.
  { assert (U : forall u, (u = [] \/ exists f n b k, In f [ms_f1; ms_f2; ms_f3] /\ dget n (f_cols f) = Some (Cat b k u)) -> u = [] \/ u = [7; 8] \/ u = [9; 7]).
    { intros u [->|[f [n [b [k [If D]]]]]]; [now left|]. right. destruct (Cols _ _ _ If D) as [[-> [[_ E]|[_ E]]]|[[-> [? E]]|[-> [? E]]]]; inversion E; auto. }
    intros u v Hu Hv L E. destruct (U u Hu) as [->|[->| ->]]; destruct (U v Hv) as [->|[->| ->]]; auto; try discriminate L; vm_compute in E; discriminate E. }
  split; [discriminate|]. vm_compute. reflexivity.
Qed.

(** Finding: the class data of the first file that has any is used for all files (rt_sds.py:1391-1449): a column that is of another
    class or zone in a later file, or a plain number there, is shown with the class and zone of the first file. *)
Theorem C169_first_class_wins_refuted :
  exists (fs : list (file nat nat nat)) cols cuts o, Forall file_ok fs /\
    load_stacked ms_crc ms_grp 0 fs = Some (cols, cuts) /\ dget [97] cols = Some o /\
    concat (map (contributes [97] (Plain None [])) fs) = [Number (Some 5) 10; Number (Some 6) 20] /\
    out_shows o = [Number (Some 5) 10; Number (Some 5) 20].
Proof.
  exists [{| f_rows := 1; f_cols := [([97], Plain (Some 5) [10])] |}; {| f_rows := 1; f_cols := [([97], Plain (Some 6) [20])] |}].
  do 3 eexists. split.
  { fsok. }
  split; [vm_compute; reflexivity|]. split; [vm_compute; reflexivity|]. split; vm_compute; reflexivity.
Qed.
Print Assumptions C169_first_class_wins_refuted.

(** Finding: a Categorical column whose name contains "!" is saved, but its categories are looked up under the part of the name before
    the first "!" (rt_sds.py:1404-1417): loading such files stacked raises. *)
Theorem C169_bang_in_name_refuted :
  exists (f : file nat nat nat), NoDup (map fst (f_cols f)) /\
    Forall (fun p => col_length (snd p) = f_rows f /\ col_ok (snd p)) (f_cols f) /\ load_stacked ms_crc ms_grp 0 [f] = None.
Proof.
  exists {| f_rows := 2; f_cols := [([97; bang; 98], Cat 1 [1; 2] [7; 8])] |}. split.
  { nd. }
  split; [|vm_compute; reflexivity]. apply Forall_cons; [|apply Forall_nil]. split; [reflexivity|]. cbn. split; [nd|].
  right. split; [reflexivity|]. repeat constructor; cbn; lia.
Qed.
Print Assumptions C169_bang_in_name_refuted.

(** *** C170: what cannot be stacked *)
(** A Categorical that has different base indices in two files is refused, wherever the files are in the list. *)
Theorem C170_bases_must_agree :
  forall (V B M : Type) (crc : list B -> Z) (grp : list B -> list B * list nat) (junk : nat) (fs : list (file V B M)), Forall file_ok fs ->
  forall n f g b k u b' k' u', In f fs -> In g fs ->
  dget n (f_cols f) = Some (Cat b k u) -> dget n (f_cols g) = Some (Cat b' k' u') -> b <> b' ->
  (forall h m l, In h fs -> dget n (f_cols h) <> Some (Plain (Some m) l)) ->
  load_stacked crc grp junk fs = None.
Proof.
  intros V B M crc grp junk fs F n f g b k u b' k' u' If Ig Df Dg Nb No.
  apply (refused crc grp junk fs f g n b k u (Cat b' k' u') F If Ig Df Dg); [congruence|].
  intros m ms E. destruct (metas_in n fs (inl m)) as [h [d [Ih [Dh Q]]]]; [rewrite E; now left|exact F|].
  destruct d as [[m'|] l|? ? ?]; try discriminate Q; try contradiction. exact (No h m' l Ih Dh).
Qed.
Print Assumptions C170_bases_must_agree.
Example C170_case :
  let f := {| f_rows := 1; f_cols := [([97], Cat (V := nat) (M := nat) 1 [1] [7])] |} in
  let g := {| f_rows := 1; f_cols := [([97], Cat 0 [0] [7])] |} in
  Forall file_ok [f; ms_f2; g] /\ dget [97] (f_cols f) = Some (Cat 1 [1] [7]) /\ dget [97] (f_cols g) = Some (Cat 0 [0] [7]) /\
  load_stacked ms_crc ms_grp 0 [f; ms_f2; g] = None /\ load_stacked ms_crc ms_grp 0 [f; ms_f2; f] <> None.
Proof.
  cbv zeta. split.
  { fsok. }
  split; [reflexivity|]. split; [reflexivity|]. split; [vm_compute; reflexivity|vm_compute; discriminate].
Qed.

(** Finding: a column that is a date in the first file and a Categorical in a later one is not refused (rt_sds.py:1404-1449 looks only
    at the class of the first): the codes of the Categorical come back as dates, its labels are lost. *)
Theorem C170_mixed_classes_refuted :
  exists (fs : list (file nat nat nat)) cols cuts o, Forall file_ok fs /\
    load_stacked ms_crc ms_grp 0 fs = Some (cols, cuts) /\ dget [97] cols = Some o /\
    o = OPlain (Some 5) [CV 10; CC 1] /\ concat (map (contributes [97] (Plain None [])) fs) = [Number (Some 5) 10; Label 7].
Proof.
  exists [{| f_rows := 1; f_cols := [([97], Plain (Some 5) [10])] |}; {| f_rows := 1; f_cols := [([97], Cat 1 [1] [7])] |}].
  do 3 eexists. split.
  { fsok. }
  split; [vm_compute; reflexivity|]. split; [vm_compute; reflexivity|]. split; vm_compute; reflexivity.
Qed.
Print Assumptions C170_mixed_classes_refuted.

(** *** C171: partitions *)
(** The partitions of the result are the files: the cutoffs are the running sums of their rows, and in every column the rows between
    two cutoffs show what that file shows. *)
Theorem C171_partitions_partial :
  forall (V B M : Type) (crc : list B -> Z) (grp : list B -> list B * list nat) (junk : nat),
  (forall l, grouping_of (map Some l) (fst (grp l)) (snd (grp l))) ->
  forall (fs : list (file V B M)), Forall file_ok fs -> agree fs -> base0_everywhere fs -> crc_ok crc fs -> all_names fs <> [] ->
  exists cols cuts, load_stacked crc grp junk fs = Some (cols, cuts) /\ length cuts = length fs /\
    forall k f, nth_error fs k = Some f ->
      nth_error cuts k = Some (list_sum (map f_rows (firstn (S k) fs))) /\
      forall n o g c, In (n, o) cols -> In g fs -> dget n (f_cols g) = Some c ->
        firstn (f_rows f) (skipn (list_sum (map f_rows (firstn k fs))) (out_shows o)) = contributes n c f.
Proof.
  intros V B M crc grp junk G fs F A B0 CR NE. destruct (stacked_ok crc grp junk G fs F A B0 CR NE) as [cols [E [Nm H]]].
  exists cols, (cumsum (map f_rows fs)). split; [exact E|]. split; [unfold cumsum; now rewrite cumsum_len, map_length|].
  intros k f K. split.
  - clear -K. unfold cumsum. enough (W : forall acc, nth_error (cumsum_from acc (map f_rows fs)) k = Some (acc + list_sum (map f_rows (firstn (S k) fs)))) by apply W.
    revert k K. induction fs as [|x fs IH]; intros [|k] K acc; try discriminate K.
    + cbn. f_equal. lia.
    + cbn [nth_error] in K. cbn [map cumsum_from nth_error]. rewrite (IH k K). f_equal. cbn. lia.
  - intros n o g c I Ig Dg. destruct (H n o I g c Ig Dg) as [S _]. rewrite S. clear S.
    assert (L : forall h, In h fs -> length (contributes n c h) = f_rows h).
    { intros h Ih. unfold contributes. destruct (dget n (f_cols h)) as [d|] eqn:D; [|apply repeat_length].
      rewrite Forall_forall in F. destruct (get_ok h n d (F h Ih) D) as [_ [Ld _]].
      rewrite <- Ld. destruct d as [m l|b kk u]; cbn [column_shows col_length]; rewrite map_length; [reflexivity|]. destruct (b =? 0); apply map_length. }
    clear -L K. revert k K. induction fs as [|x fs IH]; intros [|k] K; try discriminate K.
    + inversion K; subst x. cbn [firstn map list_sum fold_right skipn concat]. rewrite <- (L f) by now left.
      rewrite firstn_app, Nat.sub_diag, firstn_all. cbn. apply app_nil_r.
    + cbn [nth_error] in K. cbn [firstn map concat]. change (list_sum (f_rows x :: map f_rows (firstn k fs))) with (f_rows x + list_sum (map f_rows (firstn k fs))).
      rewrite <- (L x) at 1 by now left. rewrite skipn_app, skipn_all2 by lia. cbn [app].
      replace (length (contributes n c x) + list_sum (map f_rows (firstn k fs)) - length (contributes n c x)) with (list_sum (map f_rows (firstn k fs))) by lia.
      apply IH; [intros; apply L; now right|exact K].
Qed.
Print Assumptions C171_partitions_partial.
Example C171_case :
  nth_error [ms_f1; ms_f2; ms_f3] 2 = Some ms_f3 /\ list_sum (map f_rows (firstn 2 [ms_f1; ms_f2; ms_f3])) = 5 /\
  contributes [97] (Cat 1 [] []) ms_f3 = [Label 9; Label 7] /\ contributes [97] (Cat 1 [] []) ms_f2 = [NoLabel; NoLabel].
Proof. split; [reflexivity|]. split; [reflexivity|]. split; vm_compute; reflexivity. Qed.

(** *** C172: filter= *)
(** A boolean filter keeps the rows at which it is true; row numbers keep the rows with those numbers. *)
Theorem C172_filter_partial :
  forall (X : Type) (rows : list X),
  (forall m, exists r, load_filtered (SBool m) rows = Some r /\ r = map snd (filter (fun p : bool * X => fst p) (combine m rows))) /\
  (forall l, Forall (fun i => 0 <= i)%Z l -> load_filtered (SInts l) rows = Some (rows_named l rows)) /\
  (forall l, Forall (fun i => 0 <= i < Z.of_nat (length rows))%Z l -> StronglySorted Z.lt l ->
     exists r, load_filtered (SInts l) rows = Some r /\ map Some r = map (fun i => nth_error rows (Z.to_nat i)) l).
Proof.
  intros X rows. split; [intros m; eexists; split; reflexivity|]. split; [intros l; apply filter_ints|].
  intros l F S. assert (F0 : Forall (fun i => 0 <= i)%Z l) by (eapply Forall_impl; [|exact F]; cbv beta; lia).
  eexists. split; [exact (filter_ints l rows F0)|]. unfold rows_named. rewrite (named_rise rows 0 l F S).
  apply map_ext. intros i. now rewrite Nat.sub_0_r.
Qed.
Print Assumptions C172_filter_partial.
Example C172_case :
  load_filtered (SInts [1; 3]%Z) [10; 11; 12; 13; 14] = Some [11; 13] /\ rows_named [3; 1; 9]%Z [10; 11; 12; 13; 14] = [11; 13] /\
  load_filtered (SBool [true; false; true]) [10; 11; 12; 13] = Some [10; 12].
Proof. split; [vm_compute; reflexivity|]. split; vm_compute; reflexivity. Qed.
(** Finding: filter= with row numbers is turned into a mask (rt_sds.py:1512-1533): their order is lost and repeated rows come once. *)
Theorem C172_order_lost_refuted :
  exists (rows : list nat) l, Forall (fun i => 0 <= i < Z.of_nat (length rows))%Z l /\
    map (fun i => nth_error rows (Z.to_nat i)) l = [Some 12; Some 10; Some 12] /\ load_filtered (SInts l) rows = Some [10; 12].
Proof. exists [10; 11; 12], [2; 0; 2]%Z. split; [repeat constructor; cbn; lia|]. split; vm_compute; reflexivity. Qed.
Print Assumptions C172_order_lost_refuted.
(** Finding: negative row numbers count from the largest row number in the filter, not from the end of the rows: [0, -1] loads the first row
    only, and [-1] alone raises. *)
Theorem C172_negative_refuted :
  load_filtered (SInts [0; -1]%Z) [10; 11; 12] = Some [10] /\ load_filtered (SInts [-1]%Z) [10; 11; 12] = None /\
  load_filtered (SInts [3; -1]%Z) [10; 11; 12] = Some [].
Proof. split; [vm_compute; reflexivity|]. split; vm_compute; reflexivity. Qed.
Print Assumptions C172_negative_refuted.

(** *** C173: a list of paths *)
(** load_sds of a list of paths gives one result for each path that exists, in the order of the list; with mustexist it raises exactly
    if some path is missing. The case of exactly one file that was appended to is left out. *)
Theorem C173_list_of_paths_partial :
  forall (P R : Type) (kind_of : P -> path_kind) (load_dir load_file : P -> R) (appended : P -> bool) (mustexist : bool) (ps : list P),
  (forall s, filter (fun p => match kind_of p with IsFile => true | _ => false end) ps = [s] -> appended s = false) ->
  (mustexist = true /\ Exists (fun p => kind_of p = IsMissing) ps -> load_list kind_of load_dir load_file appended mustexist ps = Raised) /\
  (mustexist = false \/ Forall (fun p => kind_of p <> IsMissing) ps ->
     load_list kind_of load_dir load_file appended mustexist ps = Results (map (one_result kind_of load_dir load_file) (filter (found kind_of) ps))).
Proof.
  intros P R kind_of load_dir load_file appended me ps Ap. unfold load_list. split.
  - intros [-> Ex]. now rewrite (from_list_missing kind_of ps Ex).
  - intros W. destruct (from_list kind_of load_dir load_file me ps) as [names [single [E [S Pl]]]].
    { intros ->. destruct W as [W|W]; [discriminate|exact W]. }
    rewrite E, Pl. destruct single as [|s [|s' r]]; auto. rewrite (Ap s); auto.
Qed.
Print Assumptions C173_list_of_paths_partial.
Definition ms_kind (p : nat) : path_kind := match p with 0 | 1 => IsDir | 2 | 3 | 4 => IsFile | _ => IsMissing end.
Example C173_case :
  filter (fun p => match ms_kind p with IsFile => true | _ => false end) [3; 0; 9; 2; 1] <> [3] /\
  load_list ms_kind (fun p => 100 + p) (fun p => 200 + p) (fun _ => true) false [3; 0; 9; 2; 1] = Results [203; 100; 202; 101] /\
  load_list ms_kind (fun p => 100 + p) (fun p => 200 + p) (fun _ => true) true [3; 0; 9; 2; 1] = Raised.
Proof. split; [discriminate|]. split; vm_compute; reflexivity. Qed.
(** Finding: if exactly one path of the list is a file and that file was appended to, its Dataset alone is returned (rt_sds.py:1216-1221,
    2294-2313): the directories of the list are dropped and the result is no list. *)
Theorem C173_appended_refuted :
  load_list ms_kind (fun p => 100 + p) (fun p => 200 + p) (fun _ => true) true [0; 2; 1] = OneResult 202 /\
  map (one_result ms_kind (fun p => 100 + p) (fun p => 200 + p)) (filter (found ms_kind) [0; 2; 1]) = [100; 202; 101].
Proof. split; vm_compute; reflexivity. Qed.
Print Assumptions C173_appended_refuted.
(** Finding: with mustexist=False the results of a list say nothing about which paths were missing: later results move up. *)
Theorem C173_positions_refuted :
  exists ps p, nth_error ps 2 = Some p /\ ms_kind p = IsDir /\
    load_list ms_kind (fun p => 100 + p) (fun p => 200 + p) (fun _ => false) false ps = Results [203; 100 + p].
Proof. exists [3; 9; 1], 1. split; [reflexivity|]. split; vm_compute; reflexivity. Qed.
Print Assumptions C173_positions_refuted.
