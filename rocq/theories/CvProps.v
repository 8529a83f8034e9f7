(** Columns to Categoricals (C231), Categoricals and arrays of categories (C232). *)
From Coq Require Import List ZArith Bool Lia.
From Verif Require Import FlattenModel FlattenProofs CatModel CatSpec CatProps CvSpec CvModel CvProofs CvProofs2.
Import ListNotations.

(** make_categoricals() turns every array of strings, in the Struct and in the Structs
    inside it, into a Categorical of the same strings and leaves all else. *)
Theorem C231_all :
  forall (T : Type) (o : ord T), total o -> forall (attr : name -> bool) (st : struct T), NoDup (map fst st) ->
  exists st', make_categoricals o attr true None st = (None, st') /\ converted o (Sub st) (Sub st') /\ ~ has_strings (Sub st').
Proof.
  intros T o To attr st N. exists (map (upd o (map fst st)) st). unfold make_categoricals. cbn [negb].
  rewrite (convert_cols_is o (map fst st) st N) by auto. assert (E : Sub (map (upd o (map fst st)) st) = convert o (Sub st)).
  { rewrite convert_sub. f_equal. apply map_ext_in. intros p I. unfold upd. rewrite (proj2 (listed_in (map fst st) (fst p))); [reflexivity|now apply in_map]. }
  rewrite E. split; [reflexivity|]. pose proof (convert_ok o To (Sub st)) as C. split; [exact C|exact (converted_none o _ _ C)].
Qed.
Print Assumptions C231_all.

(** With a list of columns: those are converted, the others are as before, in the same
    order. *)
Theorem C231_listed :
  forall (T : Type) (o : ord T), total o -> forall (attr : name -> bool) (cols : list name) (st : struct T), NoDup (map fst st) ->
  (forall c, In c cols -> In c (map fst st)) ->
  exists st', make_categoricals o attr true (Some cols) st = (None, st') /\ length st' = length st /\
  forall i k t, nth_error st i = Some (k, t) ->
    exists t', nth_error st' i = Some (k, t') /\ (In k cols -> converted o t t') /\ (~ In k cols -> t' = t).
Proof.
  intros T o To attr cols st N H. exists (map (upd o cols) st). unfold make_categoricals. cbn [negb].
  replace (forallb _ cols) with true. 2:{ symmetry. apply forallb_forall. intros c I. destruct (dget_there c st (H c I)) as [v ->]. reflexivity. }
  rewrite (convert_cols_is o cols st N H). split; [reflexivity|]. split; [apply map_length|]. intros i k t E. rewrite (map_nth_error _ _ _ E).
  unfold upd. cbn [fst snd]. destruct (listed cols k) eqn:L.
  - exists (convert o t). split; [reflexivity|]. split; [intros _; apply convert_ok; exact To|]. intros Q. apply listed_in in L. contradiction.
  - exists t. split; [reflexivity|]. split; [|reflexivity]. intros I. apply listed_in in I. congruence.
Qed.
Print Assumptions C231_listed.

(** A dtype that is none, or a name that is neither a column nor an attribute of the
    Struct: an exception, and nothing is changed. *)
Theorem C231_errors_partial :
  forall (T : Type) (o : ord T) (attr : name -> bool) (cols : option (list name)) (st : struct T),
  make_categoricals o attr false cols st = (Some EType, st) /\
  forall l c, cols = Some l -> In c l -> ~ In c (map fst st) -> attr c = false -> make_categoricals o attr true cols st = (Some EValue, st).
Proof.
  intros T o attr cols st. split; [reflexivity|]. intros l c -> I N A. unfold make_categoricals. cbn [negb].
  replace (forallb _ l) with false; [reflexivity|]. symmetry. apply not_true_is_false. intros F. rewrite forallb_forall in F. specialize (F c I).
  cbn beta in F. rewrite (proj2 (dget_none c st) N), A in F. discriminate.
Qed.
Print Assumptions C231_errors_partial.

(** Finding: the names are checked with getattr, which also finds methods:
    make_categoricals(['a', 'keys']) raises only when it reaches 'keys', with 'a' already
    converted, although "error checking will complete before any conversion begins"
    (rt_struct.py:1804, 1818-1826). *)
Theorem C231_atomic_refuted :
  exists (attr : name -> bool) (cols : list name) (st st' : struct nat),
    NoDup (map fst st) /\ make_categoricals nat_ord attr true (Some cols) st = (Some EIndex, st') /\ st' <> st.
Proof.
  exists (fun n => if name_dec n [107; 101; 121; 115] then true else false), [[97]; [107; 101; 121; 115]], [([97], Strs [5; 3; 5])], [([97], Cats [2; 1; 2]%Z [3; 5])].
  split; [repeat constructor; intros []|]. split; [vm_compute; reflexivity|discriminate].
Qed.
Print Assumptions C231_atomic_refuted.

Example C231_case :
  let st := [([97], Strs [5; 3; 5]); ([98], Nums [1%Z]); ([99], Sub [([100], Strs [9]); ([101], Sub [([97], Strs [])])])] in
  make_categoricals nat_ord (fun _ => false) true None st =
    (None, [([97], Cats [2; 1; 2]%Z [3; 5]); ([98], Nums [1%Z]); ([99], Sub [([100], Cats [1%Z] [9]); ([101], Sub [([97], Cats [] [])])])]) /\
  snd (make_categoricals nat_ord (fun _ => false) true (Some [[99]; [98]]) st) =
    [([97], Strs [5; 3; 5]); ([98], Nums [1%Z]); ([99], Sub [([100], Cats [1%Z] [9]); ([101], Sub [([97], Cats [] [])])])] /\
  make_categoricals nat_ord (fun _ => false) true (Some [[97]; [120]]) st = (Some EValue, st) /\ total nat_ord.
Proof. cbv zeta. split; [vm_compute; reflexivity|]. split; [vm_compute; reflexivity|]. split; [vm_compute; reflexivity|exact total_nat]. Qed.

(** make_struct_from_categories has one entry for every Categorical with one key whose
    name begins with the prefix: its categories, where what is left of the name is a
    valid column name. *)
Theorem C232_struct_partial :
  forall (T : Type) (bad : name -> bool) (prefix : option name) (keep : bool) (st : struct T), NoDup (map fst st) ->
  (forall k n codes cats, column_of prefix keep k n -> In (n, Cats codes cats) st -> valid bad k = true) ->
  exists r, make_struct bad prefix keep st = Some r /\ NoDup (map fst r) /\
  forall k cats, In (k, cats) r <-> exists n codes, column_of prefix keep k n /\ In (n, Cats codes cats) st.
Proof.
  intros T bad prefix keep st N V. destruct (struct_is bad prefix keep st N V) as [E D]. exists (cat_entries prefix keep st).
  split; [exact E|]. split; [exact D|]. now apply entries_in.
Qed.
Print Assumptions C232_struct_partial.

(** Finding: without the prefix a name may be reserved, then it is capitalised
    (rt_struct.py:2628-2634) and may overwrite another entry: of pin and pIn only
    one is left. *)
Theorem C232_collision_refuted :
  exists (bad : name -> bool) (p : name) (st : struct nat) r,
    NoDup (map fst st) /\ make_struct bad (Some p) false st = Some r /\
    In (p ++ [105; 110], Cats [1%Z] [7]) st /\ ~ In [7] (map snd r).
Proof.
  exists (fun n => if name_dec n [105; 110] then true else false), [112], [([112; 105; 110], Cats [1%Z] [7]); ([112; 73; 110], Cats [1%Z] [8])]. eexists.
  split; [repeat constructor; cbn; intuition discriminate|]. split; [vm_compute; reflexivity|]. split; [left; reflexivity|cbn; intuition discriminate].
Qed.
Print Assumptions C232_collision_refuted.

(** Finding: a Categorical with several keys is left out without an exception: the
    NotImplementedError is made but not raised (rt_struct.py:1875-1878). *)
Theorem C232_multi_refuted :
  exists (st : struct nat), make_struct (fun _ => false) None false st = Some [] /\ In ([97], Multi [1%Z] [[7]; [8]]) st.
Proof. exists [([97], Multi [1%Z] [[7]; [8]])]. split; [vm_compute; reflexivity|left; reflexivity]. Qed.
Print Assumptions C232_multi_refuted.

(** make_matlab_categoricals replaces exactly the columns whose name is the prefix and a
    name of xtra, unless they are Categoricals already, by the Categorical of these codes
    and names, in their place; with keep_prefix=False under the name of xtra, where these
    names are valid, no columns yet, and none is the prefix and another one. *)
Theorem C232_matlab_partial :
  forall (T : Type) (mk : item T -> list T -> option (item T)) (strip : T -> T) (bad attr : name -> bool) (trailing keep : bool)
         (prefix : name) (xtra : list (name * list T)) (st : struct T),
  NoDup (map fst st) -> NoDup (map fst xtra) ->
  (forall k, In k (map fst xtra) -> In (prefix ++ k) (map fst st) \/ attr (prefix ++ k) = false) ->
  (forall k names col, In (k, names) xtra -> In (prefix ++ k, col) st -> is_cat col = false ->
     mk col (if trailing then map strip names else names) <> None) ->
  (keep = false -> forall k, In k (map fst xtra) ->
     valid bad k = true /\ ~ In k (map fst st) /\ forall k', In k' (map fst xtra) -> k <> prefix ++ k') ->
  exists st', make_matlab mk strip bad attr trailing keep prefix xtra st = (true, st') /\ length st' = length st /\
  forall i n col, nth_error st i = Some (n, col) ->
    ((forall k, In k (map fst xtra) -> n <> prefix ++ k) -> nth_error st' i = Some (n, col)) /\
    (forall k names, In (k, names) xtra -> n = prefix ++ k ->
       if is_cat col then nth_error st' i = Some (n, col)
       else exists c, mk col (if trailing then map strip names else names) = Some c /\ nth_error st' i = Some (if keep then n else k, c)).
Proof.
  intros T mk strip bad attr trailing keep prefix xtra st N Nx A M K.
  exists (map (all mk strip trailing prefix keep xtra) st). split; [|split; [apply map_length|]].
  - apply make_is; try assumption.
    + intros e I. apply A. now apply in_map.
    + intros [k names] col I. exact (M k names col I).
    + intros Kf e I. destruct (K Kf (fst e) (in_map fst _ _ I)) as (V & F & Ne). split; [exact V|]. split; [exact F|].
      intros e' I'. apply Ne. now apply in_map.
  - intros i n col E. rewrite (map_nth_error _ _ _ E). split.
    + intros H. f_equal. apply all_none. intros e I. apply H. now apply in_map.
    + intros k names I Q. rewrite (all_one mk strip trailing prefix keep xtra (k, names) (n, col) Nx I Q).
      2:{ intros Kf e' I'. destruct (K Kf k (in_map fst _ _ I)) as (_ & _ & Ne). apply Ne. now apply in_map. }
      unfold one. cbn [fst snd]. destruct (name_dec n (prefix ++ k)) as [_|]; [|congruence]. destruct (is_cat col) eqn:C; [reflexivity|].
      unfold names_of. cbn [snd]. pose proof (M k names col I) as M'. rewrite <- Q in M'. specialize (M' (nth_error_In _ _ E) C).
      destruct (mk col _) as [c|]; [|congruence]. exists c. split; reflexivity.
Qed.
Print Assumptions C232_matlab_partial.

(** Finding: with keep_prefix=False a column of codes is lost when its own name is a name
    of xtra that comes earlier: with px and ppx and the names px, x the Categorical of ppx
    replaces px, and there is no Categorical of x (rt_struct.py:1965-1972). *)
Theorem C232_order_refuted :
  exists (mk : item nat -> list nat -> option (item nat)) (prefix : name) (xtra : list (name * list nat)) (st st1 st2 : struct nat),
    make_matlab mk (fun x => x) (fun _ => false) (fun _ => false) true false prefix xtra st = (true, st1) /\ length st1 = 1 /\
    make_matlab mk (fun x => x) (fun _ => false) (fun _ => false) true false prefix (rev xtra) st = (true, st2) /\ length st2 = 2.
Proof.
  exists (fun c l => match c with Nums z => Some (Cats z l) | _ => None end), [112], [([112; 120], [7]); ([120], [8])],
    [([112; 120], Nums [1%Z]); ([112; 112; 120], Nums [1%Z; 0%Z])]. eexists. eexists.
  split; [vm_compute; reflexivity|]. split; [reflexivity|]. split; [vm_compute; reflexivity|reflexivity].
Qed.
Print Assumptions C232_order_refuted.

(** Finding: a name of xtra that gives the name of a method with the prefix raises
    TypeError although there is no such column, after the columns before it were
    converted: hasattr finds methods (rt_struct.py:1946), as pivot of Datasets. *)
Theorem C232_method_refuted :
  exists (mk : item nat -> list nat -> option (item nat)) (attr : name -> bool) (prefix : name) (xtra : list (name * list nat)) (st st' : struct nat),
    make_matlab mk (fun x => x) (fun _ => false) attr true true prefix xtra st = (false, st') /\ st' <> st /\
    exists k, In k (map fst xtra) /\ attr (prefix ++ k) = true /\ ~ In (prefix ++ k) (map fst st).
Proof.
  exists (fun c l => match c with Nums z => Some (Cats z l) | _ => None end), (fun n => if name_dec n [112; 105; 118; 111; 116] then true else false), [112],
    [([120], [8]); ([105; 118; 111; 116], [7])], [([112; 120], Nums [1%Z])], [([112; 120], Cats [1%Z] [8])].
  split; [vm_compute; reflexivity|]. split; [discriminate|]. exists [105; 118; 111; 116]. split; [cbn; auto|]. split; [vm_compute; reflexivity|].
  cbn. intuition discriminate.
Qed.
Print Assumptions C232_method_refuted.

Example C232_case :
  let st := [([112; 97], Cats [1%Z; 2%Z] [5; 6]); ([98], Cats [1%Z] [7]); ([112; 98], Nums [1%Z; 0%Z])] in
  make_struct (fun _ => false) (Some [112]) false st = Some [([97], [5; 6])] /\
  make_struct (fun _ => false) None false st = Some [([112; 97], [5; 6]); ([98], [7])] /\
  make_matlab (fun c l => match c with Nums z => Some (Cats z l) | _ => None end) (fun x => x / 10) (fun _ => false) (fun _ => false) true false [112]
    [([99], [30]); ([97], [50]); ([100], [])] [([112; 99], Nums [1%Z; 0%Z]); ([112; 97], Cats [1%Z] [5]); ([101], Other 0)] =
    (true, [([99], Cats [1%Z; 0%Z] [3]); ([112; 97], Cats [1%Z] [5]); ([101], Other 0)]) /\
  column_of (Some [112]) false [97] [112; 97] /\ valid (fun _ => false) [97] = true.
Proof. cbv zeta. repeat split; vm_compute; reflexivity. Qed.
