(** Multisets (rt_multiset.py) and schemas (rt_meta.py): C192 - C197. *)
From Coq Require Import List Arith Bool ZArith Lia.
From Verif Require Import FlattenModel FlattenProofs DsModel DsSpec MuSpec MuModel MuSpec2 MuProofs MuProofs2 MuProofs3 MuProofs4 MuProofs5.
Import ListNotations.

Definition nA : name := [65].
Definition nB : name := [66].
Definition nC : name := [67].
Definition nX : name := [88].
Definition nY : name := [89].
Definition nk : name := [107].
Definition nx : name := [120].
Definition ny : name := [121].
Definition us : name := [95].
Definition any (_ : name) : bool := true.
Ltac calc := vm_compute; reflexivity.

(** *** C192: the rows of the members through a history *)
(** In a history in which every member put in has rows, no member is changed in place, and attributes are
    assigned only to a Multiset with members, all members always have the number of rows the Multiset
    says, whatever was refused on the way. *)
Theorem C192_rows_partial :
  forall (M : Type) (valid : name -> bool) (os : list (op (M := M))), orderly valid start os -> even (run valid os).
Proof. intros M valid os H. apply run_even; [intros p []|exact H]. Qed.
Print Assumptions C192_rows_partial.
(** In such a Multiset a member with another number of rows is refused and nothing changes. *)
Theorem C192_refuses :
  forall (M : Type) (valid : name -> bool) (os : list (op (M := M))) (n : name) (v : M * option nat),
  orderly valid start os -> st_items (run valid os) <> [] -> snd v <> st_nrows (run valid os) ->
  step valid (run valid os) (SetItem n v) = (run valid os, false) /\ step valid (run valid os) (SetAttr n v) = (run valid os, false).
Proof.
  intros M valid os n v H NE D. pose proof (C192_rows_partial M valid os H) as E. set (s := run valid os) in *. destruct (st_items s) as [|q r] eqn:EQ; [congruence|].
  destruct (E q) as (_ & k & K); [rewrite EQ; now left|].
  assert (C : clash (st_nrows s) (snd v) = true).
  { rewrite K in *. unfold clash. destruct (snd v) as [m|]; [|reflexivity]. apply negb_true_iff, Nat.eqb_neq. congruence. }
  cbn [step]. unfold set_item, set_attr. rewrite C. split; [reflexivity|]. destruct (_ || _); [|reflexivity]. now destruct (st_locked s).
Qed.
Print Assumptions C192_refuses.
(** When the last member is removed the next one may have any number of rows. *)
Theorem C192_emptied :
  forall (M : Type) (valid : name -> bool) (s s' : state (M := M)) (n m : name) (v : M * option nat),
  valid m = true -> step valid s (Del n) = (s', true) -> st_items s' = [] -> snd (step valid s' (SetItem m v)) = true.
Proof.
  intros M valid s s' n m v VM H E. cbn [step] in H. destruct (st_locked s) eqn:EL; [discriminate|]. destruct (mem n (names (st_items s))); [|discriminate].
  injection H as <-. cbn [st_items] in E. rewrite E, ?EL. cbn [step]. unfold set_item. cbn. rewrite VM. reflexivity.
Qed.
Print Assumptions C192_emptied.
(** A single assignment or deletion that is refused changes nothing; one that is not sets or removes
    exactly that member, in its place or at the end. *)
Theorem C192_single :
  forall (M : Type) (valid : name -> bool) (s : state (M := M)) (n : name) (v : M * option nat) (o : op) (s' : state) (ok : bool),
  In o [SetItem n v; SetAttr n v; Del n] -> step valid s o = (s', ok) ->
  (ok = false -> s' = s) /\
  (ok = true -> st_locked s = false /\
     (forall m, m <> n -> dget m (st_items s') = dget m (st_items s)) /\
     (o = Del n -> ~ In n (map fst (st_items s')) /\ In n (map fst (st_items s))) /\
     (o <> Del n -> dget n (st_items s') = Some v /\ map fst (st_items s') = (if mem n (map fst (st_items s)) then map fst (st_items s) else map fst (st_items s) ++ [n]))).
Proof.
  intros M valid s n v o s' ok HO.
  assert (KEYS : map fst (dset n v (st_items s)) = (if mem n (map fst (st_items s)) then map fst (st_items s) else map fst (st_items s) ++ [n])).
  { induction (st_items s) as [|[a b] d IH]; [reflexivity|]. cbn [dset map fst]. unfold mem. cbn [existsb]. destruct (name_dec a n) as [->|NE]; [reflexivity|]. cbn [map fst orb]. rewrite IH. unfold mem. destruct (existsb _ (map fst d)); reflexivity. }
  assert (GET : forall m, m <> n -> dget m (dset n v (st_items s)) = dget m (st_items s)) by (intros m Hm; rewrite DsProofs3.dget_dset; destruct (name_dec n m); congruence).
  assert (GOT : dget n (dset n v (st_items s)) = Some v) by (rewrite DsProofs3.dget_dset; destruct (name_dec n n); congruence).
  destruct HO as [<-|[<-|[<-|[]]]]; cbn [step].
  - unfold set_item, set_attr. destruct (clash _ _); [intros [= <- <-]; split; [reflexivity|discriminate]|]. destruct (_ || _); [|intros [= <- <-]; split; [reflexivity|discriminate]].
    destruct (st_locked s) eqn:LK; intros [= <- <-]; (split; [try reflexivity; discriminate|]); [discriminate|]. intros _. cbn [st_items]. split; [reflexivity|]. split; [exact GET|]. split; [discriminate|]. auto.
  - unfold set_attr. destruct (_ || _); [|intros [= <- <-]; split; [reflexivity|discriminate]]. destruct (st_locked s) eqn:LK; [intros [= <- <-]; split; [reflexivity|discriminate]|].
    destruct (clash _ _); intros [= <- <-]; (split; [try reflexivity; discriminate|]); [discriminate|]. intros _. cbn [st_items]. split; [reflexivity|]. split; [exact GET|]. split; [discriminate|]. auto.
  - destruct (st_locked s) eqn:LK; [intros [= <- <-]; split; [reflexivity|discriminate]|]. destruct (mem n (names (st_items s))) eqn:EM; intros [= <- <-]; (split; [try reflexivity; discriminate|]); [|discriminate].
    intros _. cbn [st_items]. split; [reflexivity|]. split; [|split; [|congruence]].
    + intros m Hm. unfold del. apply (DsProofs4.dget_filter (fun x => if name_dec x n then false else true)). destruct (name_dec m n); congruence.
    + intros _. split; [|now apply mem_true]. intros Q. apply in_map_iff in Q. destruct Q as (p & E & Hp). unfold del in Hp. apply filter_In in Hp. destruct Hp as (_ & Hp). destruct (name_dec (fst p) n); congruence.
Qed.
Print Assumptions C192_single.
(** Finding: the members of a Multiset can have different numbers of rows: assigning an attribute to an
    empty Multiset (ms = Multiset(); ms.A = d1; ms.B = d2) never sets the number of rows, so that the
    second member is not checked; *)
Theorem C192_attribute_refuted :
  exists os : list (op (M := nat)), Forall ordinary os /\
    map (fun o => snd (snd o)) (st_items (run any os)) = [Some 2; Some 5] /\ st_nrows (run any os) = None.
Proof. exists [SetAttr nA (1, Some 2); SetAttr nB (2, Some 5)]. split; [|split; calc]. repeat constructor; intros v [<-|[]]; eexists; reflexivity. Qed.
Print Assumptions C192_attribute_refuted.
(** Finding: a member without rows is accepted before, but not after, one with rows: Multiset({A: empty,
    B: d}) works, Multiset({B: d, A: empty}) raises. *)
Theorem C192_empty_member_refuted :
  exists (a b : name * (nat * option nat)),
    step any start (New [a; b]) = (mkState [a; b] (Some 5) false, true) /\ step any start (New [b; a]) = (start, false) /\
    snd (snd a) = Some 0 /\ snd (snd b) = Some 5.
Proof. exists (nA, (1, Some 0)), (nB, (2, Some 5)). split; [calc|]. split; [calc|]. split; reflexivity. Qed.
Print Assumptions C192_empty_member_refuted.
(** Finding: filtering a member in place leaves a Multiset whose members differ in their rows and whose
    own number of rows is out of date. *)
Theorem C192_in_place_refuted :
  exists os : list (op (M := nat)), map (fun o => snd (snd o)) (st_items (run any os)) = [Some 2; Some 5] /\ st_nrows (run any os) = Some 5.
Proof. exists [New [(nA, (1, Some 5)); (nB, (2, Some 5))]; Member_ nA 2]. split; calc. Qed.
Print Assumptions C192_in_place_refuted.
(** Finding: ms[[a, b]] = [d] sets only a and does not say that a value is missing; and when one of the
    assignments raises, the ones before it stay. *)
Theorem C192_several_refuted :
  exists (s : state (M := nat)), even s /\
    step any s (SetItems [nA; nB] [(7, Some 5)]) = (mkState [(nA, (7, Some 5)); (nB, (2, Some 5))] (Some 5) false, true) /\
    step any s (SetItems [nA; nB] [(7, Some 5); (8, Some 4)]) = (mkState [(nA, (7, Some 5)); (nB, (2, Some 5))] (Some 5) false, false).
Proof.
  exists (mkState [(nA, (1, Some 5)); (nB, (2, Some 5))] (Some 5) false). split; [|split; calc]. intros p [<-|[<-|[]]]; (split; [reflexivity|eexists; reflexivity]).
Qed.
Print Assumptions C192_several_refuted.
Example C192_case : orderly any start [New [(nA, (1, Some 5))]; SetAttr nB (2, Some 5); SetItem nC (3, Some 4); Lock; Del nA; Unlock; Del nA; SetItem nX (4, Some 5)] /\
  run any [New [(nA, (1, Some 5))]; SetAttr nB (2, Some 5); SetItem nC (3, Some 4); Lock; Del nA; Unlock; Del nA; SetItem nX (4, Some 5)] = mkState [(nB, (2, Some 5)); (nX, (4, Some 5))] (Some 5) false.
Proof.
  split; [|calc]. cbn [orderly]. unfold ordinary. cbn [given map snd In].
  repeat split; try discriminate; intros v Hv; repeat (destruct Hv as [<-|Hv]; [eexists; reflexivity|]); destruct Hv.
Qed.

(** *** C193: flattening horizontally *)
Definition ex_d1 : ds Z := mkDs [nk] [(nk, [1; 2]%Z); (nx, [3; 4]%Z); (ny, [5; 6]%Z)].
Definition ex_d2 : ds Z := mkDs [nk] [(nk, [2; 1]%Z); (nx, [7; 8]%Z)].
Lemma sound_d1 : sound 2 ex_d1.
Proof. split; [discriminate|]. split; [repeat constructor; cbn; intuition discriminate|]. split; [repeat constructor; intros []|]. split; [intros x [<-|[]]; now left|]. intros c [<-|[<-|[<-|[]]]]; reflexivity. Qed.
Lemma sound_d2 : sound 2 ex_d2.
Proof. split; [discriminate|]. split; [repeat constructor; cbn; intuition discriminate|]. split; [repeat constructor; intros []|]. split; [intros x [<-|[]]; now left|]. intros c [<-|[<-|[]]]; reflexivity. Qed.
(** If flattening returns, all Datasets have the labels of the result, and the result has the label columns
    of the first Dataset, then every value column of every Dataset, at any depth, in order, unchanged and
    under the names leading to it joined by the delimiter. *)
Theorem C193_horizontal :
  forall (V : Type) (valid : name -> bool) (delim : name) (n : nat) (l : list (name * tree V)) (d : ds V),
  all_sound n (Node l) -> flatten_h valid delim (Node l) = Some d ->
  (forall q, In q (leaves (Node l)) -> labels (snd q) = labels d) /\ cols d = side_by_side delim (leaves (Node l)) /\ NoDup (map fst (cols d)).
Proof. intros V valid delim n l d. apply horizontal_sound. Qed.
Print Assumptions C193_horizontal.
(** It does return when the Datasets are all at the same depth and have the same labels, at least one. *)
Theorem C193_returns_partial :
  forall (V : Type) (valid : name -> bool) (delim : name) (n : nat) (L : list name) (k : nat) (t : tree V),
  L <> [] -> flattenable valid delim n L k t -> exists d, flatten_h valid delim t = Some d.
Proof. intros V valid delim n L k t NL F. apply (horizontal_works valid delim n L NL k t F). Qed.
Print Assumptions C193_returns_partial.
(** Finding: without labels flattening horizontally always raises (unless there are no rows): the first
    Dataset is concatenated with an empty one, which has 0 rows. *)
Theorem C193_unlabelled_refuted :
  forall (V : Type) (valid : name -> bool) (delim : name) (n : nat) (l : list (name * tree V)),
  all_sound (S n) (Node l) -> (forall q, In q (leaves (Node l)) -> labels (snd q) = []) -> flatten_h valid delim (Node l) = None.
Proof.
  intros V valid delim n l. assert (G : forall t : tree V, all_sound (S n) t -> (forall q, In q (leaves t) -> labels (snd q) = []) -> match t with Leaf _ => True | Node _ => flatten_h valid delim t = None end); [|intros; now apply (G (Node l))].
  clear l. induction t as [d|l IH] using tree_rect'; [auto|]. intros AS LB. cbn [flatten_h]. destruct l as [|[nm t] l]; [reflexivity|]. cbn [loop]. inversion IH as [|? ? IH1 _]; subst. cbn [snd] in IH1.
  assert (AM : all_sound (S n) t) by (apply (sound_member (S n) ((nm, t) :: l) (nm, t) AS); now left).
  assert (LM : forall q, In q (leaves t) -> labels (snd q) = []) by (intros q Hq; apply (LB (nm :: fst q, snd q)); rewrite leaves_cons; apply in_or_app; left; apply in_map_iff; exists q; auto).
  specialize (IH1 AM LM). destruct t as [d|l']; [|now rewrite IH1]. cbn [flatten_h]. unfold h_step. assert (LD : labels d = []) by (apply (LM ([], d)); now left). rewrite LD. destruct (list_eq_dec name_dec [] []); [|congruence].
  assert (SD : sound (S n) d) by (apply (AM []); now left). pose proof SD as (NE & ND & _ & _ & LN).
  destruct (pick (not_in [] (cols d)) (cols d)) as [v|] eqn:EP; [|reflexivity]. destruct (concat2_ok [] v) as [(_ & Q & _)|(-> & _)]; [constructor| |reflexivity].
  exfalso. apply (pick_some) in EP. destruct EP as (_ & EP). rewrite pick_values in EP by exact ND. injection EP as <-. 
  rewrite filter_all in Q by reflexivity.
  unfold shape0 in Q. destruct (cols d) as [|[a b] r] eqn:EC; [congruence|]. cbn [nrows_of] in Q. pose proof (LN (a, b) (or_introl eq_refl)) as Z. cbn [snd] in Z. rewrite Z in Q. discriminate.
Qed.
Print Assumptions C193_unlabelled_refuted.
(** Finding: a column of a later Dataset may not have the name an earlier column was given, although the
    final names all differ: {A: {x}, B: {A_x}} raises. *)
Theorem C193_collision_refuted :
  exists (l : list (name * tree Z)), all_sound 2 (Node l) /\ (forall q, In q (leaves (Node l)) -> labels (snd q) = [nk]) /\
    NoDup (map fst (side_by_side us (leaves (Node l)))) /\ flatten_h any us (Node l) = None.
Proof.
  exists [(nA, Leaf ex_d2); (nB, Leaf (mkDs [nk] [(nk, [1; 2]%Z); (nA ++ us ++ nx, [3; 4]%Z)]))]. split; [|split; [|split; [|calc]]].
  - intros p d [[= <- <-]|[[= <- <-]|[]]]; [exact sound_d2|]. split; [discriminate|]. split; [repeat constructor; cbn; intuition discriminate|]. split; [repeat constructor; intros []|]. split; [intros x [<-|[]]; now left|]. intros c [<-|[<-|[]]]; reflexivity.
  - intros q [<-|[<-|[]]]; reflexivity.
  - repeat constructor; cbn; intuition discriminate.
Qed.
Print Assumptions C193_collision_refuted.
(** Finding: the values of the labels are not compared: a row of the result may hold values of rows with
    other labels. *)
Theorem C193_label_values_refuted :
  exists (l : list (name * tree Z)) (d : ds Z), all_sound 2 (Node l) /\ flatten_h any us (Node l) = Some d /\
    In ([nB], ex_d2) (leaves (Node l)) /\ column nk ex_d2 = [2; 1]%Z /\ column nk d = [1; 2]%Z /\ column (nB ++ us ++ nx) d = column nx ex_d2.
Proof.
  exists [(nA, Leaf ex_d1); (nB, Leaf ex_d2)], (mkDs [nk] [(nk, [1; 2]%Z); (nA ++ us ++ nx, [3; 4]%Z); (nA ++ us ++ ny, [5; 6]%Z); (nB ++ us ++ nx, [7; 8]%Z)]).
  split; [intros p d [[= <- <-]|[[= <- <-]|[]]]; [exact sound_d1|exact sound_d2]|]. split; [calc|]. split; [right; now left|]. split; [calc|]. split; calc.
Qed.
Print Assumptions C193_label_values_refuted.
Example C193_case : all_sound 2 (Node [(nA, Node [(nX, Leaf ex_d1)]); (nB, Leaf ex_d2)]) /\
  flatten_h any us (Node [(nA, Node [(nX, Leaf ex_d1)]); (nB, Leaf ex_d2)]) =
  Some (mkDs [nk] [(nk, [1; 2]%Z); (nA ++ us ++ nX ++ us ++ nx, [3; 4]%Z); (nA ++ us ++ nX ++ us ++ ny, [5; 6]%Z); (nB ++ us ++ nx, [7; 8]%Z)]).
Proof. split; [|calc]. intros p d [[= <- <-]|[[= <- <-]|[]]]; [exact sound_d1|exact sound_d2]. Qed.
Example C193_case_returns : flattenable any us 2 [nk] 1 (Node [(nA, Leaf ex_d1); (nB, Leaf ex_d2)]).
Proof.
  split; [cbn; auto|]. split; [cbn; repeat split; [discriminate|repeat constructor; cbn; intuition discriminate]|]. split; [intros p d [[= <- <-]|[[= <- <-]|[]]]; [exact sound_d1|exact sound_d2]|].
  split; [split; [discriminate|]|split].
  - intros p d c [[= <- <-]|[[= <- <-]|[]]]; cbn; intuition (subst; cbn in *; intuition (subst; cbn in *; intuition (subst; try discriminate))).
  - intros p d [[= <- <-]|[[= <- <-]|[]]]; split; try reflexivity; discriminate.
  - intros p d c q H Hc (r & E). split; [|reflexivity]. intros [Q|[]].
    assert (T : q = [] \/ q = [nA] \/ q = [nB]).
    { destruct H as [[= <- <-]|[[= <- <-]|[]]]; (destruct r as [|r0 r]; cbn [app] in E; [subst q; auto|]; left; assert (Z : r ++ q = []) by congruence; now apply app_eq_nil in Z). }
    destruct H as [[= <- <-]|[[= <- <-]|[]]]; cbn in Hc; destruct T as [-> | [-> | -> ]]; intuition (subst; discriminate).
Qed.

(** *** C194: flattening vertically *)
(** If flattening returns, all Datasets have the labels of the result and the same value columns, none is
    called like the new column, and the result has the rows of all Datasets, at any depth, in order, each
    with the names leading to its Dataset, joined by the delimiter, in the new column. *)
Theorem C194_vertical :
  forall (V : Type) (valid : name -> bool) (delim : name) (of_name : name -> V) (decode : V -> name) (inv : name -> V) (col : name) (n : nat) (l : list (name * tree V)) (d : ds V),
  (forall x, decode (of_name x) = x) -> all_sound n (Node l) -> flatten_v valid delim of_name decode inv col (Node l) = Some d ->
  (forall q q', In q (leaves (Node l)) -> In q' (leaves (Node l)) -> labels (snd q) = labels d /\ map fst (values_of (snd q)) = map fst (values_of (snd q')) /\ ~ In col (map fst (cols (snd q)))) /\
  cols d = stacked of_name delim col (leaves (Node l)) /\ NoDup (map fst (cols d)).
Proof. intros V valid delim of_name decode inv col n l d RT. now apply vertical_sound. Qed.
Print Assumptions C194_vertical.
(** It does return for Datasets with the same labels and value columns, at any depth if there are labels. *)
Theorem C194_returns_partial :
  forall (V : Type) (valid : name -> bool) (delim : name) (of_name : name -> V) (decode : V -> name) (inv : name -> V) (col : name) (n : nat) (L C : list name) (t : tree V),
  (forall x, decode (of_name x) = x) -> valid col = true -> C <> [] -> ~ In col (L ++ C) -> proper t -> all_sound n t ->
  (forall q, In q (leaves t) -> labels (snd q) = L /\ map fst (values_of (snd q)) = C) -> L <> [] \/ level 1 t ->
  exists d, flatten_v valid delim of_name decode inv col t = Some d.
Proof. intros V valid delim of_name decode inv col n L C t RT VC NC FR PR AS AG LV. apply (vertical_works valid delim of_name decode inv col RT n L C VC NC FR t); [split; [exact PR|split; [exact AS|exact AG]]|exact LV]. Qed.
Print Assumptions C194_returns_partial.
Definition of_n (x : name) : name * Z := (x, 0%Z).
(** Finding: without labels a Multiset within a Multiset cannot be flattened vertically, although Datasets
    without labels directly in a Multiset can. *)
Definition ex_u : ds (name * Z) := mkDs [] [(nx, [([], 3%Z); ([], 4%Z)])].
Theorem C194_unlabelled_refuted :
  exists (a b : list (name * tree (name * Z))), map snd (leaves (Node a)) = map snd (leaves (Node b)) /\
    flatten_v any us of_n fst (fun _ => ([], 9%Z)) ny (Node a) = Some (mkDs [] [(ny, [of_n nA; of_n nA]); (nx, [([], 3%Z); ([], 4%Z)])]) /\
    flatten_v any us of_n fst (fun _ => ([], 9%Z)) ny (Node b) = None.
Proof. exists [(nA, Leaf ex_u)], [(nB, Node [(nA, Leaf ex_u)])]. split; [reflexivity|]. split; calc. Qed.
Print Assumptions C194_unlabelled_refuted.
Definition ex_v (z : Z) : ds (name * Z) := mkDs [nk] [(nk, [([], 1%Z); ([], 2%Z)]); (nx, [([], z); ([], (z + 1)%Z)])].
Example C194_case : all_sound 2 (Node [(nA, Node [(nX, Leaf (ex_v 3)); (nY, Leaf (ex_v 5))]); (nB, Leaf (ex_v 7))]) /\
  flatten_v any us of_n fst (fun _ => ([], 9%Z)) ny (Node [(nA, Node [(nX, Leaf (ex_v 3)); (nY, Leaf (ex_v 5))]); (nB, Leaf (ex_v 7))]) =
  Some (mkDs [nk] [(nk, [([], 1%Z); ([], 2%Z); ([], 1%Z); ([], 2%Z); ([], 1%Z); ([], 2%Z)]);
                   (ny, [of_n (nA ++ us ++ nX); of_n (nA ++ us ++ nX); of_n (nA ++ us ++ nY); of_n (nA ++ us ++ nY); of_n nB; of_n nB]);
                   (nx, [([], 3%Z); ([], 4%Z); ([], 5%Z); ([], 6%Z); ([], 7%Z); ([], 8%Z)])]).
Proof.
  split; [|calc]. intros p d H. assert (E : exists z, d = ex_v z) by (destruct H as [[= <- <-]|[[= <- <-]|[[= <- <-]|[]]]]; eexists; reflexivity). destruct E as (z & ->).
  split; [discriminate|]. split; [repeat constructor; cbn; intuition discriminate|]. split; [repeat constructor; intros []|]. split; [intros x [<-|[]]; now left|]. intros c [<-|[<-|[]]]; reflexivity.
Qed.

(** *** C195: what is displayed *)
(** A Multiset of at least two Datasets is displayed with every column of every Dataset exactly once, but
    for the keys of a grouping: the upper line has each column name, in the order in which they first
    appear, over as many columns as Datasets have it, the lower line the names of these Datasets, in
    order. *)
Theorem C195_headers :
  forall (V : Type) (l : list (name * ds V)) (keys : option (list name)) (ks : list name),
  2 <= length l -> ks = match keys with Some k => k | None => [] end -> NoDup ks -> (forall p, In p l -> NoDup (map fst (cols (snd p))) /\ incl ks (map fst (cols (snd p)))) ->
  (exists p, In p l /\ cols (snd p) <> []) ->
  let gs := interleaved (map (fun p => (fst p, without ks (cols (snd p)))) l) in
  exists h, build_col_headers (map (fun p => (fst p, Leaf (snd p))) l) keys = Some h /\
    upper h = map (fun i => (fst (snd i), length (snd (snd i)), fst i)) (combine (seq 0 (length gs)) gs) /\
    lower h = flat_map (fun i => map (fun p => (fst p, 1, fst i)) (snd (snd i))) (combine (seq 0 (length gs)) gs) /\
    arrays h = flat_map (fun i => map (fun p => Col_ (snd p)) (snd i)) gs.
Proof.
  intros V l keys ks L2 EK NK H NE gs. exists (headers 0 gs). split; [|apply headers_ok]. apply flat_headers with (gb := ks); try assumption; intros p Hp; now apply H.
Qed.
Print Assumptions C195_headers.
(** One Dataset: its columns but for the keys, in order. *)
Theorem C195_one :
  forall (V : Type) (n : name) (d : ds V) (keys : option (list name)) (ks : list name), ks = match keys with Some k => k | None => [] end ->
  exists h, build_col_headers [(n, Leaf d)] keys = Some h /\
    upper h = map (fun c => (fst c, 1, 0)) (without ks (cols d)) /\ lower h = map (fun _ => (n, 1, 0)) (without ks (cols d)) /\ arrays h = map (fun c => Col_ (snd c)) (without ks (cols d)).
Proof.
  intros V n d keys ks ->. cbn [build_col_headers]. eexists. split; [reflexivity|]. cbn [upper lower arrays].
  assert (E : match keys with None => map (fun c => (fst c, Col_ (snd c))) (cols d) | Some ks => filter (fun c => negb (mem (fst c) ks)) (map (fun c => (fst c, Col_ (snd c))) (cols d)) end =
              map (fun c => (fst c, Col_ (snd c))) (without (match keys with Some k => k | None => [] end) (cols d))).
  { destruct keys as [ks|]; [|f_equal; symmetry; apply filter_all; reflexivity]. unfold without. induction (cols d) as [|c r IH]; [reflexivity|]. cbn [map filter fst]. destruct (negb (mem (fst c) ks)); cbn [map]; now rewrite IH. }
  rewrite E, !map_map. cbn [fst snd]. repeat split.
Qed.
Print Assumptions C195_one.
Definition col1 (z : Z) : ds Z := mkDs [] [(nx, [z])].
(** Finding: with a Multiset among the members the display is wrong: in {A: {X: d1, Y: d2}, B: d3} the
    column of A.Y is shown under the name B, and the column of B is not shown at all. *)
Theorem C195_nested_refuted :
  exists (h : header), build_col_headers [(nA, Node [(nX, Leaf (col1 1)); (nY, Leaf (col1 2))]); (nB, Leaf (col1 3))] None = Some h /\
    lower h = [(nA, 1, 0); (nB, 1, 0)] /\ arrays h = [Col_ [1%Z]; Col_ [2%Z]].
Proof. eexists. split; [calc|]. split; reflexivity. Qed.
Print Assumptions C195_nested_refuted.
(** Finding: a copy does not have the keys of the grouping: they are displayed as further columns of every
    Dataset. *)
Theorem C195_copy_refuted :
  exists (m : mset (V := Z)), copy m <> m /\ map fst (ms_members (copy m)) = map fst (ms_members m) /\
    (exists h, build_col_headers (ms_members m) (ms_gbkeys m) = Some h /\ map (fun u => fst (fst u)) (upper h) = [nx]) /\
    (exists h, build_col_headers (ms_members (copy m)) (ms_gbkeys (copy m)) = Some h /\ map (fun u => fst (fst u)) (upper h) = [nk; nx]).
Proof.
  exists (mkMs [(nA, Leaf (mkDs [nk] [(nk, [1%Z]); (nx, [2%Z])])); (nB, Leaf (mkDs [nk] [(nk, [1%Z]); (nx, [3%Z])]))] (Some [nk])).
  split; [discriminate|]. split; [reflexivity|]. split; (eexists; split; [calc|reflexivity]).
Qed.
Print Assumptions C195_copy_refuted.
Example C195_case : build_col_headers [(nA, Leaf ex_d1); (nB, Leaf (mkDs [nk] [(nk, [2; 1]%Z); (nX, [0; 0]%Z); (nx, [7; 8]%Z)]))] (Some [nk]) =
  Some (mkHeader [(nx, 2, 0); (ny, 1, 1); (nX, 1, 2)] [(nA, 1, 0); (nB, 1, 0); (nA, 1, 1); (nB, 1, 2)] [Col_ [3; 4]%Z; Col_ [7; 8]%Z; Col_ [5; 6]%Z; Col_ [0; 0]%Z]).
Proof. calc. Qed.

(** *** C196: reading columns and rows *)
(** ms[c]: if a member is called c, that member; else, if no member at any level is, the Datasets with a
    column c, under the same names, reduced to it; it raises exactly if there is none. *)
Theorem C196_column :
  forall (V : Type) (n : nat) (c : name) (l : list (name * tree V)), all_sound n (Node l) ->
  (forall m, dget c l = Some m -> get_col c (Node l) = Some m) /\
  (no_member c (Node l) -> match get_col c (Node l) with
                           | Some t => having c (leaves (Node l)) <> [] /\ leaves t = having c (leaves (Node l))
                           | None => having c (leaves (Node l)) = []
                           end).
Proof.
  intros V n c l AS. split; [intros m E; cbn [get_col]; now rewrite E|]. intros NM. pose proof (get_col_ok n c (Node l) NM AS) as G. destruct (get_col c (Node l)); tauto.
Qed.
Print Assumptions C196_column.
(** ms[rows, columns], for rows in range and distinct columns: every Dataset, at any depth, reduced to these
    columns and rows, with the labels that are left; it raises exactly if a Dataset has not all the
    columns. *)
Theorem C196_rows_columns :
  forall (V : Type) (n : nat) (rows : option (list nat)) (ns : list name) (t : tree V), proper t -> all_sound n t -> NoDup ns -> ns <> [] -> (forall rs r, rows = Some rs -> In r rs -> r < n) ->
  match copy_tree rows (Some ns) t with
  | Some t' => (forall q, In q (leaves t) -> incl ns (map fst (cols (snd q)))) /\ leaves t' = map (fun q => (fst q, selected rows ns (snd q))) (leaves t)
  | None => exists q, In q (leaves t) /\ ~ incl ns (map fst (cols (snd q)))
  end.
Proof. intros V n rows ns t PR AS ND NE RG. pose proof (copy_tree_ok n rows ns t PR AS ND NE RG) as G. destruct (copy_tree rows (Some ns) t); [|exact G]. destruct G as (A & B & _). split; [exact A|exact B]. Qed.
Print Assumptions C196_rows_columns.
(** multiget: the members with some of the columns, each reduced to those it has. *)
Theorem C196_multiget :
  forall (V : Type) (n : nat) (ns : list name) (l : list (name * ds V)), (forall p, In p l -> sound n (snd p)) -> NoDup ns -> ns <> [] ->
  multiget ns l = Some (flat_map (fun p => match filter (fun c => mem c (map fst (cols (snd p)))) ns with [] => [] | cs => [(fst p, selected None cs (snd p))] end) l).
Proof.
  intros V n ns l SD ND NE. unfold multiget. destruct ns as [|c0 cr] eqn:EN; [congruence|]. rewrite <- EN in *. clear EN NE.
  rewrite (all_some_map _ (fun p => (fst p, selected None (filter (fun c => mem c (names (cols (snd p)))) ns) (snd p)))).
  - f_equal. clear SD. induction l as [|p l IH]; [reflexivity|]. cbn [filter flat_map]. unfold names in *. destruct (filter (fun c => mem c (map fst (cols (snd p)))) ns) as [|a b] eqn:EF; [exact IH|]. cbn [map app]. rewrite EF, IH. reflexivity.
  - intros p Hp. apply filter_In in Hp. destruct Hp as (Hp & _). destruct (copy_ds_ok n None (filter (fun c => mem c (names (cols (snd p)))) ns) (snd p)) as (-> & _); [now apply SD|now apply NoDup_filter| |discriminate|reflexivity].
    intros x Hx. apply filter_In in Hx. destruct Hx as (_ & Hx). now apply mem_true.
Qed.
Print Assumptions C196_multiget.
Example C196_case : all_sound 2 (Node [(nA, Node [(nX, Leaf ex_d1)]); (nB, Leaf ex_d2)]) /\ proper (Node [(nA, Node [(nX, Leaf ex_d1)]); (nB, Leaf ex_d2)]) /\
  no_member ny (Node [(nA, Node [(nX, Leaf ex_d1)]); (nB, Leaf ex_d2)]) /\
  get_col ny (Node [(nA, Node [(nX, Leaf ex_d1)]); (nB, Leaf ex_d2)]) = Some (Node [(nA, Node [(nX, Leaf (mkDs [] [(ny, [5; 6]%Z)]))])]) /\
  copy_tree (Some [1]) (Some [nx; nk]) (Node [(nA, Node [(nX, Leaf ex_d1)]); (nB, Leaf ex_d2)]) =
    Some (Node [(nA, Node [(nX, Leaf (mkDs [nk] [(nx, [4%Z]); (nk, [2%Z])]))]); (nB, Leaf (mkDs [nk] [(nx, [8%Z]); (nk, [1%Z])]))]) /\
  multiget [ny; nx] [(nA, ex_d1); (nB, ex_d2); (nC, mkDs [] [(nX, [0; 0]%Z)])] =
    Some [(nA, mkDs [] [(ny, [5; 6]%Z); (nx, [3; 4]%Z)]); (nB, mkDs [] [(nx, [7; 8]%Z)])].
Proof.
  split; [intros p d [[= <- <-]|[[= <- <-]|[]]]; [exact sound_d1|exact sound_d2]|]. split; [cbn; repeat split; try discriminate; repeat constructor; cbn; intuition discriminate|].
  split; [cbn; intuition discriminate|]. split; [calc|]. split; calc.
Qed.

(** *** C197: applying a schema *)
(** If no schema of contents is an empty dictionary, the dictionary returned is empty exactly if the object
    fits the schema. *)
Theorem C197_verdict_partial :
  forall (Txt : Type) (dd ds_ : Txt) (kt ke km : name) (o : obj Txt) (s : schema Txt) (o' : obj Txt) (r : list (name * entry)),
  distinct o -> spelled s -> apply_schema dd ds_ kt ke km o s = Some (o', r) -> (r = [] <-> fits o s).
Proof. intros Txt dd ds_ kt ke km o s o' r. apply fits_iff. Qed.
Print Assumptions C197_verdict_partial.
(** It returns if no contents are listed for an array. *)
Theorem C197_returns :
  forall (Txt : Type) (dd ds_ : Txt) (kt ke km : name) (o : obj Txt) (s : schema Txt), distinct o -> spelled s -> askable o s ->
  exists o' r, apply_schema dd ds_ kt ke km o s = Some (o', r).
Proof. intros Txt dd ds_ kt ke km o s. apply answers. Qed.
Print Assumptions C197_returns.
(** Afterwards every array and container that the schema describes, at any depth, has the description, the
    steward (or their defaults) and the detail of its schema, the others are as before, and nothing else
    changes. *)
Theorem C197_metadata_partial :
  forall (Txt : Type) (dd ds_ : Txt) (kt ke km : name) (o : obj Txt) (s : schema Txt) (o' : obj Txt) (r : list (name * entry)),
  spelled s -> apply_schema dd ds_ kt ke km o s = Some (o', r) ->
  bare o' = bare o /\
  forall p x', at_path p o' = Some x' ->
    match schema_at p s with
    | Some (Schema a _ _) => x' = Other \/
        about_of x' = Some (mkAbout (Some (match description a with Some d => d | None => dd end)) (Some (match steward a with Some d => d | None => ds_ end)) (detail a))
    | None => exists x, at_path p o = Some x /\ about_of x' = about_of x
    end.
Proof.
  intros Txt dd ds_ kt ke km o s o' r SP H. split; [exact (keeps dd ds_ kt ke km o s o' r H)|]. intros p x' P. pose proof (tells dd ds_ kt ke km o s o' r SP H p x' P) as G. destruct (schema_at p s) as [[a st cs]|]; exact G.
Qed.
Print Assumptions C197_metadata_partial.
(** Of an item without a description info shows the default texts. *)
Theorem C197_info_undescribed :
  forall (Txt : Type) (dd ds_ : Txt) (t : name) (m : option (about Txt)) (l : list (name * obj Txt)) (k : name) (x : obj Txt),
  In (k, x) l -> about_of x = None ->
  In (k, match x with Array u _ => u | Cont u _ _ => u | Other => [] end, (dd, ds_)) (info_items dd ds_ (Cont t m l)).
Proof. intros Txt dd ds_ t m l k x H A. apply in_map_iff. exists (k, x). split; [|exact H]. cbn [fst snd]. unfold said. rewrite A. reflexivity. Qed.
Print Assumptions C197_info_undescribed.
(** info shows the items of an object in order, with their types and, for those the schema describes, its
    description and steward. *)
Theorem C197_info :
  forall (Txt : Type) (dd ds_ : Txt) (kt ke km : name) (o : obj Txt) (s : schema Txt) (o' : obj Txt) (r : list (name * entry)),
  distinct o -> spelled s -> apply_schema dd ds_ kt ke km o s = Some (o', r) ->
  map fst (info_items dd ds_ o') = match o with Cont _ _ l => map (fun p => (fst p, match snd p with Array t _ => t | Cont t _ _ => t | Other => [] end)) l | _ => [] end /\
  forall k t said a st cs, In (k, t, said) (info_items dd ds_ o') -> dget k (s_contents s) = Some (Schema a st cs) ->
    at_path [k] o' <> Some Other ->
    said = (match description a with Some d => d | None => dd end, match steward a with Some d => d | None => ds_ end).
Proof.
  intros Txt dd ds_ kt ke km o s o' r DI SP H. destruct (C197_metadata_partial Txt dd ds_ kt ke km o s o' r SP H) as (B & T). split.
  - destruct o as [t m|t m l|], o' as [t' m'|t' m' l'|]; cbn [bare] in B; try discriminate; try reflexivity. injection B as _ B. cbn [info_items]. rewrite map_map. cbn [fst snd]. clear - B. revert l B. induction l' as [|[k' x'] l' IH]; intros [|[k x] l] B; cbn [map fst snd] in *; try discriminate; [reflexivity|]. injection B as B1 B2 B3. f_equal; [|now apply IH]. f_equal; [exact B1|]. destruct x, x'; cbn [bare type_of] in *; congruence.
  - intros k t said a st cs HI DC NO. destruct o' as [t' m'|t' m' l'|]; cbn [info_items] in HI; try now destruct HI. apply in_map_iff in HI. destruct HI as ([k0 x] & [= <- <- <-] & Hx). cbn [fst snd] in *.
    assert (ND : NoDup (map fst l')).
    { destruct o as [t m|t m l|]; cbn [bare] in B; try discriminate. injection B as _ B. destruct DI as (ND & _). assert (E : map fst l' = map fst l); [|now rewrite E]. apply (f_equal (map fst)) in B. rewrite !map_map in B. exact B. }
    pose proof (dget_in k0 x l' ND Hx) as G. specialize (T [k0] x). cbn [at_path schema_at] in *. rewrite G in *. rewrite DC in T. destruct (T eq_refl) as [->|E]; [congruence|]. unfold said. rewrite E. reflexivity.
Qed.
Print Assumptions C197_info.
Definition nothing : about nat := mkAbout None None None.
Definition arr (t : name) : obj nat := Array t None.
Definition sch (t : name) : schema nat := Schema nothing (Some t) [].
(** Finding: of several columns that the schema does not list only the last is reported, and of several
    that are missing too. *)
Theorem C197_only_last_refuted :
  forall dd ds_ : nat, exists (o : obj nat) (s : schema nat) (o' : obj nat),
    distinct o /\ spelled s /\ apply_schema dd ds_ [1] [2] [3] o s = Some (o', [([2], Text nB); ([3], Text nY)]) /\
    (forall n, In n (match o with Cont _ _ l => map fst l | _ => [] end) <-> n = nA \/ n = nB) /\ map fst (s_contents s) = [nX; nY].
Proof.
  intros dd ds_. exists (Cont nC None [(nA, arr nk); (nB, arr nk)]), (Schema nothing None [(nX, sch nk); (nY, sch nk)]). eexists. split; [cbn; repeat split; repeat constructor; cbn; intuition discriminate|]. split; [cbn; auto|]. split; [cbv; reflexivity|].
  split; [|reflexivity]. intros n. cbn. intuition congruence.
Qed.
Print Assumptions C197_only_last_refuted.
(** Finding: an item whose schema is an empty dictionary is reported as not being in the schema. *)
Theorem C197_empty_schema_refuted :
  forall dd ds_ : nat, exists (o : obj nat) (s : schema nat) (o' : obj nat), fits o s /\ distinct o /\
    apply_schema dd ds_ [1] [2] [3] o s = Some (o', [([2], Text nA)]) /\ map fst (s_contents s) = [nA].
Proof.
  intros dd ds_. exists (Cont nC None [(nA, arr nk)]), (Schema nothing None [(nA, Schema nothing None [])]). eexists. split; [|split; [cbn; repeat split; repeat constructor; intros []|split; [cbv; reflexivity|reflexivity]]].
  apply FitsAll; [exact I|reflexivity|]. intros n x s. cbn [dget]. destruct (name_dec nA n); [|discriminate]. intros [= <-] [= <-]. constructor. exact I.
Qed.
Print Assumptions C197_empty_schema_refuted.
Example C197_case : distinct (Cont nC None [(nA, arr nk); (nB, Cont nX None [(nx, arr ny)])]) /\
  spelled (Schema (mkAbout (Some 5) None (Some 6)) (Some nC) [(nA, sch nk); (nB, Schema (mkAbout None (Some 7) None) None [(nx, sch ny)])]) /\
  apply_schema 1 2 [1] [2] [3] (Cont nC None [(nA, arr nk); (nB, Cont nX None [(nx, arr ny)])])
    (Schema (mkAbout (Some 5) None (Some 6)) (Some nC) [(nA, sch nk); (nB, Schema (mkAbout None (Some 7) None) None [(nx, sch ny)])]) =
  Some (Cont nC (Some (mkAbout (Some 5) (Some 2) (Some 6))) [(nA, Array nk (Some (mkAbout (Some 1) (Some 2) None))); (nB, Cont nX (Some (mkAbout (Some 1) (Some 7) None)) [(nx, Array ny (Some (mkAbout (Some 1) (Some 2) None)))])], []).
Proof. split; [cbn; repeat split; repeat constructor; cbn; intuition discriminate|]. split; [cbn; repeat split|calc]. Qed.
