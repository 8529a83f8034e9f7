(** Properties C10-C14: the ordered column container of Struct / Dataset.
    Statements only; proofs are in ItemsProofs*.v and ColMapProofs*.v.
    [attr_kind n] says whether the class has an attribute n (None / Some callable?);
    [restricted n] says whether n is in get_restricted_names(). *)
From Coq Require Import String Ascii List Arith Bool Permutation.
From Verif Require Import ItemsModel ItemsSpec ItemsFacts ItemsProofs ItemsProofs2 ColMapProofs ColMapProofs2 ColMapProofs3.
Import ListNotations.
Open Scope list_scope.
Local Open Scope string_scope.

(** ** C10.  Names stay pairwise distinct after any history whatsoever. *)
Theorem C10_names_distinct : forall (V A : Type) attr_kind restricted (ops : list (op V A)),
  NoDup (colnames (run attr_kind restricted ops)).
Proof. exact (@names_distinct). Qed.
Print Assumptions C10_names_distinct.

(** Setting a column keeps the position of an existing one, appends a new one, makes it
    retrievable and touches nothing else. *)
Theorem C10_set_column : forall (V A : Type) attr_kind restricted (st : struct V A) n v,
  NoDup (colnames st) -> locked st = false -> valid_colname restricted n = true ->
  In n (colnames st) \/ attr_kind n = None ->
  let r := setattr attr_kind restricted n v st in
  snd r = None /\
  (In n (colnames st) -> colnames (fst r) = colnames st /\ ncols (fst r) = ncols st) /\
  (~ In n (colnames st) -> colnames (fst r) = (colnames st ++ [n])%list /\ ncols (fst r) = S (ncols st)) /\
  (forall k, value (fst r) k = if String.eqb k n then Some v else value st k) /\
  (forall k, attr (fst r) k = attr st k).
Proof. exact (@set_effect). Qed.
Print Assumptions C10_set_column.
Example C10_set_column_case :
  let st := run ex_kind ex_restricted ex_ops in
  NoDup (colnames st) /\ locked st = false /\ valid_colname ex_restricted "pz" = true /\ In "pz" (colnames st) /\
  colnames (fst (setattr ex_kind ex_restricted "pz" 77 st)) = ["pz"; "pb"] /\
  colnames (fst (setattr ex_kind ex_restricted "new" 77 st)) = ["pz"; "pb"; "new"].
Proof.
  cbn zeta. split; [apply names_distinct|]. split; [vm_compute; reflexivity|]. split; [vm_compute; reflexivity|].
  split; [vm_compute; now left|]. split; vm_compute; reflexivity.
Qed.

Theorem C10_delete_column : forall (V A : Type) (st : struct V A) n,
  NoDup (colnames st) -> locked st = false ->
  let r := delattr n st in
  (In n (colnames st) ->
   snd r = None /\ colnames (fst r) = filter (fun k => negb (String.eqb n k)) (colnames st) /\
   ncols (fst r) = ncols st - 1 /\
   (forall k, k <> n -> value (fst r) k = value st k /\ attr (fst r) k = attr st k) /\ value (fst r) n = None) /\
  (~ In n (colnames st) -> r = (st, Some EIndex)).
Proof. exact (@delete_effect). Qed.
Print Assumptions C10_delete_column.

(** The column count, for histories of ordinary calls (ItemsSpec.ordinary lists exactly what is
    left out).  Missing for the full property: see the next theorem. *)
Theorem C10_column_count_partial : forall (V A : Type) attr_kind restricted,
  class_attributes_restricted attr_kind restricted ->
  forall ops : list (op V A), ordinary_history attr_kind restricted empty_struct ops ->
  let st := run attr_kind restricted ops in
  ncols st = length (colnames st) /\ Forall (ok_name restricted) (colnames st) /\
  (forall l c, sortl st = Some l -> In c l -> In c (colnames st)).
Proof. exact (@ordinary_invariant). Qed.
Print Assumptions C10_column_count_partial.
Example C10_column_count_case :
  class_attributes_restricted ex_kind ex_restricted /\ ordinary_history ex_kind ex_restricted empty_struct ex_ops /\
  colnames (run ex_kind ex_restricted ex_ops) = ["pz"; "pb"] /\ ncols (run ex_kind ex_restricted ex_ops) = 2.
Proof. split; [exact ex_car|]. split; [exact ex_ops_ordinary|]. split; vm_compute; reflexivity. Qed.

(** The full claim fails: assigning to an attribute name of the class stores a column under the
    capitalised name without counting it. *)
Theorem C10_column_count_refuted : exists attr_kind restricted (ops : list (op nat nat)),
  class_attributes_restricted attr_kind restricted /\
  ncols (run attr_kind restricted ops) <> length (colnames (run attr_kind restricted ops)).
Proof.
  exists ex_kind, ex_restricted, [OSetAttr "shape" 5]. split; [exact ex_car|].
  destruct count_refuted_property as [-> ->]. discriminate.
Qed.
Print Assumptions C10_column_count_refuted.

(** ** C11 *)
Theorem C11_rename : forall (V A : Type) restricted (st : struct V A) old new,
  NoDup (colnames st) -> locked st = false -> old <> new ->
  let r := col_rename restricted old new st in
  (valid_colname restricted new = true /\ In old (colnames st) /\ ~ In new (colnames st) ->
   snd r = None /\
   colnames (fst r) = map (fun k => if String.eqb k old then new else k) (colnames st) /\
   map snd (items (fst r)) = map snd (items st) /\ ncols (fst r) = ncols st /\
   value (fst r) new = value st old /\ attr (fst r) new = attr st old /\ value (fst r) old = None /\
   (forall k, k <> old -> k <> new -> value (fst r) k = value st k /\ attr (fst r) k = attr st k)) /\
  (valid_colname restricted new = false \/ ~ In old (colnames st) \/ In new (colnames st) ->
   snd r = Some EValue /\ fst r = st).
Proof. exact (@rename_effect). Qed.
Print Assumptions C11_rename.
Example C11_rename_case :
  let st := run ex_kind ex_restricted ex_ops in
  NoDup (colnames st) /\ locked st = false /\ valid_colname ex_restricted "w" = true /\
  In "pz" (colnames st) /\ ~ In "w" (colnames st) /\
  items (fst (col_rename ex_restricted "pz" "w" st)) = [("w", (2, None)); ("pb", (4, Some 9))].
Proof.
  cbn zeta. split; [apply names_distinct|]. split; [vm_compute; reflexivity|]. split; [vm_compute; reflexivity|].
  split; [vm_compute; now left|]. split; [|vm_compute; reflexivity]. vm_compute. intros [H|[H|[]]]; discriminate H.
Qed.

(** ** C12 *)
Theorem C12_move_to_front : forall (V A : Type) (st : struct V A) cols,
  NoDup (colnames st) -> locked st = false ->
  let r := col_move_to_front cols st in
  (length cols <= length (colnames st) ->
   snd r = None /\
   (exists moved,
      first_occurrences (filter (fun c => existsb (String.eqb c) (colnames st)) cols) moved /\
      colnames (fst r) = (moved ++ filter (fun k => negb (existsb (String.eqb k) cols)) (colnames st))%list) /\
   Permutation (colnames st) (colnames (fst r)) /\
   (forall k, value (fst r) k = value st k /\ attr (fst r) k = attr st k) /\ ncols (fst r) = ncols st) /\
  (length (colnames st) < length cols -> snd r = Some EValue /\ fst r = st).
Proof. exact (@front_effect). Qed.
Print Assumptions C12_move_to_front.
Theorem C12_move_to_back : forall (V A : Type) (st : struct V A) cols,
  NoDup (colnames st) -> locked st = false ->
  let r := col_move_to_back cols st in
  (length cols <= length (colnames st) ->
   snd r = None /\
   (exists moved,
      last_occurrences (filter (fun c => existsb (String.eqb c) (colnames st)) cols) moved /\
      colnames (fst r) = (filter (fun k => negb (existsb (String.eqb k) cols)) (colnames st) ++ moved)%list) /\
   Permutation (colnames st) (colnames (fst r)) /\
   (forall k, value (fst r) k = value st k /\ attr (fst r) k = attr st k) /\ ncols (fst r) = ncols st) /\
  (length (colnames st) < length cols -> snd r = Some EValue /\ fst r = st).
Proof. exact (@back_effect). Qed.
Print Assumptions C12_move_to_back.
Example C12_move_case :
  NoDup (colnames cm_st) /\ locked cm_st = false /\
  colnames (fst (col_move_to_front ["c"; "zz"; "b"; "c"] cm_st)) = ["c"; "b"; "a"; "d"] /\
  colnames (fst (col_move_to_back ["a"; "c"; "a"] cm_st)) = ["b"; "d"; "c"; "a"].
Proof. split; [apply names_distinct|]. split; [vm_compute; reflexivity|]. split; vm_compute; reflexivity. Qed.

(** ** C13.  A call that returns has renamed simultaneously, provided every key is a column or
    some new name is already a column. *)
Theorem C13_col_map_partial : forall (V A : Type) attr_kind restricted (m : dict string) (st st' : struct V A),
  NoDup (colnames st) -> Forall (fun n => valid_colname restricted n = true) (colnames st) ->
  NoDup (map fst m) ->
  (forall k, In k (map fst m) -> In k (colnames st)) \/ (exists v, In v (map snd m) /\ In v (colnames st)) ->
  col_map attr_kind restricted m st = (st', None) -> simultaneous_rename m st st'.
Proof. exact (@col_map_simultaneous). Qed.
Print Assumptions C13_col_map_partial.
(** It returns normally for every well-formed dictionary: distinct new names, all valid, and a new
    name that is already a column is itself renamed. *)
Theorem C13_col_map_succeeds : forall (V A : Type) attr_kind restricted (m : dict string) (st : struct V A),
  NoDup (colnames st) -> Forall (fun n => valid_colname restricted n = true) (colnames st) -> locked st = false ->
  NoDup (map fst m) -> NoDup (map snd m) -> Forall (fun n => valid_colname restricted n = true) (map snd m) ->
  (forall k, In k (map fst m) -> In k (colnames st)) ->
  (forall n, In n (map snd m) -> In n (colnames st) -> In n (map fst m)) ->
  snd (col_map attr_kind restricted m st) = None.
Proof. exact (@col_map_succeeds). Qed.
Print Assumptions C13_col_map_succeeds.
Example C13_col_map_case :
  NoDup (colnames cm_st) /\ Forall (fun n => valid_colname ex_restricted n = true) (colnames cm_st) /\
  NoDup (map fst cm_map) /\ (forall k, In k (map fst cm_map) -> In k (colnames cm_st)) /\
  NoDup (map snd cm_map) /\ (forall n, In n (map snd cm_map) -> In n (colnames cm_st) -> In n (map fst cm_map)) /\
  items (fst (col_map ex_kind ex_restricted cm_map cm_st)) =
    [("a", (2, Some 7)); ("b", (1, None)); ("d", (3, None)); ("e", (4, None))].
Proof.
  destruct cm_hyps as (H1 & H2 & H3 & H4). split; [exact H1|]. split; [exact H2|]. split; [exact H3|].
  split; [exact H4|]. split; [apply nodupb_nodup; vm_compute; reflexivity|]. split; [|vm_compute; reflexivity].
  cbn. intros n [<-|[<-|[<-|[<-|[]]]]]; intuition discriminate.
Qed.
(** The full claim fails. *)
Theorem C13_col_map_refuted : exists attr_kind restricted (ops : list (op nat nat)) m,
  let st := run attr_kind restricted ops in
  let r := col_map attr_kind restricted m st in
  NoDup (map fst m) /\ NoDup (map snd m) /\ snd r = None /\ ~ simultaneous_rename m st (fst r).
Proof.
  exists ex_kind, ex_restricted, [OSetItem "a" 1], [("a", "x"); ("x", "y")].
  destruct cm_refuted_sequential as (H1 & _ & H2). cbn zeta. split; [apply nodupb_nodup; vm_compute; reflexivity|].
  split; [apply nodupb_nodup; vm_compute; reflexivity|]. split; [exact H1|exact H2].
Qed.
Print Assumptions C13_col_map_refuted.
(** A call that raises may leave some columns renamed. *)
Theorem C13_col_map_atomic_refuted : exists attr_kind restricted (ops : list (op nat nat)) m,
  let st := run attr_kind restricted ops in
  let r := col_map attr_kind restricted m st in
  snd r <> None /\ colnames (fst r) <> colnames st.
Proof.
  exists ex_kind, ex_restricted, [OSetItem "a" 1; OSetItem "b" 2], [("a", "x"); ("b", "_y")].
  destruct cm_refuted_atomic as (H1 & H2). cbn zeta. rewrite H1, H2. split; discriminate.
Qed.
Print Assumptions C13_col_map_atomic_refuted.
(** Column attributes do not follow the data around a cycle. *)
Theorem C13_col_map_attributes_refuted : exists attr_kind restricted (st : struct nat nat) m k,
  let r := col_map attr_kind restricted m st in
  snd r = None /\ value (fst r) (renamed m k) = value st k /\ attr (fst r) (renamed m k) <> attr st k.
Proof.
  exists ex_kind, ex_restricted, cm_st, [("a", "b"); ("b", "a")], "a".
  destruct cm_refuted_attr as (H1 & H2 & H3 & H4 & _). cbn zeta. split; [exact H1|]. split; [exact H2|].
  change (renamed [("a", "b"); ("b", "a")] "a") with "b". rewrite H3, H4. discriminate.
Qed.
Print Assumptions C13_col_map_attributes_refuted.

(** ** C14 *)
Theorem C14_col_str_replace_partial : forall (V A : Type) (st : struct V A) old new max,
  NoDup (colnames st) -> NoDup (map (sreplace old new max) (colnames st)) -> sortl st = None ->
  let r := col_str_replace old new max st in
  (exists e, snd r = Some e /\ fst r = st) \/
  (snd r = None /\ colnames (fst r) = map (sreplace old new max) (colnames st) /\
   map snd (items (fst r)) = map snd (items st) /\ ncols (fst r) = ncols st).
Proof. exact (@str_replace_effect). Qed.
Print Assumptions C14_col_str_replace_partial.
Example C14_col_str_replace_case :
  let st := run ex_kind ex_restricted ex_ops in
  NoDup (colnames st) /\ NoDup (map (sreplace "p" "qq" None) (colnames st)) /\ sortl cm_st = None /\
  colnames (fst (col_str_replace "c" "qq" None cm_st)) = ["a"; "b"; "qq"; "d"].
Proof.
  cbn zeta. split; [apply names_distinct|]. split; [apply nodupb_nodup; vm_compute; reflexivity|]. split; vm_compute; reflexivity.
Qed.
(** The full claim fails: colliding names silently drop a column. *)
Theorem C14_col_str_replace_refuted : exists attr_kind restricted (ops : list (op nat nat)) old new,
  let st := run attr_kind restricted ops in
  let r := col_str_replace old new None st in
  snd r = None /\ length (colnames (fst r)) < length (colnames st) /\ (forall k, value (fst r) k <> value st "ab") /\
  ncols (fst r) <> length (colnames (fst r)).
Proof.
  exists ex_kind, ex_restricted, [OSetItem "ab" 1; OSetItem "ba" 2; OSetItem "c" 3], "a", "".
  destruct str_replace_refuted as (H1 & H2 & H3 & H4 & H5 & H6 & H7). cbn zeta.
  rewrite H4, H1, H6. split; [exact H3|]. split; [cbn; auto|]. split; [exact H7|discriminate].
Qed.
Print Assumptions C14_col_str_replace_refuted.
