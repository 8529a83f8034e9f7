(** Naming a Categorical keeps its keys (C247); names of columns of h5 data (C248). *)
From Coq Require Import List Ascii String Bool Arith Lia.
From Verif Require Import NmModel NmProofs.
Import ListNotations.
Local Open Scope list_scope.

(** set_name keeps the keys and their order; a single key takes the name, the unnamed ones of
    several take the name with their number, the others keep theirs: if none of those is such a
    name. *)
Theorem C247_keys_partial : forall {V} name (d : list (text * V)), NoDup (map fst d) ->
  (List.length d <> 1 -> forall i k v j, nth_error d i = Some (k, v) -> k <> numbered (T "key") i -> j < List.length d -> k <> numbered name j) ->
  map snd (set_name name d) = map snd d /\ NoDup (map fst (set_name name d)) /\
  forall i k v, nth_error d i = Some (k, v) -> nth_error (set_name name d) i = Some (new_name name (List.length d) i k, v).
Proof. intros V. exact set_name_ok. Qed.
Print Assumptions C247_keys_partial.
(** Finding: a key that already has the numbered name of another one replaces it: one of the
    keys is lost. *)
Theorem C247_lost_refuted : exists name (d : list (text * nat)), NoDup (map fst d) /\ List.length d = 2 /\ map snd d = [1; 2] /\ map snd (set_name name d) = [2].
Proof.
  exists (T "a"), [(T "key_0", 1); (T "a_0", 2)]. split; [repeat constructor; cbn; intuition discriminate|]. repeat split; vm_compute; reflexivity.
Qed.
Print Assumptions C247_lost_refuted.
Example C247_case : set_name (T "c") [(T "key_0", 1); (T "b", 2); (T "key_2", 3); (T "key_1", 4)] = [(T "c_0", 1); (T "b", 2); (T "c_2", 3); (T "key_1", 4)] /\
  set_name (T "c") [(T "key_0", 1)] = [(T "c", 1)] /\ str 120 = T "120".
Proof. repeat split; vm_compute; reflexivity. Qed.

(** Every array of a dictionary becomes a column, in its place, and no two have one name, if no name
    begins with an underscore or is an attribute of Datasets; names that are keywords are
    changed, to one that no array has. *)
Theorem C248_columns_partial : forall {V} kw attr, (forall s, kw (s ++ [us]) = false) -> forall d : list (text * V), NoDup (map fst d) ->
  (forall t, In t (map fst d) -> match t with [] => True | x :: _ => x <> us end) -> (forall t, In t (map fst d) -> attr t = false) ->
  map snd (h5_columns kw attr d) = map snd d /\ NoDup (map fst (h5_columns kw attr d)) /\
  forall i k v, nth_error d i = Some (k, v) -> exists n, nth_error (h5_columns kw attr d) i = Some (n, v) /\
    (kw k = false -> n = k) /\ (kw k = true -> kw n = false /\ ~ In n (map fst d) /\ exists m, n = k ++ repeat us (S m)).
Proof.
  intros V kw attr KE d N C1 C2. destruct (columns_ok kw attr KE d N C1 C2) as [E ND]. split; [rewrite E, map_map; reflexivity|]. split; [exact ND|].
  intros i k v J. exists (escape kw attr (map fst d) k). rewrite E, nth_error_map, J. split; [reflexivity|].
  assert (I : In k (map fst d)) by (apply nth_error_In in J; apply in_map_iff; now exists (k, v)). split; [intros K; now apply escape_other|]. intros K.
  destruct (escape_kw kw attr (map fst d) C1 k I K) as (n & -> & F). split; [|split; [exact F|now exists n]]. unfold more. cbn [repeat]. rewrite repeat_cons, app_assoc. apply KE.
Qed.
Print Assumptions C248_columns_partial.
Definition is_kw (t : text) : bool := if in_dec text_dec t [T "if"; T "class"] then true else false.
Definition is_attr (t : text) : bool := if in_dec text_dec t [T "sum"; T "keys"] then true else false.
(** Finding: underscores in front are cut off without a look at the other names: of _a and a only
    one column is left; so are sum and Sum, for sum is a method of Datasets. *)
Theorem C248_lost_refuted : (forall s, is_kw (s ++ [us]) = false) /\
  h5_columns is_kw is_attr [(T "_a", 1); (T "a", 2)] = [(T "a", 2)] /\ h5_columns is_kw is_attr [(T "Sum", 1); (T "sum", 2)] = [(T "Sum", 2)].
Proof.
  split; [|split; vm_compute; reflexivity]. intros s. unfold is_kw. destruct (in_dec text_dec (s ++ [us]) [T "if"; T "class"]) as [J|J]; [exfalso|reflexivity].
  destruct J as [J|[J|[]]]; apply (f_equal (@rev ascii)) in J; rewrite rev_app_distr in J; discriminate J.
Qed.
Print Assumptions C248_lost_refuted.
(** Finding: a name of underscores only becomes the empty name. *)
Theorem C248_empty_refuted : forall {V} (v : V) n, h5_columns is_kw is_attr [(repeat us (S n), v)] = [([], v)].
Proof.
  intros V v n. unfold h5_columns. cbn [fold_left dput map fst snd]. unfold escape. replace (lstrip_us (repeat us (S n))) with (@nil ascii); [reflexivity|].
  symmetry. induction n as [|n IH]; [reflexivity|]. change (repeat us (S (S n))) with (us :: repeat us (S n)). cbn [lstrip_us]. destruct (ascii_dec us us); [exact IH|congruence].
Qed.
Print Assumptions C248_empty_refuted.
Example C248_case : h5_columns is_kw is_attr [(T "if", 1); (T "if_", 2); (T "x", 3); (T "class", 4)] = [(T "if__", 1); (T "if_", 2); (T "x", 3); (T "class_", 4)].
Proof. vm_compute. reflexivity. Qed.
