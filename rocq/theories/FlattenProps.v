(** C15: flattening a nested Struct and undoing it gives the Struct back. *)
From Coq Require Import List Arith.
From Verif Require Import FlattenModel FlattenSpec FlattenProofs.
Import ListNotations.

(** For every depth and shape of nesting and any non-empty separator: [flatten_undo] of the
    flattened Struct is the Struct itself (items, their order, classes, scalars and the extra
    arrays of array subclasses), provided the names are well formed. *)
Theorem C15_flatten_round_trip_partial : forall (A M C : Type) (sep : name) (s : struct A M C),
  sep <> [] -> well_named sep (snd s) -> flatten_undo sep (flatten sep col_i s) = Some s.
Proof. intros A M C sep s H W. exact (round_trip sep H col_i col_i_inj s W). Qed.
Print Assumptions C15_flatten_round_trip_partial.
(** No two items of the nested Struct get the same flattened name. *)
Theorem C15_flat_names_distinct : forall (A M C : Type) (sep : name) (s : struct A M C),
  sep <> [] -> well_named sep (snd s) -> NoDup (map fst (fst (fst (flatten sep col_i s)))).
Proof. intros A M C sep s H W. exact (flat_names sep H col_i col_i_inj s W). Qed.
Print Assumptions C15_flat_names_distinct.

(** Names with the separator in them are accepted by Struct, and lose data: {a: {x: 1}, "a/x": 2}. *)
Definition slash : name := [47].
Definition s_sep : struct nat nat nat := (0, [([97], Sub 1 [([120], Arr 1)]); ([97; 47; 120], Arr 2)]).
Theorem C15_name_with_separator_refuted : exists s : struct nat nat nat,
  NoDup (map fst (snd s)) /\ flatten_undo slash (flatten slash col_i s) = Some (0, [([97], Sub 1 [([120], Arr 2)])]) /\
  flatten_undo slash (flatten slash col_i s) <> Some s.
Proof.
  exists s_sep. split; [repeat constructor; cbn; intuition discriminate|]. split; [vm_compute; reflexivity|vm_compute; discriminate].
Qed.
Print Assumptions C15_name_with_separator_refuted.
(** A column "c!x" right after a Categorical column "c" is taken for one of its category arrays. *)
Definition s_bang : struct nat nat nat := (0, [([99], Spec 7 1 [2]); ([99; 33; 120], Arr 3)]).
Theorem C15_name_with_bang_refuted : exists s : struct nat nat nat,
  NoDup (map fst (snd s)) /\ flatten_undo slash (flatten slash col_i s) = Some (0, [([99], Spec 7 1 [2; 3])]).
Proof. exists s_bang. split; [repeat constructor; cbn; intuition discriminate|vm_compute; reflexivity]. Qed.
Print Assumptions C15_name_with_bang_refuted.

(** non-vacuity: three levels, a Categorical with two key columns, names that are prefixes of
    each other ("a", "ab") *)
Definition s_case : struct nat nat nat :=
  (0, [([97], Sub 1 [([120], Arr 1); ([97; 98], Sub 2 [([99], Spec 5 6 [7; 8]); ([100], Scal 9)]); ([97], Arr 3)]);
       ([97; 98], Spec 4 10 [11]); ([98], Sub 3 []); ([99], Scal 2)]).
Lemma good_check sep n : n <> [] -> n <> root_name -> forallb (fun ch => negb (existsb (Nat.eqb ch) sep) && negb (ch =? bang))%bool n = true -> good_name sep n.
Proof.
  intros H1 H2 H. split; [exact H1|]. split; [exact H2|]. rewrite forallb_forall in H. intros ch Hc. specialize (H ch Hc). apply Bool.andb_true_iff in H. destruct H as [Ha Hb].
  split; [|intros ->; discriminate]. intros Hi. apply Bool.negb_true_iff in Ha. assert (existsb (Nat.eqb ch) sep = true); [|congruence]. apply existsb_exists. exists ch. split; [exact Hi|apply Nat.eqb_refl].
Qed.
Ltac wn := constructor; [repeat constructor; cbn; intuition discriminate
  | cbn; intros ? ? H; repeat (destruct H as [H|H]; [injection H as <- <-; apply good_check; [discriminate|discriminate|reflexivity]|]); contradiction
  | cbn; intros ? ? ? H; repeat (destruct H as [H|H]; [first [discriminate|injection H as <- <- <-; wn]|]); contradiction].
Example C15_case : well_named slash (snd s_case) /\
  map fst (fst (fst (flatten slash col_i s_case))) =
  [[97; 47]; [97; 47; 120]; [97; 47; 97; 98; 47]; [97; 47; 97; 98; 47; 99]; [97; 47; 97; 98; 47; 99; 33; 99; 111; 108; 95; 48];
   [97; 47; 97; 98; 47; 99; 33; 99; 111; 108; 95; 49]; [97; 47; 97; 98; 47; 100]; [97; 47; 97]; [97; 98]; [97; 98; 33; 99; 111; 108; 95; 48]; [98; 47]; [99]].
Proof. split; [unfold s_case, snd; wn|vm_compute; reflexivity]. Qed.
