(* Vocabulary of the statements about csv files and numpy directories. *)
From Coq Require Import List String Ascii Bool Arith.
Import ListNotations.

(* The names a Dataset shows: no two equal, none with a leading underscore. *)
Definition plain_names (names : list string) : Prop :=
  NoDup names /\ forall n t, In n names -> n <> String "_" t.

(* `ds` is the table of `rows` under the header `names`: the same names in the same
   order, and the j-th value of the i-th column is the converted i-th field of the
   j-th row. *)
Definition table_of {V} (conv : string -> string -> V) (names : list string)
    (rows : list (list string)) (ds : list (string * list V)) : Prop :=
  map fst ds = names /\
  forall i n c, nth_error ds i = Some (n, c) ->
    List.length c = List.length rows /\
    forall j r, nth_error rows j = Some r ->
      exists f, nth_error r i = Some f /\ nth_error c j = Some (conv n f).

(* Somewhere in s the text p begins. *)
Definition occurs (p s : string) : Prop := exists a b, s = (a ++ p ++ b)%string.

(* A Dataset: plain names, columns of one length. *)
Definition is_dataset {V} (ds : list (string * list V)) : Prop :=
  plain_names (map fst ds) /\
  forall k c k' c', In (k, c) ds -> In (k', c') ds -> List.length c = List.length c'.
