(** Model of Grouping.set_name, rt_grouping.py:1838-1912, and of the column names of h5 data,
    rt_utils.py:216-237 and 311-321. *)
From Coq Require Import List Ascii String Bool Arith DecimalString.
Import ListNotations.
Local Open Scope list_scope.

Definition text := list ascii.
Definition T (s : string) : text := list_ascii_of_string s.
Definition text_dec (a b : text) : {a = b} + {a <> b} := list_eq_dec ascii_dec a b.
(** str(i) *)
Definition str (i : nat) : text := T (NilEmpty.string_of_uint (Nat.to_uint i)).
Section Names.
Context {V : Type}.
(** newdict[k] = v *)
Fixpoint dput (k : text) (v : V) (d : list (text * V)) : list (text * V) :=
  match d with [] => [(k, v)] | (k', v') :: r => if text_dec k' k then (k', v) :: r else (k', v') :: dput k v r end.
(** name + "_" + str(i); rt_enum.py:78: GROUPBY_KEY_PREFIX is "key" *)
Definition numbered (name : text) (i : nat) : text := name ++ T "_" ++ str i.
(** 1905-1910 *)
Fixpoint rename (name : text) (i : nat) (d : list (text * V)) (newdict : list (text * V)) : list (text * V) :=
  match d with
  | [] => newdict
  | (k, v) :: r => rename name (S i) r (dput (if text_dec k (numbered (T "key") i) then numbered name i else k) v newdict)
  end.
(** 1896-1912: the dictionary of the keys afterwards *)
Definition set_name (name : text) (d : list (text * V)) : list (text * V) :=
  match d with
  | [(_, v)] => [(name, v)]
  | _ => rename name 0 d []
  end.
(** What is expected: the name of the key in place [i] of [n], which was [k]. *)
Definition new_name (name : text) (n i : nat) (k : text) : text :=
  if Nat.eqb n 1 then name else if text_dec k (numbered (T "key") i) then numbered name i else k.

(** ** Names of columns *)
(** keyword.kwlist and dir(Dataset) *)
Variable kw attr : text -> bool.
(** str.capitalize, of ASCII letters *)
Definition upper (c : ascii) : ascii :=
  let n := nat_of_ascii c in if (97 <=? n) && (n <=? 122) then ascii_of_nat (n - 32) else c.
Definition lower (c : ascii) : ascii :=
  let n := nat_of_ascii c in if (65 <=? n) && (n <=? 90) then ascii_of_nat (n + 32) else c.
Definition capitalize (t : text) : text := match t with [] => [] | c :: r => upper c :: map lower r end.
Definition us : ascii := "_"%char.
(** 224-225 *)
Fixpoint lstrip_us (t : text) : text :=
  match t with [] => [] | c :: r => if ascii_dec c us then lstrip_us r else t end.
Definition isin (t : text) (l : list text) : bool := if in_dec text_dec t l then true else false.
(** 228-229; the loop ends within as many steps as there are names in the container (proved) *)
Fixpoint avoid (fuel : nat) (container : list text) (name : text) : text :=
  match fuel with
  | 0 => name
  | S f => if isin name container then avoid f container (name ++ [us]) else name
  end.
(** 216-237, without the warnings *)
Definition escape (container : list text) (name : text) : text :=
  let name := lstrip_us name in
  if kw name then avoid (List.length container) container (name ++ [us])
  else if attr name then capitalize name
  else name.
(** 311-321: the columns of the Dataset made from a dictionary of arrays *)
Definition h5_columns (d : list (text * V)) : list (text * V) :=
  fold_left (fun out p => dput (escape (map fst d) (fst p)) (snd p) out) d [].
End Names.
