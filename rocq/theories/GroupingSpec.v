(** Specification of the key and category operations, stated on what the rows show. *)
From Coq Require Import List Arith ZArith Bool.
Import ListNotations.

(** A categorical (base 1) is read as the value each row shows; [None] is a filtered row. *)
Definition shows {B} (codes : list nat) (us : list B) : list (option B) :=
  map (fun c => match c with 0 => None | S k => nth_error us k end) codes.
(** the same for base 0, where code [c] is category number [c] *)
Definition shows0 {B} (codes : list nat) (us : list B) : list (option B) := map (nth_error us) codes.

(** every code designates the filtered bin or an existing category *)
Definition valid_codes {B} (codes : list nat) (us : list B) : Prop := Forall (fun c => c <= length us) codes.
Definition valid_codes0 {B} (codes : list nat) (us : list B) : Prop := Forall (fun c => c < length us) codes.

(** rows that fail the filter show nothing *)
Definition keep_where {B} (flt : option (list bool)) (rows : list (option B)) : list (option B) :=
  match flt with
  | None => rows
  | Some f => map (fun p => if snd p : bool then fst p else None) (combine rows f)
  end.
(** category number [k] is used by some row that passes *)
Definition used (flt : option (list bool)) (codes : list nat) (k : nat) : Prop :=
  exists r, nth_error codes r = Some (S k) /\
    match flt with None => True | Some f => nth_error f r = Some true end.

(** the rows of a group, in row order *)
Definition members {X} (keys : list nat) (data : list X) (g : nat) : list X :=
  map snd (filter (fun p => fst p =? g) (combine keys data)).

(** every code is a group number of 1..n or 0 *)
Definition codes_in (n : nat) (k : list nat) : Prop := Forall (fun c => c <= n) k.
