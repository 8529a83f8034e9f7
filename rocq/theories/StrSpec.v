(** What the string operations mean, independently of the kernels: a column is a list of
    texts (lists of non-NUL character codes) of at most [w] characters, stored NUL padded. *)
From Coq Require Import List Arith ZArith Bool.
From Verif Require Import Sched.
Import ListNotations.
Open Scope Z_scope.

Definition text := list Z.
Definition no_nul (t : text) : Prop := ~ In 0 t.
Definition fits (w : nat) (t : text) : Prop := no_nul t /\ (length t <= w)%nat.
Definition column (w : nat) (ts : list text) : Prop := (0 < w)%nat /\ Forall (fits w) ts.

(** numpy storage of a column of texts of width [w] *)
Definition pad (w : nat) (t : text) : list Z := t ++ repeat 0 (w - length t).
Definition enc (w : nat) (ts : list text) : list Z := concat (map (pad w) ts).

(** the [n] rows of width [w] of an output array *)
Definition rows {V} (m : mem V) (w n : nat) : list (list V) := map (fun i => segment m (i * w) w) (seq 0 n).
(** the [n] cells of an output array *)
Definition cells {V} (m : mem V) (n : nat) : list V := segment m 0 n.

(** [outcome its m0 m]: starting from output array contents [m0], some execution of the
    parallel loop [its] ends with contents [m]. *)
Definition outcome {V} (its : list (list (store V))) (m0 m : mem V) : Prop :=
  exists ws, interleave its ws /\ m = run_stores ws m0.

(** ASCII case *)
Definition is_lower (c : Z) : Prop := 97 <= c <= 122.
Definition is_upper (c : Z) : Prop := 65 <= c <= 90.
Definition upper_char (c : Z) : Z := if (97 <=? c) && (c <=? 122) then c - 32 else c.
Definition lower_char (c : Z) : Z := if (65 <=? c) && (c <=? 90) then c + 32 else c.

(** occurrences *)
Definition occurs_at (p t : text) (j : nat) : Prop :=
  exists a b, t = a ++ p ++ b /\ length a = j.
Definition is_first_occurrence (p t : text) (r : Z) : Prop :=
  (r = -1 /\ (forall j, ~ occurs_at p t j)) \/
  (exists j, r = Z.of_nat j /\ occurs_at p t j /\ forall j', occurs_at p t j' -> (j <= j')%nat).
Definition is_first_member (set t : text) (r : Z) : Prop :=
  (r = -1 /\ (forall c, In c t -> ~ In c set)) \/
  (exists a c b, t = a ++ c :: b /\ r = Z.of_nat (length a) /\ In c set /\ forall c', In c' a -> ~ In c' set).

(** [u] is [t] without its maximal trailing run of [c] *)
Definition strips_trailing (c : Z) (t u : text) : Prop :=
  (exists k, t = u ++ repeat c k) /\ (forall v, u <> v ++ [c]).

(** Python's [t.replace(old, new)] (leftmost, non-overlapping) *)
Inductive replaced (old new : text) : text -> text -> Prop :=
| rep_end : replaced old new [] []
| rep_hit : forall t u, replaced old new t u -> replaced old new (old ++ t) (new ++ u)
| rep_skip : forall c t u, (forall b, c :: t <> old ++ b) -> replaced old new t u ->
                           replaced old new (c :: t) (c :: u).

(** Python's [t[start:stop]] *)
Definition clip (len x : Z) : Z := if x <? 0 then Z.max 0 (x + len) else Z.min x len.
Definition py_slice (start stop : Z) (t : text) : text :=
  let len := Z.of_nat (length t) in
  let i := clip len start in
  let j := clip len stop in
  firstn (Z.to_nat (j - i)) (skipn (Z.to_nat i) t).

(** [u] is [t] up to the first occurrence of [stop] ([stop] kept when [inclusive]), or all
    of [t] when there is none *)
Definition stops_at (inclusive : bool) (stop t u : text) : Prop :=
  (exists a b, t = a ++ stop ++ b /\ (forall j, occurs_at stop t j -> (length a <= j)%nat) /\
               u = if inclusive then a ++ stop else a) \/
  ((forall j, ~ occurs_at stop t j) /\ u = t).
