(** Vocabulary for the statements about rt.merge (C174-C176) and rt.merge_asof (C177-C179). *)
From Coq Require Import List Arith ZArith Bool Permutation String.
From Verif Require Import AsofSpec MergeSpec.
Import ListNotations.

(** the columns of a merged Dataset, given its rows *)
Section Columns.
Context {V : Type}.
Variable inv : V.
Variables left right : @dataset V.
Variables left_on right_on cl cr : list string.
Variable suffixes : option string * option string.
Definition shared_key (c : string) : Prop := In c left_on /\ In c right_on.
(** name of a column of one side: as it was, or suffixed if the other side has that name *)
Definition new_name (other : list string) (suffix : option string) (c n : string) : Prop :=
  n = c \/ (In c other /\ exists s, suffix = Some s /\ n = (c ++ s)%string).
Definition left_copied (rows : list row) (out : @dataset V) : Prop :=
  forall c, In c cl -> ~ shared_key c -> exists n, new_name cr (fst suffixes) c n /\
    col n out = Some (map (fun r => cell inv (getcol left c) (fst r)) rows).
Definition right_copied (rows : list row) (out : @dataset V) : Prop :=
  forall c, In c cr -> ~ shared_key c -> exists n, new_name cl (snd suffixes) c n /\
    col n out = Some (map (fun r => cell inv (getcol right c) (snd r)) rows).
Definition merged (h : how) (rows : list row) (out : @dataset V) : Prop :=
  (forall c, shared_key c -> col c out = Some (map (key_cell inv h (getcol left c) (getcol right c)) rows)) /\
  left_copied rows out /\ right_copied rows out /\ NoDup (names out) /\
  (forall n c, In (n, c) out -> List.length c = List.length rows) /\
  (forall n, In n (names out) -> shared_key n \/ exists c, ~ shared_key c /\
     ((In c cl /\ new_name cr (fst suffixes) c n) \/ (In c cr /\ new_name cl (snd suffixes) c n))).
(** the arguments name columns the Datasets have *)
Definition columns_known : Prop :=
  (forall c, In c (left_on ++ cl) -> In c (names left)) /\ (forall c, In c (right_on ++ cr) -> In c (names right)).
(** the rows an inner rt.merge shows: the left row replaced by the first left row of its key *)
Definition to_first {B} (eqb : B -> B -> bool) (lkeys : list (option B)) (r : row) : row :=
  (match fst r with Some i => partner eqb (Some KFirst) (nth i lkeys None) lkeys | None => None end, snd r).
End Columns.
(** indicator=: its name and codes *)
Definition indicated {V} (indicator : option string) (rows : list row) (out : @dataset V) (ind : option (string * list nat)) : Prop :=
  match indicator with
  | None => ind = None
  | Some n => ~ In n (names out) /\ ind = Some (n, map indicator_of rows)
  end.

Local Open Scope Z_scope.

(** argsort(kind="stable"): a permutation of the rows in rising order, equal values in their order *)
Definition stable_order (l : list Z) (p : list nat) : Prop :=
  Permutation p (seq 0 (List.length l)) /\
  forall a b i j, (a < b)%nat -> nth_error p a = Some i -> nth_error p b = Some j ->
    nth i l 0 < nth j l 0 \/ (nth i l 0 = nth j l 0 /\ (i < j)%nat).

Section Match.
Variables (cand : nat -> Prop) (right : list Z) (exact : bool) (x : Z).
(** the right row matched by a left value [x]: of the candidates not after [x] one with the largest value, the last one of these;
    forwards: of the candidates not before [x] one with the smallest value, the first one of these *)
Definition asof_backward (r : option nat) : Prop :=
  match r with
  | Some j => exists y, cand j /\ nth_error right j = Some y /\ precedes exact y x /\
      forall k z, cand k -> nth_error right k = Some z -> precedes exact z x -> k = j \/ z < y \/ (z = y /\ (k < j)%nat)
  | None => forall k z, cand k -> nth_error right k = Some z -> ~ precedes exact z x
  end.
Definition asof_forward (r : option nat) : Prop :=
  match r with
  | Some j => exists y, cand j /\ nth_error right j = Some y /\ follows exact y x /\
      forall k z, cand k -> nth_error right k = Some z -> follows exact z x -> k = j \/ y < z \/ (y = z /\ (j < k)%nat)
  | None => forall k z, cand k -> nth_error right k = Some z -> ~ follows exact z x
  end.
(** nothing is closer; backwards if both are equally close *)
Definition asof_closest (r : option nat) : Prop :=
  (asof_backward r \/ asof_forward r) /\
  match r with
  | Some j => forall y k z, nth_error right j = Some y -> cand k -> nth_error right k = Some z -> (precedes exact z x \/ follows exact z x) ->
                Z.abs (x - y) <= Z.abs (x - z) /\ (Z.abs (x - y) = Z.abs (x - z) -> precedes exact z x -> asof_backward (Some j))
  | None => forall k z, cand k -> nth_error right k = Some z -> ~ precedes exact z x /\ ~ follows exact z x
  end.
End Match.

(** alignmk on sorted columns: rows of the same by-key are the candidates *)
Definition align_ok {V} (align : bool -> bool -> list (list V) -> list (list V) -> list Z -> list Z -> list (option nat)) : Prop :=
  forall fwd exact lby rby lon ron, sorted_on anyrow lon -> sorted_on anyrow ron -> List.length lby = List.length lon -> List.length rby = List.length ron ->
    List.length (align fwd exact lby rby lon ron) = List.length lon /\
    forall i x k r, nth_error lon i = Some x -> nth_error lby i = Some k -> nth_error (align fwd exact lby rby lon ron) i = Some r ->
      (if fwd then forward_match (fun j => nth_error rby j = Some k) ron None exact x r
       else backward_match (fun j => nth_error rby j = Some k) ron None exact x r).

(** right row [j] has the by-key of left row [i] *)
Definition same_by {V} (inv : V) (left right : @dataset V) (left_by right_by : list string) (i j : nat) : Prop :=
  nth_error (tuples inv right right_by (nrows right)) j = Some (map (fun c => nth i (getcol left c) inv) left_by).
(** the rows of merge_asof: the left rows in their order, each with its match *)
Definition asof_rows (n : nat) (matches : list (option nat)) : list row := combine (map Some (seq 0 n)) matches.
(** matched_on=: one more column with the matched right times *)
Definition with_matched {V} (inv : V) (on : list V) (matched_on : option string) (rows : list row) (base out : @dataset V) : Prop :=
  match matched_on with
  | None => out = base
  | Some m => ~ In m (names base) /\ out = (base ++ [(m, map (fun r => cell inv on (snd r)) rows)])%list
  end.
(** the suffixes used by merge_asof *)
Definition sides (s : suffix_pair) : option string * option string := match s with None => (None, None) | Some p => p end.

(** what each direction looks for *)
Inductive direction := Backward | Forward | Nearest.
Definition asof_match (d : direction) : (nat -> Prop) -> list Z -> bool -> Z -> option nat -> Prop :=
  match d with Backward => asof_backward | Forward => asof_forward | Nearest => asof_closest end.
