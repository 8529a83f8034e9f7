(** * merge_lookup in place: [Dataset.merge_lookup] with inplace=True (riptable/rt_dataset.py:4933-5319).

    The lookup and the names of its columns are those of MergeColsModel.v.  Not modelled: the
    checks of the arguments suffix, suffixes and columns_left (5243-5249, 5272-5273). *)
From Coq Require Import List Arith Bool String.
From Verif Require Import Sched GroupModel MergeSpec MergeModel MergeColsModel.
Import ListNotations.
Local Open Scope list_scope.

Section Inplace.
Context {V : Type}.
Variable veqb : V -> V -> bool.
Variable null : V -> bool.
Variable inv : V.
Variable sched : list (list (store (option nat))) -> list (store (option nat)).
Variable junk : mem (option nat).
Variable group : list (option (list V)) -> @keygroup (list V).
Variable strcol : string -> bool.
(** self[name] = column: in its place, or at the end *)
Fixpoint setcol (n : string) (c : list V) (ds : @dataset V) : @dataset V :=
  match ds with
  | [] => [(n, c)]
  | (n', c') :: r => if String.eqb n' n then (n', c) :: r else (n', c') :: setcol n c r
  end.
(** dict(zip(...)).get(name, name), 5309, 5316 *)
Definition renamed (m : list (string * string)) (n : string) : string :=
  match find (fun p => String.eqb (fst p) n) (rev m) with Some p => snd p | None => n end.
(** 5279-5319; [None]: an exception, before anything is assigned *)
Definition merge_lookup_inplace (left right : @dataset V) (left_on right_on : list string) (require_match : bool) (suffix : option string)
    (cr : list string) (k : keep) : option (@dataset V) :=
  let suffixes := Some (Some ""%string, suffix) in
  match merge_lookup veqb null inv sched junk group strcol left right left_on right_on require_match suffixes [] cr k with
  | None => None
  | Some (lookup_result, _) =>
      match construct_colname_mapping left_on right_on suffixes (names left) cr with
      | None => None
      | Some cm => Some (fold_left (fun ds p => setcol (renamed (cm_right cm) (fst p)) (snd p) ds) lookup_result left)
      end
  end.
End Inplace.
