(** * The invalid category of Categoricals.

    Modelled: [Categorical._nan_idx], [_nanfunc], [isnan], [isnotnan]
    (riptable/rt_categorical.py:2136-2302), [isfiltered] (2463-2487),
    [invalid_set] (2892-2946), [filtered_set_name] (2955-2961), [fill_invalid]
    (2968-2999), [_getsingleitem] (4609-4661) and what becomes of the invalid
    category and the name of filtered elements in [__getitem__] (4582-4601),
    [copy] (3185-3252) with [Categories._copy] (466-497), [shift_cat] (3336-3350)
    with [newclassfrominstance] (3313-3333), and the constructor (1723-1829,
    2069-2092).

    Not modelled: several keys; numbers as categories (for them the constructor
    may change the invalid category). *)
From Coq Require Import List ZArith Bool.
From Verif Require Import FlattenModel CatModel MkSpec MkModel NaSpec.
Import ListNotations.
Local Open Scope Z_scope.

Section Na.
Context {A : Type} (o : ord A).

(** 4465-4516 [from_category]; None: it raises *)
Definition bin_of (k : kind A) (s : A) : option Z :=
  match k with
  | Single sorted base l => match from_category_single o sorted base l s with Got b => Some b | _ => None end
  | Mapping m => match find (fun p => o_eqb o s (snd p)) m with Some p => Some (fst p) | None => None end
  end.
(** 2136-2149 *)
Definition nan_idx (k : kcat A) : option Z :=
  match k_inv k with None => None | Some s => bin_of (k_kind k) s end.
(** 2152-2157, 2227, 2292 *)
Definition isnan (k : kcat A) : list bool :=
  match nan_idx k with None => map (fun _ => false) (k_codes k) | Some b => map (fun c => c =? b) (k_codes k) end.
Definition isnotnan (k : kcat A) : list bool :=
  match nan_idx k with None => map (fun _ => true) (k_codes k) | Some b => map (fun c => negb (c =? b)) (k_codes k) end.
(** 2481-2487 *)
Definition isfiltered (k : kcat A) : list bool :=
  match k_kind k with
  | Single _ base _ => if base =? 1 then map (fun c => c =? 0) (k_codes k) else map (fun _ => false) (k_codes k)
  | Mapping m => map (fun c => negb (existsb (fun p => fst p =? c) m)) (k_codes k)
  end.
(** 4609-4661: c[i] *)
Inductive item := Name (n : option name) | Bad (code : Z) | Value (a : A).
Definition item_of (k : kcat A) (code : Z) : item :=
  match k_kind k with
  | Single _ base l => match show_code base l code with Filtered => Name (k_name k) | Bang c => Bad c | Val a => Value a end
  | Mapping m => match find (fun p => fst p =? code) m with Some p => Value (snd p) | None => Bad code end
  end.
Definition items_of (k : kcat A) : list item := map (item_of k) (k_codes k).

(** 4589-4590: Grouping.__getitem__ (rt_grouping.py:1165-1247) gives a Grouping, for
    which the constructor makes Categories without an invalid category (1725-1727),
    then copies the name (2090-2092).  Positions outside give code 0. *)
Definition take (k : kcat A) (pos : list nat) : kcat A := mkK (map (fun p => nth p (k_codes k) 0) pos) (k_kind k) None (k_name k).
(** 3232-3250: [Categories._copy] leaves the invalid category out, and the
    constructor does not look at invalid= (1739-1768) *)
Definition copy (k : kcat A) : kcat A := mkK (k_codes k) (k_kind k) None (k_name k).
(** 3349-3350, 3327-3333, 1825-1827: from the Grouping alone *)
Definition shift_cat (k : kcat A) (n : nat) : kcat A := mkK (shift_codes n (k_codes k)) (k_kind k) None None.
(** 2973-2999, not in place *)
Definition copy_invalid (k : kcat A) : option (kcat A) :=
  match k_kind k with
  | Single _ base _ => if base =? 1 then Some (mkK (map (fun _ => 0) (k_codes k)) (k_kind k) None None) else None
  | Mapping _ => None
  end.
(** 2942-2946: the decoded bytes are not kept, so bytes raise too *)
Definition invalid_set (k : kcat A) (a : inv_arg A) : option (kcat A) :=
  match a with Str s => Some (mkK (k_codes k) (k_kind k) (Some s) (k_name k)) | Bytes _ | Num => None end.
Definition filtered_set_name (k : kcat A) (n : name) : kcat A := mkK (k_codes k) (k_kind k) (k_inv k) (Some n).

(** a step; what raises changes nothing *)
Fixpoint update {X} (i : nat) (x : X) (l : list X) : list X :=
  match l, i with [], _ => [] | _ :: r, O => x :: r | y :: r, S i' => y :: update i' x r end.
Definition step (st : list (kcat A)) (e : op A) : list (kcat A) :=
  match e with
  | New codes k inv => st ++ [mkK codes k inv None]
  | Take i pos => match nth_error st i with Some k => st ++ [take k pos] | None => st end
  | Copy i => match nth_error st i with Some k => st ++ [copy k] | None => st end
  | Shift i n => match nth_error st i with Some k => st ++ [shift_cat k n] | None => st end
  | CopyInvalid i => match nth_error st i with
                     | Some k => match copy_invalid k with Some k' => st ++ [k'] | None => st end
                     | None => st
                     end
  | SetInvalid i a => match nth_error st i with
                      | Some k => match invalid_set k a with Some k' => update i k' st | None => st end
                      | None => st
                      end
  | SetName i n => match nth_error st i with Some k => update i (filtered_set_name k n) st | None => st end
  end.
Definition run (ops : list (op A)) : list (kcat A) := fold_left step ops [].
(** in the history [ops] Categorical [j] was made with the invalid category [s], or
    [s] was set on it, and none was set on it after that *)
Definition told (ops : list (op A)) (j : nat) (s : A) : Prop :=
  exists pre e post, ops = pre ++ e :: post /\
  ((exists codes k, e = New codes k (Some s)) /\ length (run pre) = j \/ e = SetInvalid j (Str s) /\ (j < length (run pre))%nat) /\
  forall s', ~ In (SetInvalid j (Str s')) post.
End Na.
Arguments Name {A}. Arguments Bad {A}. Arguments Value {A}.
