(** * Patterns extracted from strings; Datasets as matrices.

    Modelled: [_handle_apply_unique] (riptable/rt_str.py:93-113),
    [FAString.regex_match], [regex_replace] and [extract] (954-960, 1023-1027,
    1116-1157); [Dataset._is_float_encodable], [_normalize_column] and
    [as_matrix] (rt_dataset.py:7142-7207).

    Python's re is a parameter (see ExSpec.v); that a pattern without groups in
    parentheses has the whole match as its only group is assumed.  Not modelled:
    the width of the strings, rounding of integers to floats. *)
From Coq Require Import List ZArith Bool.
From Verif Require Import FlattenModel ExSpec.
Import ListNotations.

(** a cell of the result; None is Python's None *)
Definition cell := option text.
Inductive result := Raise | Arr (l : list cell) | Ds (cols : list (name * list cell)).

(** arr[i] for every i of an index *)
Definition at_index {A} (l : list A) (inv : list nat) : list A :=
  flat_map (fun j => match nth_error l j with Some x => [x] | None => [] end) inv.
Definition index_result (r : result) (inv : list nat) : result :=
  match r with
  | Raise => Raise
  | Arr l => Arr (at_index l inv)
  | Ds cols => Ds (map (fun p => (fst p, at_index (snd p) inv)) cols)
  end.

(** 1123-1126: f"({regex})" *)
Definition parens (r : regex) : regex :=
  mkR 1 [] (fun s => match r_search r s with Some (m, _) => Some (m, [Some m]) | None => None end).
(** 1151-1157 of one string: groups, or the fill value *)
Definition row (r : regex) (fill : text) (s : text) : list cell :=
  match r_search r s with
  | None => repeat (Some fill) (r_groups r)
  | Some (_, gs) => gs
  end.
Definition columns (r : regex) (fill : text) (strings : list text) : list (list cell) :=
  map (fun g => map (fun s => nth g (row r fill s) None) strings) (seq 0 (r_groups r)).
(** 1135-1138: "group_0", ..; then the names of named groups *)
Fixpoint put {A} (i : nat) (x : A) (l : list A) : list A :=
  match l, i with [], _ => [] | _ :: r, O => x :: r | y :: r, S i' => y :: put i' x r end.
Definition default_names (gname : nat -> name) (r : regex) : list name :=
  fold_left (fun ns p => put (snd p) (fst p) ns) (r_names r) (map gname (seq 0 (r_groups r))).
(** 1128-1157, with at least one group; [gname i] is "group_i" *)
Definition extract_groups (gname : nat -> name) (strings : list text) (r : regex) (expand : option bool) (fill : text) (names : option (list name)) : result :=
  match (match expand with
         | None => Some (Nat.ltb 1 (r_groups r) || match names with Some _ => true | None => false end || negb (Nat.eqb (length (r_names r)) 0))
         | Some e => if negb e && Nat.ltb 1 (r_groups r) then None else Some e
         end) with
  | None => Raise
  | Some e =>
      match (match names with
             | None => Some (default_names gname r)
             | Some ns => if Nat.eqb (length ns) (r_groups r) then Some ns else None
             end) with
      | None => Raise
      | Some ns =>
          let out := columns r fill strings in
          if e then Ds (dset_all (combine ns out) [])
          else match out with c :: _ => Arr c | [] => Raise end
      end
  end.
(** 1116-1157; [bytes]: the kind of the strings.  Line 1126 decodes the pattern,
    which is bytes only for arrays of bytes. *)
Definition extract1 (gname : nat -> name) (bytes : bool) (strings : list text) (r : regex) (expand : option bool) (fill : text) (names : option (list name)) : result :=
  match r_groups r with
  | O => if bytes then extract_groups gname strings (parens r) expand fill names else Raise
  | S _ => extract_groups gname strings r expand fill names
  end.
(** np.vectorize of a function: no elements raise *)
Definition vectorize {A} (f : text -> A) (strings : list text) : option (list A) :=
  match strings with [] => None | _ => Some (map f strings) end.

Section Unique.
  Variable uniq : list text -> list text * list nat.
  (** 100-111 *)
  Definition extract (gname : nat -> name) (apply_unique bytes : bool) (strings : list text) (r : regex) (expand : option bool) (fill : text) (names : option (list name)) : result :=
    if apply_unique then
      let (u, inv) := uniq strings in index_result (extract1 gname bytes u r expand fill names) inv
    else extract1 gname bytes strings r expand fill names.
  (** regex_match ([f]: whether something is found), regex_replace ([f]: the
      string with the matches replaced) *)
  Definition mapped {A} (f : text -> A) (apply_unique : bool) (strings : list text) : option (list A) :=
    if apply_unique then
      let (u, inv) := uniq strings in
      match vectorize f u with Some l => Some (at_index l inv) | None => None end
    else vectorize f strings.
End Unique.

(** ** Matrices, rt_dataset.py:7142-7207.  A column: numbers (None: NaN or the
    invalid of its type, which becomes NaN; a Categorical is the numbers of its
    codes and its categories), or values of another type (bools are one: 7142-7159
    does not list them). *)
Section Matrix.
  Context {V : Type} (eq_dec : forall a b : V, {a = b} + {a <> b}).
  Variable uniq : list V -> list V * list nat.
  Inductive mcol := Numeric (l : list (option Z)) (cats : option (list V)) | Other (l : list V).
  Fixpoint position (x : V) (l : list V) : option Z :=
    match l with
    | [] => None
    | y :: r => if eq_dec x y then Some 0%Z else match position x r with Some i => Some (i + 1)%Z | None => None end
    end.
  (** 7166-7184 *)
  Definition normalize_column (c : mcol) (key : option (list V)) : list (option Z) * option (list V) :=
    match c with
    | Numeric l cats => (l, cats)
    | Other l => match key with
                 | None => let (u, inv) := uniq l in (map (fun i => Some (Z.of_nat i)) inv, Some u)
                 | Some k => (map (fun x => position x k) l, Some k)
                 end
    end.
  (** 7187-7207: the matrix, by its columns, and the category values of each *)
  Definition as_matrix (d : list (name * mcol)) (column_data : list (name * list V)) : list (list (option Z)) * list (name * option (list V)) :=
    (map (fun p => fst (normalize_column (snd p) (dget (fst p) column_data))) d,
     map (fun p => (fst p, snd (normalize_column (snd p) (dget (fst p) column_data)))) d).
End Matrix.
