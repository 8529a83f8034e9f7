(** Model of Struct.key_search, rt_struct.py:5328-5365, and of the two dictionaries of mapping
    Categoricals, rt_categorical.py:1196-1256. *)
From Coq Require Import List String ZArith Bool.
Import ListNotations.
Local Open Scope list_scope.

(** ** key_search *)
(** An item: a Struct ([isds]: a Dataset) or anything else. Structs that contain themselves, for
    which key_search does not end, are not modelled. *)
Inductive node := Leaf | SNode (isds : bool) (items : list (string * node)).
Definition keys (items : list (string * node)) : list string := map fst items.
Section Search.
(** pattern.search(s), of the compiled regular expression *)
Variable matches : string -> bool.
Variable recursive : bool.
(** 5356-5365; [path] is a prefix of the results *)
Fixpoint key_search (path : string) (n : node) : list string :=
  match n with
  | Leaf => []
  | SNode isds items =>
      map (fun s => (path ++ s)%string) (filter matches (keys items)) ++
      (if recursive && negb isds then
         (fix go (its : list (string * node)) : list string :=
            match its with
            | [] => []
            | (s, Leaf) :: r => go r
            | (s, (SNode _ _) as d) :: r => key_search (path ++ s ++ ".")%string d ++ go r
            end) items
       else [])
  end.
End Search.
(** What is expected: [names] leads from a Struct to an item below it, through Structs that are
    not Datasets. *)
Inductive leads : node -> list string -> Prop :=
| leads_here : forall d items s c, In (s, c) items -> leads (SNode d items) [s]
| leads_below : forall items s c rest, In (s, c) items -> leads c rest -> leads (SNode false items) (s :: rest).
(** no two items of a Struct have one name *)
Inductive distinct : node -> Prop :=
| distinct_leaf : distinct Leaf
| distinct_struct : forall d items, NoDup (keys items) -> (forall s c, In (s, c) items -> distinct c) -> distinct (SNode d items).
(** "a.b.c" *)
Fixpoint dotted (l : list string) : string :=
  match l with [] => ""%string | [s] => s | s :: r => (s ++ "." ++ dotted r)%string end.

(** ** The dictionaries of a mapping *)
(** keys and values of the dictionary of the user *)
Inductive pyval := PStr (s : string) | PBytes (s : string) | PInt (z : Z) | POther.
Definition is_text (v : pyval) : bool := match v with PStr _ | PBytes _ => true | _ => false end.
Definition is_int (v : pyval) : bool := match v with PInt _ => true | _ => false end.
Section Dict.
Context {K W : Type}.
Variable eqb : K -> K -> bool.
(** d[k] = w *)
Fixpoint dput (k : K) (w : W) (d : list (K * W)) : list (K * W) :=
  match d with [] => [(k, w)] | (k', w') :: r => if eqb k' k then (k', w) :: r else (k', w') :: dput k w r end.
Definition dget (k : K) (d : list (K * W)) : option W :=
  match find (fun p => eqb (fst p) k) d with Some p => Some (snd p) | None => None end.
End Dict.
Inductive result := Dicts (s2i : list (string * Z)) (i2s : list (Z * string)) | TypeErr | IndexErr.
(** 1230-1250; bytes are decoded; the warnings are not modelled *)
Fixpoint fill (strings ints : list pyval) (s2i : list (string * Z)) (i2s : list (Z * string)) : result :=
  match strings, ints with
  | k :: ks, v :: vs =>
      match v with
      | PInt z =>
          match k with
          | PStr s | PBytes s => fill ks vs (dput String.eqb s z s2i) (dput Z.eqb z s i2s)
          | _ => TypeErr
          end
      | _ => TypeErr
      end
  | _, _ => Dicts s2i i2s
  end.
(** 1196-1256 *)
Definition build_dicts (d : list (pyval * pyval)) : result :=
  let key_list := map fst d in
  let value_list := map snd d in
  match key_list, value_list with
  | k :: _, v :: _ =>
      if is_text k then if is_int v then fill key_list value_list [] [] else TypeErr
      else if is_int k then if is_text v then fill value_list key_list [] [] else TypeErr
      else TypeErr
  | _, _ => IndexErr
  end.
(** What is expected: the pairs of a name and a code. *)
Definition pair_of (p : pyval * pyval) : option (string * Z) :=
  match p with
  | (PStr s, PInt z) | (PBytes s, PInt z) | (PInt z, PStr s) | (PInt z, PBytes s) => Some (s, z)
  | _ => None
  end.
(** all names first, or all codes first *)
Definition one_way (d : list (pyval * pyval)) : Prop :=
  (forall p, In p d -> is_text (fst p) = true /\ is_int (snd p) = true) \/ (forall p, In p d -> is_int (fst p) = true /\ is_text (snd p) = true).
