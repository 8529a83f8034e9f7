(** Independent vocabulary for the statements about the Dataset container. *)
From Coq Require Import List Arith Bool ZArith.
From Verif Require Import FlattenModel DsModel DsSpec TabModel TabCmpModel.
Import ListNotations.

(** what Python guarantees about a class: every attribute of the class is a restricted name, and
    capitalising a name twice is capitalising it once *)
Definition python_class (c : pyclass) : Prop :=
  (forall n, kind c n <> ANone -> restricted c n = true) /\
  (forall n, rename c (rename c n) = rename c n).

(** every column has as many rows as the dataset, names are distinct and counted right *)
Definition consistent (d : dataset) : Prop :=
  NoDup (keys d) /\ ncols d = Z.of_nat (length (keys d)) /\
  (forall n it, In (n, it) (items d) -> nrows d = Some (alen (arr it))).

(** an array of the memory; no two of its rows are stored in the same place *)
Definition inside {V} (w : world V) (a : array) : Prop :=
  base a < length (mem w) /\ (forall p, In p (pos a) -> p < length (block w (base a))) /\ NoDup (pos a).
Definition all_inside {V} (w : world V) (d : dataset) : Prop := forall n it, In (n, it) (items d) -> inside w (arr it).

(** what a value looks like as a column of [k] rows; [None]: it does not fit *)
Definition as_column {V} (junk : V) (w : world V) (k : nat) (v : value V) : option (list V) :=
  match v with
  | VScalar x => Some (repeat x k)
  | VList [x] => Some (repeat x k)
  | VList l => if length l =? k then Some l else None
  | VArr a => if alen a =? k then Some (read junk w a)
              else match read junk w a with [x] => if 1 <=? k then Some (repeat x k) else None | _ => None end
  | VObjects _ | VSet => None
  end.

(** the arrays an operation mentions *)
Definition op_arrays {V} (o : op V) : list array :=
  match o with
  | OSetAttr _ (VArr a) | OSetItem _ (VArr a) => [a]
  | OSetColumns _ src | OCells _ _ src => src
  | OPut _ a => [a]
  | _ => []
  end.
(** the only restriction on a session: no attribute assignment to a restricted name that is not a column *)
Definition ordinary {V} (c : pyclass) (o : op V) : Prop :=
  match o with OSetAttr n _ => n <> [] /\ restricted c n = false | _ => True end.

(** a session in which every array mentioned exists at that time *)
Fixpoint legal {V} (junk inv : V) (c : pyclass) (w : world V) (d : dataset) (l : list (op V)) : Prop :=
  match l with
  | [] => True
  | o :: r => (forall a, In a (op_arrays o) -> inside w a) /\ ordinary c o /\
      let '(w', d', _) := exec junk inv c w d o in legal junk inv c w' d' r
  end.

(** the elements of [l] at the positions, negative ones from the end, the invalid value outside *)
Definition at_index {V} (inv : V) (l : list V) (i : Z) : V :=
  let j := if (i <? 0)%Z then (Z.of_nat (length l) + i)%Z else i in
  if (0 <=? j)%Z then nth (Z.to_nat j) l inv else inv.

(** [new] is [old] with the values [vals] written to the rows [ps], the last value winning *)
Definition overwritten {V} (old new : list V) (ps : list nat) (vals : list V) : Prop :=
  length new = length old /\
  (forall r, ~ In r ps -> nth_error new r = nth_error old r) /\
  (forall q r, nth_error ps q = Some r -> (forall q', q < q' -> nth_error ps q' <> Some r) -> nth_error new r = nth_error vals q).

(** one value per row; a single value goes to every row *)
Definition spread {V} (k : nat) (vals : list V) : list V := match vals with [x] => repeat x k | _ => vals end.
(** no two of the columns share storage *)
Definition separate (l : list array) : Prop := NoDup (map base l).
(** none of the arrays shares storage with one of the others *)
Definition apart (l l' : list array) : Prop := forall a b, In a l -> In b l' -> base a <> base b.

(** the arrays of the columns named [cols] *)
Definition dests (d : dataset) (cols : list name) : list array :=
  flat_map (fun n => match dget n (items d) with Some it => [arr it] | None => [] end) cols.

(** cells of two tables *)
Definition tcell {X} (t : list (name * list X)) (n : name) (i : nat) : option X :=
  match dget n t with Some l => nth_error l i | None => None end.
(** every column of a frame has its number of rows, names are distinct *)
Definition square {X} (a : frame X) : Prop :=
  NoDup (map fst (f_cols a)) /\ (forall n l, In (n, l) (f_cols a) -> f_rows a = Some (length l)).
(** the unique keys are listed in the order in which the rows first show them *)
Definition by_first_occurrence {B} (us keys : list B) : Prop :=
  forall a b i, a < b -> b < length us -> nth_error keys i = nth_error us b -> exists j, j < i /\ nth_error keys j = nth_error us a.
(** rows with the same key agree in the column [n] *)
Definition key_column {B X} (keys : list B) (t : list (name * list X)) (n : name) : Prop :=
  forall i j, i < length keys -> j < length keys -> nth_error keys i = nth_error keys j -> tcell t n i = tcell t n j.

(** the rows drop_duplicates keeps, in the order of the result *)
Definition firsts {B} (keys : list B) (rs : list nat) : Prop :=
  in_order rs /\ forall i, In i rs <-> i < length keys /\ ~ seen_before keys i.
Definition kept {B} (keep : keep_arg) (keys : list B) (rs : list nat) : Prop :=
  match keep with
  | KeepFirst => firsts keys rs
  | KeepNone => in_order rs /\ forall i, In i rs <-> i < length keys /\ ~ seen_before keys i /\ ~ seen_after keys i
  | KeepLast =>
      (* the last row of every key, keys in the order of first occurrence *)
      (forall i, In i rs <-> i < length keys /\ ~ seen_after keys i) /\
      exists fs, firsts keys fs /\ length fs = length rs /\
        forall q i j, nth_error rs q = Some i -> nth_error fs q = Some j -> nth_error keys i = nth_error keys j
  end.

(** the datasets a program can have: one is made from a dictionary of values and then used in any way *)
Definition reachable {V} (junk inv : V) (c : pyclass) (w : world V) (d : dataset) : Prop :=
  exists w0 l w1 d1 s, (forall n a, In (n, VArr a) l -> inside w0 a) /\ construct c w0 l = (w1, inl d1) /\
    legal junk inv c w1 d1 s /\ run junk inv c w1 d1 s = (w, d).
(** the elements of a column that a row selection takes *)
Definition selected {V} (inv : V) (r : rows) (l : list V) : list V :=
  match r with
  | RAll => l
  | RSlice lo hi => firstn (hi - lo) (skipn lo l)
  | RMask m => map snd (filter fst (combine m l))
  | RInts idx => map (at_index inv l) idx
  end.
Definition by_rows (r : list bool + list Z) : rows := match r with inl m => RMask m | inr idx => RInts idx end.
(** the storage of the columns of [d] *)
Definition storage (d : dataset) : list nat := map base (arrays d).

(** the operations that write at most one column *)
Definition one_column {V} (o : op V) : Prop :=
  match o with OSetColumns cols _ | OCells _ cols _ | OScalar _ cols _ => length cols <= 1 | _ => True end.
(** what the constructor makes of a value *)
Definition content {V} (junk : V) (w : world V) (v : value V) : option (list V) :=
  match v with VArr a => Some (read junk w a) | VList l => Some l | VScalar x => Some [x] | VObjects _ | VSet => None end.
(** [ps] are the rows that the selection [r] of a column with [n] rows names, in order *)
Definition addresses (n : nat) (r : rows) (ps : list nat) : Prop :=
  match r with
  | RAll => ps = seq 0 n
  | RSlice lo hi => ps = seq lo (Nat.min hi n - lo)
  | RMask m => length m = n /\ ps = filter (fun i => nth i m false) (seq 0 n)
  | RInts idx => Forall2 (fun i p => p < n /\ (Z.of_nat p = i \/ Z.of_nat p = Z.of_nat n + i)%Z) idx ps
  end.

(** A concrete class for the examples: [size] is a property, [sum] a method. *)
Definition size_name : name := [115; 105; 122; 101].
Definition sum_name : name := [115; 117; 109].
Definition capital (n : name) : name := match n with x :: r => if (97 <=? x) && (x <=? 122) then (x - 32) :: r else n | [] => [] end.
Definition demo_class : pyclass :=
  PyClass (fun n => if name_dec n size_name then AProperty else if name_dec n sum_name then AMethod else ANone)
          (fun n => if name_dec n size_name then true else if name_dec n sum_name then true else false) capital.
