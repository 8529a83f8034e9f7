(** Independent vocabulary for the statements about Multisets and schemas. *)
From Coq Require Import List Arith Bool.
From Verif Require Import FlattenModel DsModel DsSpec.
Import ListNotations.

Section Trees.
Context {V : Type}.
(** a Dataset: the names of its label columns, and its columns in order *)
Record ds := mkDs { labels : list name; cols : table V }.
(** what a Multiset holds: Datasets and Multisets under names *)
Inductive tree := Leaf (d : ds) | Node (members : list (name * tree)).
(** the Datasets in it, in order, each with the names that lead to it *)
Fixpoint leaves (t : tree) : list (list name * ds) :=
  match t with
  | Leaf d => [([], d)]
  | Node l => flat_map (fun p => map (fun q => (fst p :: fst q, snd q)) (leaves (snd p))) l
  end.
(** the number of levels above every Dataset is [k] *)
Fixpoint level (k : nat) (t : tree) : Prop :=
  match t, k with
  | Leaf _, 0 => True
  | Node l, S k => fold_right (fun p P => level k (snd p) /\ P) True l
  | _, _ => False
  end.
(** no Multiset in it is empty and none uses a name twice *)
Fixpoint proper (t : tree) : Prop :=
  match t with
  | Leaf _ => True
  | Node l => l <> [] /\ NoDup (map fst l) /\ fold_right (fun p P => proper (snd p) /\ P) True l
  end.
(** a Dataset of [n] rows: at least one column, distinct names, labels among the columns *)
Definition sound (n : nat) (d : ds) : Prop :=
  cols d <> [] /\ NoDup (map fst (cols d)) /\ NoDup (labels d) /\ incl (labels d) (map fst (cols d)) /\
  forall c, In c (cols d) -> length (snd c) = n.
Definition all_sound (n : nat) (t : tree) : Prop := forall p d, In (p, d) (leaves t) -> sound n d.

(** names joined by the delimiter *)
Fixpoint joined (delim : name) (p : list name) : name :=
  match p with [] => [] | [n] => n | n :: r => n ++ delim ++ joined delim r end.
(** the columns that are not labels *)
Definition values_of (d : ds) : table V := filter (fun c => negb (mem (fst c) (labels d))) (cols d).
(** the label columns, in the order of the labels *)
Definition label_cols (d : ds) : table V :=
  flat_map (fun l => match dget l (cols d) with Some c => [(l, c)] | None => [] end) (labels d).
(** horizontally: the labels of the first Dataset, then every value column under its full name *)
Definition side_by_side (delim : name) (ls : list (list name * ds)) : table V :=
  match ls with [] => [] | (_, d) :: _ => label_cols d end ++
  flat_map (fun q => map (fun c => (joined delim (fst q ++ [fst c]), snd c)) (values_of (snd q))) ls.
(** vertically: for every Dataset its rows, with its joined name in the column [col] *)
Definition height (d : ds) : nat := match cols d with [] => 0 | c :: _ => length (snd c) end.
Definition column (n : name) (d : ds) : list V := match dget n (cols d) with Some c => c | None => [] end.
Definition stacked (of_name : name -> V) (delim col : name) (ls : list (list name * ds)) : table V :=
  match ls with
  | [] => []
  | (_, d) :: _ =>
      map (fun l => (l, flat_map (fun q => column l (snd q)) ls)) (labels d) ++
      (col, flat_map (fun q => repeat (of_name (joined delim (fst q))) (height (snd q))) ls) ::
      map (fun c => (fst c, flat_map (fun q => column (fst c) (snd q)) ls)) (values_of d)
  end.

(** the two header lines and the columns below them: for every column name, in the order in which the
    names first appear, the Datasets that have it, in order *)
Definition interleaved (l : list (name * table V)) : list (name * list (name * list V)) :=
  map (fun k => (k, flat_map (fun m => match dget k (snd m) with Some c => [(fst m, c)] | None => [] end) l))
      (first_seen (concat (map (fun m => map fst (snd m)) l))).
(** a table without the columns called [ks] *)
Definition without (ks : list name) (t : table V) : table V := filter (fun c => negb (mem (fst c) ks)) t.
(** the Datasets having the column [c], reduced to it *)
Definition having (c : name) (ls : list (list name * ds)) : list (list name * ds) :=
  flat_map (fun q => match dget c (cols (snd q)) with Some v => [(fst q, mkDs [] [(c, v)])] | None => [] end) ls.
(** a Dataset reduced to the columns [ns] and, if they are given, to the rows [rows], in their order *)
Definition rows_at (rows : option (list nat)) (c : list V) : list V :=
  match rows with
  | None => c
  | Some rs => flat_map (fun r => match nth_error c r with Some v => [v] | None => [] end) rs
  end.
Definition selected (rows : option (list nat)) (ns : list name) (d : ds) : ds :=
  mkDs (filter (fun l => mem l ns) (labels d)) (map (fun c => (c, rows_at rows (column c d))) ns).
(** [c] is the name of no member, at any level *)
Fixpoint no_member (c : name) (t : tree) : Prop :=
  match t with
  | Leaf _ => True
  | Node l => ~ In c (map fst l) /\ fold_right (fun p P => no_member c (snd p) /\ P) True l
  end.
End Trees.
Arguments ds : clear implicits.
Arguments tree : clear implicits.

(** ** schemas *)
Section Schema.
Context {Txt : Type}.
(** what the metadata of an object says *)
Record about := mkAbout { description : option Txt; steward : option Txt; detail : option Txt }.
(** an object: an array, a container (Struct, Dataset, Multiset) or something else (a scalar), with the
    name of its type and its metadata *)
Inductive obj := Array (type : name) (m : option about)
               | Cont (type : name) (m : option about) (items : list (name * obj))
               | Other.
(** a schema: what it says of the object, the type it should have, the schemas of its contents *)
Inductive schema := Schema (a : about) (type : option name) (contents : list (name * schema)).
Definition s_about (s : schema) : about := let 'Schema a _ _ := s in a.
Definition s_contents (s : schema) : list (name * schema) := let 'Schema _ _ c := s in c.
(** the schema says nothing at all: an empty dictionary (no contents are meant by leaving them out) *)
Definition blank (s : schema) : bool :=
  match s with Schema (mkAbout None None None) None [] => true | _ => false end.
(** types as the schema says *)
Definition type_fits (t : option name) (type : name) : Prop := match t with Some x => x = [] \/ x = type | None => True end.
(** an object fits a schema: its type is the one the schema says, and, if the schema lists contents, the
    object has items of exactly these names, each fitting its schema *)
Inductive fits : obj -> schema -> Prop :=
| FitsOther s : fits Other s
| FitsArray type m a t : type_fits t type -> fits (Array type m) (Schema a t [])
| FitsAny type m items a t : type_fits t type -> fits (Cont type m items) (Schema a t [])
| FitsAll type m items a t cs : type_fits t type ->
    (forall n, In n (map fst items) <-> In n (map fst cs)) ->
    (forall n x s, dget n items = Some x -> dget n cs = Some s -> fits x s) ->
    fits (Cont type m items) (Schema a t cs).
(** the part of an object under some names *)
Fixpoint at_path (p : list name) (o : obj) : option obj :=
  match p, o with
  | [], _ => Some o
  | n :: r, Cont _ _ items => match dget n items with Some x => at_path r x | None => None end
  | _, _ => None
  end.
Fixpoint schema_at (p : list name) (s : schema) : option schema :=
  match p with [] => Some s | n :: r => match dget n (s_contents s) with Some x => schema_at r x | None => None end end.
Definition about_of (o : obj) : option about := match o with Array _ m => m | Cont _ m _ => m | Other => None end.
(** the names in a container, and in a dictionary of contents, are distinct; none of the schemas listed as
    contents is an empty dictionary *)
Fixpoint distinct (o : obj) : Prop :=
  match o with
  | Cont _ _ items => NoDup (map fst items) /\ fold_right (fun p P => distinct (snd p) /\ P) True items
  | _ => True
  end.
Fixpoint spelled (s : schema) : Prop :=
  match s with Schema _ _ cs => fold_right (fun p P => blank (snd p) = false /\ spelled (snd p) /\ P) True cs end.
(** no schema lists contents of an array *)
Definition askable (o : obj) (s : schema) : Prop :=
  forall p t m e, at_path p o = Some (Array t m) -> schema_at p s = Some e -> s_contents e = [].
(** an object without its metadata *)
Fixpoint bare (o : obj) : obj :=
  match o with
  | Array t _ => Array t None
  | Cont t _ items => Cont t None (map (fun p => (fst p, bare (snd p))) items)
  | Other => Other
  end.
End Schema.
Arguments about : clear implicits.
Arguments obj : clear implicits.
Arguments schema : clear implicits.

(** [q] is an end part of [p] *)
Definition tail_of {X} (q p : list X) : Prop := exists r, p = r ++ q.
(** no name on the way to a value column has a character of the delimiter *)
Definition delimited {V} (delim : name) (t : tree V) : Prop :=
  delim <> [] /\ forall p d c, In (p, d) (leaves t) -> In c (values_of d) -> forall n, In n (p ++ [fst c]) -> forall x, In x n -> ~ In x delim.
(** [k] levels of Multisets over Datasets of [n] rows with the same labels [L] and at least one value
    column each; no name that arises on the way is that of a label, and all are valid *)
Definition flattenable {V} (valid : name -> bool) (delim : name) (n : nat) (L : list name) (k : nat) (t : tree V) : Prop :=
  level k t /\ proper t /\ all_sound n t /\ delimited delim t /\
  (forall p d, In (p, d) (leaves t) -> labels d = L /\ values_of d <> []) /\
  (forall p d c q, In (p, d) (leaves t) -> In c (values_of d) -> tail_of q p ->
     ~ In (joined delim (q ++ [fst c])) L /\ (q <> [] -> valid (joined delim (q ++ [fst c])) = true)).
