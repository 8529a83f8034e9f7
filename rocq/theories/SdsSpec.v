(** Vocabulary for the statements about saving and loading .sds files (SdsProps.v). *)
From Coq Require Import List Arith Bool Lia Permutation.
From Verif Require Import FlattenModel DsModel SdsModel.
Import ListNotations.

(** names of nested containers that can be told apart as files: no "!", no ".sds" at the end, no
    character that is refused in file names, and not "_root" *)
Definition plain_name (k : name) : Prop :=
  ~ In bang k /\ endswith k ext = false /\ k <> root_name /\ (forall c, In c k -> ~ In c invalid_chars).

Section SdsSpec.
Context {A M L : Type}.
Variable no_labels : L.
Notation item := (item A M L).

(** what can be saved: names are distinct, Datasets hold no containers, containers have plain names,
    array subclasses have names without "!", and nothing is None *)
Inductive good : item -> Prop :=
| good_arr a : good (Arr a)
| good_scal a : good (Scal a)
| good_spec m a cols : good (Spec m a cols)
| good_sub ds lab its :
    NoDup (map fst its) ->
    (forall k v, In (k, v) its -> good v) ->
    (forall k v, In (k, v) its -> is_box v = true -> ds = false /\ plain_name k) ->
    (forall k m a cols, In (k, Spec m a cols) its -> ~ In bang k) ->
    good (Sub ds lab its).

(** a container that gets a file of its own: it is empty or holds something that is not a container *)
Definition own_file (its : list (name * item)) : Prop :=
  its = [] \/ exists k v, In (k, v) its /\ is_box v = false.

(** [same v v']: [v'] is [v] again, except that a Struct that holds containers only may have them in
    another order and has no labels *)
Inductive same : item -> item -> Prop :=
| same_leaf v : is_box v = false -> same v v
| same_box ds lab its its' : own_file its ->
    Forall2 (fun p q => fst p = fst q /\ same (snd p) (snd q)) its its' ->
    same (Sub ds lab its) (Sub ds lab its')
| same_bare lab its its0 its' : ~ own_file its -> Permutation its its0 ->
    Forall2 (fun p q => fst p = fst q /\ same (snd p) (snd q)) its0 its' ->
    same (Sub false lab its) (Sub false no_labels its').

(** every Struct strictly inside [v] has a file of its own *)
Inductive all_own : item -> Prop :=
| own_leaf v : is_box v = false -> all_own v
| own_sub ds lab its : own_file its -> (forall k v, In (k, v) its -> all_own v) -> all_own (Sub ds lab its).

(** a container without containers in it *)
Definition flat_box (v : item) : Prop := exists ds lb its, v = Sub ds lb its /\ has_nested its = false.

(** the same file system, its directory listed in any order *)
Definition relisted (s s' : fs A M L) : Prop :=
  at_file s = at_file s' /\
  match at_dir s, at_dir s' with
  | Some d, Some d' => Permutation d d'
  | None, None => True
  | _, _ => False
  end.

(** anything that is not a container *)
Definition is_leaf (it : item) : Prop := match it with Sub _ _ _ => False | _ => True end.
(** following the names [p] from [it] leads to [x], which is not a container *)
Fixpoint leaf_at (it : item) (p : list name) (x : item) : Prop :=
  match p with
  | [] => it = x /\ is_leaf x
  | k :: q => match it with
              | Sub _ _ its => match dget k its with Some v => leaf_at v q x | None => False end
              | _ => False
              end
  end.
(** following the names [p] from [it] leads to the item [x], whatever it is *)
Fixpoint item_at (it : item) (p : list name) (x : item) : Prop :=
  match p with
  | [] => it = x
  | k :: q => match it with
              | Sub _ _ its => match dget k its with Some v => item_at v q x | None => False end
              | _ => False
              end
  end.

(** the file name of the container reached by [p]: the names joined with "!" *)
Fixpoint join (p : list name) : name :=
  match p with
  | [] => []
  | [k] => k
  | k :: q => k ++ bang :: join q
  end.
(** some file of the directory is at [p] or below it *)
Definition occupied (d : dir A M L) (p : list name) : Prop :=
  exists q, p ++ q <> [] /\ In (join (p ++ q)) (map fst d) /\ Forall (fun k => ~ In bang k) (p ++ q).
(** the file at [p] holds the container whose item [k] is [x] *)
Definition file_item (d : dir A M L) (p : list name) (k : name) (x : item) : Prop :=
  Forall (fun k => ~ In bang k) p /\ exists f ds lab its, dget (join p) d = Some f /\ read_file f = Some (Sub ds lab its) /\ dget k its = Some x.
(** the file at [p] holds the single array [x] *)
Definition file_array (d : dir A M L) (p : list name) (x : item) : Prop :=
  Forall (fun k => ~ In bang k) p /\ exists f, dget (join p) d = Some f /\ read_file f = Some x.

(** the directory says that [x] is at [p]: the file at [p] is the array [x], or no file is at [p] or
    below it and [x] is the last name of [p] in the container stored in the file before it *)
Definition found (d : dir A M L) (p : list name) (x : item) : Prop :=
  is_leaf x /\ (file_array d p x \/ exists c k, p = c ++ [k] /\ c <> [] /\ ~ occupied d p /\ file_item d c k x).

(** every file can be read, and only files of Structs have files below them *)
Definition clean (d : dir A M L) : Prop :=
  NoDup (map fst d) /\
  forall n f, In (n, f) d -> exists it, read_file f = Some it /\ it <> Nothing /\
    ((exists lab its, it = Sub false lab its) \/ forall t, ~ In (n ++ bang :: t) (map fst d)).
End SdsSpec.
(** the same contents, under the same name or under the name, "_" and a number *)
Definition renamed {A} (p q : name * A) : Prop :=
  snd p = snd q /\ (fst q = fst p \/ exists i, fst q = fst p ++ 95 :: digits (Nat.to_uint i)).
