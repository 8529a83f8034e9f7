(** Where save_sds writes and when it asks before it overwrites: rt_sds.py:327-364, 508-670,
    719-937, 2432-2437, 3461-3555, 3750-3788.

    Paths and answers are lists of characters. The file system is given by what isfile and isdir
    say. Not modelled: shared memory (share), making of missing directories, "." and ".." and
    repeated separators in paths, _rebuild_rootfile, onefile. *)
From Coq Require Import List Ascii String Bool Arith.
Import ListNotations.
Local Open Scope list_scope.

Definition text := list ascii.
Definition T (s : string) : text := list_ascii_of_string s.
Definition text_eqb (a b : text) : bool := if list_eq_dec ascii_dec a b then true else false.
Definition sep : ascii := "/"%char.
Definition bang : ascii := "!"%char.
(** rt_enum.py:1049 *)
Definition ext : text := T ".sds".
(** str.lower, of ASCII letters *)
Definition lower (c : ascii) : ascii :=
  let n := nat_of_ascii c in if (65 <=? n) && (n <=? 90) then ascii_of_nat (n + 32) else c.
(** str.endswith *)
Definition ends (t e : text) : bool := text_eqb (skipn (List.length t - List.length e) t) e.
(** 327-364 [sds_endswith] of a string *)
Definition sds_endswith (t : text) : bool := ends (map lower t) ext.
Fixpoint take_while (f : ascii -> bool) (t : text) : text :=
  match t with [] => [] | c :: r => if f c then c :: take_while f r else [] end.
Fixpoint drop_while (f : ascii -> bool) (t : text) : text :=
  match t with [] => [] | c :: r => if f c then drop_while f r else t end.
Definition is_sep (c : ascii) : bool := Ascii.eqb c sep.
(** os.path.basename(os.path.normpath(path)): separators at the end do not count *)
Definition basename (p : text) : text := rev (take_while (fun c => negb (is_sep c)) (drop_while is_sep (rev p))).
(** 3461-3469 [_parse_nested_name] *)
Definition parse_nested (n : text) : text := map (fun c => if is_sep c then bang else c) n.
(** Python's [a in s], for strings *)
Fixpoint prefix (a s : text) : bool :=
  match a, s with [], _ => true | x :: a', y :: s' => Ascii.eqb x y && prefix a' s' | _, _ => false end.
Fixpoint infix (a s : text) : bool :=
  prefix a s || match s with [] => false | _ :: r => infix a r end.
(** 600-606: asks until an answer is in "Yy" or in "Nn"; [None]: it is still asking *)
Fixpoint ask_file (answers : list text) : option bool :=
  match answers with
  | [] => None
  | a :: r => if infix a (T "Yy") then Some true else if infix a (T "Nn") then Some false else ask_file r
  end.
(** 522-528: asks until an answer is one of "Y", "y", "N", "n" *)
Definition one_of (a : text) (l : list text) : bool := existsb (text_eqb a) l.
Fixpoint ask_dir (answers : list text) : option bool :=
  match answers with
  | [] => None
  | a :: r => if one_of a [T "Y"; T "y"] then Some true else if one_of a [T "N"; T "n"] then Some false else ask_dir r
  end.

Inductive status := Go (path name : text) | No | TypeErr | Ask.
Inductive outcome := Writes (f : text) | WritesDir (d : text) | Declined | Raises | Asking.

Section Disk.
Variable isfile isdir : text -> bool.
(** 565-578: the path and the name *)
Definition full_path (path : text) (name : option text) : text * text :=
  match name with
  | None => (path, basename path)
  | Some n => (path ++ sep :: parse_nested n, parse_nested n)
  end.
(** 554-633 *)
Definition path_single (path : text) (name : option text) (overwrite append : bool) (answers : list text) : status :=
  let (path, name) := full_path path name in
  let (path, name) := if sds_endswith name then (path, firstn (List.length name - 4) name) else (path ++ ext, name) in
  let overwrite := if append then true else overwrite in
  if isfile path then
    if overwrite then Go path name
    else match ask_file answers with None => Ask | Some false => No | Some true => Go path name end
  else if isdir path then TypeErr else Go path name.
(** 508-550 *)
Definition path_multi (exists_ : bool) (overwrite : bool) (answers : list text) : option bool :=
  if exists_ then if overwrite then Some true else ask_dir answers else Some true.
(** 2432-2437 of compress_dataset_internal: the file that is written *)
Definition target (p : text) : text := if ends p ext then p else p ++ ext.
(** rt_enum.py:942, 3785-3787 and [_escape_filename] 3559-3585 *)
Definition invalid_chars : list ascii := map ascii_of_nat [92; 58; 60; 62; 33; 124; 42; 63].
Definition bad_leaf (n : text) : bool :=
  existsb (fun c => existsb (Ascii.eqb c) invalid_chars) (rev (take_while (fun c => negb (Ascii.eqb c bang)) (rev n))).
(** 897-912 and 3750-3829 *)
Definition save_dataset (path : text) (name : option text) (overwrite append : bool) (answers : list text) : outcome :=
  match path_single path name overwrite append answers with
  | Go _ _ =>
      match name with
      | None => Writes (target path)
      | Some n => if bad_leaf n then Raises else Writes (target (path ++ sep :: n))
      end
  | No => Declined
  | TypeErr => Raises
  | Ask => Asking
  end.
(** 931-934 and 653-670 *)
Definition save_array (path : text) (name : option text) (overwrite : bool) (answers : list text) : outcome :=
  match path_single path name overwrite false answers with
  | Go p _ => Writes (target p)
  | No => Declined
  | TypeErr => Raises
  | Ask => Asking
  end.
(** 917-928 and 3473-3546: nested containers go to files in the directory [path] *)
Definition save_struct (nested : bool) (path : text) (name : option text) (overwrite : bool) (answers : list text) : outcome :=
  if nested then
    match path_multi (isfile path || isdir path) overwrite answers with
    | Some true => WritesDir path
    | Some false => Declined
    | None => Asking
    end
  else
    match path_single path None overwrite false answers with
    | Go p _ => Writes (target p)
    | No => Declined
    | TypeErr => Raises
    | Ask => Asking
    end.
End Disk.

(** ** What is expected *)
Definition yes (a : text) : Prop := a = T "Y" \/ a = T "y".
Definition no (a : text) : Prop := a = T "N" \/ a = T "n".
(** The first answer that is Y, y, N or n is one with [P]. *)
Definition answered (P : text -> Prop) (answers : list text) : Prop :=
  exists before a after, answers = before ++ a :: after /\ P a /\ forall b, In b before -> ~ yes b /\ ~ no b.
Definition undecided (answers : list text) : Prop := forall b, In b answers -> ~ yes b /\ ~ no b.
(** A file is written over only when the user has said so: saving to the file [f]. *)
Definition asks_first (isfile isdir : text -> bool) (answers : list text) (f : text) (o : outcome) : Prop :=
  match o with
  | Writes g => g = f /\ (isfile f = true -> answered yes answers)
  | Declined => isfile f = true /\ answered no answers
  | Asking => isfile f = true /\ undecided answers
  | Raises => isfile f = false /\ isdir f = true
  | WritesDir _ => False
  end.
(** The file that a path and a name stand for. *)
Definition location (path : text) (name : option text) : text :=
  target (match name with None => path | Some n => path ++ sep :: n end).
(** Paths and names in question: no separator at the end of a path, none in a name, none of the
    characters that are refused, and .sds not written with capitals. *)
Definition no_sep_at_end (p : text) : Prop := match rev p with [] => True | c :: _ => is_sep c = false end.
Definition lower_ext (p : text) : Prop := sds_endswith p = ends p ext.
Definition usual (path : text) (name : option text) : Prop :=
  match name with
  | None => no_sep_at_end path /\ lower_ext path
  | Some n => ~ In sep n /\ bad_leaf n = false /\ lower_ext (path ++ sep :: n)
  end.
(** Answers that are not empty and not both letters. *)
Definition plain (a : text) : Prop := a <> [] /\ a <> T "Yy" /\ a <> T "Nn".
