(* What a user expects of the text shown for a Dataset: which rows and which
   columns appear, what stands in every cell, how wide the lines are.  Nothing
   here refers to the model of rt_display.py. *)
From Coq Require Import List Arith Bool PeanoNat.
Import ListNotations.

Definition text := list nat.
Definition dots : text := [46; 46; 46].
Definition dot : text := [46].
Definition hash : text := [35].

Definition text_eqb (a b : text) : bool := if list_eq_dec Nat.eq_dec a b then true else false.

(* Which positions of a table of [n] rows are shown when only the first [head]
   and the last [tail] rows are asked for; [None] is the line of dots. *)
Definition kept (n head tail : nat) (all : bool) (p : nat) : bool :=
  all || (p <? head) || (n <=? p + tail).

Definition shown_rows (n head tail : nat) (all : bool) : list (option nat) :=
  let rows := filter (kept n head tail all) (seq 0 n) in
  if forallb (kept n head tail all) (seq 0 n) then map Some rows
  else map Some (filter (fun p => p <? head) rows) ++ [None]
       ++ map Some (filter (fun p => negb (p <? head)) rows).

(* A column of the data: its name, its values and the text of its footer in
   each footer line. *)
Record column (V : Type) := Col { cname : text; cvals : list V; cfoot : list text }.
Arguments Col {V} _ _ _. Arguments cname {V} _. Arguments cvals {V} _. Arguments cfoot {V} _.

(* A column of the shown table: the row numbers, a column of the data under a
   heading, or the column of dots that stands for columns left out. *)
Inductive shown (V : Type) :=
| SRow (h : text) (f : list text)
| SCol (h : text) (c : column V)
| SDots (f : list text).
Arguments SRow {V} _ _. Arguments SCol {V} _ _. Arguments SDots {V} _.

Section Spec.
  Variable V : Type.
  Variable fmt : V -> text.       (* how a value is written *)
  Variable num : nat -> text.     (* how a row number is written *)

  (* The text in line [p] of a shown column, when position [i] of the view is
     row [order i] of the data. *)
  Definition cell (order : nat -> nat) (s : shown V) (p : option nat) : text :=
    match p with
    | None => dots
    | Some i => match s with
                | SRow _ _ => num (order i)
                | SCol _ c => match nth_error (cvals c) (order i) with Some v => fmt v | None => [] end
                | SDots _ => dots
                end
    end.

  Definition heading (s : shown V) : text :=
    match s with SRow h _ => h | SCol h _ => h | SDots _ => dots end.
  Definition footing (s : shown V) : list text :=
    match s with SRow _ f => f | SCol _ c => cfoot c | SDots f => f end.

  (* The widest text of a shown column. *)
  Definition widest (ts : list text) : nat := fold_right Nat.max 0 (map (@length nat) ts).
  Definition width (order : nat -> nat) (ps : list (option nat)) (s : shown V) : nat :=
    widest (heading s :: map (cell order s) ps ++ footing s).

  Definition total (l : list nat) : nat := fold_right Nat.add 0 l.

  (* [shown_main] are the columns shown for the columns [ms]: all of them or a
     first part, the dots and a last part. *)
  Definition abridged (ms : list (column V)) (f : list text) (hidden : bool) (s : list (shown V)) : Prop :=
    exists pre hid suf,
      ms = pre ++ hid ++ suf /\
      s = map (fun c => SCol (cname c) c) pre
          ++ (if hidden then [SDots f] else [])
          ++ map (fun c => SCol (cname c) c) suf /\
      (hidden = true <-> hid <> []) /\
      length suf <= length pre <= S (length suf).
End Spec.
Arguments cell {V} _ _ _ _ _. Arguments heading {V} _. Arguments footing {V} _. Arguments width {V} _ _ _ _ _.
Arguments abridged {V} _ _ _ _.

(* The first key column with repeats hidden: a text equal to the one above it is
   replaced by a dot. *)
Fixpoint hide_after (prev : text) (l : list text) : list text :=
  match l with
  | [] => []
  | x :: r => (if text_eqb x prev then dot else x) :: hide_after x r
  end.
Definition hide_repeats (l : list text) : list text :=
  match l with [] => [] | x :: r => x :: hide_after x r end.

(* Reading such a column: a dot means the text above. *)
Fixpoint read_after (prev : text) (l : list text) : list text :=
  match l with
  | [] => []
  | x :: r => let t := if text_eqb x dot then prev else x in t :: read_after t r
  end.
Definition read_repeats (l : list text) : list text :=
  match l with [] => [] | x :: r => x :: read_after x r end.

(* The columns covered by a line of headings with spans. *)
Definition covered (top : list (text * nat)) : list text :=
  concat (map (fun h => repeat (fst h) (snd h)) top).

(* The left columns: the row numbers, or the labels with the name of each footer
   line under the last of them. *)
Fixpoint label_cols {V} (prefix : text) (foots : list text) (labels : list (column V)) : list (shown V) :=
  match labels with
  | [] => []
  | [c] => [SCol (prefix ++ cname c) (Col (cname c) (cvals c) foots)]
  | c :: r => SCol (prefix ++ cname c) (Col (cname c) (cvals c) (map (fun _ => []) foots))
              :: label_cols prefix foots r
  end.
Definition left_cols {V} (prefix : text) (foots : list text) (labels : list (column V)) : list (shown V) :=
  match labels with [] => [SRow hash foots] | _ => label_cols prefix foots labels end.

(* The rows with the first cells replaced. *)
Definition with_first (f : list text -> list text) (rows : list (list text)) : list (list text) :=
  map (fun p => fst p :: tl (snd p)) (combine (f (map (hd []) rows)) rows).
