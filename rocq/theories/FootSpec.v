(** What footers should be (C128, C129): every Dataset has its own labels and its own value for a label
    and a column, and nothing that is done to one Dataset is seen in another. *)
From Coq Require Import List Arith Bool.
From Verif Require Import FlattenModel DsModel FootModel.
Import ListNotations.

Section Spec.
Context {V : Type}.
(** the columns, the footer labels in the order they were first set, and the values *)
Record fstate := mkS { s_cols : list name; s_labels : list name; s_val : name -> name -> option V }.

Definition eqn (a b : name) : bool := if name_dec a b then true else false.
Definition chosen (labels : option (list name)) (s : fstate) : list name :=
  match labels with None => s_labels s | Some l => filter (fun n => mem n (s_labels s)) l end.
Definition have (cs : list name) (s : fstate) : bool := forallb (fun c => mem c (s_cols s)) cs.

Definition s_set (label : name) (vals : list (name * V)) (s : fstate) : fstate :=
  mkS (s_cols s) (if mem label (s_labels s) then s_labels s else s_labels s ++ [label])
      (fun l c => if eqn l label then match dget c vals with Some v => Some v | None => s_val s l c end else s_val s l c).
Definition s_remove (labels columns : option (list name)) (s : fstate) : fstate :=
  let ls := chosen labels s in
  match columns with
  | None => mkS (s_cols s) (filter (fun n => negb (mem n ls)) (s_labels s)) (fun l c => if mem l ls then None else s_val s l c)
  | Some cs => mkS (s_cols s) (s_labels s) (fun l c => if mem l ls && mem c cs then None else s_val s l c)
  end.
Definition s_copy (cols : option (list name)) (s : fstate) : fstate :=
  match cols with
  | None => s
  | Some cs => mkS (once cs) (s_labels s) (fun l c => if mem c cs then s_val s l c else None)
  end.
Definition s_rename (old new : name) (s : fstate) : fstate :=
  mkS (map (fun c => if name_dec c old then new else c) (s_cols s)) (s_labels s)
      (fun l c => if eqn c new then s_val s l old else if eqn c old then None else s_val s l c).
Definition s_delete (c : name) (s : fstate) : fstate :=
  mkS (filter (fun n => negb (eqn n c)) (s_cols s)) (s_labels s) (fun l c' => if eqn c' c then None else s_val s l c').

(** what happens to the Dataset named by the operation (None: nothing), the Dataset made (if any), and the exception *)
Definition s_at (o : fop) (s : fstate) : option fstate * list fstate * option exn :=
  match o with
  | FNew _ => (None, [], None)
  | FSet _ label vals => if have (map fst vals) s then (Some (s_set label vals s), [], None) else (None, [], Some EIndex)
  | FRemove _ labels columns =>
      match chosen labels s, columns with
      | [], _ => (None, [], None)
      | _, Some cs => if have cs s then (Some (s_remove labels columns s), [], None) else (None, [], Some EIndex)
      | _, None => (Some (s_remove labels columns s), [], None)
      end
  | FCopy _ cols _ => if match cols with Some cs => have cs s | None => true end then (None, [s_copy cols s], None) else (None, [], Some EKey)
  | FSortCopy _ => (None, [s], None)
  | FAssign _ c => (Some (if mem c (s_cols s) then s else mkS (s_cols s ++ [c]) (s_labels s) (s_val s)), [], None)
  | FDelete _ c => (Some (s_delete c s), [], None)
  | FRename _ old new => if eqn old new then (None, [], None)
                         else if mem old (s_cols s) && negb (mem new (s_cols s)) then (Some (s_rename old new s), [], None)
                         else (None, [], Some EValue)
  | FMark _ c => (None, [], if mem c (s_cols s) then None else Some EKey)
  end.
Definition target (o : fop (V := V)) : option nat :=
  match o with
  | FNew _ => None
  | FSet i _ _ | FRemove i _ _ | FCopy i _ _ | FSortCopy i | FAssign i _ | FDelete i _ | FRename i _ _ | FMark i _ => Some i
  end.
Definition s_upd (l : list fstate) (i : nat) (s : fstate) : list fstate := firstn i l ++ s :: skipn (S i) l.
Definition s_step (ss : list fstate) (o : fop) : list fstate * option exn :=
  match o, target o with
  | FNew cols, _ => (ss ++ [mkS (once cols) [] (fun _ _ => None)], None)
  | _, None => (ss, None)
  | _, Some i => match nth_error ss i with
                 | None => (ss, None)
                 | Some s => let '(s', new, e) := s_at o s in
                             ((match s' with Some s' => s_upd ss i s' | None => ss end) ++ new, e)
                 end
  end.
Definition s_run (ops : list fop) : list fstate := fold_left (fun w o => fst (s_step w o)) ops [].

(** the answers *)
Definition s_get_values (s : fstate) (labels columns : option (list name)) (fill : V) : list (name * list V) :=
  map (fun l => (l, map (fun c => match s_val s l c with Some v => v | None => fill end)
                        (match columns with None => s_cols s | Some cs => cs end)))
      (once (chosen labels s)).
(** the dictionary for a label: the columns (of those asked for) that have a value, None not counting *)
Definition s_get_dict (isnone : V -> bool) (s : fstate) (labels columns : option (list name)) : list (name * list (name * V)) :=
  map (fun l => (l, flat_map (fun c => match s_val s l c with Some v => if isnone v then [] else [(c, v)] | None => [] end)
                             (once (match columns with None => s_cols s | Some cs => cs end))))
      (once (chosen labels s)).

(** the uses that keep Datasets apart: dictionaries have distinct keys, copies are deep (or there is
    nothing to share), labels to remove are distinct, Datasets with footers are not sort_copied *)
Definition ok_op (ss : list fstate) (o : fop (V := V)) : Prop :=
  match o with
  | FSet _ _ vals => NoDup (map fst vals)
  | FRemove _ (Some l) None => NoDup l
  | FCopy _ _ deep => deep = true
  | FSortCopy i => forall s, nth_error ss i = Some s -> s_labels s = []
  | _ => True
  end.
Fixpoint ok_ops (ss : list fstate) (ops : list (fop (V := V))) : Prop :=
  match ops with [] => True | o :: r => ok_op ss o /\ ok_ops (fst (s_step ss o)) r end.
End Spec.
