(** Model of the Dataset operators: comparison (riptable/rt_dataset.py:1472-1529), arithmetic with
    a scalar, an array or another Dataset (2320-2480, 2512-2559), equals (8147-8288) and
    drop_duplicates (3631-3777).

    A dataset is here the list of its columns, each the list of its values, with the number of
    rows and the names of the label columns.  Simplifications: summary columns and footers are
    left out; one element type [V]; equals is modelled for labels=True (the default) and
    axis=None. *)
From Coq Require Import List Arith Bool.
From Verif Require Import FlattenModel GroupModel MergeModel DsModel.
Import ListNotations.

Record frame (X : Type) := Frame { f_rows : option nat; f_cols : list (name * list X); f_labels : list name }.
Arguments Frame {X} _ _ _.
Arguments f_rows {X} _.
Arguments f_cols {X} _.
Arguments f_labels {X} _.
Inductive err := ErrValue | ErrKey.

Definition map2 {X Y Z} (f : X -> Y -> Z) (a : list X) (b : list Y) : list Z :=
  map (fun p => f (fst p) (snd p)) (combine a b).
Definition onat_eqb (a b : option nat) : bool :=
  match a, b with Some x, Some y => x =? y | None, None => true | _, _ => false end.

Section Cmp.
Context {V : Type}.

(** ** Comparison operators, rt_dataset.py:1472-1510 *)
Section Compare.
(** the elementwise comparison: ==, !=, <, ... *)
Variable op : V -> V -> bool.
Definition no_rows (n : option nat) : list bool := repeat false (match n with Some n => n | None => 0 end).
(** 1489-1501 *)
Fixpoint cmp_self (n : option nat) (cols : list (name * list V)) (b : frame V) (out : list (name * list bool)) : list (name * list bool) :=
  match cols with
  | [] => out
  | (k, x) :: r =>
      cmp_self n r b (dset k (match dget k (f_cols b) with
                              | None => no_rows n
                              | Some y => map2 op x y
                              end) out)
  end.
(** 1503-1507 *)
Fixpoint cmp_other (n : option nat) (cols : list (name * list V)) (out : list (name * list bool)) : list (name * list bool) :=
  match cols with
  | [] => out
  | (k, _) :: r => cmp_other n r (match dget k out with Some _ => out | None => dset k (no_rows n) out end)
  end.
Definition compare (a b : frame V) : list (name * list bool) + err :=
  if onat_eqb (f_rows b) (f_rows a)
  then inl (cmp_other (f_rows a) (f_cols b) (cmp_self (f_rows a) (f_cols a) b []))
  else inr ErrValue.
End Compare.

(** ** Arithmetic, rt_dataset.py:2387-2459, 2512-2541 *)
Section Arith.
(** [FastArray.iscomputable] of the named column (strings are not) *)
Variable computable : name -> bool.
Variable op : V -> V -> V.
Inductive operand := OpScalar (x : V) | OpArray (l : list V) | OpFrame (b : frame V).
(** 2419-2435 with no fill value *)
Definition on_array (k : name) (x : list V) (y : list V) : list V := if computable k then map2 op x y else x.
Definition nrow (a : frame V) : nat := match f_rows a with Some n => n | None => 0 end.
Definition arith (a : frame V) (o : operand) : list (name * list V) + err :=
  match o with
  | OpScalar x =>
      inl (map (fun p => let '(k, l) := p in
             (k, if DsModel.mem k (f_labels a) then l else on_array k l (repeat x (length l)))) (f_cols a))
  | OpArray y =>
      if length y =? nrow a
      then inl (map (fun p => let '(k, l) := p in
             (k, if DsModel.mem k (f_labels a) then l else on_array k l y)) (f_cols a))
      else inr ErrValue
  | OpFrame b =>
      (* 2411: every column of the other side that also is in this one has the right length *)
      if forallb (fun p => negb (DsModel.mem (fst p) (names (f_cols a))) || (length (snd p) =? nrow a)) (f_cols b)
      then inl (map (fun p => let '(k, l) := p in
             (k, match dget k (f_cols b) with
                 | Some y => if DsModel.mem k (f_labels a) then l else on_array k l y
                 | None => l
                 end)) (f_cols a))
      else inr ErrValue
  end.
End Arith.

(** ** equals, rt_dataset.py:8215-8288 *)
Section Equals.
Variable eqv : V -> V -> bool.
(** elementwise isnan; the columns that are not computable count as not NaN (8271) *)
Variable isnan : V -> bool.
Variable computable : name -> bool.
Definition nans (a : frame V) : list (name * list bool) :=
  map (fun p => (fst p, if computable (fst p) then map isnan (snd p) else repeat false (length (snd p)))) (f_cols a).
(** [x & y] of the two datasets of NaN masks; [labels] are the label columns of [x] *)
Definition and_nans (x : list (name * list bool)) (labels : list name) (y : list (name * list bool)) : list (name * list bool) :=
  map (fun p => let '(k, l) := p in
     (k, match dget k y with
         | Some m => if DsModel.mem k labels then l else map2 andb l m
         | None => l
         end)) x.
(** [set(a) == set(b)] *)
Definition same_names (a b : list name) : bool :=
  forallb (fun k => DsModel.mem k b) a && forallb (fun k => DsModel.mem k a) b.
(** 8257-8288; an exception gives False *)
Definition equals (a b : frame V) : bool :=
  match compare eqv a b with
  | inr _ => false
  | inl r =>
      (* len(compare_result) == 0: no columns or no rows *)
      if match r with [] => true | (_, c) :: _ => length c =? 0 end
      then same_names (names (f_cols a)) (names (f_cols b))
      else
        let nn := if length (f_cols b) <? length (f_cols a)
                  then and_nans (nans a) (f_labels a) (nans b)
                  else and_nans (nans b) (f_labels b) (nans a) in
        forallb (fun p => match dget (fst p) nn with
                          | Some m => forallb (fun x => x) (map2 orb m (snd p))
                          | None => false            (* KeyError *)
                          end) r
  end.

(** exact=True, 8238-8255.  A matrix is (rows, columns).  [x op= y] broadcasts the second operand
    over the first: each of its dimensions is the same or 1. *)
Definition bcast (n m : nat) : bool := (m =? n) || (m =? 1).
(** row [i] of a column of an operand with [m] rows *)
Definition at_row {X} (d : X) (m : nat) (l : list X) (i : nat) : X := nth (if m =? 1 then 0 else i) l d.
Variable dv : V.
(** [ds_isnan]: strings count as not NaN (8228-8232) *)
Definition isnan_at (k : name) (x : V) : bool := computable k && isnan x.
Definition equals_exact (a b : frame V) : bool :=
  let ca := f_cols a in
  let cb := f_cols b in
  let n := nrow a in
  let m := nrow b in
  let ka := length ca in
  let kb := length cb in
  (* vstack([]) raises *)
  if (ka =? 0) || (kb =? 0) then false
  (* result *= ds_isnan(other) *)
  else if negb (bcast n m && bcast ka kb) then false
  else
    (* zip stops at the shorter; result |= vstack(result2) *)
    let kz := Nat.min ka kb in
    if negb (bcast ka kz) then false
    else
      forallb (fun i => forallb (fun j =>
        let '(na, va) := nth j ca ([], []) in
        let '(nb, vb) := nth (if kb =? 1 then 0 else j) cb ([], []) in
        (isnan_at na (nth i va dv) && isnan_at nb (at_row dv m vb i)) ||
        (let jz := if kz =? 1 then 0 else j in
         eqv (nth i (snd (nth jz ca ([], []))) dv) (at_row dv m (snd (nth jz cb ([], []))) i)))
        (seq 0 ka)) (seq 0 n).
End Equals.

(** ** drop_duplicates, rt_dataset.py:3631-3777 *)
(** [gbu(subset)] groups the rows by their key in order of first occurrence; [ikey] is the group
    number of every row, [u] the number of groups (GroupModel.v).  [first()], [last()]: per group the
    value in the first / last row (rt_groupbyops.py:2349-2480); the key columns come from the first
    row of each group; keys come before the other columns. *)
Variable dflt : V.
Definition group_first (ikey : list nat) (u : nat) : list nat :=
  map (fun g => nth (nth g (ifirstgroup ikey u) 0) (igroup ikey u) 0) (seq 1 u).
Definition group_last (ikey : list nat) (u : nat) : list nat :=
  map (fun g => nth (nth g (ifirstgroup ikey u) 0 + nth g (ncountgroup ikey u) 0 - 1) (igroup ikey u) 0) (seq 1 u).
Definition take_rows (l : list nat) (c : list V) : list V := map (fun i => nth i c dflt) l.
Definition gb_table (cols : list (name * list V)) (subset : list name) (krows vrows : list nat) : list (name * list V) :=
  flat_map (fun k => match dget k cols with Some c => [(k, take_rows krows c)] | None => [] end) subset ++
  map (fun p => (fst p, take_rows vrows (snd p))) (filter (fun p => negb (DsModel.mem (fst p) subset)) cols).
Definition dedup (cols : list (name * list V)) (subset : list name) (keep : keep_arg) (ikey : list nat) (u : nat) : list (name * list V) :=
  match keep with
  | KeepFirst => gb_table cols subset (group_first ikey u) (group_first ikey u)
  | KeepLast => gb_table cols subset (group_first ikey u) (group_last ikey u)
  | KeepNone =>
      (* gb.count().Count == 1 *)
      let once := map (fun g => nth g (ncountgroup ikey u) 0 =? 1) (seq 1 u) in
      map (fun p => (fst p, compress once (snd p))) (gb_table cols subset (group_first ikey u) (group_first ikey u))
  end.
(** returns the dataset after the call and the result *)
Definition drop_duplicates (a : frame V) (subset : option (list name)) (keep : keep_arg) (inplace : bool)
    (ikey : list nat) (u : nat) : frame V * frame V :=
  if nrow a =? 0 then (a, a)                                        (* 3731-3735 *)
  else
    let subset := match subset with Some s => s | None => names (f_cols a) end in
    let cols := dedup (f_cols a) subset keep ikey u in
    let rows := match cols with (_, c) :: _ => Some (length c) | [] => None end in
    let d := Frame rows cols [] in
    if inplace && negb (onat_eqb rows (f_rows a)) then
      (* 3764-3775, rt_itemcontainer.py:384-406: the new column replaces the one of the same name *)
      let a' := Frame rows (map (fun p => (fst p, match dget (fst p) cols with Some c => c | None => snd p end)) (f_cols a)) (f_labels a) in
      (a', a')
    else (a, d).
End Cmp.
