(** Model of the footers of Datasets: footer_set_values, footer_get_values, footer_get_dict and
    footer_remove (/repo/riptable/rt_dataset.py), the column attributes they live in
    (rt_itemcontainer.py) and what copying a Dataset does to them.

    A column is an item [array; attribute]; the attribute is None or an object (ItemAttribute) whose
    field Footer, if set, is a dictionary from footer labels to values.  Objects are mutable and may
    be shared, so they live in a heap.  Arrays are not modelled (they do not matter here), nor are
    warnings. *)
From Coq Require Import List Arith Bool.
From Verif Require Import FlattenModel DsModel.
Import ListNotations.

Section Foot.
Context {V : Type}.
(** rt_itemcontainer.py:20-57: an attribute object; its Footer dictionary, if it has one *)
Definition attr := option (list (name * V)).
(** a Dataset: its items, and the keys of _footers (all values are None, line 5678) if it is there *)
Record fds := mkF { d_items : list (name * option nat); d_footers : option (list name) }.
Record world := mkW { w_heap : list attr; w_ds : list fds }.
Inductive exn := EIndex | EKey | EAttribute | EValue.

(** rt_itemcontainer.py:316-333, rt_struct.py:2655-2678 *)
Definition footer_of (heap : list attr) (items : list (name * option nat)) (c : name) : option (list (name * V)) :=
  match dget c items with
  | None => None
  | Some None => None
  | Some (Some r) => match nth_error heap r with Some a => a | None => None end
  end.
Fixpoint put (heap : list attr) (r : nat) (a : attr) : list attr :=
  match heap, r with
  | [], _ => []
  | _ :: h, 0 => a :: h
  | x :: h, S r => x :: put h r a
  end.
(** rt_itemcontainer.py:336-366 item_set_attribute(key, "Footer", coldict), for a key that exists *)
Definition set_footer (heap : list attr) (items : list (name * option nat)) (c : name) (cd : list (name * V))
  : list attr * list (name * option nat) :=
  match dget c items with
  | Some (Some r) => (put heap r (Some cd), items)
  | _ => (heap ++ [Some cd], dset c (Some (length heap)) items)
  end.
(** the dictionary changed in place *)
Definition change_footer (heap : list attr) (items : list (name * option nat)) (c : name) (cd : list (name * V)) : list attr :=
  match dget c items with
  | Some (Some r) => put heap r (Some cd)
  | _ => heap
  end.
Fixpoint pop (l : name) (d : list (name * V)) : list (name * V) :=
  match d with [] => [] | (k, v) :: r => if name_dec k l then r else (k, v) :: pop l r end.

(** rt_struct.py:3501-3509 *)
Definition all_exist (cs : list name) (items : list (name * option nat)) : bool := forallb (fun c => mem c (map fst items)) cs.

(** 5613-5689 (label and footerdict of the right types) *)
Definition footer_set_values (heap : list attr) (d : fds) (label : name) (vals : list (name * V)) : (list attr * fds) + exn :=
  if all_exist (map fst vals) (d_items d) then
    let fs := match d_footers d with None => [] | Some l => l end in
    let fs := if mem label fs then fs else fs ++ [label] in
    let '(h, it) := fold_left (fun s p => let '(h, it) := s in
        match footer_of h it (fst p) with
        | None => set_footer h it (fst p) [(label, snd p)]
        | Some cd => (change_footer h it (fst p) (dset label (snd p) cd), it)
        end) vals (heap, d_items d) in
    inl (h, mkF it (Some fs))
  else inr EIndex.

(** 5373-5393 *)
Definition footers_exist (fs : list name) (labels : option (list name)) : option (list name) :=
  match labels with
  | None => Some fs
  | Some l => match filter (fun n => mem n fs) l with [] => None | r => Some r end
  end.
(** del of dictionary keys, one after another; KeyError at a key that is not there *)
Fixpoint del_all (ls : list name) (fs : list name) : list name * bool :=
  match ls with
  | [] => (fs, true)
  | l :: r => if mem l fs then del_all r (filter (fun n => if name_dec n l then false else true) fs) else (fs, false)
  end.
(** 5396-5499: the state afterwards, and the exception if one is raised *)
Definition footer_remove (heap : list attr) (d : fds) (labels columns : option (list name)) : list attr * fds * option exn :=
  match d_footers d with
  | None => (heap, d, None)
  | Some fs =>
      match footers_exist fs labels with
      | None => (heap, d, None)
      | Some ls =>
          let go cs := fold_left (fun h c => match footer_of h (d_items d) c with
                                             | None => h
                                             | Some cd => change_footer h (d_items d) c (fold_left (fun cd l => pop l cd) ls cd)
                                             end) cs heap in
          match columns with
          | None => let h := go (map fst (d_items d)) in
                    match del_all ls fs with
                    | (fs', true) => (h, mkF (d_items d) (match fs' with [] => None | _ => Some fs' end), None)
                    | (fs', false) => (h, mkF (d_items d) (Some fs'), Some EKey)
                    end
          | Some cs => if all_exist cs (d_items d) then (go cs, d, None) else (heap, d, Some EIndex)
          end
      end
  end.

(** {fname: .. for fname in labels} *)
Fixpoint once (l : list name) : list name := match l with [] => [] | x :: r => x :: filter (fun n => if name_dec n x then false else true) (once r) end.
(** 5502-5556 *)
Definition footer_get_values (heap : list attr) (d : fds) (labels columns : option (list name)) (fill : V) : list (name * list V) :=
  match d_footers d with
  | None => []
  | Some fs =>
      match footers_exist fs labels with
      | None => []
      | Some ls =>
          let cs := match columns with None => map fst (d_items d) | Some cs => cs end in
          map (fun l => (l, map (fun c => match footer_of heap (d_items d) c with
                                          | None => fill
                                          | Some cd => match dget l cd with Some v => v | None => fill end
                                          end) cs)) (once ls)
      end
  end.
(** a value that is None *)
Variable isnone : V -> bool.
(** 5559-5610 *)
Definition footer_get_dict (heap : list attr) (d : fds) (labels columns : option (list name)) : list (name * list (name * V)) :=
  match d_footers d with
  | None => []
  | Some fs =>
      match footers_exist fs labels with
      | None => []
      | Some ls =>
          let cs := match columns with None => map fst (d_items d) | Some cs => cs end in
          map (fun l => (l, fold_left (fun m c => match footer_of heap (d_items d) c with
                                        | None => m
                                        | Some cd => match dget l cd with
                                                     | Some v => if isnone v then m else dset c v m
                                                     | None => m
                                                     end
                                        end) cs [])) (once ls)
      end
  end.

(** ** What else happens to Datasets *)
(** rt_itemcontainer.py:187-201: new items for the columns chosen, with the same attribute objects *)
Definition copy_items (items : list (name * option nat)) (cols : option (list name)) : option (list (name * option nat)) :=
  match cols with
  | None => Some items
  | Some cs => if all_exist cs items then Some (fold_left (fun m c => match dget c items with Some a => dset c a m | None => m end) cs []) else None
  end.
(** 790-797: deep: a copy of every attribute object (rt_itemcontainer.py:48-58) *)
Fixpoint copy_attrs (heap : list attr) (items : list (name * option nat)) : list attr * list (name * option nat) :=
  match items with
  | [] => (heap, [])
  | (c, None) :: r => let '(h, it) := copy_attrs heap r in (h, (c, None) :: it)
  | (c, Some a) :: r => let '(h, it) := copy_attrs (heap ++ [match nth_error heap a with Some x => x | None => None end]) r in
                        (h, (c, Some (length heap)) :: it)
  end.
(** 735-799 _copy, _as_itemcontainer and 726-730 of _copy_attributes.  Choosing rows (copy_apply,
    rt_itemcontainer.py:204-225) copies the items the same way, and deep copies them only if the rows
    are a slice. *)
Definition ds_copy (heap : list attr) (d : fds) (cols : option (list name)) (deep : bool) : (list attr * fds) + exn :=
  match copy_items (d_items d) cols with
  | None => inr EKey
  | Some it => let '(h, it') := if deep then copy_attrs heap it else (heap, it) in inl (h, mkF it' (d_footers d))
  end.
(** 4107-4128, sort_copy: new columns without attributes; every entry of _footers is copied, but they are None *)
Definition ds_sort_copy (heap : list attr) (d : fds) : (list attr * fds) + exn :=
  match d_footers d with
  | Some (_ :: _) => inr EAttribute
  | f => inl (heap, mkF (map (fun p => (fst p, None)) (d_items d)) f)
  end.

Inductive fop :=
| FNew (cols : list name)                                             (* rt.Dataset *)
| FSet (i : nat) (label : name) (vals : list (name * V))              (* footer_set_values *)
| FRemove (i : nat) (labels columns : option (list name))             (* footer_remove *)
| FCopy (i : nat) (cols : option (list name)) (deep : bool)           (* copy, ds[cols], ds[rows, cols] *)
| FSortCopy (i : nat)
| FAssign (i : nat) (c : name)                                        (* ds[c] = array, rt_itemcontainer.py:304-309 *)
| FDelete (i : nat) (c : name)                                        (* col_remove of one column, 266-267 *)
| FRename (i : nat) (old new : name)                                  (* col_rename, 409-440 *)
| FMark (i : nat) (c : name).                                         (* col_set_attribute of another attribute *)

Definition upd (l : list fds) (i : nat) (d : fds) : list fds := firstn i l ++ d :: skipn (S i) l.
Definition on (w : world) (i : nat) (f : list attr -> fds -> list attr * option fds * list fds * option exn) : world * option exn :=
  match nth_error (w_ds w) i with
  | None => (w, None)
  | Some d => let '(h, d', new, e) := f (w_heap w) d in
              (mkW h ((match d' with Some d' => upd (w_ds w) i d' | None => w_ds w end) ++ new), e)
  end.
(** rt_itemcontainer.py:426-440 *)
Definition rename_items (old new : name) (items : list (name * option nat)) : list (name * option nat) :=
  map (fun p => (if name_dec (fst p) old then new else fst p, snd p)) items.
Definition wstep (w : world) (o : fop) : world * option exn :=
  match o with
  | FNew cols => (mkW (w_heap w) (w_ds w ++ [mkF (map (fun c => (c, None)) (once cols)) None]), None)
  | FSet i label vals => on w i (fun h d => match footer_set_values h d label vals with inl (h', d') => (h', Some d', [], None) | inr e => (h, None, [], Some e) end)
  | FRemove i labels columns => on w i (fun h d => let '(h', d', e) := footer_remove h d labels columns in (h', Some d', [], e))
  | FCopy i cols deep => on w i (fun h d => match ds_copy h d cols deep with inl (h', d') => (h', None, [d'], None) | inr e => (h, None, [], Some e) end)
  | FSortCopy i => on w i (fun h d => match ds_sort_copy h d with inl (h', d') => (h', None, [d'], None) | inr e => (h, None, [], Some e) end)
  | FAssign i c => on w i (fun h d => (h, Some (if mem c (map fst (d_items d)) then d else mkF (d_items d ++ [(c, None)]) (d_footers d)), [], None))
  | FDelete i c => on w i (fun h d => (h, Some (mkF (filter (fun p => if name_dec (fst p) c then false else true) (d_items d)) (d_footers d)), [], None))
  | FRename i old new => on w i (fun h d =>
      if name_dec old new then (h, None, [], None)
      else if negb (mem old (map fst (d_items d))) || mem new (map fst (d_items d)) then (h, None, [], Some EValue)
      else (h, Some (mkF (rename_items old new (d_items d)) (d_footers d)), [], None))
  | FMark i c => on w i (fun h d =>
      match dget c (d_items d) with
      | None => (h, None, [], Some EKey)
      | Some None => (h ++ [None], Some (mkF (dset c (Some (length h)) (d_items d)) (d_footers d)), [], None)
      | Some (Some _) => (h, None, [], None)
      end)
  end.
Definition wrun (ops : list fop) : world := fold_left (fun w o => fst (wstep w o)) ops (mkW [] []).
End Foot.
