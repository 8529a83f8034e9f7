(** * Bad rows and columns of two-way tables (badrows=, badcols= of the
    functions of Accum2).

    Modelled: [_calc_badslots] (riptable/rt_accum2.py:597-657), [_calc_multipass]
    (661-762) with [_accum1_pass] (482-557), [_calc_onepass] (766-901) with
    [_apply_2d_operation] (442-478), and the end of [_stack_dataset] (980-993).
    The table itself, without bad rows and columns, is in Acc2Model.v; the order
    of sorted groups (903-913) is left out.

    Not modelled: bad rows given as bools, names that are not groups (their
    index is the invalid integer), categories with several keys. *)
From Coq Require Import List Arith Bool.
From Verif Require Import FlattenModel BdSpec.
Import ListNotations.

Definition memn (i : nat) (l : list nat) : bool := existsb (Nat.eqb i) l.
Definition mems (n : name) (l : list name) : bool := existsb (fun m => if name_dec n m then true else false) l.
Fixpoint index (n : name) (l : list name) : option nat :=
  match l with
  | [] => None
  | m :: r => if name_dec n m then Some 0 else match index n r with Some i => Some (S i) | None => None end
  end.
Fixpoint all_some {A} (l : list (option A)) : option (list A) :=
  match l with
  | [] => Some []
  | Some x :: r => match all_some r with Some y => Some (x :: y) | None => None end
  | None :: _ => None
  end.
(** 618-627 *)
Definition fancy_of (cats : list name) (s : option slots) : option (option (list nat)) :=
  match s with
  | None => Some None
  | Some (Numbers _ l) => Some (Some l)
  | Some (Names l) => match all_some (map (fun n => index n cats) l) with Some l => Some (Some l) | None => None end
  end.

Fixpoint compress {A} (m : list bool) (l : list A) : list A :=
  match m, l with b :: m', x :: l' => if b then x :: compress m' l' else compress m' l' | _, _ => [] end.
(** totals[mask] = new *)
Fixpoint scatter {A} (m : list bool) (new old : list A) : list A :=
  match m, old with
  | b :: m', x :: old' => if b then match new with y :: new' => y :: scatter m' new' old' | [] => x :: scatter m' [] old' end
                          else x :: scatter m' new old'
  | _, _ => old
  end.
(** ones(n); mask[i] = False.  None: an index out of bounds *)
Definition mask_of (n : nat) (sf : bool) (b : option (list nat)) : option (list bool) :=
  match b with
  | None => Some (repeat true n)
  | Some l => let l := if sf then map S l else l in
              if forallb (fun i => i <? n) l then Some (map (fun i => negb (memn i l)) (seq 0 n)) else None
  end.

Section Tot.
  Context {V : Type} (f : list V -> V).
  (** the cell of row group [r] and column group [c]: see Acc2Model.v *)
  Definition cell (data : list (elt (V := V))) (r c : nat) : V := f (vals (fun e => (e_row e =? r) && (e_col e =? c)) data).
  (** the groups shown *)
  Definition shown (sf : bool) (n : nat) : list nat := if sf then seq 0 (S n) else seq 1 n.
  Definition totals_y (cl : nat -> nat -> V) (rs cs : list nat) : list V := map (fun r => f (map (cl r) cs)) rs.
  Definition totals_x (cl : nat -> nat -> V) (rs cs : list nat) : list V := map (fun c => f (map (fun r => cl r c) rs)) cs.

  (** 797-901: the totals below, at the right, and in the corner *)
  Definition onepass (data : list (elt (V := V))) (sf : bool) (rcats ccats : list name) (badrows badcols : option slots)
    : option (list V * list V * V) :=
    let cl := cell data in
    let rs := shown sf (length rcats) in
    let cs := shown sf (length ccats) in
    match fancy_of ccats badcols, fancy_of rcats badrows with
    | Some bc, Some br =>
        match br, bc with
        | None, None => Some (totals_x cl rs cs, totals_y cl rs cs, f (totals_y cl rs cs))
        | _, _ =>
            match mask_of (length rs) sf br, mask_of (length cs) sf bc with
            | Some my, Some mx =>
                let rs' := compress my rs in
                let cs' := compress mx cs in
                Some (scatter mx (totals_x cl rs' cs') (totals_x cl rs cs),
                      scatter my (totals_y cl rs' cs') (totals_y cl rs cs),
                      f (concat (map (fun r => map (cl r) cs') rs')))
            | _, _ => None
            end
        end
    | _, _ => None
    end.

  (** 597-657 without wantfancy: the numbers of the groups as stored start at
      [base]; an element of no group has 0 *)
  Definition badmask (codes : list nat) (base : nat) (cats : list name) (s : option slots) (flt : option (list bool)) : option (list bool) :=
    match s with
    | None => flt
    | Some s =>
        let m := match s with
                 | Numbers _ l => map (fun c => negb (memn (c + base - 1) (map S l))) codes
                 | Names l => map (fun c => negb (match c with O => false | S i => match nth_error cats i with Some n => mems n l | None => false end end)) codes
                 end in
        Some (match flt with None => m | Some g => map (fun p => fst p && snd p) (combine m g) end)
    end.
  (** 508-557: where(filter, ikey, 0) *)
  Definition accum1 (codes : list nat) (n : nat) (sf : bool) (flt : option (list bool)) (data : list (elt (V := V))) : list V :=
    let ikey := match flt with None => codes | Some g => map (fun p : nat * bool => if snd p then fst p else 0) (combine codes g) end in
    map (fun k => f (map (fun p => e_val (snd p)) (filter (fun p => fst p =? k) (combine ikey data)))) (shown sf n).
  (** 703-757 *)
  Definition multipass (data : list (elt (V := V))) (sf : bool) (rbase cbase : nat) (rcats ccats : list name) (badrows badcols : option slots)
             (flt : option (list bool)) (badcalc : bool) : list V * list V * V :=
    let rcodes := map e_row data in
    let ccodes := map e_col data in
    let fx := badmask ccodes cbase ccats badcols flt in
    let fy := badmask rcodes rbase rcats badrows flt in
    let new := match badrows, badcols with
               | Some _, Some _ => match fx, fy with
                                   | Some a, Some b => Some (map (fun p => fst p && snd p) (combine a b))
                                   | _, _ => None
                                   end
               | Some _, None => fy
               | None, Some _ => fx
               | None, None => flt
               end in
    (accum1 ccodes (length ccats) sf (if badcalc then fy else new) data,
     accum1 rcodes (length rcats) sf (if badcalc then fx else new) data,
     f (map (e_val (V := V)) (match new with None => data | Some g => compress g data end))).
End Tot.

(** ** What is left behind: the numpy arrays given, and what the display colours
    (980-993; rt_struct.py:4831-4838).  Line 842 (855) adds 1 in place to an
    array given, if the function has one pass, then line 985 does.  The order of
    sorted groups is left out. *)
Record after := mkAfter { user_rows : option slots; user_cols : option slots;
                          mark_rows : option (list nat); mark_cols : option (list name) }.
Definition bump (go : bool) (s : option slots) : option slots :=
  match s with Some (Numbers true l) => Some (Numbers true (if go then map S l else l)) | _ => s end.
Definition leave (one_pass sf : bool) (rcats ccats : list name) (badrows badcols : option slots) : option after :=
  let r1 := bump (one_pass && sf) badrows in
  let c1 := bump (one_pass && sf) badcols in
  match fancy_of rcats r1, fancy_of ccats c1 with
  | Some br, Some bc =>
      let br := match br with Some l => Some (if sf then map S l else l) | None => None end in
      let r2 := bump sf r1 in
      match bc with
      | None => Some (mkAfter r2 c1 br None)
      | Some l => match all_some (map (fun i => nth_error ccats i) l) with
                  | Some names => Some (mkAfter r2 c1 br (Some names))
                  | None => None
                  end
      end
  | _, _ => None
  end.
