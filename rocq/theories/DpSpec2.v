(* Statement vocabulary over the Dataset record of the model: a well-formed
   Dataset, its view order and the columns a user expects on the left, in the
   middle and on the right. *)
From Coq Require Import List Arith Bool PeanoNat.
From Verif Require Import DpSpec DpModel.
Import ListNotations.

Definition sort_names {V} (ds : dset V) : list text := match s_sort ds with Some l => l | None => [] end.

(* Columns have different names, one value per row and one footer per footer
   line; labels, summary and sorted columns are columns; the sorted view is a
   list of rows. *)
Record ok_dset {V} (ds : dset V) : Prop := {
  ok_names : NoDup (map cname (s_cols ds));
  ok_vals : forall c, In c (s_cols ds) -> length (cvals c) = s_nrows ds /\ length (cfoot c) = length (s_foots ds);
  ok_keys : incl (s_labels ds ++ s_summary ds ++ sort_names ds) (map cname (s_cols ds));
  ok_order : match s_order ds with
             | None => True
             | Some idx => length idx = s_nrows ds /\ (forall i, In i idx -> i < s_nrows ds)
             end }.

(* Position [i] of the view is this row of the data. *)
Definition row_of {V} (ds : dset V) (i : nat) : nat :=
  match s_order ds with None => i | Some idx => nth i idx 0 end.

(* The positions shown. *)
Definition positions {V} (o : opts) (ds : dset V) : list (option nat) :=
  shown_rows (s_nrows ds) (o_head o) (o_tail o) (o_rowall o).

(* The label columns, the middle columns (sorted ones first, then the others in
   the order of the Dataset) and the summary columns. *)
Definition laid_out {V} (ds : dset V) (labels ms rs : list (column V)) : Prop :=
  incl (labels ++ ms ++ rs) (s_cols ds) /\
  map cname labels = s_labels ds /\ map cname rs = s_summary ds /\
  map cname ms = sort_names ds
                 ++ filter (fun n => negb (mem n (s_labels ds)) && negb (mem n (s_summary ds))
                                     && negb (mem n (sort_names ds))) (map cname (s_cols ds)).

(* The columns shown in the middle when nothing is left out. *)
Definition plain {V} (cs : list (column V)) : list (shown V) := map (fun c => SCol (cname c) c) cs.
