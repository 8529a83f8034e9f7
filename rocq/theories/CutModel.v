(** Model of cut and qcut (/repo/riptable/rt_bin.py:137-686).

    Values and edges are the floats of ArrModel.v with exact (rational) arithmetic.  The integer
    arrays are the special case of finite values.  retbins is taken as always set: the edges are part
    of the result.  np.linspace, unique, nanmin and nanmax are written out; the searches of riptide_cpp
    (BinsToCutsBSearch, BinsToCutsSorted) are given by their contracts, for edges in order without
    NaN. *)
From Coq Require Import List Arith Bool ZArith QArith.
From Verif Require Import FlattenModel ArrModel.
Import ListNotations.
Open Scope nat_scope.

(** float < and == *)
Definition fl_ltb (a b : fl) : bool :=
  match a, b with
  | NegInf, (Fin _ | PosInf) => true
  | Fin p, Fin q => negb (Qle_bool q p)
  | Fin _, PosInf => true
  | _, _ => false
  end.
Definition fl_eqb (a b : fl) : bool :=
  match a, b with
  | NegInf, NegInf => true
  | PosInf, PosInf => true
  | Fin p, Fin q => Qeq_bool p q
  | _, _ => false
  end.
(** rt_numpy.unique, np.unique: the distinct values in order (no NaN among them) *)
Fixpoint insert (v : fl) (l : list fl) : list fl :=
  match l with
  | [] => [v]
  | w :: r => if fl_ltb v w then v :: w :: r else if fl_eqb v w then w :: r else w :: insert v r
  end.
Definition uniq (l : list fl) : list fl := fold_right insert [] l.
(** (np.diff(bins) < 0).any() *)
Fixpoint decreases (l : list fl) : bool :=
  match l with
  | a :: (b :: _) as r => fl_ltb b a || decreases r
  | _ => false
  end.
(** how many edges are below the value *)
Definition below (edges : list fl) (v : fl) : nat := length (filter (fun e => fl_ltb e v) edges).
(** rc.BinsToCutsBSearch(x, bins, mode) for one value; mode 0 is right=True.  The contract is the table
    in the documentation of cut (rt_bin.py:517-535): the bin is (e[i-1], e[i]] in both modes; mode 0
    puts the first edge in the first bin and values outside in bin 0; mode 1 counts the edges below. *)
Definition bsearch (right : bool) (edges : list fl) (v : fl) : nat :=
  if is_nan v then 0
  else let k := below edges v in
    if right then
      if k =? 0 then (if fl_eqb v (hd NaN edges) then 1 else 0)
      else if k =? length edges then 0 else k
    else k.
(** rc.BinsToCutsSorted(x, bins, lsort, counts, 0): the same bins after a first one for the values
    outside; 0 for NaN *)
Definition bsearch_sorted (edges : list fl) (v : fl) : nat := if is_nan v then 0 else S (bsearch true edges v).

Section Cut.
(** np.around to a number of digits (265-275, _round_frac) and str *)
Variable rnd : nat -> fl -> fl.
Variable text : fl -> name.

(** 279-285 *)
Definition infer_precision (base : nat) (bins : list fl) : nat :=
  match find (fun p => length (uniq (map (rnd p) bins)) =? length bins) (seq base (20 - base)) with
  | Some p => p
  | None => base
  end.
Definition arrow : name := [45; 62].
(** "Clipped" (rt_enum.py CLIPPED_LONG_NAME) *)
Definition clipped_name : name := [67; 108; 105; 112; 112; 101; 100].
Fixpoint between (l : list name) : list name :=
  match l with
  | a :: (b :: _) as r => (a ++ arrow ++ b) :: between r
  | _ => []
  end.
(** 290-323 *)
Definition format_labels (bins : list fl) (precision : nat) (clipped : bool) : list name :=
  let p := infer_precision precision bins in
  (if clipped then [clipped_name] else []) ++ between (map (fun b => text (rnd p b)) bins).

Inductive dups := DRaise | DDrop | DOther.
(** labels=True or None, labels=False, a list of labels *)
Inductive labels_arg := LAuto | LOff | LGiven (l : list name).
(** the codes, the categories (none for labels=False) and the edges; ValueError; a call whose answer
    the contracts do not give (edges that are NaN, not in order, or fewer than two) *)
Inductive cut_out := Cut (codes : list nat) (cats : option (list name)) (edges : list fl) | CutRaise | CutOutside.

(** 330-408; [sorted]: lsort is not None *)
Definition bins_to_cuts (x : list fl) (bins : list fl) (sorted right : bool) (labels : labels_arg) (precision : nat) (duplicates : dups) : cut_out :=
  match duplicates with
  | DOther => CutRaise
  | _ =>
    if existsb is_nan bins then CutOutside
    else
      let unique_bins := uniq bins in
      let rep := (length unique_bins <? length bins) && negb (length bins =? 2) in
      if rep && match duplicates with DRaise => true | _ => false end then CutRaise
      else
        let bins := if rep then unique_bins else bins in
        if decreases bins || (length bins <? 2) then CutOutside
        else
          let ids := map (if sorted then bsearch_sorted bins else bsearch right bins) x in
          match labels with
          | LOff => Cut ids None bins
          | LAuto => Cut ids (Some (format_labels bins precision sorted)) bins
          | LGiven l => if length l =? length bins - 1
                        then Cut ids (Some ((if sorted then [clipped_name] else []) ++ l)) bins
                        else CutRaise
          end
  end.

(** where(filter, x, nan) (224-225, 626-627); a filter that is too short cuts the array (documented at 483-486) *)
Definition masked (filt : option (list bool)) (x : list fl) : list fl :=
  match filt with
  | None => x
  | Some f => map (fun p => if fst p : bool then snd p else NaN) (combine f x)
  end.
Definition linspace (mn mx : Q) (n : nat) : list fl :=
  map (fun i => Fin (mn + inject_Z (Z.of_nat i) * ((mx - mn) / inject_Z (Z.of_nat n)))) (seq 0 (n + 1)).
Definition fin_values (x : list fl) : list Q := flat_map (fun v => match v with Fin q => [q] | _ => [] end) x.
Definition qmin (a : Q) (l : list Q) : Q := fold_left (fun m q => if Qle_bool m q then m else q) l a.
Definition qmax (a : Q) (l : list Q) : Q := fold_left (fun m q => if Qle_bool q m then m else q) l a.
Definition qabs (a : Q) : Q := if Qle_bool 0 a then a else (- a)%Q.
Definition tolerance : Q := 1 # 1000.
Inductive bins_arg := NBins (n : nat) | Edges (e : list fl).
(** 633-659: the edges for a number of bins; the range is that of the non-NaN values, and only the
    case that they are finite is modelled *)
Definition equal_edges (x : list fl) (n : nat) : option (list fl) :=
  if existsb is_pinf x || existsb is_ninf x then None
  else match fin_values x with
       | [] => None
       | a :: r =>
           let mn := qmin a r in let mx := qmax a r in
           if Qeq_bool mn mx then
             let mn' := if Qeq_bool mn 0 then (mn - tolerance)%Q else (mn - tolerance * qabs mn)%Q in
             let mx' := if Qeq_bool mx 0 then (mx + tolerance)%Q else (mx + tolerance * qabs mx)%Q in
             Some (linspace mn' mx' n)
           else Some (linspace mn mx n)
       end.
(** 412-686 *)
Definition cut (x : list fl) (bins : bins_arg) (labels : labels_arg) (right : bool) (precision : nat) (filt : option (list bool)) (duplicates : dups) : cut_out :=
  let x := masked filt x in
  match bins with
  | NBins n =>
      if n <? 1 then CutRaise
      else if length x =? 0 then CutRaise
      else match equal_edges x n with
           | None => CutOutside
           | Some e => bins_to_cuts x e false right labels precision duplicates
           end
  | Edges e => if decreases e then CutRaise else bins_to_cuts x e false right labels precision duplicates
  end.

(** sort order of the floats, as in ArrModel.v *)
Variable lexsort : list fl -> list nat.
Inductive quant_arg := NQuant (n : nat) | Quants (q : list Q).
Definition quants (q : quant_arg) : list Q :=
  match q with
  | NQuant n => map (fun i => (0 + inject_Z (Z.of_nat i) * ((1 - 0) / inject_Z (Z.of_nat n)))%Q) (seq 0 (n + 1))
  | Quants l => l
  end.
Fixpoint all_somes {A} (l : list (option A)) : option (list A) :=
  match l with
  | [] => Some []
  | None :: _ => None
  | Some a :: r => match all_somes r with Some r => Some (a :: r) | None => None end
  end.
(** 155-261 *)
Definition qcut (x : list fl) (q : quant_arg) (labels : labels_arg) (precision : nat) (duplicates : dups) (filt : option (list bool)) : cut_out :=
  let x := masked filt x in
  match all_somes (map (bin_quantile lexsort Fraction x) (quants q)) with
  | None => CutRaise
  | Some bins => bins_to_cuts x bins true true labels precision duplicates
  end.
End Cut.
