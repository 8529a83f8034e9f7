(** Vocabulary for the statements about Datasets with totals (C133-C138). *)
From Coq Require Import List Arith Bool ZArith.
From Verif Require Import FlattenModel DsModel AggModel AggSpec Acc2Model Acc2Spec MargModel.
Import ListNotations.

Section Spec.
Context {V : Type}.
Variable inv : V.

(** label columns [KN], then data columns [CN], then summary columns [SN], all of [n] rows *)
Definition laid_out (KN CN SN : list name) (n : nat) (m : mds (V := V)) : Prop :=
  map fst (m_cols m) = KN ++ CN ++ SN /\ NoDup (KN ++ CN ++ SN) /\ m_labels m = KN /\ m_sums m = SN /\
  forall c v, In (c, v) (m_cols m) -> length v = n.
Definition col (c : name) (m : mds (V := V)) : option (list V) := dget c (m_cols m).
(** the footer row [l]: the value under column [c], if it is set *)
Definition foot (l : name) (m : mds (V := V)) (c : name) : option V :=
  match dget l (m_foot m) with Some fd => dget c fd | None => None end.
(** the value under a column, NaN if it is not set *)
Definition value (vals : list (name * V)) (c : name) : V := match dget c vals with Some v => v | None => inv end.
Definition rowwise (op : V -> V -> V) (u v w : list V) : Prop :=
  length w = length u /\ forall i x y, nth_error u i = Some x -> nth_error v i = Some y -> nth_error w i = Some (op x y).

(** a table with one column [s] of totals and one row [f] of totals, under its data columns and [s] *)
Definition totalled (KN CN : list name) (n : nat) (s f : name) (m : mds (V := V)) : Prop :=
  laid_out KN CN [s] n m /\ exists fd, m_foot m = [(f, fd)] /\ NoDup (map fst fd) /\ incl (map fst fd) (CN ++ [s]).

(** every footer value is under a column *)
Definition footed (m : mds (V := V)) : Prop := forall l fd, In (l, fd) (m_foot m) -> NoDup (map fst fd) /\ incl (map fst fd) (map fst (m_cols m)).
(** the totals of such a table: of the rows, of a data column, of all *)
Definition row_totals (m : mds (V := V)) : option (list V) := match m_sums m with [s] => col s m | _ => None end.
Definition col_total (m : mds (V := V)) (c : name) : option V := match m_foot m with [(_, fd)] => dget c fd | _ => None end.
Definition grand_total (m : mds (V := V)) : option V := match m_sums m with [s] => col_total m s | _ => None end.

(** ** blank rows and columns *)
Variable blank : V -> bool.
Definition blank_col (v : list V) : Prop := forall x, In x v -> blank x = true.
(** row [i] of the columns [vs] *)
Definition blank_row (vs : list (list V)) (i : nat) : Prop := forall v x, In v vs -> nth_error v i = Some x -> blank x = true.
(** [keep] drops the blank rows, unless there is nothing but blanks *)
Definition kept (keep : list bool) : nat := length (filter (fun b => b) keep).
Definition keeps_rows (n : nat) (vs : list (list V)) (keep : list bool) : Prop :=
  length keep = n /\ forall i, i < n -> (nth_error keep i = Some false <-> blank_row vs i /\ exists v, In v vs /\ ~ blank_col v).
Fixpoint chosen {A} (keep : list bool) (l : list A) : list A :=
  match keep, l with b :: k, x :: r => if b then x :: chosen k r else chosen k r | _, _ => [] end.

(** the columns that are not labels *)
Definition data_of (m : mds (V := V)) : list (list V) :=
  map snd (filter (fun p => if in_dec name_dec (fst p) (m_labels m) then false else true) (m_cols m)).

(** ** histories of an AccumTable *)
(** the last table given under the name [k] *)
Fixpoint given (ops : list (top (V := V))) (k : name) : option (mds (V := V)) :=
  match ops with
  | [] => None
  | o :: r => match given r k with
              | Some d => Some d
              | None => match o with TSet k' d => if name_dec k' k then Some d else None | _ => None end
              end
  end.
(** the names chosen: by default all, in the order first given *)
Definition first_once (l : list name) : list name := rev (nodup name_dec (rev l)).
Definition then_names (pick : top (V := V) -> option (list name)) (l : list name) (o : top (V := V)) : list name :=
  match pick o with
  | Some l' => first_once l'
  | None => match o with TSet k _ => if in_dec name_dec k l then l else l ++ [k] | _ => l end
  end.
Definition margins_of (ops : list (top (V := V))) : list name :=
  fold_left (then_names (fun o => match o with TMargins l => Some l | _ => None end)) ops [].
Definition footers_of (ops : list (top (V := V))) : list name :=
  fold_left (then_names (fun o => match o with TFooters l => Some l | _ => None end)) ops [].
(** the table last given, read or generated *)
Definition current (ops : list (top (V := V))) : option name :=
  fold_left (fun c o => match o with TSet k _ => Some k | TGet k => Some k | TGen (Some k) _ => Some k | _ => c end) ops None.
(** the table a call of gen is about *)
Definition subject (ops : list (top (V := V))) (nm : option name) : option name := match nm with Some k => Some k | None => current ops end.
Definition besides (k : name) (l : list name) : list name := filter (fun c => if name_dec c k then false else true) l.
(** what ops may be: tables of one shape, under names that are not columns of it *)
Definition fits (KN CN : list name) (n : nat) (o : top (V := V)) : Prop :=
  match o with
  | TSet k d => ~ In k (KN ++ CN) /\ exists s f, totalled KN CN n s f d
  | _ => True
  end.

(** ** two-way tables of results *)
Section Tables.
Variable label : list V -> name.
Variable inv_label : nat -> name.
Variables (ylab : name) (tr tc : table (V := V)) (pr pc : list nat).
Notation KN := (key_names ylab tr).
Notation CN := (col_labels inv label inv_label tc pc).
Notation lab := (col_label inv label inv_label tc).
(** the table [t] with the cells [cellv i k] (row key [i], column key [k]) and the totals [rowt i], [colt k], [tot],
    further columns of row totals and footer rows of column totals with their grand total; of the columns with
    [f] and the rows with [keep] *)
Definition presents (f : name -> bool) (keep : list bool) (t : name) (cellv : nat -> nat -> V) (rowt colt : nat -> V) (tot : V)
           (marg : list (name * (nat -> V))) (footers : list (name * ((nat -> V) * V))) (r : mds (V := V)) : Prop :=
  laid_out KN (filter f CN) (filter f [t] ++ map fst marg) (kept keep) r /\
  (forall q k u, nth_error tr q = Some (k, u) -> exists k', nth_error KN q = Some k' /\ col k' r = Some (chosen keep (reorder inv u pr))) /\
  (forall j k, nth_error pc j = Some k -> f (lab j k) = true -> col (lab j k) r = Some (chosen keep (map (fun i => cellv i k) pr))) /\
  (f t = true -> col t r = Some (chosen keep (map rowt pr))) /\
  (forall m g, In (m, g) marg -> col m r = Some (chosen keep (map g pr))) /\
  map fst (m_foot r) = t :: map fst footers /\
  (forall m g tot', In (m, (g, tot')) ((t, (colt, tot)) :: footers) ->
     (forall j k, nth_error pc j = Some k -> f (lab j k) = true -> foot m r (lab j k) = Some (g k)) /\
     (forall s, In s (filter f [t] ++ map fst marg) -> foot m r s = if name_dec s m then Some tot' else None)) /\
  footed r.
(** which columns and rows these are *)
Definition without_blanks (rb : bool) (R : nat) (f : name -> bool) (keep : list bool) (t : name) (cellv : nat -> nat -> V) (rowt : nat -> V) : Prop :=
  if rb then
    (forall j k, nth_error pc j = Some k -> (f (lab j k) = false <-> blank_col (map (fun i => cellv i k) pr))) /\
    (f t = false <-> blank_col (map rowt pr)) /\
    keeps_rows R (map (fun k => map (fun i => cellv i k) pr) pc ++ [map rowt pr]) keep
  else (forall c, f c = true) /\ keep = repeat true R.
End Tables.

(** percentages [pct x y] of the grand total, of the total of the row or of the total of the column *)
Definition percent_cell (pct : V -> V -> V) (n : norm) (cellv : nat -> nat -> V) (rowt colt : nat -> V) (tot : V) (i k : nat) : V :=
  pct (cellv i k) (match n with ByTable => tot | ByRow => rowt i | ByColumn => colt k end).
Definition percent_row (pct : V -> V -> V) (n : norm) (rowt : nat -> V) (tot : V) (i : nat) : V := pct (rowt i) (match n with ByRow => rowt i | _ => tot end).
(** in the footer *)
Definition percent_total (pct : V -> V -> V) (hundred : V) (n : norm) (tot x : V) : V := match n with ByColumn => hundred | _ => pct x tot end.

(** one column of accum_cols: the entry of the rows [s]; [agg v s] aggregates the values [v] of those rows, [all] is every row *)
Definition entry (div pct : V -> V -> V) (x : col_arg (V := V)) (agg : list V -> (nat * nat -> bool) -> V) (all s : nat * nat -> bool) : V :=
  match x with Plain v => agg v s | Percent v => pct (agg v s) (agg v all) | Ratio v w => div (agg v s) (agg w s) end.
Definition arrays (x : col_arg (V := V)) : list (list V) := match x with Plain v => [v] | Percent v => [v] | Ratio v w => [v; w] end.
End Spec.
