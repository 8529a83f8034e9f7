(** Model of the grouped calculations that riptable's python code puts together itself: count_uniques and agg
    (rt_groupbyops.py:859-1113) and the quantiles (rt_groupbyops.py:1502-1794, 2997-3083, rt_fastarray.py:2609-2612,
    rt_utils.py:1172-1185, rt_numpy.py:4153-4245).  The results of the single calculations and the key columns are those of
    AggModel. *)
From Coq Require Import List Arith Bool ZArith Lia.
From Verif Require Import FlattenModel DsModel GroupModel GroupingModel AggModel.
Import ListNotations.

(** ---------- count_uniques ---------- *)
Section Uniques.
Context {V : Type}.
Variable veq : forall a b : V, {a = b} + {a <> b}.
Variable inv : V.
Variable lexsort : list (list V) -> list nat.
Variable binname : list V -> V.
(** the cell that holds a count *)
Variable num : nat -> V.

(** rt_grouping.py:1414-1438 [catinstance]: the codes as the Categorical holds them: from 1, from 0 with base index 0, and the
    codes of the mapping ([enum_codes]) for a mapped Categorical (taken to be natural numbers).  The -1 of a filtered row with base
    index 0 is left out (0 here). *)
Definition catinstance (enum_codes : list nat) (o : gobj (V := V)) : list nat :=
  match o_base o with None => enum_codes | Some 0 => map pred (o_ikey o) | Some _ => o_ikey o end.
Definition pair_dec (a b : nat * V) : {a = b} + {a <> b}.
Proof. decide equality. apply Nat.eq_dec. Defined.
Definition rows_passing {X} (flt : option (list bool)) (l : list X) : list X :=
  match flt with None => l | Some f => map snd (filter (fun p => fst p) (combine f l)) end.
(** 1088: the different pairs of code and value in the rows that pass: the keys of the Categorical of two arrays (grouping by
    contract) *)
Definition pairs (codes : list nat) (flt : option (list bool)) (x : list V) : list (nat * V) :=
  nodup pair_dec (rows_passing flt (combine codes x)).
(** 1092-1096: how many pairs each code has, stored by code; a code beyond the array raises *)
Definition uniques_col (codes : list nat) (flt : option (list bool)) (showfilter : bool) (rows : nat) (x : list V) : option (list V) :=
  let cs := pairs codes flt x in
  if forallb (fun p => fst p <? S rows) cs
  then let result := map (fun b => num (length (filter (fun p => fst p =? b) cs))) (seq 0 (S rows)) in
       Some (if showfilter then result else skipn 1 result)
  else None.
Fixpoint uniques_cols (codes : list nat) (flt : option (list bool)) (showfilter : bool) (rows : nat) (d : list (name * list V))
  : option (list (name * list V)) :=
  match d with
  | [] => Some []
  | (c, x) :: r => match uniques_col codes flt showfilter rows x, uniques_cols codes flt showfilter rows r with
                   | Some v, Some r' => Some ((c, v) :: r')
                   | _, _ => None
                   end
  end.
(** 1037-1113 (the fast code, transform=False) *)
Definition count_uniques (enum_codes : list nat) (data : list (name * list V)) (flt : option (list bool)) (showfilter : bool)
           (o : gobj (V := V)) : gobj (V := V) * option (list (name * list V)) :=
  let '(c1, gbk) := gbkeys inv lexsort (o_kc o) in
  let rows := match gbk with (_, v) :: _ => length v | [] => 0 end in
  match uniques_cols (catinstance enum_codes o) flt showfilter rows (filter (fun p => negb (mem (fst p) (map fst gbk))) data) with
  | None => (with_kc c1 o, None)
  | Some newdict =>
      let '(c2, gb) := if showfilter then gbkeys_filtered inv lexsort binname c1 else gbkeys inv lexsort c1 in
      let '(c3, ds) := finalize_dataset inv lexsort newdict c2 gb false showfilter true in
      (with_kc c3 o, ds)
  end.

(** ---------- agg ---------- *)
(** the functions by name ([None]: not in AggNames, 885-887) and str.capitalize *)
Variable func : name -> option (list V -> V).
Variable capitalize : name -> name.
Variable usable : name -> bool.
(** 991-1003: for each function the columns it is to be applied to; [None]: raises *)
Fixpoint add_ops (c : name) (ops : list name) (fd : list (name * list name)) : option (list (name * list name)) :=
  match ops with
  | [] => Some fd
  | op :: r => match func op with
               | None => None
               | Some _ => add_ops c r (dset op ((match dget op fd with Some l => l | None => [] end) ++ [c]) fd)
               end
  end.
Fixpoint func_dict (data : list (name * list V)) (spec : list (name * list name)) (fd : list (name * list name))
  : option (list (name * list name)) :=
  match spec with
  | [] => Some fd
  | (c, ops) :: r => if mem c (map fst data) then match add_ops c ops fd with Some fd' => func_dict data r fd' | None => None end else None
  end.
(** 1006-1008: one calculation for each function; the Multiset requires the same number of rows *)
Fixpoint run_funcs (fd : list (name * list name)) (data : list (name * list V)) (flt : option (list bool))
         (ms : list (name * list (name * list V))) (o : gobj (V := V)) : gobj (V := V) * option (list (name * list (name * list V))) :=
  match fd with
  | [] => (o, Some ms)
  | (op, cs) :: r =>
      match func op with
      | None => (o, None)
      | Some f =>
          let '(o1, ds) := calculate inv lexsort binname (fun c => usable c && mem c cs) f data flt false false o in
          match ds with
          | None => (o1, None)
          | Some d => run_funcs r data flt (dset (capitalize op) d ms) o1
          end
      end
  end.
(** 890-1011 with a dictionary *)
Definition agg (spec : list (name * list name)) (data : list (name * list V)) (flt : option (list bool)) (o : gobj (V := V))
  : gobj (V := V) * option (list (name * list (name * list V))) :=
  match spec with
  | [] => (o, None)
  | _ => match func_dict data spec [] with None => (o, None) | Some fd => run_funcs fd data flt [] o end
  end.
End Uniques.

(** ---------- quantiles: the number that is passed to C++ ---------- *)
Open Scope Z_scope.
(** a float64 that is not negative: mantissa and exponent *)
Definition dyadic := (Z * Z)%type.
(** numerator and denominator *)
Definition frac_of (d : dyadic) : Z * Z := (fst d * 2 ^ Z.max 0 (snd d), 2 ^ Z.max 0 (- snd d)).
(** the nearest integer to a / b, to even when in the middle *)
Definition round_even (a b : Z) : Z :=
  let f := a / b in
  let r := a mod b in
  if (2 * r <? b) || ((2 * r =? b) && Z.even f) then f else f + 1.
(** IEEE 754: a / b (0 < a, 0 < b) in 53 bits; very small and very large numbers left out *)
Definition round53 (a b : Z) : dyadic :=
  if a =? 0 then (0, 0)
  else let e0 := Z.log2 a - Z.log2 b - 52 in
       let at_exp e := round_even (a * 2 ^ Z.max 0 (- e)) (b * 2 ^ Z.max 0 e) in
       if a * 2 ^ Z.max 0 (- e0) <? 2 ^ 52 * (b * 2 ^ Z.max 0 e0) then (at_exp (e0 - 1), e0 - 1) else (at_exp e0, e0).
Definition billion : Z := 10 ^ 9.
(** q * 1e9 and int() of it, rt_groupbyops.py:1726 and rt_utils.py:1179 *)
Definition times_billion (q : dyadic) : Z :=
  let '(a, b) := frac_of q in let '(x, y) := frac_of (round53 (a * billion) b) in x / y.
(** rt_groupbyops.py:1720-1731 *)
Definition quantile_param (q : dyadic) (is_nan : bool) : Z := times_billion q + (if is_nan then billion + 1 else 0).
(** rt_groupbyops.py:1734-1747; the division is left to the use *)
Definition param_quantile (p : Z) : Z * bool := if billion + 1 <=? p then (p - (billion + 1), true) else (p, false).
(** rt_groupbyops.py:1581-1582 *)
Definition percent (q : dyadic) : dyadic := let '(a, b) := frac_of q in round53 a (b * 100).
(** rt_utils.py:1172-1185 *)
Definition rolling_param (q : dyadic) (window : Z) : Z := times_billion q + window * (billion + 1).

(** sorting of the values *)
Fixpoint zinsert (x : Z) (l : list Z) : list Z := match l with [] => [x] | y :: r => if x <=? y then x :: l else y :: zinsert x r end.
Definition zsort (l : list Z) : list Z := fold_right zinsert [] l.
(** the two neighbours of which the midpoint is taken: rt_numpy.py:4153-4245 ("midpoint") and the C++ function by contract, at the
    quantile k / 1e9, position and division exact.  Values are integers; the result stands for half the sum. *)
Definition neighbours (k : Z) (l : list Z) : Z * Z :=
  let s := zsort l in
  let pos := k * (Z.of_nat (length l) - 1) in
  (nth (Z.to_nat (pos / billion)) s 0, nth (Z.to_nat ((pos + billion - 1) / billion)) s 0).
(** [None] in the list: NaN.  nanquantile leaves them out, quantile answers NaN ([None]) *)
Definition somes (l : list (option Z)) : list Z := flat_map (fun x => match x with Some z => [z] | None => [] end) l.
Definition gb_quantile (p : Z) (l : list (option Z)) : option (Z * Z) :=
  let '(k, is_nan) := param_quantile p in
  let v := somes l in
  match v with
  | [] => None
  | _ => if is_nan || (length v =? length l)%nat then Some (neighbours k v) else None
  end.
(** rt_groupbyops.py:1562-1584, 1609, 1624 for one q, and what C++ does with it; [None] outside: q out of range raises *)
Definition quantile1 (is_nan is_percentile : bool) (q : dyadic) (l : list (option Z)) : option (option (Z * Z)) :=
  let '(a, b) := frac_of q in
  if (0 <=? a) && (a <=? (if is_percentile then 100 else 1) * b)
  then Some (gb_quantile (quantile_param (if is_percentile then percent q else q) is_nan) l)
  else None.
(** rt_fastarray.py:2609-2612, rt_groupbyops.py:3031-3037: the row number r gets the quantile of the last rows, as many as the window
    has; C++ (by contract) takes the window and the quantile from the parameter; NaN are left out (np_rolling_nanquantile,
    rt_numpy.py:4248-4254) *)
Definition rolling_quantile (q : dyadic) (window : Z) (l : list (option Z)) : list (option (Z * Z)) :=
  let p := rolling_param q (Z.min window (Z.of_nat (length l))) in
  let w := p / (billion + 1) in
  let k := p mod (billion + 1) in
  map (fun r => let rows := skipn (S r - Z.to_nat w) (firstn (S r) l) in
                match somes rows with [] => None | v => Some (neighbours k v) end)
      (seq 0 (length l)).
Close Scope Z_scope.

(** ---------- quantiles: the columns for several q ---------- *)
Section Columns.
Context {V Q : Type}.
(** f"{q:.{precision}g}" *)
Variable fmt : nat -> Q -> name.
Fixpoint distinct_names (l : list name) : bool :=
  match l with [] => true | n :: r => negb (mem n r) && distinct_names r end.
(** rt_groupbyops.py:1657-1659: the loop ends, as floats differ in at most 17 digits *)
Fixpoint precision_from (fuel p : nat) (qs : list Q) : nat :=
  match fuel with
  | O => p
  | S f => if distinct_names (map (fmt p) qs) then p else precision_from f (S p) qs
  end.
Definition precision (qs : list Q) : nat := precision_from 20 3 qs.
(** rt_groupbyops.py:1655, 1661-1662: "_q" or "_p" and the number with "." replaced by "_" *)
Definition suffix (letter : nat) (qs : list Q) (q : Q) : name :=
  95 :: letter :: map (fun c => if c =? 46 then 95 else c) (fmt (precision qs) q).
Definition letter_of (is_percentile : bool) : nat := if is_percentile then 112 else 113.
(** zip( *lists) and the names one after the other *)
Fixpoint interleave {X} (n : nat) (ls : list (list X)) : list X :=
  match n with
  | O => []
  | S m => flat_map (fun l => match l with x :: _ => [x] | [] => [] end) ls ++ interleave m (map (fun l => tl l) ls)
  end.
Definition zip_names {X} (ls : list (list X)) : list X := interleave (fold_right Nat.min (match ls with l :: _ => length l | [] => 0 end) (map (@length X) ls)) ls.
(** rt_struct.py:3449-3496 col_move_to_front: these first, in this order, then the others *)
Definition to_front (ns : list name) (d : list (name * list V)) : list (name * list V) :=
  flat_map (fun n => match dget n d with Some v => [(n, v)] | None => [] end) ns ++ filter (fun p => negb (mem (fst p) ns)) d.
(** rt_groupbyops.py:1632-1715 (no footers) and 3039-3067 ([keys] = []): [answers]: the results for each q, with the key columns;
    [None]: raises (concat_columns refuses two columns of one name) *)
Definition together (letter : nat) (keys : list name) (transform : bool) (answers : list (Q * list (name * list V)))
  : option (list (name * list V)) :=
  match answers with
  | [] => None
  | [(_, d)] => Some d
  | (_, d0) :: _ =>
      let qs := map fst answers in
      let kcols := if transform then [] else flat_map (fun n => match dget n d0 with Some v => [(n, v)] | None => [] end) keys in
      let datas := map (fun a => map (fun p => (fst p ++ suffix letter qs (fst a), snd p))
                                     (if transform then snd a else filter (fun p => negb (mem (fst p) keys)) (snd a))) answers in
      let all := concat datas ++ kcols in
      if distinct_names (map fst all) then Some (to_front (zip_names (map (map fst) datas)) all) else None
  end.
End Columns.
