(** * Reductions of arrays: riptable/rt_fastarray.py and rt_numpy.py.

    Modelled: [_fnansumhelper], [_fnansum], [_fnanmean], [_fnanvar],
    [_fsumhelper], [_fmean], [_fvar] (rt_fastarray.py:150-241; [_fstd] and
    [_fnanstd] are the square roots of the variances and are left out),
    [FastArray._kwarg_check] and [_reduce_check] (2131-2196),
    [_fa_filter_wrapper] (3145-3159), [_fa_keyword_wrapper] (3161-3188), the
    methods nansum, mean, nanmean, var, nanvar, std, nanstd (3190-3844), nanmin,
    nanmax, argmin, argmax, nanargmin, nanargmax (3847-3864), and the functions
    nansum, mean, nanmean, median, nanmedian, var, nanvar, std, nanstd of
    rt_numpy.py (3275-3281, 3368-3447, 3628-4147).

    Not modelled: the class of the result (np.int64, np.float64, ...), arrays of
    strings and objects (raise TypeError), the keyword out=, Categoricals (their
    codes are used), rounding of floats. *)
From Coq Require Import List ZArith QArith Bool.
From Verif Require Import RdSpec.
Import ListNotations.

(** ** numba loops, 150-241.  A parallel loop with a sum: every thread starts
    from 0, then the sums of the threads are added. *)
Local Open Scope Q_scope.
Definition acc := (option Q * nat)%type.
Definition plus (a b : acc) : acc := (oadd (fst a) (fst b), (snd a + snd b)%nat).
Definition prange (body : nat -> acc -> acc) (s : list (list nat)) : acc :=
  fold_left (fun a t => plus a (fold_left (fun a i => body i a) t (Some 0, 0%nat))) s (Some 0, 0%nat).

(** the value at a position; 135-147 for [_isnan] *)
Definition at_ (x : list (option Q)) (i : nat) : option Q := nth i x None.
Definition isnan (v : option Q) : bool := match v with None => true | Some _ => false end.
Definition on (filt : list bool) (i : nat) : bool := nth i filt false.

(** 150-158 *)
Definition fnansumhelper (s : list (list nat)) (x : list (option Q)) (filt : list bool) : acc :=
  prange (fun i a => if on filt i && negb (isnan (at_ x i)) then (oadd (fst a) (at_ x i), S (snd a)) else a) s.
(** 199-207 *)
Definition fsumhelper (s : list (list nat)) (x : list (option Q)) (filt : list bool) : acc :=
  prange (fun i a => if on filt i then (oadd (fst a) (at_ x i), S (snd a)) else a) s.

(** a result; dividing by zero raises *)
Inductive res (A : Type) := Ok (a : A) | ZeroDivision | Raise.
Arguments Ok {A} a. Arguments ZeroDivision {A}. Arguments Raise {A}.
Definition odiv (a : option Q) (n : nat) : res (option Q) :=
  match n with
  | O => ZeroDivision
  | _ => Ok (match a with Some x => Some (x / inject_Z (Z.of_nat n)) | None => None end)
  end.

(** 161-168, 210-216 *)
Definition fnansum s x filt : res (option Q) := Ok (fst (fnansumhelper s x filt)).
Definition fnanmean s x filt : res (option Q) := let (tot, n) := fnansumhelper s x filt in odiv tot n.
Definition fmean s x filt : res (option Q) := let (tot, n) := fsumhelper s x filt in odiv tot n.

Definition osquare (v m : option Q) : option Q :=
  match v, m with Some x, Some y => Some ((x - y) * (x - y)) | _, _ => None end.
(** 171-192; two parallel loops, each with a schedule of its own *)
Definition fnanvar (s s2 : list (list nat)) x filt : res (option Q) :=
  let (abc, length) := fnansumhelper s x filt in
  match odiv abc length with
  | Ok mean =>
      let ret := fst (prange (fun i a => if on filt i && negb (isnan (at_ x i))
                                         then (oadd (fst a) (osquare (at_ x i) mean), S (snd a)) else a) s2) in
      if Nat.ltb 1 length then odiv ret (length - 1) else Ok None
  | e => e
  end.
(** 219-241 *)
Definition fvar (s s2 : list (list nat)) x filt : res (option Q) :=
  let (abc, length) := fsumhelper s x filt in
  match odiv abc length with
  | Ok mean =>
      let ret := fst (prange (fun i a => if on filt i
                                         then (oadd (fst a) (osquare (at_ x i) mean), S (snd a)) else a) s2) in
      if Nat.ltb 1 length then odiv ret (length - 1) else Ok None
  | e => e
  end.

(** ** 3145-3159: the filter may be True, False or an array *)
Inductive filt := FAll | FNone | FArr (b : list bool).
Definition fa_filter_wrapper (my : list (option Q) -> list bool -> res (option Q)) (x : list (option Q)) (f : filt) : res (option Q) :=
  let b := match f with FAll => repeat true (length x) | FNone => repeat false (length x) | FArr b => b end in
  if negb (Nat.eqb (length b) (length x)) then Raise else my x b.

(** ** Keywords *)
Inductive kind := NanSum | Mean | NanMean | Var | NanVar | Std | NanStd
                | NanMin | NanMax | ArgMin | ArgMax | NanArgMin | NanArgMax.
Definition has_ddof (k : kind) : bool := match k with Var | NanVar | Std | NanStd => true | _ => false end.
Definition wrapped (k : kind) : bool :=
  match k with NanSum | Mean | NanMean | Var | NanVar | Std | NanStd => true | _ => false end.
(** 608-613 *)
Definition has_identity (k : kind) : bool := match k with NanSum => true | _ => false end.

(** keywords given: axis (also axis=None), keepdims, ddof, dtype *)
Record kw {D} := mkKw { k_axis : option (option Z); k_keep : option bool; k_ddof : option Z; k_dtype : option D }.
Arguments kw : clear implicits.

Section Reduce.
  Context {E R D : Type}.
  (** Contracts.  [eng k l]: the engine on the elements [l] (ddof=1); [stat k
      ddof l]: numpy; [zero]: 0; [stat_as]: numpy's computation in another
      dtype; [cast]: a result turned into a dtype. *)
  Variable eng : kind -> list E -> R.
  Variable stat : kind -> Z -> list E -> R.
  Variable stat_as : D -> kind -> Z -> list E -> R.
  Variable cast : D -> R -> R.
  Variable zero : R.

  (** numpy's functions: along the axis, ddof=0 unless given *)
  Definition np (k : kind) (a : arr E) (w : kw D) : res (out R) :=
    let ddof := match k_ddof w with Some d => d | None => 0%Z end in
    let f := match k_dtype w with Some t => stat_as t k ddof | None => stat k ddof end in
    match along f a (match k_axis w with Some x => x | None => None end)
                (match k_keep w with Some b => b | None => false end) with
    | Some o => Ok o
    | None => Raise
    end.

  (** 2131-2134 *)
  Definition kwarg_check (w : kw D) : bool :=
    match k_ddof w with Some d => negb (Z.eqb d 1) | None => false end
    || match k_axis w with Some _ => true | None => false end
    || match k_keep w with Some _ => true | None => false end.

  (** 2137-2196.  The engine reduces arrays of one dimension, with ddof=1, and
      answers None for an empty array. *)
  Definition reduce_check (k : kind) (a : arr E) (w : kw D) : res (out R) :=
    match a with
    | One l =>
        if kwarg_check w then
          np k a (if has_ddof k && match k_ddof w with None => true | _ => false end
                  then mkKw _ (k_axis w) (k_keep w) (Some 1%Z) (k_dtype w) else w)
        else
          let result := match l with [] => if has_identity k then Some zero else None | _ => Some (eng k l) end in
          match result with
          | None => Raise
          | Some r => Ok (mkOut [] [match k_dtype w with Some t => cast t r | None => r end])
          end
    | Two _ _ =>
        np k a (if has_ddof k && match k_ddof w with None => true | _ => false end
                then mkKw _ (k_axis w) (k_keep w) (Some 1%Z) (k_dtype w) else w)
    end.

  (** 3161-3188: [if axis:], [if keepdims:] *)
  Definition fa_keyword_wrapper (w : kw D) : kw D :=
    mkKw _ (match k_axis w with Some (Some a) => if Z.eqb a 0 then None else Some (Some a) | _ => None end)
           (match k_keep w with Some true => Some true | _ => None end)
           (k_ddof w) (k_dtype w).

  (** 3190-3864 without a filter.  ddof= for a method that does not know it
      raises (given twice to the wrapper; nanmin and the like hand it to numpy,
      which refuses it; ddof=1, ignored there, is left out). *)
  Definition method (k : kind) (a : arr E) (w : kw D) : res (out R) :=
    if wrapped k then
      if negb (has_ddof k) && match k_ddof w with Some _ => true | None => false end then Raise
      else reduce_check k a (fa_keyword_wrapper w)
    else
      match k_ddof w with Some _ => Raise | None => reduce_check k a w end.
End Reduce.

(** ** rt_numpy.py: what the functions of the module do with their arguments.
    [FA]: a FastArray; [Lst]: a list; positional arguments after the first. *)
Inductive func := FReduce (k : kind) | FMedian | FNanMedian.
Inductive target := FA | Lst.
Inductive call :=
| ToMethod (k : kind) (positional : bool)   (* the array's method; with the positional arguments? *)
| ToNumpy (f : func) (positional : bool)    (* numpy's function *)
| NoSuchBuiltin.                            (* builtins has no such function: AttributeError *)
(** 3443-3447, 3698-3702, 3780-3784, 3788-3800, 3880-3884, 3968-3972,
    4053-4057, 4143-4147, 3467-3479 *)
Definition dispatch (f : func) (t : target) : call :=
  match f, t with
  | FReduce NanSum, FA => ToMethod NanSum true
  | FReduce NanSum, Lst => ToNumpy f true
  | FReduce k, FA => ToMethod k false
  | FReduce (Var | Std), Lst => NoSuchBuiltin
  | FReduce _, Lst => ToNumpy f true
  | FMedian, FA => ToNumpy f true
  | FMedian, Lst => NoSuchBuiltin
  | FNanMedian, _ => ToNumpy f true
  end.

Section Function.
  Context {E R D : Type}.
  Variable eng : kind -> list E -> R.
  Variable stat : kind -> Z -> list E -> R.
  Variable stat_as : D -> kind -> Z -> list E -> R.
  Variable cast : D -> R -> R.
  Variable zero : R.
  (** rt.nanvar(x, axis?, keywords): [pos] is a second positional argument, as
      in numpy's functions the axis.  A list is an array of one dimension for
      numpy.  The first positional parameter of the method nansum is the filter:
      an axis there has no length and raises. *)
  Definition function (k : kind) (t : target) (a : arr E) (pos : option Z) (w : kw D) : res (out R) :=
    match dispatch (FReduce k) t with
    | ToMethod k' p =>
        match pos with
        | Some _ => if p then Raise else method eng stat stat_as cast zero k' a w
        | None => method eng stat stat_as cast zero k' a w
        end
    | ToNumpy _ p =>
        match pos with
        | Some ax => match k_axis w with
                     | Some _ => Raise
                     | None => np stat stat_as k a (mkKw _ (if p then Some (Some ax) else None) (k_keep w) (k_ddof w) (k_dtype w))
                     end
        | None => np stat stat_as k a w
        end
    | NoSuchBuiltin => Raise
    end.
End Function.

(** ** Integers: [_isnan] of an integer is being the invalid of its type; the
    engine leaves invalids out of nansum, numpy knows nothing of them. *)
Definition eng_nansum (inv : Z) (l : list Z) : Z := fold_right Z.add 0%Z (filter (fun v => negb (Z.eqb v inv)) l).
Definition np_nansum (l : list Z) : Z := fold_right Z.add 0%Z l.
