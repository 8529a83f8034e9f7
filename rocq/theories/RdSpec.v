(* What one expects of reductions: along an axis, and of chosen elements. *)
From Coq Require Import List ZArith QArith Bool Permutation.
Import ListNotations.

(* ** Axes.  An array has one or two dimensions (a list of rows of the same
   length [cols]). *)
Section Shapes.
  Context {E R : Type}.
  Inductive arr := One (l : list E) | Two (cols : nat) (rows : list (list E)).
  Definition rect (a : arr) : Prop :=
    match a with One _ => True | Two c rows => Forall (fun r => length r = c) rows end.
  Fixpoint heads (rows : list (list E)) : list E :=
    match rows with [] => [] | [] :: r => heads r | (x :: _) :: r => x :: heads r end.
  (* the columns of a list of rows, from left to right *)
  Fixpoint columns (c : nat) (rows : list (list E)) : list (list E) :=
    match c with O => [] | S c' => heads rows :: columns c' (map (@tl E) rows) end.
  Definition elements (a : arr) : list E := match a with One l => l | Two _ rows => concat rows end.

  (* a result has a shape (empty for a single number) and values *)
  Record out := mkOut { shape : list nat; values : list R }.

  (* the result of [f] along an axis (None: of all elements), with keepdims *)
  Definition along (f : list E -> R) (a : arr) (axis : option Z) (keep : bool) : option out :=
    match a, axis with
    | One l, None | One l, Some 0%Z | One l, Some (-1)%Z => Some (mkOut (if keep then [1%nat] else []) [f l])
    | Two _ rows, None => Some (mkOut (if keep then [1%nat; 1%nat] else []) [f (concat rows)])
    | Two c rows, Some 0%Z | Two c rows, Some (-2)%Z =>
        Some (mkOut (if keep then [1%nat; c] else [c]) (map f (columns c rows)))
    | Two _ rows, Some 1%Z | Two _ rows, Some (-1)%Z =>
        Some (mkOut (if keep then [length rows; 1%nat] else [length rows]) (map f rows))
    | _, _ => None
    end.
End Shapes.
Arguments arr : clear implicits.
Arguments out : clear implicits.

(* ** Reductions of the elements of [x] at which the filter is True, exact
   (as rational numbers).  None is NaN. *)
Local Open Scope Q_scope.
Fixpoint chosen {A} (x : list A) (b : list bool) : list A :=
  match x, b with
  | v :: x', c :: b' => if c then v :: chosen x' b' else chosen x' b'
  | _, _ => []
  end.
Definition oadd (a b : option Q) : option Q := match a, b with Some x, Some y => Some (x + y) | _, _ => None end.
Definition total (l : list (option Q)) : option Q := fold_right oadd (Some 0) l.
Definition present (l : list (option Q)) : list (option Q) := filter (fun v => match v with Some _ => true | None => false end) l.
Definition size (l : list (option Q)) : Q := inject_Z (Z.of_nat (length l)).
Definition same (a b : option Q) : Prop :=
  match a, b with Some x, Some y => x == y | None, None => True | _, _ => False end.

(* [m] is the mean of [l]: their number times [m] is their total *)
Definition is_mean (l : list (option Q)) (m : option Q) : Prop :=
  match m with Some q => same (Some (size l * q)) (total l) | None => In None l end.
(* [v] is the variance of [l] (with the number of elements less one): it times
   that number is the sum of the squares of the differences to the mean. *)
Definition is_var (l : list (option Q)) (v : option Q) : Prop :=
  match v with
  | None => In None l \/ length l = 1%nat
  | Some q => (2 <= length l)%nat /\ exists m, is_mean l (Some m) /\
      same (Some ((size l - 1) * q)) (total (map (fun o => match o with Some x => Some ((x - m) * (x - m)) | None => None end) l))
  end.

(* How a parallel loop may run: the positions shared out over any number of
   threads, in any order within a thread and of the threads. *)
Definition schedule (n : nat) (s : list (list nat)) : Prop := Permutation (concat s) (seq 0 n).
