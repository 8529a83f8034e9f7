(** * Operations on masks and on the rows of Datasets.

    Modelled: [_mask_op] and the functions mask_or, mask_and, mask_xor,
    mask_andnot and their in-place versions (riptable/rt_numpy.py:5504-5610);
    [Struct.label_filter] (rt_struct.py:2959-3061) with [FastArray.apply]
    (rt_fastarray.py:5470-5472); [Dataset.asrows] (rt_dataset.py:3067-3120);
    [Dataset.imatrix_make] (1912-2008; only columns of integers) with
    [IMatrix.rebuild] (rt_imatrix.py:47-58), [imatrix_y], [_imatrix_y_internal],
    [imatrix_xy] and [imatrix_totals] (rt_dataset.py:2012-2160);
    [Dataset.computable] and [_mask_reduce] (4475-4483, 4519-4539) with the mask_
    methods (4541-4760); [_apply_outlier] and [outliers] (4415-4472). *)
From Coq Require Import List ZArith Bool.
From Verif Require Import FlattenModel RoSpec.
Import ListNotations.

(** a name in a list of names *)
Definition mem (n : name) (l : list name) : bool := existsb (fun m => if name_dec m n then true else false) l.

(** ** Masks, rt_numpy.py:5550-5610.  All arguments are of type bool (others
    raise TypeError); a list given as the only argument is taken for the
    arguments.  The operation on two inputs is the engine's: None (not
    supported) for arrays of different lengths (an array of length 1 beside a
    longer one, and two single bools, are not modelled). *)
Definition map2 (op : bool -> bool -> bool) (a b : list bool) : list bool := map (fun p => op (fst p) (snd p)) (combine a b).
Definition two (op : bool -> bool -> bool) (h : heap) (a b : arg) : option (list bool) :=
  match a, b with
  | Ref i, Ref j => if Nat.eqb (length (array h i)) (length (array h j)) then Some (map2 op (array h i) (array h j)) else None
  | Ref i, Scal c => Some (map (fun x => op x c) (array h i))
  | Scal c, Ref j => Some (map (op c) (array h j))
  | Scal _, Scal _ => None
  end.
Fixpoint upd (i : nat) (v : list bool) (h : heap) : heap :=
  match h, i with [], _ => [] | _ :: r, O => v :: r | x :: r, S i' => x :: upd i' v r end.
(** 5599-5601, 5606-5608: into the result, in place *)
Fixpoint mask_loop (op : bool -> bool -> bool) (h : heap) (res : nat) (rest : list arg) : heap * option arg :=
  match rest with
  | [] => (h, Some (Ref res))
  | x :: r => match two op h (Ref res) x with
              | None => (h, None)
              | Some v => mask_loop op (upd res v h) res r
              end
  end.
(** the memory afterwards, and the result (None: it raises) *)
Definition mask_op (op : bool -> bool -> bool) (inplace : bool) (h : heap) (args : list arg) : heap * option arg :=
  match args with
  | [] => (h, None)
  | [a] => (h, Some a)
  | a :: b :: rest =>
      if inplace then
        match a with
        | Scal _ => (h, None)
        | Ref i => mask_loop op h i (b :: rest)
        end
      else
        match two op h a b with
        | None => (h, None)
        | Some v => mask_loop op (h ++ [v]) (length h) rest
        end
  end.

(** ** label_filter, rt_struct.py:2959-3061 *)
Definition text_eqb (a b : text) : bool := if list_eq_dec Nat.eq_dec a b then true else false.
(** [item == col]; numbers with strings are not modelled (None) *)
Definition eq_col (it : value) (c : col) : option (list bool) :=
  match it, c with
  | VNum z, CNum l => Some (map (Z.eqb z) l)
  | VTxt t, CTxt _ l => Some (map (text_eqb t) l)
  | _, _ => None
  end.
Definition eq_val (a b : value) : bool :=
  match a, b with VNum x, VNum y => Z.eqb x y | VTxt x, VTxt y => text_eqb x y | _, _ => false end.
(** an array of items compared with a column, position by position *)
Definition eq_arr (its : list value) (c : col) : option (list bool) :=
  if Nat.eqb (length its) (clen c) then Some (map (fun p => eq_val (snd p) (cell c (fst p))) (combine (seq 0 (length its)) its)) else None.
(** items= : a value, a list of values, or an array (or tuple) of values *)
Inductive items := IOne (v : value) | IMany (l : list value) | IArr (l : list value).
(** like= : strings, each bytes or str *)
Inductive likes := LOne (bytes : bool) (t : text) | LMany (l : list (bool * text)).

Fixpoint is_prefix (p t : text) : bool :=
  match p, t with [], _ => true | x :: p', y :: t' => Nat.eqb x y && is_prefix p' t' | _, [] => false end.
(** Python's [p in t] *)
Fixpoint contains (p t : text) : bool :=
  is_prefix p t || match t with [] => false | _ :: t' => contains p t' end.
(** rt_fastarray.py:5470-5472: np.vectorize, which raises for no elements;
    [f] raises for elements of the other kind of string, and for numbers *)
Definition apply_txt (bytes : bool) (f : text -> bool) (c : col) : option (list bool) :=
  match c with
  | CNum _ => None
  | CTxt b l => match l with [] => None | _ => if Bool.eqb b bytes then Some (map f l) else None end
  end.
Fixpoint all_some {A} (l : list (option A)) : option (list A) :=
  match l with
  | [] => Some []
  | Some x :: r => match all_some r with Some y => Some (x :: y) | None => None end
  | None :: _ => None
  end.
(** mask_ori of new arrays *)
Definition mask_ori (l : list (list bool)) : option (list bool) :=
  match l with
  | [] => None
  | x :: r => fold_left (fun a b => match a with
                                    | Some a => if Nat.eqb (length a) (length b) then Some (map2 orb a b) else None
                                    | None => None
                                    end) r (Some x)
  end.
Definition ori (l : list (option (list bool))) : option (list bool) :=
  match all_some l with Some l => mask_ori l | None => None end.
(** self[mask, :] *)
Fixpoint compress {A} (m : list bool) (l : list A) : list A :=
  match m, l with b :: m', x :: l' => if b then x :: compress m' l' else compress m' l' | _, _ => [] end.
Definition compress_col (m : list bool) (c : col) : col :=
  match c with CNum l => CNum (compress m l) | CTxt b l => CTxt b (compress m l) end.

(** regex= : a pattern (bytes or str) with what it finds *)
Definition regex := (bool * (text -> bool))%type.
Definition label_filter (d : table) (labels : list name) (its : option items) (lk : option likes) (rx : option regex) : option table :=
  let keys := all_some (map (fun n => dget n d) labels) in
  let given := (match its with Some _ => 1 | None => 0 end + match lk with Some _ => 1 | None => 0 end
                + match rx with Some _ => 1 | None => 0 end)%nat in
  if negb (Nat.eqb given 1) then None else
  match keys with
  | None => None
  | Some cols =>
      let mask :=
        match its, lk, rx with
        | Some it, _, _ =>
            match it with
            | IOne v => ori (map (eq_col v) cols)
            | IMany l => ori (flat_map (fun c => map (fun v => eq_col v c) l) cols)
            | IArr l => ori (map (eq_arr l) cols)
            end
        | _, Some l, _ =>
            match (match l with LOne b t => match t with [] => [] | _ => [(b, t)] end | LMany l => l end) with
            | [] => None
            | l => ori (flat_map (fun c => map (fun p => apply_txt (fst p) (contains (snd p)) c) l) cols)
            end
        | _, _, Some r => ori (map (apply_txt (fst r) (snd r)) cols)
        | _, _, _ => None
        end in
      match mask with
      | None => None
      | Some m => Some (map (fun p => (fst p, compress_col m (snd p))) d)
      end
  end.

(** ** asrows, rt_dataset.py:3067-3120.  [cols]: the columns; the types that
    build a row at once (Struct, dict, OrderedDict, namedtuple, tuple, list,
    array; Dataset by row number). *)
Section Rows.
  Context {V : Type} (dflt : V).
  Definition asrows (n : nat) (cols : list (list V)) : list (list V) :=
    map (fun i => map (fun c => nth i c dflt) cols) (seq 0 n).
  (** as_type='iter', 3108-3112: what is yielded is a generator that reads the
      variable [_i] of the loop when a value is asked for.  State: the variable
      (the number of rows yielded less one) and the values taken from each. *)
  Record iter := mkIter { it_rows : nat; it_taken : list nat }.
  Inductive event := Next | Pull (k : nat).
  Definition iter0 := mkIter 0 [].
  Fixpoint bump (k : nat) (l : list nat) : list nat :=
    match l, k with [], _ => [] | x :: r, O => S x :: r | x :: r, S k' => x :: bump k' r end.
  (** what the event gives: for Pull the value (None: no more) *)
  Definition iter_step (n : nat) (cols : list (list V)) (s : iter) (e : event) : iter * option V :=
    match e with
    | Next => if Nat.ltb (it_rows s) n then (mkIter (S (it_rows s)) (it_taken s ++ [0]), None) else (s, None)
    | Pull k => match nth_error (it_taken s) k with
                | None => (s, None)
                | Some j => match nth_error cols j with
                            | None => (s, None)
                            | Some c => (mkIter (it_rows s) (bump k (it_taken s)), nth_error c (it_rows s - 1))
                            end
                end
    end.
  Fixpoint iter_run (n : nat) (cols : list (list V)) (s : iter) (es : list event) : list (option V) :=
    match es with
    | [] => []
    | e :: r => let (s', v) := iter_step n cols s e in v :: iter_run n cols s' r
    end.
  (** the state after some events *)
  Definition iter_after (n : nat) (cols : list (list V)) (s : iter) (es : list event) : iter :=
    fold_left (fun s e => fst (iter_step n cols s e)) es s.
End Rows.

(** ** imatrix_*, rt_dataset.py:1912-2160.  A Dataset of columns of integers:
    its columns, labels, matrix (None: none made yet), summary columns and
    footers. *)
Record mds := mkM { m_cols : list (name * list Z); m_labels : list name; m_mat : option (list (name * list Z));
                    m_sum : list name; m_foot : list (name * list (name * Z)) }.
(** 1970-2008; rt_imatrix.py:47-58 *)
Definition imatrix_make (d : mds) (colnames : option (list name)) : option mds :=
  let ns := match colnames with Some l => l | None => filter (fun n => negb (mem n (m_labels d))) (map fst (m_cols d)) end in
  match ns with
  | [] => None
  | _ => match all_some (map (fun n => dget n (m_cols d)) ns) with
         | None => None
         | Some cs => Some (mkM (m_cols d) (m_labels d) (Some (combine ns cs)) (m_sum d) (m_foot d))
         end
  end.
(** the number of rows of the matrix *)
Definition mrows (m : list (name * list Z)) : nat := match m with [] => 0 | p :: _ => length (snd p) end.
(** a new column must have as many rows as the others *)
Definition set_col (n : name) (v : list Z) (d : mds) : option mds :=
  if forallb (fun p => Nat.eqb (length (snd p)) (length v)) (m_cols d)
  then Some (mkM (dset n v (m_cols d)) (m_labels d) (m_mat d)
                 (if mem n (m_sum d) then m_sum d else m_sum d ++ [n]) (m_foot d))
  else None.
(** 2052-2101: func(imatrix, axis=1) as a new column *)
Definition y_internal (f : list Z -> Z) (n : name) (d : mds) : option (mds * list Z) :=
  match m_mat d with
  | None => None
  | Some m =>
      let y := map (fun i => f (map (fun p => nth i (snd p) 0%Z) m)) (seq 0 (mrows m)) in
      match set_col n y d with Some d' => Some (d', y) | None => None end
  end.
Fixpoint y_all (l : list ((list Z -> Z) * name)) (d : mds) : option mds :=
  match l with
  | [] => Some d
  | (f, n) :: r => match y_internal f n d with Some (d', _) => y_all r d' | None => None end
  end.
(** 2012-2050; [fs]: functions with their own names *)
Definition imatrix_y (fs : list ((list Z -> Z) * name)) (names : option (list name)) (d : mds) : option mds :=
  match (match m_mat d with None => imatrix_make d None | Some _ => Some d end) with
  | None => None
  | Some d' => y_all (match names with Some ns => combine (map fst fs) ns | None => fs end) d'
  end.
(** 2104-2142 *)
Definition imatrix_xy (f : list Z -> Z) (n : name) (d : mds) : option (mds * list Z * list Z) :=
  match y_internal f n d with
  | None => None
  | Some (d', y) =>
      match m_mat d' with
      | None => None
      | Some m => Some (d', map (fun p => f (snd p)) m ++ [f y], y)
      end
  end.
(** 2146-2160, with footer_set_values (5665-5692) *)
Definition imatrix_totals (colnames : option (list name)) (n : name) (d : mds) : option mds :=
  match (match m_mat d with None => imatrix_make d colnames | Some _ => Some d end) with
  | None => None
  | Some d1 =>
      match imatrix_xy zsum n d1 with
      | None => None
      | Some (d2, x, _) =>
          let names := match m_mat d2 with Some m => map fst m | None => [] end in
          let foot := dset n (last x 0%Z) (combine names x) in
          Some (mkM (m_cols d2) (m_labels d2) (m_mat d2) (m_sum d2) (dset n foot (m_foot d2)))
      end
  end.

(** ** Masks of rows, rt_dataset.py:4475-4483, 4519-4760.  A column: its name,
    whether it can be computed with, and its values. *)
Section Reduce.
  Context {V : Type}.
  Definition computable (labels : list name) (d : list (name * (bool * list V))) : list (list V) :=
    map (fun p => snd (snd p)) (filter (fun p => fst (snd p) && negb (mem (fst p) labels)) d).
  Definition mask_reduce (f : V -> bool) (is_or : bool) (labels : list name) (d : list (name * (bool * list V))) : option (list bool) :=
    fold_left (fun mask c => match mask with
                             | None => Some (map f c)
                             | Some m => Some (map2 (if is_or then orb else andb) m (map f c))
                             end) (computable labels d) None.
End Reduce.

(** ** outliers, rt_dataset.py:4415-4472.  Columns of numbers (None is NaN or
    invalid), or columns that cannot be computed with (4429-4435: NaN, the
    default of the column kept, -1).  [first_best] is the engine's nanargmax (nanargmin);
    what it answers for a column without a number is not modelled (here: as if
    it failed).  [W]: the values of the column kept. *)
Inductive ocol := ONum (l : list (option Z)) | OOther.
Fixpoint best (gt : Z -> Z -> bool) (l : list (option Z)) (i : nat) (cur : option (nat * Z)) : option (nat * Z) :=
  match l with
  | [] => cur
  | None :: r => best gt r (S i) cur
  | Some v :: r => best gt r (S i) (match cur with
                                    | None => Some (i, v)
                                    | Some (p, w) => if gt v w then Some (i, v) else cur
                                    end)
  end.
Section Out.
  Context {W : Type} (dflt : W).
  (** Names, Values, the column kept, Pos *)
  Definition apply_outlier (gt : Z -> Z -> bool) (keep : name) (kept : list W) (d : list (name * ocol)) : list (name * option Z * W * Z) :=
    map (fun p => match snd p with
                  | ONum l => match best gt l 0 None with
                              | Some (i, v) => match nth_error kept i with
                                               | Some w => (fst p, Some v, w, Z.of_nat i)
                                               | None => (fst p, None, dflt, (-1)%Z)
                                               end
                              | None => (fst p, None, dflt, (-1)%Z)
                              end
                  | OOther => (fst p, None, dflt, (-1)%Z)
                  end)
        (filter (fun p => negb (if list_eq_dec Nat.eq_dec (fst p) keep then true else false)) d).
  (** Min, Max *)
  Definition outliers (keep : name) (kept : list W) (d : list (name * ocol)) :=
    (apply_outlier Z.ltb keep kept d, apply_outlier Z.gtb keep kept d).
End Out.
