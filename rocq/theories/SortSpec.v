(** Specification side of sorting datasets: what the user asked for and what "sorted" means. *)
From Coq Require Import List Arith Bool ZArith Permutation.
From Verif Require Import FlattenModel DsModel SortModel.
Import ListNotations.

(** [value t b]: the value of an element with raw content b in a column of dtype t; only its order
    matters *)
Section Spec.
Variable value : nat -> Z -> Z.
Definition cell_val (c : col) (i : nat) : Z := value (c_type c) (nth i (c_bits c) 0%Z).
(** row i may stand before row j: compare by the first key; if equal by the next *)
Fixpoint may_precede (keys : list (col * bool)) (i j : nat) : Prop :=
  match keys with
  | [] => True
  | (c, up) :: r =>
      let a := cell_val c i in
      let b := cell_val c j in
      (if up then (a < b)%Z else (b < a)%Z) \/ (a = b /\ may_precede r i j)
  end.
(** [idx] lists all n rows once, in order *)
Definition sorted_by (keys : list (col * bool)) (idx : list nat) (n : nat) : Prop :=
  Permutation idx (seq 0 n) /\
  forall p q i j, p < q -> nth_error idx p = Some i -> nth_error idx q = Some j -> may_precede keys i j.
(** the direction of each of k keys *)
Definition dirs (a : asc) (k : nat) : list bool := match a with AscAll b => repeat b k | AscArr l | AscList l => l end.
(** the documented behaviour of lexsort: a permutation sorting by the last key, then the one before .. *)
Definition lexsort_contract (lexsort : list col -> asc -> list nat) : Prop :=
  forall cols a n, cols <> [] -> (forall c, In c cols -> length (c_bits c) = n) -> length (dirs a (length cols)) = length cols ->
    sorted_by (rev (combine cols (dirs a (length cols)))) (lexsort cols a) n.
End Spec.

(** What the user has asked for: per dataset, the view's keys and their directions *)
Definition request := option (list (name * bool)).
Definition asked (keys : list name) (given : list bool) : list (name * bool) :=
  combine keys (match given with [b] => repeat b (length keys) | _ => given end).
Fixpoint set_nth {X} (d : nat) (v : X) (l : list X) : list X :=
  match l, d with
  | [], _ => []
  | _ :: r, 0 => v :: r
  | x :: r, S d => x :: set_nth d v r
  end.
Definition on_req (req : list request) (d : nat) (f : list (name * bool) -> request) : list request :=
  set_nth d (match nth d req None with Some ps => f ps | None => None end) req.
(** An operation concerns only its own dataset; one that raises changes nothing. *)
Definition request_step (w : world) (req : list request) (o : op) (res : out) : list request :=
  match res with
  | RError => req
  | _ =>
      match o with
      | NewDs _ _ | SortCopy _ _ _ => req ++ [None]
      | Copy d _ cols =>
          (* a copy keeps the keys it has *)
          req ++ [match nth d req None with
                  | Some ps => match filter (fun p => if in_dec name_dec (fst p) cols then true else false) ps with [] => None | qs => Some qs end
                  | None => None
                  end]
      | SortView d (ByName n) given => set_nth d (Some (asked [n] given)) req
      | SortView d (ByList loc) given => set_nth d (Some (asked (nth loc (w_heap w) []) given)) req
      | SortsOff d | Repr d | SortInplace d _ _ => set_nth d None req
      | Rename d old new => on_req req d (fun ps => Some (map (fun p => (if name_dec (fst p) old then new else fst p, snd p)) ps))
      | AddPrefix d pre => on_req req d (fun ps => Some (map (fun p => ((pre ++ fst p : name), snd p)) ps))
      | DelCol d n | SetCol d n _ => on_req req d (fun ps => if in_dec name_dec n (map fst ps) then None else Some ps)
      | _ => req
      end
  end.
(** the key columns of a request *)
Definition key_cols (items : list (name * col)) (ps : list (name * bool)) : list (col * bool) :=
  map (fun p => (match dget (fst p) items with Some c => c | None => mkCol 0 [] end, snd p)) ps.
(** the answers of a history, and the same history with the sort cache emptied before every call *)
Fixpoint answers (st : world -> op -> world * out) (w : world) (ops : list op) : list out :=
  match ops with [] => [] | o :: r => snd (st w o) :: answers st (fst (st w o)) r end.
Definition no_cache (st : world -> op -> world * out) (w : world) (o : op) : world * out :=
  st (mkW (w_heap w) (w_ds w) []) o.

(** ** Conditions of the theorems *)
(** distinct names, columns of one length *)
Definition ds_ok (x : dsr) : Prop :=
  NoDup (map fst (s_items x)) /\ forall n c, In (n, c) (s_items x) -> length (c_bits c) = s_nrows x.
(** When the proof applies: key lists handed to sort_view are not shared with another view or changed
    while in use, name a key once; a copy made while a view is on has all or none of its keys (or
    raises), and no str_replace is made while a view is on. *)
Definition fits (by_ : by_arg) (given : list bool) (w : world) : Prop :=
  match by_ with ByName n => length given = 1 | ByList loc => nth loc (w_heap w) [] <> [] end.
Definition allowed (w : world) (o : op) : Prop :=
  match o with
  | EditList loc _ => forall d x, nth_error (w_ds w) d = Some x -> s_list x <> Some loc
  | NewDs items nrows => NoDup (map fst items) /\ forall n c, In (n, c) items -> length (c_bits c) = nrows
  | SortView d by_ given => fits by_ given w /\
      forall loc, by_ = ByList loc -> NoDup (nth loc (w_heap w) []) /\
        forall d' x, d' <> d -> nth_error (w_ds w) d' = Some x -> s_list x <> Some loc
  | SortInplace _ by_ given | SortCopy _ by_ given => fits by_ given w
  | Copy d _ cols => forall x loc, nth_error (w_ds w) d = Some x -> s_list x = Some loc ->
      (forall n, In n (nth loc (w_heap w) []) -> In n cols) \/ (forall n, In n (nth loc (w_heap w) []) -> ~ In n cols)
  | StrReplace d _ => forall x, nth_error (w_ds w) d = Some x -> s_list x = None
  | Load _ _ _ _ => False
  | _ => True
  end.

Section Conditions.
Variable crc : list Z -> nat.
Variable lexsort : list col -> asc -> list nat.
Notation step := (step crc lexsort).
Notation run := (run crc lexsort).
(** the crc tells the columns [H d] of each dataset d apart *)
Definition faithful (H : nat -> col -> Prop) : Prop :=
  forall d c1 c2, H d c1 -> H d c2 -> crc (c_bits c1) = crc (c_bits c2) -> c1 = c2.
(** dataset d has had column c at some point of the history *)
Definition had (ops : list op) (d : nat) (c : col) : Prop :=
  exists k x n, nth_error (w_ds (run (firstn k ops) init)) d = Some x /\ dget n (s_items x) = Some c.
(** a loaded dataset comes with the index of an ascending sort by its saved keys *)
Definition honest (o : op) : Prop :=
  match o with
  | Load items nrows keys idx =>
      (forall n, In n keys -> In n (map fst items)) /\
      idx = lexsort (rev (map (fun n => match dget n items with Some c => c | None => mkCol 0 [] end) keys)) (AscAll true)
  | _ => True
  end.
(** the requests after a history *)
Fixpoint requests (w : world) (req : list request) (ops : list op) : list request :=
  match ops with
  | [] => req
  | o :: r => requests (fst (step w o)) (request_step w req o (snd (step w o))) r
  end.
Fixpoint all_allowed (w : world) (ops : list op) : Prop :=
  match ops with [] => True | o :: r => allowed w o /\ all_allowed (fst (step w o)) r end.
End Conditions.
