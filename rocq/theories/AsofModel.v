(** Model of the as-of merge kernels, riptable/rt_merge_asof.py.

    [hkey r] / [nkey r] is the 'on' value of row [r] of the right ("haystack") / left ("needles")
    table.  [lek], [ltk] are the machine comparisons [<=], [<] and [diff] the machine subtraction
    of the key dtype; [minv] / [maxv] are get_min_valid / get_max_valid
    (numba/invalid_values.py:295-340, 213-249).  An output index of [None] is the invalid index.

    The grouped kernels have the text of the ungrouped ones with one more indirection through
    [igroup]; both are the same loop over the row numbers [hidx], [nidx] (ungrouped: all rows). *)
From Coq Require Import List Arith ZArith Bool.
From Verif Require Import Sched GroupModel.
Import ListNotations.

Section Kernel.
Context {K : Type}.
Variables lek ltk : K -> K -> bool.
Variable diff : K -> K -> K.
Variables minv maxv : K.
Variables hkey nkey : nat -> K.
(** tolerance (None = none) and allow_exact_matches *)
Variable tol : option K.
Variable exact : bool.

(** rt_merge_asof.py:62-67 [_less_than_comparison] *)
Definition cmp_lt (x y : K) : bool := if exact then lek x y else ltk x y.
(** rt_merge_asof.py:89-94 [_greater_than_comparison] *)
Definition cmp_gt (x y : K) : bool := if exact then lek y x else ltk y x.
(** [equality_tolerance is None or equality_tolerance >= d] (rt_merge_asof.py:215, 539) *)
Definition within (d : K) : bool := match tol with None => true | Some t => lek d t end.

(** result of one run of the loop: the stores into needle_idx_in_haystack, the row recorded as
    first unsorted haystack / needle element *)
Record outc := mkOut { o_stores : list (store (option nat)); o_hun : option nat; o_nun : option nat }.
Definition push (s : store (option nat)) (o : outc) : outc := mkOut (s :: o_stores o) (o_hun o) (o_nun o).

(** what the loops write into the remaining rows when the haystack is exhausted
    (rt_merge_asof.py:237, 418 and 561, 741): backward the last position, forward 0, invalid when
    the haystack is empty *)
Definition fill_rest (v : option nat) (rows : list nat) : list (store (option nat)) :=
  map (fun r => (r, v)) rows.

(** rt_merge_asof.py:148-237 [_merge_asof_backward] and 325-418 (grouped).  [fuel] bounds the
    number of iterations: [length nidx + length hidx + 1] always suffice (proved). *)
Fixpoint back_loop (hidx nidx : list nat) (fuel i_n i_h : nat) (ncur hcur : K) : outc :=
  match fuel with
  | O => mkOut [] None None
  | S fuel' =>
      match nth_error nidx i_n, nth_error hidx i_h with
      | Some nc, Some hc =>
          let n := nkey nc in
          let h := hkey hc in
          if negb (lek ncur n) then mkOut [] None (Some nc)
          else if negb (lek hcur h)
          then mkOut (fill_rest (Some (length hidx - 1)) (skipn i_n nidx)) (Some hc) None
          else if cmp_lt h n then
            match nth_error hidx (S i_h) with
            | Some hc' =>
                if cmp_lt (hkey hc') n then back_loop hidx nidx fuel' i_n (S i_h) n h
                else push (nc, if within (diff n h) then Some hc else None)
                          (back_loop hidx nidx fuel' (S i_n) i_h n h)
            | None => push (nc, if within (diff n h) then Some hc else None)
                           (back_loop hidx nidx fuel' (S i_n) i_h n h)
            end
          else if i_h <? 1 then push (nc, None) (back_loop hidx nidx fuel' (S i_n) i_h n h)
          else back_loop hidx nidx fuel' i_n (S i_h) n h
      | Some _, None =>
          mkOut (fill_rest (if 0 <? length hidx then Some (length hidx - 1) else None) (skipn i_n nidx)) None None
      | None, _ => mkOut [] None None
      end
  end.
Definition asof_back (hidx nidx : list nat) : outc :=
  back_loop hidx nidx (S (length nidx + length hidx)) 0 0 minv minv.

(** rt_merge_asof.py:472-561 [_merge_asof_forward] and 649-742 (grouped).  [c_n], [c_h] are
    [i_needle + 1], [i_haystack + 1]. *)
Fixpoint fwd_loop (hidx nidx : list nat) (fuel c_n c_h : nat) (ncur hcur : K) : outc :=
  match fuel with
  | O => mkOut [] None None
  | S fuel' =>
      match c_n, c_h with
      | S i_n, S i_h =>
          let nc := nth i_n nidx 0 in
          let hc := nth i_h hidx 0 in
          let n := nkey nc in
          let h := hkey hc in
          if negb (lek n ncur) then mkOut [] None (Some nc)
          else if negb (lek h hcur)
          then mkOut (fill_rest (Some 0) (firstn i_n nidx)) (Some hc) None
          else if cmp_gt h n then
            if (0 <? i_h) && cmp_gt (hkey (nth (i_h - 1) hidx 0)) n
            then fwd_loop hidx nidx fuel' c_n i_h n h
            else push (nc, if within (diff h n) then Some hc else None)
                      (fwd_loop hidx nidx fuel' i_n c_h n h)
          else if c_h =? length hidx then push (nc, None) (fwd_loop hidx nidx fuel' i_n c_h n h)
          else fwd_loop hidx nidx fuel' c_n i_h n h
      | S i_n, O =>
          mkOut (fill_rest (if 0 <? length hidx then Some 0 else None) (firstn i_n nidx)) None None
      | O, _ => mkOut [] None None
      end
  end.
Definition asof_fwd (hidx nidx : list nat) : outc :=
  fwd_loop hidx nidx (S (length nidx + length hidx)) (length nidx) (length hidx) maxv maxv.

(** rt_merge_asof.py:745-801 [_merge_asof_combine_into_nearest], one iteration: row [i] reads and
    writes only cell [i] *)
Definition combine_nearest (bwd fwd : mem (option nat)) (i : nat) : option nat :=
  match bwd i with
  | Some b =>
      match fwd i with
      | None => Some b
      | Some f => if lek (diff (nkey i) (hkey b)) (diff (hkey f) (nkey i)) then Some b else Some f
      end
  | None => fwd i
  end.

Inductive direction := Backward | Forward | Nearest.

(** the pre-filled output array (rt_merge_asof.py:865, 1024) *)
Definition all_invalid : mem (option nat) := fun _ => None.
Definition flagged (o : outc) : bool :=
  match o_hun o, o_nun o with None, None => false | _, _ => true end.

(** rt_merge_asof.py:812-956 [_create_merge_asof_fancy_indices]: [None] is the ValueError about
    unsorted elements (lines 950-953), else the right fancy index, one entry per left row *)
Definition asof_flat (d : direction) (nleft nright : nat) : option (list (option nat)) :=
  let all_h := seq 0 nright in
  let all_n := seq 0 nleft in
  let b := asof_back all_h all_n in
  let f := asof_fwd all_h all_n in
  let mb := run_stores (o_stores b) all_invalid in
  let mf := run_stores (o_stores f) all_invalid in
  match d with
  | Backward => if flagged b then None else Some (map mb all_n)
  | Forward => if flagged f then None else Some (map mf all_n)
  | Nearest => if flagged b || flagged f then None else Some (map (combine_nearest mb mf) all_n)
  end.

(** ** grouped: rt_merge_asof.py:240-418, 564-742.  One iteration of the prange over the left
    groups; [to_right] is left_by_keyid_to_right_by_keyid_map. *)
Section Grouped.
Variables (likey rikey : list nat) (nl nr : nat) (to_right : list (option nat)).
Definition left_group (k : nat) : list nat :=
  slice (igroup likey nl) (nth (S k) (ifirstgroup likey nl) 0) (nth (S k) (ncountgroup likey nl) 0).
Definition right_group (k : nat) : list nat :=
  slice (igroup rikey nr) (nth (S k) (ifirstgroup rikey nr) 0) (nth (S k) (ncountgroup rikey nr) 0).
Definition group_iter (kernel : list nat -> list nat -> outc) (k : nat) : outc :=
  match nth k to_right None with
  | None => mkOut (fill_rest None (left_group k)) None None
  | Some k' => kernel (right_group k') (left_group k)
  end.
Definition group_its (kernel : list nat -> list nat -> outc) : list outc :=
  map (group_iter kernel) (seq 0 (length to_right)).

(** rt_merge_asof.py:959-1143 [_create_merge_asof_grouped_fancy_indices] as a relation: a result
    is one that some schedule of the prange loops can produce.  Simplification: the two arrays
    recording unsorted rows are represented by the flags of the iterations (every cell is written
    by at most one iteration, and only their being all invalid is used, lines 1137-1140). *)
Inductive grouped_result (nleft : nat) : direction -> option (list (option nat)) -> Prop :=
| gr_back ws : interleave (map o_stores (group_its asof_back)) ws ->
    grouped_result nleft Backward
      (if existsb flagged (group_its asof_back) then None
       else Some (map (run_stores ws all_invalid) (seq 0 nleft)))
| gr_fwd ws : interleave (map o_stores (group_its asof_fwd)) ws ->
    grouped_result nleft Forward
      (if existsb flagged (group_its asof_fwd) then None
       else Some (map (run_stores ws all_invalid) (seq 0 nleft)))
| gr_near wb wf : interleave (map o_stores (group_its asof_back)) wb ->
    interleave (map o_stores (group_its asof_fwd)) wf ->
    grouped_result nleft Nearest
      (if existsb flagged (group_its asof_back) || existsb flagged (group_its asof_fwd) then None
       else Some (map (combine_nearest (run_stores wb all_invalid) (run_stores wf all_invalid)) (seq 0 nleft))).
End Grouped.
End Kernel.

(** ** int64 keys (integers, Date, DateTimeNano: 64-bit two's complement subtraction) *)
Definition two64 : Z := (2 ^ 64)%Z.
Definition wrap64 (z : Z) : Z := ((z + 2 ^ 63) mod two64 - 2 ^ 63)%Z.
Definition diff64 (a b : Z) : Z := wrap64 (a - b).
(** numba/invalid_values.py:322-324, 241-243: the smallest int64 is the invalid value *)
Definition min_valid64 : Z := (- 2 ^ 63 + 1)%Z.
Definition max_valid64 : Z := (2 ^ 63 - 1)%Z.
Definition key_of (l : list Z) (r : nat) : Z := nth r l 0%Z.
Definition asof64 (right left : list Z) (tol : option Z) (exact : bool) (d : direction) : option (list (option nat)) :=
  asof_flat Z.leb Z.ltb diff64 min_valid64 max_valid64 (key_of right) (key_of left) tol exact d (length left) (length right).

(** rt_merge_asof.py:804-809 [_fancyindex_dtype_from_shape]: [np.min_scalar_type(-(n + 1))] is the
    narrowest signed type holding that value; result: its number of bits *)
Definition min_signed_bits (v : Z) : Z :=
  if (- 2 ^ 7 <=? v)%Z then 8 else if (- 2 ^ 15 <=? v)%Z then 16 else if (- 2 ^ 31 <=? v)%Z then 32 else 64.
Definition fancyindex_bits (n : Z) : Z := min_signed_bits (- (n + 1)).
