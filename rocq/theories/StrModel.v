(** Model of the FAString kernels, riptable/rt_str.py.

    A string column is the flat array of character codes that [FAString.__new__]
    (rt_str.py:129-161) produces: [w] (= [_itemsize]) codes per row, NUL padded.
    Codes are [Z] (uint8 or uint32 in the code; the kernels only add or subtract 32 from
    codes in the ASCII letter ranges, so no wrap-around can occur).

    Every kernel is given as the list of stores of ONE iteration [i] of its prange loop;
    [launch] gives the iterations of the whole loop.  [junk] is what a read outside of the
    source array would return: theorems quantify over it. *)
From Coq Require Import List Arith ZArith Bool.
From Verif Require Import Sched.
Import ListNotations.
Open Scope Z_scope.

(** rt_str.py: [for i in nb.prange(len(src) // itemsize)] in every kernel. *)
Definition launch {V} (kernel : nat -> list (store V)) (src : list Z) (w : nat) : list (list (store V)) :=
  map kernel (seq 0 (length src / w)%nat).

Section Kernels.
Variable junk : Z.

(** array read [src[k]] *)
Definition rd (src : list Z) (k : nat) : Z := nth k src junk.

(** rt_str.py:294-305 [_nb_upper] *)
Definition k_upper (src : list Z) (w i : nat) : list (store Z) :=
  let rowpos := (i * w)%nat in
  map (fun j => let c := rd src (rowpos + j)%nat in
                if (97 <=? c) && (c <=? 122) then ((rowpos + j)%nat, c - 32)
                else ((rowpos + j)%nat, c)) (seq 0 w).

(** rt_str.py:308-319 [_nb_lower] *)
Definition k_lower (src : list Z) (w i : nat) : list (store Z) :=
  let rowpos := (i * w)%nat in
  map (fun j => let c := rd src (rowpos + j)%nat in
                if (65 <=? c) && (c <=? 90) then ((rowpos + j)%nat, c + 32)
                else ((rowpos + j)%nat, c)) (seq 0 w).

(** rt_str.py:328-336, the backward loop of [_nb_removetrailing]; [k] is [startpos + 1].
    Returns the stores made and the final [startpos] (0 when the loop ran out). *)
Fixpoint rt_scan (src : list Z) (rowpos : nat) (removechar : Z) (k : nat) : list (store Z) * nat :=
  match k with
  | O => ([], O)
  | S startpos =>
      let c := rd src (rowpos + startpos)%nat in
      let is_trailing_char := (c =? 0) || (c =? removechar) in
      let out_char := if is_trailing_char then 0 else c in
      if negb is_trailing_char then ([((rowpos + startpos)%nat, out_char)], startpos)
      else let '(ss, q) := rt_scan src rowpos removechar startpos in
           (((rowpos + startpos)%nat, out_char) :: ss, q)
  end.

(** rt_str.py:322-339 [_nb_removetrailing] *)
Definition k_removetrailing (removechar : Z) (src : list Z) (w i : nat) : list (store Z) :=
  let rowpos := (i * w)%nat in
  let '(ss, startpos) := rt_scan src rowpos removechar w in
  ss ++ map (fun pos => ((rowpos + pos)%nat, rd src (rowpos + pos)%nat)) (rev (seq 0 startpos)).

(** The loop [while strlen < itemsize: if src[rowpos+strlen]==0: break; strlen += 1]
    (rt_str.py:347-351, 367-371) and the equivalent for loop of [_nb_strlen] (388-391);
    [fuel] is the number of positions left. *)
Fixpoint len_loop (src : list Z) (rowpos strlen fuel : nat) : nat :=
  match fuel with
  | O => strlen
  | S fuel' => if rd src (rowpos + strlen)%nat =? 0 then strlen
               else len_loop src rowpos (S strlen) fuel'
  end.

(** rt_str.py:362-379 [_nb_reverse] *)
Fixpoint rev_loop (src : list Z) (rowpos strlen srcpos : nat) : list (store Z) :=
  match strlen with
  | O => []
  | S strlen' => ((rowpos + strlen')%nat, rd src (rowpos + srcpos)%nat)
                 :: rev_loop src rowpos strlen' (S srcpos)
  end.
Definition k_reverse (src : list Z) (w i : nat) : list (store Z) :=
  let rowpos := (i * w)%nat in
  let strlen := len_loop src rowpos 0 w in
  rev_loop src rowpos strlen 0
  ++ map (fun srcpos => ((rowpos + srcpos)%nat, 0)) (seq strlen (w - strlen)).

(** rt_str.py:382-394 [_nb_strlen] *)
Definition k_strlen (src : list Z) (w i : nat) : list (store Z) :=
  [(i, Z.of_nat (len_loop src (i * w) 0 w))].

(** rt_str.py:397-416 [_nb_index_any_of] *)
Fixpoint any_of_loop (src : list Z) (rowpos : nat) (str2 : list Z) (j fuel : nat) : Z :=
  match fuel with
  | O => -1
  | S fuel' => if existsb (fun s => rd src (rowpos + j)%nat =? s) str2 then Z.of_nat j
               else any_of_loop src rowpos str2 (S j) fuel'
  end.
Definition k_index_any_of (str2 : list Z) (src : list Z) (w i : nat) : list (store Z) :=
  [(i, any_of_loop src (i * w) str2 0 w)].

(** rt_str.py:84-90 [_str_equal]: [zip] stops at the shorter argument. *)
Fixpoint str_equal (str1 str2 : list Z) : bool :=
  match str1, str2 with
  | c1 :: r1, c2 :: r2 => if negb (c1 =? c2) then false else str_equal r1 r2
  | _, _ => true
  end.

(** rt_str.py:419-444, the loop [for j in range(itemsize - str2len + 1)] shared by
    [_nb_index] and [_nb_contains]: first matching position. *)
Fixpoint match_loop (src : list Z) (rowpos : nat) (str2 : list Z) (j fuel : nat) : option nat :=
  match fuel with
  | O => None
  | S fuel' => if str_equal (skipn (rowpos + j) src) str2 then Some j
               else match_loop src rowpos str2 (S j) fuel'
  end.
(** rt_str.py:419-431 [_nb_index] *)
Definition k_index (str2 : list Z) (src : list Z) (w i : nat) : list (store Z) :=
  (i, -1) :: match match_loop src (i * w) str2 0 (w + 1 - length str2) with
             | Some j => [(i, Z.of_nat j)]
             | None => []
             end.
(** rt_str.py:434-444 [_nb_contains] *)
Definition k_contains (str2 : list Z) (src : list Z) (w i : nat) : list (store bool) :=
  (i, false) :: match match_loop src (i * w) str2 0 (w + 1 - length str2) with
                | Some _ => [(i, true)]
                | None => []
                end.

(** rt_str.py:478-479: strip the NUL padding *)
Fixpoint ends_len (src : list Z) (rowpos k : nat) : nat :=
  match k with
  | O => O
  | S k' => if rd src (rowpos + k')%nat =? 0 then ends_len src rowpos k' else k
  end.
(** rt_str.py:485-490: compare backwards; the result is the final [k2]. *)
Fixpoint ends_cmp (src : list Z) (rowpos : nat) (str2 : list Z) (k k2 : nat) : nat :=
  match k2 with
  | O => O
  | S k2' => if negb (rd src (rowpos + k - 1)%nat =? rd str2 k2') then k2
             else ends_cmp src rowpos str2 (k - 1) k2'
  end.
(** rt_str.py:468-494 [_nb_endswith] *)
Definition k_endswith (str2 : list Z) (src : list Z) (w i : nat) : list (store bool) :=
  let rowpos := (i * w)%nat in
  (i, false) ::
  (if (length str2 <=? w)%nat then
     let k := ends_len src rowpos w in
     if (length str2 <=? k)%nat then
       if (ends_cmp src rowpos str2 k (length str2) =? 0)%nat then [(i, true)] else []
     else []
   else []).

(** rt_str.py:508-511: [while k < str2len]; [fuel = str2len - k]; result: final [k]. *)
Fixpoint starts_cmp (src : list Z) (rowpos : nat) (str2 : list Z) (k fuel : nat) : nat :=
  match fuel with
  | O => k
  | S fuel' => if negb (rd src (rowpos + k)%nat =? rd str2 k) then k
               else starts_cmp src rowpos str2 (S k) fuel'
  end.
(** rt_str.py:497-515 [_nb_startswith] *)
Definition k_startswith (str2 : list Z) (src : list Z) (w i : nat) : list (store bool) :=
  let rowpos := (i * w)%nat in
  (i, false) ::
  (if (length str2 <=? w)%nat then
     if (starts_cmp src rowpos str2 0 (length str2) =? length str2)%nat then [(i, true)] else []
   else []).

(** rt_str.py:446-464 [_nb_find] (only the serial version exists: line 1376).  [fuel]
    bounds the number of loop rounds; [S w] rounds always suffice (proved). *)
Fixpoint find_loop (src : list Z) (w rowpos : nat) (str2 : list Z) (str_pos fuel : nat) : list (store bool) :=
  match fuel with
  | O => []
  | S fuel' =>
      if (str_pos + length str2 <=? w)%nat then
        if str_equal (skipn (rowpos + str_pos) src) str2
        then ((rowpos + str_pos)%nat, true) :: find_loop src w rowpos str2 (str_pos + length str2) fuel'
        else find_loop src w rowpos str2 (str_pos + 1) fuel'
      else []
  end.
Definition k_find (str2 : list Z) (src : list Z) (w i : nat) : list (store bool) :=
  find_loop src w (i * w) str2 0 (S w).
(** rt_str.py:712-735 [_find]: [dest] starts as zeros. *)
Definition locations (str2 src : list Z) (w : nat) : mem bool :=
  run_stores (serial (launch (k_find str2 src w) src w)) (fun _ => false).

(** rt_str.py:748-771 [_nb_replace]; [loc] is the boolean matrix, row-major.  [fuel] as
    above.  A source row with a match is copied with the match replaced by [new]; an empty
    [new] arrives as the one-character array [[0]] (numpy gives '' the width 1). *)
Fixpoint repl_loop (src : list Z) (w : nat) (old_len : nat) (new : list Z) (loc : mem bool)
         (rowpos src_pos dest_pos fuel : nat) : list (store Z) :=
  match fuel with
  | O => []
  | S fuel' =>
      if (src_pos <? w)%nat then
        if loc (rowpos + src_pos)%nat then
          if (length new =? 1)%nat && (rd new 0 =? 0)
          then repl_loop src w old_len new loc rowpos (src_pos + old_len) dest_pos fuel'
          else map (fun k => ((dest_pos + k)%nat, rd new k)) (seq 0 (length new))
               ++ repl_loop src w old_len new loc rowpos (src_pos + old_len) (dest_pos + length new) fuel'
        else (dest_pos, rd src (rowpos + src_pos)%nat)
             :: repl_loop src w old_len new loc rowpos (src_pos + 1) (dest_pos + 1) fuel'
      else []
  end.
Definition k_replace (dest_itemsize : nat) (old new : list Z) (loc : mem bool)
           (src : list Z) (w row : nat) : list (store Z) :=
  repl_loop src w (length old) new loc (row * w) 0 (row * dest_itemsize) (S w).

(** number of matches of row [i]: [locations.sum(axis=1)[i]] *)
Definition n_locs (loc : mem bool) (w i : nat) : nat :=
  length (filter (fun b : bool => b) (segment loc (i * w) w)).

Definition list_max0 (l : list nat) : nat := fold_right Nat.max O l.
Definition list_min0 (l : list nat) : nat :=
  match l with [] => O | x :: r => fold_right Nat.min x r end.

(** rt_str.py:773-808 [replace]: the width of the destination rows (lines 788-796).
    [char_diff] is computed on the padded argument arrays. *)
Definition replace_width (old new : list Z) (loc : mem bool) (w n : nat) : nat :=
  let counts := map (n_locs loc w) (seq 0 n) in
  let char_diff := Z.of_nat (length new) - Z.of_nat (length old) in
  if 0 <? char_diff then (w + Z.to_nat char_diff * list_max0 counts)%nat
  else if char_diff <? 0 then (w + Z.to_nat (- char_diff) * list_min0 counts)%nat
  else w.

(** rt_str.py:773-808 [replace].  [m] is the zero-initialised destination
    (line 798); the result is (row width, row contents). *)
Definition replace_its (old new src : list Z) (w : nat) : list (list (store Z)) :=
  let loc := locations old src w in
  let n := (length src / w)%nat in
  launch (k_replace (replace_width old new loc w n) old new loc src w) src w.

(** rt_str.py:786: [if not locations.any(): return self.backtostring] *)
Definition any_loc (old src : list Z) (w : nat) : bool :=
  existsb (fun b => b) (segment (locations old src w) 0 (length src)).

(** numpy stores the argument '' with width 1 (rt_str.py:189-205, [_validate_input]) *)
Definition np_str (t : list Z) : list Z := match t with [] => [0] | _ => t end.

(** rt_str.py:1159-1176 [_nb_substr]: the bounds of one element. *)
Definition substr_bounds (start stop elem_len : Z) : Z * Z :=
  let i := if start <? 0 then start + elem_len else start in
  let j := if stop <? 0 then stop + elem_len else stop in
  (Z.max i 0, Z.min j elem_len).
(** one iteration; [out] is the (n, itemsize) matrix in row-major order; [start] and
    [stop] are the values of [scalar_or_lookup(start, elem)], [.. stop ..]. *)
Definition k_substr (start stop strlen : nat -> Z) (src : list Z) (w elem : nat) : list (store Z) :=
  let '(i, j) := substr_bounds (start elem) (stop elem) (strlen elem) in
  map (fun out_pos => ((elem * w + out_pos)%nat, rd src (w * elem + (Z.to_nat i + out_pos))%nat))
      (seq 0 (Z.to_nat (j - i))).
(** the [max_chars] reduction of the same loop *)
Definition substr_max (start stop strlen : nat -> Z) (n : nat) : nat :=
  list_max0 (map (fun elem => let '(i, j) := substr_bounds (start elem) (stop elem) (strlen elem) in
                              Z.to_nat (j - i)) (seq 0 n)).

(** rt_str.py:1218-1226: [out[:, :max_chars]], or one NUL per row when it is empty *)
Definition substr_view (max_chars : nat) (rs : list (list Z)) : list (list Z) :=
  if (max_chars =? 0)%nat then map (fun _ => [0]) rs else map (firstn max_chars) rs.

(** rt_str.py:1259-1275 [_nb_char]: the position used for row [i] *)
Definition char_pos (position strlen : Z) : Z :=
  if position <? 0 then strlen + position else position.
Definition char_bad (position strlen : nat -> Z) (w i : nat) : bool :=
  let pos := char_pos (position i) (strlen i) in (Z.of_nat w <=? pos) || (pos <? 0).
Definition k_char (position strlen : nat -> Z) (src : list Z) (w i : nat) : list (store Z) :=
  if char_bad position strlen w i then [(i, 0)]
  else [(i, rd src (w * i + Z.to_nat (char_pos (position i) (strlen i)))%nat)].
(** rt_str.py:1278-1303 [char]: ValueError exactly when some row is out of bounds. *)
Definition char_raises (position strlen : nat -> Z) (w n : nat) : bool :=
  existsb (char_bad position strlen w) (seq 0 n).

(** In-place kernels.  Only their serial versions are called (rt_str.py:556, 585), so they
    are modelled as sequential memory transformers.
    rt_str.py:281-291 [_nb_upper_inplace] *)
Definition upper_inplace_char (w i : nat) (m : mem Z) (j : nat) : mem Z :=
  let c := m (i * w + j)%nat in
  if (97 <=? c) && (c <=? 122) then do_store m ((i * w + j)%nat, c - 32) else m.
Definition upper_inplace_row (w i : nat) (m : mem Z) : mem Z :=
  fold_left (upper_inplace_char w i) (seq 0 w) m.
Definition upper_inplace (w n : nat) (m : mem Z) : mem Z := run_order (upper_inplace_row w) (seq 0 n) m.

(** rt_str.py:342-359 [_nb_reverse_inplace] *)
Fixpoint mem_len_loop (m : mem Z) (rowpos strlen fuel : nat) : nat :=
  match fuel with
  | O => strlen
  | S fuel' => if m (rowpos + strlen)%nat =? 0 then strlen else mem_len_loop m rowpos (S strlen) fuel'
  end.
(** [len] is [end - start + 1] (0 or less stops the loop) *)
Fixpoint swap_loop (m : mem Z) (start end_ fuel : nat) : mem Z :=
  match fuel with
  | O => m
  | S fuel' =>
      if (start <? end_)%nat then
        let temp := m end_ in
        let m1 := do_store m (end_, m start) in
        let m2 := do_store m1 (start, temp) in
        swap_loop m2 (S start) (end_ - 1) fuel'
      else m
  end.
Definition reverse_inplace_row (w i : nat) (m : mem Z) : mem Z :=
  let strlen := mem_len_loop m (i * w) 0 w in
  match strlen with
  | O => m      (* end = rowpos - 1 < start: no iteration *)
  | S l => swap_loop m (i * w) (i * w + l) (S w)
  end.
Definition reverse_inplace (w n : nat) (m : mem Z) : mem Z := run_order (reverse_inplace_row w) (seq 0 n) m.

(** rt_str.py:1232-1257 [substr_char_stop]: the stop bound of one row, given the result
    of [index]. *)
Definition char_stop (inclusive : bool) (w : nat) (idx : Z) : Z :=
  let s := if idx =? -1 then Z.of_nat w else idx in
  if inclusive then s + 1 else s.

End Kernels.
