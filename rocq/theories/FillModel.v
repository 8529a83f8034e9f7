(** Models of the fill, running-extreme and grouped numba kernels:
    riptable/rt_fastarraynumba.py:19-150, 330-500 and riptable/rt_groupbynumba.py:30-206, 385-492.

    Elements are of any type [V] with a test [isinv] for NaN / the invalid value of the dtype
    ([np.isnan] for floats, [== inv] for integers: fill_forward_float 22-41 and fill_forward_int
    46-65 differ only in that test).  Arrays are [mem V] (cells by position). *)
From Coq Require Import List Arith Bool ZArith.
From Verif Require Import Sched Threads GroupModel.
Import ListNotations.

(** ** FastArray.fill_forward / fill_backward *)
Section Fill.
Context {V : Type}.
Variable isinv : V -> bool.

(** loop body, rt_fastarraynumba.py:24-41, 48-65, 71-88, 95-112: the array, lastgood, counter *)
Definition fill_step (limit : nat) (st : mem V * V * nat) (idx : nat) : mem V * V * nat :=
  let '(arr, lastgood, counter) := st in
  if limit =? 0 then
    if isinv (arr idx) then (do_store arr (idx, lastgood), lastgood, counter) else (arr, arr idx, counter)
  else
    if isinv (arr idx) then
      if 0 <? counter then (do_store arr (idx, lastgood), lastgood, counter - 1) else (arr, lastgood, counter)
    else (arr, arr idx, limit).
Definition fill_loop (limit : nat) (idxs : list nat) (arr : mem V) (fill_val : V) : mem V :=
  fst (fst (fold_left (fill_step limit) idxs (arr, fill_val, limit))).
(** an array of length [n] as memory, and back *)
Definition cells (a : list V) (d : V) : mem V := fun p => nth p a d.
Definition contents (m : mem V) (n : nat) : list V := map m (seq 0 n).
(** range(n) and range(n - 1, -1, -1) *)
Definition upto (n : nat) : list nat := seq 0 n.
Definition downto (n : nat) : list nat := map (fun i => n - 1 - i) (seq 0 n).

(** rt_fastarraynumba.py:116-142 [_check_fill_values] and 145, 238 [fill_forward], [fill_backward].
    [None]: TypeError for a negative limit.  The dtype test and the copy (inplace) are not modelled:
    the result is the contents of the returned array. *)
Definition fill_with (idxs : nat -> list nat) (inv : V) (a : list V) (fill_val : option V) (limit : option Z) : option (list V) :=
  let limit := match limit with Some z => z | None => 0%Z end in
  if (limit <? 0)%Z then None
  else
    let fv := match fill_val with Some v => v | None => inv end in
    Some (contents (fill_loop (Z.to_nat limit) (idxs (length a)) (cells a inv) fv) (length a)).
Definition fill_forward := fill_with upto.
Definition fill_backward := fill_with downto.

(** ** grouped fill, rt_groupbynumba.py:448-492 [_numba_fill_direction] *)
Record regs := mkRegs { last_valid : V; counter : nat; out : V }.
(** lines 472-489: the local variables after reading data[rowIdx] = [v]; [out] is what is stored *)
Definition gfill_read (limit : nat) (r : regs) (v : V) : regs :=
  if limit =? 0 then
    let lv := if isinv v then last_valid r else v in mkRegs lv (counter r) lv
  else if isinv v then
    if 0 <? counter r then mkRegs (last_valid r) (counter r - 1) (last_valid r)
    else mkRegs (last_valid r) (counter r) v
  else mkRegs v limit v.
(** [data = Some d]: a separate input array; [None]: in place, [ret] is the data *)
Definition gfill_row (limit : nat) (data : option (mem V)) (row : nat) : list (instr regs V) :=
  [match data with
   | Some d => fun r m => (gfill_read limit r (d row), m)
   | None => load row (gfill_read limit)
   end;
   store_to row out].
(** one prange iteration: the group [g]; [fwd]: direction == 1 *)
Definition gfill_thread (limit : nat) (fwd : bool) (data : option (mem V)) (fill_val : V)
    (iGroup iFirstGroup nCountGroup : list nat) (g : nat) : thread regs V :=
  let start := nth g iFirstGroup 0 in let last := start + nth g nCountGroup 0 in
  let idx_range := if fwd then seq start (last - start) else map (fun i => last - 1 - i) (seq 0 (last - start)) in
  (mkRegs fill_val limit fill_val,
   concat (map (fun index => gfill_row limit data (nth index iGroup 0)) idx_range)).
(** rt_grouping.py:3350-3400: bins base_bin .. unique_rows, base_bin = 1 *)
Definition gfill_threads (limit : nat) (fwd : bool) (data : option (mem V)) (fill_val : V) (ikey : list nat) (n : nat) : list (thread regs V) :=
  map (gfill_thread limit fwd data fill_val (igroup ikey n) (ifirstgroup ikey n) (ncountgroup ikey n)) (seq 1 n).
End Fill.
Arguments regs : clear implicits.

(** ** running minimum / maximum *)
Section Cum.
Context {V : Type}.
Variable isinv : V -> bool.
(** [better val running]: val < running for cummin, val > running for cummax *)
Variable better : V -> V -> bool.

(** rt_fastarraynumba.py:334-338 and the other three kernels: where the first loop stops *)
Fixpoint first_valid (l : list V) (j : nat) : nat :=
  match l with [] => j - 1 | x :: r => if isinv x then first_valid r (S j) else j end.
(** lines 340-344 *)
Fixpoint scan_skip (running : V) (l : list V) : list V :=
  match l with
  | [] => []
  | val :: r => let running := if negb (isinv val) && better val running then val else running in running :: scan_skip running r
  end.
(** lines 346-351 *)
Fixpoint scan_all (running : V) (l : list V) : list V :=
  match l with
  | [] => []
  | val :: r => let running := if isinv val || better val running then val else running in running :: scan_all running r
  end.
(** lines 332-351 and 426-500 (the empty array is returned as it is) *)
Definition cum (skipna : bool) (arr : list V) : list V :=
  match arr with
  | [] => []
  | a0 :: _ =>
      if skipna then let j := first_valid arr 0 in firstn j arr ++ scan_skip (nth j arr a0) (skipn j arr)
      else scan_all a0 arr
  end.
End Cum.
(** integers of a dtype with invalid value [inv]; floats: [None] is NaN, comparisons with NaN are false *)
Definition cummin_int (inv : Z) := cum (fun v => Z.eqb v inv) Z.ltb.
Definition cummax_int (inv : Z) := cum (fun v => Z.eqb v inv) Z.gtb.
Definition isnan (v : option Z) : bool := match v with None => true | Some _ => false end.
Definition fcmp (c : Z -> Z -> bool) (a b : option Z) : bool := match a, b with Some x, Some y => c x y | _, _ => false end.
Definition cummin_float := cum isnan (fcmp Z.ltb).
Definition cummax_float := cum isnan (fcmp Z.gtb).

(** ** grouped sum and minimum *)
(** rt_groupbynumba.py:30-50 [build_core_list]: the (binLow, binHigh) pairs *)
Fixpoint core_list (cores dividend remainder low : nat) : list (nat * nat) :=
  match cores with
  | 0 => []
  | S c =>
      let high := low + dividend + (if 0 <? remainder then 1 else 0) in
      (low, high) :: core_list c dividend (if 0 <? remainder then remainder - 1 else remainder) high
  end.
Definition build_core_list (cores unique_rows : nat) : list (nat * nat) :=
  core_list cores (unique_rows / cores) (unique_rows mod cores) 0.

Section Reduce.
Context {V : Type}.
(** lines 140-185: zero the cells of the core, then for every row of one of its bins a load and a
    store of the bin's cell.  [init]: 0 or inv; [comb val cell]: what is stored.
    Simplification: the minimum kernel stores unconditionally (the same value when it would not). *)
Definition red_thread (init : V) (comb : V -> V -> V) (ikey : list nat) (data : mem V) (band : nat * nat) : thread V V :=
  let '(binlow, binhigh) := band in
  (init,
   map (fun i => store_to i (fun _ => init)) (seq binlow (binhigh - binlow)) ++
   concat (map (fun index => let grpIdx := nth index ikey 0 in
                 if (binlow <=? grpIdx) && (grpIdx <? binhigh)
                 then [load grpIdx (fun _ v => v); store_to grpIdx (fun l => comb (data index) l)]
                 else []) (seq 0 (length ikey)))).
Definition red_threads (init : V) (comb : V -> V -> V) (cores unique_rows : nat) (ikey : list nat) (data : mem V) : list (thread V V) :=
  map (red_thread init comb ikey data) (build_core_list cores unique_rows).
End Reduce.
(** lines 140-159 [_numbasum]: 64-bit wrapping addition for integers *)
Definition wrap64 (z : Z) : Z := ((z + 2 ^ 63) mod 2 ^ 64 - 2 ^ 63)%Z.
Definition sum_int (val cell : Z) : Z := wrap64 (cell + val).
(** lines 163-185 [_numbamin]: integers, and floats *)
Definition min_int (inv val cell : Z) : Z := if (cell =? inv)%Z || negb (val >=? cell)%Z then val else cell.
Definition min_float (val cell : option Z) : option Z := if negb (fcmp Z.geb val cell) then val else cell.
(** lines 60-90: corecount = min(CORE_COUNT, unique_rows + 1); group 0 is the filtered rows *)
Definition nb_reduce {V} (init : V) (comb : V -> V -> V) (ncores : nat) (ikey : list nat) (n : nat) (data : mem V) : list (thread V V) :=
  red_threads init comb (Nat.min ncores (S n)) (S n) ikey data.

(** ** grouped exponential moving average, rt_groupbynumba.py:189-206 [_numbaEMA].
    Arithmetic of floats is not interpreted: [next data lastEma time lastTime] is line 202. *)
Section Ema.
Context {V T : Type}.
Variable next : V -> V -> T -> T -> V.
Variable zero : V.
Definition ema_row (data : mem V) (time : nat -> T) (row : nat) : list (instr (V * T) V) :=
  [(fun l m => ((next (data row) (fst l) (time row) (snd l), time row), m)); store_to row fst].
Definition ema_thread (data : mem V) (time : nat -> T) (iGroup iFirstGroup nCountGroup : list nat) (g : nat) : thread (V * T) V :=
  let start := nth g iFirstGroup 0 in
  ((zero, time (nth start iGroup 0)),
   concat (map (fun index => ema_row data time (nth index iGroup 0)) (seq start (nth g nCountGroup 0)))).
Definition ema_threads (data : mem V) (time : nat -> T) (ikey : list nat) (n : nat) : list (thread (V * T) V) :=
  map (ema_thread data time (igroup ikey n) (ifirstgroup ikey n) (ncountgroup ikey n)) (seq 1 n).
End Ema.
