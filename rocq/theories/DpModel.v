(* Model of the text display of a Dataset: riptable/rt_display.py
   DisplayTable.build_result_table_new (355-899) for a console without styles,
   with what rt_dataset.py Dataset._prepare_display_data (5692-5753) hands to it.
   A value is turned into text by [fmt], a row number by [num]; they stand for
   get_array_formatter and the formatters it picks (not modelled).  Colours,
   HTML and the callback are not modelled.  [None] = an exception is raised. *)
From Coq Require Import List Arith Bool PeanoNat.
From Verif Require Import DpSpec.
Import ListNotations.

(* numpy fancy indexing column[mask]: an index out of range raises. *)
Definition fancy {A} (l : list A) (idx : list nat) : option (list A) :=
  fold_right (fun i acc => match nth_error l i, acc with Some v, Some r => Some (v :: r) | _, _ => None end)
             (Some []) idx.

Fixpoint all_some {A} (l : list (option A)) : option (list A) :=
  match l with
  | [] => Some []
  | x :: r => match x, all_some r with Some v, Some vs => Some (v :: vs) | _, _ => None end
  end.

(* python zip of a list of lists, as used to turn columns into rows. *)
Fixpoint zip_all {A} (ls : list (list A)) : list (list A) :=
  match ls with
  | [] => []
  | [c] => map (fun x => [x]) c
  | c :: r => map (fun p => fst p :: snd p) (combine c (zip_all r))
  end.

(* rt_display.py 2228-2246 align_console_string; DisplayJustification. *)
Inductive align := ALeft | ARight | ACenter.
Definition pad (al : align) (w : nat) (s : text) : text :=
  let ws := w - length s in
  match al with
  | ARight => repeat 32 ws ++ s
  | ALeft => s ++ repeat 32 ws
  | ACenter => repeat 32 (Nat.div2 ws) ++ s ++ repeat 32 (ws - Nat.div2 ws)
  end.

(* rt_display.py 1883-1930 DisplayColumn: heading, texts, footers, _max_width
   and the justification of its format.  The width is measured once, here. *)
Record dcol := DC { d_head : text; d_cells : list text; d_foot : list text; d_width : nat; d_al : align }.

Definition longest (l : list text) : nat := fold_right (fun t w => Nat.max (length t) w) 0 l.
Definition new_col (al : align) (h : text) (cells foot : list text) : dcol :=
  DC h cells foot (Nat.max (Nat.max (longest cells) (length h)) (longest foot)) al.

(* utils/display_options.py HEAD_ROWS, TAIL_ROWS, ROW_ALL, COL_ALL, X_PADDING,
   GB_PREFIX, and the detected width of the console. *)
Record opts := Opts { o_head : nat; o_tail : nat; o_rowall : bool; o_colall : bool;
                      o_pad : nat; o_console : nat; o_prefix : text }.

(* A Dataset as the display sees it: its columns in order, the names of the
   label, summary and sorted columns (_col_sortlist, with sorts on), the sorted
   row index of a sorted view, the number of rows and the names of the footer
   lines.  [cfoot] of a column has the formatted footer (or "") for each line:
   Dataset.footer_get_values 5535-5556 with fill_value "". *)
Record dset (V : Type) := DS { s_cols : list (column V); s_labels : list text; s_summary : list text;
                               s_sort : option (list text); s_order : option (list nat);
                               s_nrows : nat; s_foots : list text }.
Arguments DS {V} _ _ _ _ _ _ _. Arguments s_cols {V} _. Arguments s_labels {V} _. Arguments s_summary {V} _.
Arguments s_sort {V} _. Arguments s_order {V} _. Arguments s_nrows {V} _. Arguments s_foots {V} _.

(* The table handed to DisplayConsoleTable: headings, rows, footers and the
   columns themselves for widths and justification. *)
Record table := Tab { t_head : list text; t_rows : list (list text); t_foot : list (list text);
                      t_cols : list dcol }.

Definition mem (n : text) (l : list text) : bool := existsb (text_eqb n) l.

(* rt_display.py 310-328 build_row_mask. *)
Definition row_mask (head tail total : nat) (all : bool) : list nat * option nat :=
  if (total <=? head + tail) || all then (seq 0 total, None)
  else (seq 0 head ++ seq (total - tail) tail, Some head).

(* rt_display.py 1213-1240 build_column, the cells: the column at the mask, with
   the break inserted.  [masked]: the column was cut before. *)
Definition column_cells {A} (f : A -> text) (mask : list nat) (rb : option nat) (masked : bool)
                        (vals : list A) : option (list text) :=
  let m := if masked then seq 0 (length vals) else mask in
  match rb with
  | Some b => match fancy vals (firstn b m), fancy vals (skipn b m) with
              | Some x, Some y => Some (map f x ++ [dots] ++ map f y)
              | _, _ => None
              end
  | None => match fancy vals m with Some x => Some (map f x) | None => None end
  end.

Definition build_column {A} (f : A -> text) (al : align) (mask : list nat) (rb : option nat) (masked : bool)
                        (h : text) (vals : list A) (foot : list text) : option dcol :=
  match column_cells f mask rb masked vals with
  | Some cells => Some (new_col al h cells foot)
  | None => None
  end.

(* rt_display.py 902-921 fix_repeated_keys: the first key column only; the width
   stays as measured. *)
Fixpoint hide_from (last : text) (l : list text) : list text :=
  match l with
  | [] => []
  | x :: r => if text_eqb x last then dot :: hide_from last r else x :: hide_from x r
  end.
Definition fix_repeated (cs : list dcol) : list dcol :=
  match cs with
  | [] => []
  | c :: r => DC (d_head c) (match d_cells c with [] => [] | x :: l => x :: hide_from x l end)
                 (d_foot c) (d_width c) (d_al c) :: r
  end.

(* rt_display.py 1927-1932 display_width. *)
Definition dw (p : nat) (c : dcol) : nat := d_width c + p.

(* rt_display.py 1311-1424 fit_max_columns, the loop: [mid] are the columns from
   colbegin to colend.  The result says whether a column break was set.  The
   test of 1397 (not all columns added) always holds there. *)
Fixpoint fit_loop (fuel p console : nat) (force : bool) (tot : nat) (mid left right : list dcol)
  : list dcol * list dcol * bool :=
  match fuel with
  | 0 => (left, right, false)
  | S f =>
    if (tot <=? console) || force then
      match mid with
      | [] => (left, right, false)
      | first :: rest =>
        if (console <? tot + dw p first) && negb force then (left, right, true)
        else
          let left' := left ++ [first] in
          let tot' := tot + dw p first in
          match rest with
          | [] => (left', right, false)
          | _ :: _ =>
            let lst := last rest first in
            if (console <? tot' + dw p lst) && negb force then (left', right, true)
            else fit_loop f p console force (tot' + dw p lst) (removelast rest) left' (lst :: right)
          end
      end
    else (left, right, false)
  end.

(* 1320-1330 build_break_column and 1413-1424: [nmask] is the length of the row
   mask, [nf] the number of footer lines (without footers the column still has
   one "..." as footer, which is never shown). *)
Definition break_column (nmask : nat) (rb : option nat) (nf : nat) : dcol :=
  new_col ARight dots
          (match rb with
           | Some b => repeat dots (Nat.min b nmask) ++ [dots] ++ repeat dots (nmask - b)
           | None => repeat dots nmask
           end)
          (repeat dots nf).
Definition fit_max (p console : nat) (force : bool) (tot nmask : nat) (rb : option nat) (nf : nat)
                   (cols : list dcol) : list dcol * list dcol :=
  match fit_loop (length cols) p console force tot cols [] [] with
  | (l, r, true) => (l ++ [break_column nmask rb nf], r)
  | (l, r, false) => (l, r)
  end.

(* rt_display.py 1427-1448 all_columns_console: sets of columns shown one below
   the other. *)
Fixpoint column_sets (p console off cur : nat) (acc cols : list dcol) : list (list dcol) :=
  match cols with
  | [] => [acc]
  | c :: r => if console <? cur + dw p c then acc :: column_sets p console off (off + dw p c) [c] r
              else column_sets p console off (cur + dw p c) (acc ++ [c]) r
  end.

(* rt_display.py 836-899 and 1836-1848 DisplayConsoleTable.build_data: the rows
   of the left, main and right columns side by side, groups without rows left
   out.  The case of one row without cells (1788-1791) does not arise. *)
Definition side_by_side (groups : list (list dcol)) : list (list text) :=
  map (@concat text)
      (zip_all (filter (fun g => match g with [] => false | _ => true end)
                       (map (fun g => zip_all (map d_cells g)) groups))).

(* 1063-1080 and 836-883: one table of the given columns. *)
Definition make_table (foots : bool) (left main right : list dcol) : table :=
  let cs := left ++ main ++ right in
  Tab (map d_head cs) (side_by_side [left; main; right])
      (if foots then zip_all (map d_foot cs) else []) cs.

Section Model.
  Variable V : Type.
  Variable fmt : V -> text.
  Variable num : nat -> text.
  Variable just : list V -> align.   (* justification of a column's format *)

  Definition find_col (cols : list (column V)) (n : text) : option (column V) :=
    find (fun c => text_eqb (cname c) n) cols.
  Definition get_cols (cols : list (column V)) (ns : list text) : option (list (column V)) :=
    all_some (map (find_col cols) ns).

  (* rt_dataset.py 5692-5753 _prepare_display_data: the columns from left to
     right as (labels, sorted ++ main ++ summary). *)
  Definition prepare (ds : dset V) : option (list (column V) * list (column V)) :=
    let sortkeys := match s_sort ds with Some l => l | None => [] end in
    let mainkeys := filter (fun n => negb (mem n (match s_labels ds with [] => [hash] | l => l end))
                                     && negb (mem n (s_summary ds)) && negb (mem n sortkeys))
                           (map cname (s_cols ds)) in
    match get_cols (s_cols ds) (s_labels ds), get_cols (s_cols ds) sortkeys,
          get_cols (s_cols ds) mainkeys, get_cols (s_cols ds) (s_summary ds) with
    | Some l, Some s, Some m, Some r => Some (l, s ++ m ++ r)
    | _, _, _, _ => None
    end.

  (* 5727-5744: a footer line has "" for all left columns but the last, then the
     name of the line, then the footers of the other columns. *)
  Definition footer_rows (nleft : nat) (foots : list text) (cols : list (column V)) : list (list text) :=
    map (fun j => repeat [] (nleft - 1) ++ [nth j foots []] ++ map (fun c => nth j (cfoot c) []) cols)
        (seq 0 (length foots)).
  Definition footer_at (rows : list (list text)) (i : nat) : list text := map (fun f => nth i f []) rows.

  (* rt_display.py 1268-1308 add_required_columns, and the columns of 1345-1361:
     each column with its heading and its footers. *)
  Definition build_all (mask : list nat) (rb : option nat) (heads : list text) (cols : list (column V))
                       (frows : list (list text)) : option (list dcol) :=
    all_some (map (fun i => match nth_error heads i, nth_error cols i with
                            | Some h, Some c => build_column fmt (just (cvals c)) mask rb false h (cvals c)
                                                             (footer_at frows i)
                            | _, _ => None
                            end) (seq 0 (length cols))).

  (* rt_display.py 355-899, not transposed, one heading line. *)
  Definition display (o : opts) (ds : dset V) : option (list table) :=
    match prepare ds with
    | None => None
    | Some (labels, others) =>
      let '(m0, rb) := row_mask (o_head o) (o_tail o) (s_nrows ds) (o_rowall o) in
      match (match s_order ds with None => Some m0 | Some idx => fancy idx m0 end) with
      | None => None
      | Some mask =>
        let nl := length labels in
        let frows := footer_rows nl (s_foots ds) others in
        let nleft := match labels with [] => 1 | _ => nl end in
        (* 538-601: the left columns *)
        let lefts :=
          match labels with
          | [] => match build_column num ARight mask rb true hash mask (footer_at (map (firstn 1) frows) 0) with
                  | Some c => Some [c] | None => None end
          | _ => match build_all mask rb (map (fun c => o_prefix o ++ cname c) labels) labels
                                 (map (firstn nl) frows) with
                 | Some cs => Some (if 1 <? nl then fix_repeated cs else cs)
                 | None => None
                 end
          end in
        (* 606-628: the summary columns *)
        let nr := length (s_summary ds) in
        let rcols := skipn (length others - nr) others in
        let mcols := firstn (length others - nr) others in
        let rights := build_all mask rb (map cname rcols) rcols
                                (map (fun f => skipn (length f - nr) f) frows) in
        let mains := build_all mask rb (map cname mcols) mcols (map (skipn nleft) frows) in
        match lefts, rights, mains with
        | Some l, Some r, Some m =>
          let tot := total (map d_width l) + total (map d_width r) in
          let nsort := match s_sort ds with Some s => length s | None => 0 end in
          if o_colall o then
            (* 635-638, 716-718 and 886-899: footers are not used *)
            let m' := match build_all mask rb (map cname mcols) mcols [] with Some x => x | None => [] end in
            let sets := column_sets (o_pad o) (o_console o) tot tot [] m' in
            if length (hd [] sets) <? nsort then None
            else Some (map (fun s => make_table false l s r) sets)
          else
            (* 652-654 and 711-715: the sorted columns are painted *)
            let '(a, b) := fit_max (o_pad o) (o_console o) false tot (length mask) rb
                                   (length (s_foots ds)) m in
            if length (a ++ b) <? nsort then None
            else Some [make_table (match s_foots ds with [] => false | _ => true end) l (a ++ b) r]
        | _, _, _ => None
        end
      end
    end.
End Model.
Arguments find_col {V} _ _. Arguments get_cols {V} _ _. Arguments prepare {V} _.
Arguments footer_rows {V} _ _ _. Arguments build_all {V} _ _ _ _ _ _ _. Arguments display {V} _ _ _ _ _.

(* rt_display.py 1770-1848 DisplayConsoleTable.build_table: the lines of text of
   a table.  Footers are right-justified (build_footer 1960-1973). *)
Definition spacer : text := [32; 32; 32].
Fixpoint join (l : list text) : text :=
  match l with [] => [] | [x] => x | x :: r => x ++ spacer ++ join r end.
Definition line (al : dcol -> align) (cs : list dcol) (row : list text) : text :=
  join (map (fun p => pad (al (fst p)) (d_width (fst p)) (snd p)) (combine cs row)).
Definition border (cs : list dcol) : text := join (map (fun c => repeat 45 (d_width c)) cs).
Definition lines (t : table) : list text :=
  [line d_al (t_cols t) (t_head t); border (t_cols t)]
  ++ map (line d_al (t_cols t)) (t_rows t)
  ++ (match t_foot t with
      | [] => []
      | f => border (t_cols t) :: map (line (fun _ => ARight) (t_cols t)) f
      end).

(* rt_display.py 1099-1165 fix_multiline_headers: the headings of a Multiset
   whose columns do not all fit.  [nfirst] = len(_main_first_widths), with the
   column of dots, [nlast] = len(_main_last_widths).  The left walk ... *)
Fixpoint left_head (top : list (text * nat)) (idx nfirst : nat) : option (list (text * nat)) :=
  match top with
  | [] => None      (* new_left_head never bound: NameError *)
  | h :: r =>
    if (idx + snd h) <? nfirst - 1 then
      match left_head r (idx + snd h) nfirst with Some x => Some (h :: x) | None => None end
    else if (idx + snd h) =? nfirst - 1 then Some [h; ([], 1)]
    else Some [(fst h, nfirst - idx - 1); ([], 1)]
  end.
(* ... and the right walk, over the reversed line. *)
Fixpoint right_head (rtop : list (text * nat)) (idx nlast : nat) : option (list (text * nat)) :=
  match rtop with
  | [] => None
  | h :: r =>
    if (idx + snd h) <? nlast then
      match right_head r (idx + snd h) nlast with Some x => Some (x ++ [h]) | None => None end
    else if nlast <? idx + snd h then Some [(fst h, nlast - idx)]
    else Some [h]
  end.
(* python l[-n:], which is all of l for n = 0. *)
Definition last_n {A} (n : nat) (l : list A) : list A :=
  match n with 0 => l | _ => skipn (length l - n) l end.
Definition fix_headers (top : list (text * nat)) (bottom : list text) (nfirst nlast : nat)
  : option (list (text * nat) * list text) :=
  match left_head top 0 nfirst, right_head (rev top) 0 nlast with
  | Some a, Some b => Some (a ++ b, firstn (nfirst - 1) bottom ++ [[]] ++ last_n nlast bottom)
  | _, _ => None
  end.
(* 652-654, 768-769 and 786-790 for a Multiset: the columns are fitted, the two
   heading lines fixed, then every heading of the bottom line paints the main
   column of its index.  The result: the heading lines and the main columns. *)
Definition multi_main (p console tot nmask : nat) (rb : option nat) (top : list (text * nat))
                      (cols : list dcol) : option (list (text * nat) * list text * list dcol) :=
  let '(a, b, brk) := fit_loop (length cols) p console false tot cols [] [] in
  let a' := if brk then a ++ [break_column nmask rb 0] else a in
  let main := a' ++ b in
  match (if brk then fix_headers top (map d_head cols) (length a') (length b)
         else Some (top, map d_head cols)) with
  | Some (t, bot) => if length bot <=? length main then Some (t, bot, main) else None
  | None => None
  end.

Section Transposed.
  Variable V : Type.
  Variable fmt : V -> text.
  Variable num : nat -> text.

  (* rt_display.py 1531-1546: how many of the rows fit, given their widths. *)
  Fixpoint fit_rows (console tot : nat) (ws : list nat) : nat :=
    match ws with
    | [] => 0
    | w :: r => if console <? tot + (w + 3) then 0 else S (fit_rows console (tot + (w + 3)) r)
    end.

  (* rt_display.py 520-535, 590-601, 631-632, 1024-1046 and 1503-1555: the
     transposed table, _T, of a Dataset: one line per column, one column per
     row.  The left column has the names under "Fields:".  Summary columns are
     cut from the data and shown on the right as they would be untransposed. *)
  Definition t_widths (t_max : nat) (cells : list (list text)) : list nat :=
    map (fun i => longest (map (fun c => nth i c []) cells)) (seq 0 t_max).
  Definition fields : text := [70; 105; 101; 108; 100; 115; 58].
  Definition transposed (o : opts) (col_t : nat) (ds : dset V)
    : option (list text * list (list text)) :=
    match prepare ds with
    | None => None
    | Some (labels, others) =>
      let n := Nat.min col_t (s_nrows ds) in
      match (match s_order ds with None => Some (seq 0 n) | Some idx => fancy idx (seq 0 n) end) with
      | None => None
      | Some mask =>
        let t_max := Nat.min 15 (s_nrows ds) in
        let names := map cname (labels ++ others) in
        let nr := length (s_summary ds) in
        let rcols := skipn (length others - nr) others in
        let mcols := firstn (length others - nr) others in
        let lft := new_col ARight fields names [] in
        match build_all fmt (fun _ => ARight) mask None (map cname rcols) rcols [] with
        | None => None
        | Some rights =>
          let cells := map (fun c => map fmt (firstn t_max (cvals c))) (labels ++ mcols) in
          match cells, t_max with
          | [], S _ => None               (* max() of nothing: ValueError *)
          | _, _ =>
            let k := fit_rows (o_console o) (d_width lft + total (map d_width rights)) (t_widths t_max cells) in
            let body := map (firstn k) cells in
            (* each t_column is a row already: 851-854 *)
            let groups := filter (fun g => match g with [] => false | _ => true end)
                                 [map (fun x => [x]) names; body; zip_all (map d_cells rights)] in
            Some (fields :: map num (seq 0 (k + length rights)), map (@concat text) (zip_all groups))
          end
        end
      end
    end.
End Transposed.
Arguments transposed {V} _ _ _ _ _. 
