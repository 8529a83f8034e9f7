(** Model of the conversion of arrays and Categoricals to and from pyarrow arrays: FastArray.to_arrow
    and _from_arrow (riptable/rt_fastarray.py:5685-6030), Categorical.to_arrow and _from_arrow
    (riptable/rt_categorical.py:5486-5981) and the part of Grouping that checks the result.

    An integer array is a type and the list of its raw values; the least (signed) or greatest
    (unsigned) value of the type is its invalid value.  An arrow array of integers is a type and a
    list of values, None for null.  Trusted contracts of pyarrow: array, cast, fill_null, to_numpy,
    min_max, filter and DictionaryArray.from_arrays act value by value as documented.  Memory sharing,
    the writable flag, floats (whose NaN stays NaN), Booleans and nested types are left out. *)
From Coq Require Import List Arith ZArith Bool.
From Verif Require Import LosslessModel.
Import ListNotations.
Open Scope Z_scope.

(** ---------- integers ---------- *)
Definition is_null {X} (x : option X) : bool := match x with None => true | Some _ => false end.
(** arr.null_count > 0 *)
Definition has_null {X} (a : list (option X)) : bool := existsb is_null a.

(** rt_fastarray.py:5954-5965 [to_arrow]: invalid values become null *)
Definition to_arrow_int (t : dt) (raw : list Z) : list (option Z) :=
  map (fun z => if z =? sentinel t then None else Some z) raw.

(** pc.min_max: nulls are skipped; None when nothing is left *)
Definition min_max (a : list (option Z)) : option (Z * Z) :=
  fold_left (fun m x => match x, m with
                        | None, _ => m
                        | Some z, None => Some (z, z)
                        | Some z, Some (lo, hi) => Some (Z.min lo z, Z.max hi z)
                        end) a None.
(** rt_fastarray.py:5773-5778: a value of the array is the invalid value of its type *)
Definition holds_invalid (t : dt) (a : list (option Z)) : bool :=
  match min_max a with
  | Some (lo, hi) => (lo =? sentinel t) || (hi =? sentinel t)
  | None => false
  end.
(** arr.fill_null *)
Definition fill_null {X} (v : X) (a : list (option X)) : list X :=
  map (fun x => match x with Some z => z | None => v end) a.
(** rt_fastarray.py:5756-5816 [_from_arrow] of integers after the test for several chunks; None: an
    exception is raised *)
Definition from_one (t : dt) (zero_copy auto_widen : bool) (a : list (option Z)) : option (dt * list Z) :=
  if has_null a && zero_copy then None
  else if holds_invalid t a then
    if zero_copy then None
    else if bits t =? 64 then None
    else if negb auto_widen then None
    else match min_scalar_type (sentinel t) true false with
         | Some t' => Some (t', fill_null (sentinel t) a)
         | None => None
         end
  else Some (t, fill_null (sentinel t) a).
(** hstack of integer arrays of one signedness: the widest type, invalid stays invalid *)
Definition widest (t u : dt) : dt := if bits t <? bits u then u else t.
Definition stack_int (t : dt) (parts : list (dt * list Z)) : dt * list Z :=
  let c := fold_left (fun c p => widest c (fst p)) parts t in
  (c, flat_map (fun p => map (fun z => if z =? sentinel (fst p) then sentinel c else z) (snd p)) parts).
Fixpoint opt_all {X} (l : list (option X)) : option (list X) :=
  match l with
  | [] => Some []
  | Some x :: r => option_map (cons x) (opt_all r)
  | None :: _ => None
  end.
(** rt_fastarray.py:5731-5816: an array has one chunk, a chunked array any number *)
Definition from_arrow_int (t : dt) (zero_copy auto_widen : bool) (chunks : list (list (option Z))) : option (dt * list Z) :=
  if (1 <? length chunks)%nat then
    if zero_copy then None
    else if negb (has_null (concat chunks))
         then option_map (stack_int t) (opt_all (map (from_one t zero_copy auto_widen) chunks))
         else from_one t zero_copy auto_widen (concat chunks)
  else from_one t zero_copy auto_widen (concat chunks).

(** ---------- strings ---------- *)
(** a string is the list of its character codes; numpy's fixed width strings cannot end in NUL *)
Definition text := list nat.
Fixpoint drop0 (s : text) : text := match s with O :: r => drop0 r | _ => s end.
Definition strip0 (s : text) : text := rev (drop0 (rev s)).
Definition is_empty (s : text) : bool := match s with [] => true | _ => false end.
(** rt_fastarray.py:5988-6027 without preserve_fixed_bytes; [bytes]: the array is of bytes, which are
    decoded as ASCII.  None: an exception is raised *)
Definition to_arrow_str (bytes empty_to_null : bool) (a : list text) : option (list (option text)) :=
  if bytes && existsb (existsb (fun c => (128 <=? c)%nat)) a then None
  else Some (map (fun s => if empty_to_null && is_empty s then None else Some s) a).
(** rt_fastarray.py:5842-5875; FastArray(..., dtype=str) makes a fixed width array *)
Definition from_arrow_str (zero_copy : bool) (a : list (option text)) : option (list text) :=
  if zero_copy then None else Some (map strip0 (fill_null [] a)).

(** fixed_size_binary: the values of the buffer (all of one width), where the array starts in it, how long it
    is, and which of its values are null *)
Record fixed_bin := { fb_width : nat; fb_buffer : list text; fb_offset : nat; fb_length : nat; fb_null : list bool }.
Definition fb_values (a : fixed_bin) : list text := firstn (fb_length a) (skipn (fb_offset a) (fb_buffer a)).
(** rt_fastarray.py:5877-5899: with nulls a new array is made; otherwise the buffer is read *)
Definition from_arrow_fixed (zero_copy : bool) (a : fixed_bin) : option (list text) :=
  if existsb (fun b => b) (fb_null a) then
    if zero_copy then None
    else Some (map strip0 (map (fun p => if fst p : bool then repeat O (fb_width a) else snd p) (combine (fb_null a) (fb_values a))))
  else Some (map strip0 (fb_buffer a)).
(** rt_fastarray.py:5988-6004 with preserve_fixed_bytes: every value in its full width *)
Definition pad (w : nat) (s : text) : text := s ++ repeat O (w - length s).
Definition to_arrow_fixed (w : nat) (empty_to_null : bool) (a : list text) : fixed_bin :=
  {| fb_width := w; fb_buffer := map (pad w) a; fb_offset := 0; fb_length := length a; fb_null := map (fun s => empty_to_null && is_empty s) a |}.

(** ---------- Categoricals of one key ---------- *)
Section Cat.
(** [C]: a category; [D]: an arrow array that serves as dictionary, with its length; [from_dict]: FastArray.from_arrow of
    it; [to_dict]: to_arrow of the categories; [sorted]: issorted *)
Context {C D : Type}.
Variable dict_len : D -> nat.
Variable from_dict : D -> option (list C).
Variable to_dict : list C -> D.
Variable sorted : list C -> bool.

Record cat := { c_type : dt; c_key : list Z; c_base : Z; c_cats : list C; c_ord : bool }.
Record dict_arr := { d_type : dt; d_idx : list (option Z); d_dict : D; d_ord : bool }.

(** arithmetic of a FastArray with a small number: invalid stays, results wrap *)
Definition add_int (t : dt) (k z : Z) : Z := if z =? sentinel t then z else wrap t (z + k).
(** astype of a FastArray to a wider type *)
Definition widen (t u : dt) (z : Z) : Z := if z =? sentinel t then sentinel u else z.

(** rt_categorical.py:5740-5789 [to_arrow], one key *)
Definition to_arrow_cat (c : cat) : dict_arr :=
  let mask := map (fun z => (c_base c =? 1) && (z =? 0)) (c_key c) in
  let indices := if c_base c =? 0 then c_key c else map (add_int (c_type c) (- c_base c)) (c_key c) in
  let indices := if c_base c =? 0 then indices else map (fun p => if fst p : bool then 0 else snd p) (combine mask indices) in
  let pa := to_arrow_int (c_type c) indices in
  {| d_type := c_type c;
     d_idx := if existsb (fun b => b) mask then map (fun p => if fst p : bool then None else snd p) (combine mask pa) else pa;
     d_dict := to_dict (c_cats c); d_ord := c_ord c |}.

(** rt_grouping.py:565-628 [_from_categories] for signed integer keys, and 2007-2017 of rt_categorical.py; None:
    an index is out of range *)
Definition from_categories (t : dt) (key : list Z) (cats : list C) (valid : option (list bool)) : option cat :=
  let ok := forallb (fun z => (0 <=? z) && (z <? Z.of_nat (length cats) + 1)) key in
  if negb ok then None
  else Some {| c_type := t;
               c_key := match valid with
                        | Some m => map (fun p => if fst p : bool then snd p else 0) (combine m key)
                        | None => key
                        end;
               c_base := 1; c_cats := cats; c_ord := match key with [] => false | _ => sorted cats end |}.

(** rt_categorical.py:5548-5615: the key made from the indices, and the valid mask; None: there is no wider
    type *)
Definition arrow_key (t : dt) (idx : list (option Z)) (count : Z) : option (dt * list Z * option (list bool)) :=
  match from_arrow_int t false true [idx] with
  | None => None
  | Some (t1, raw) =>
      let mask := if has_null idx then Some (map (fun z => z =? sentinel t1) raw) else None in
      let wide := signed (2 * bits t1) in
      let same := signed (bits t1) in
      match (if negb (is_signed t1) then
               if max_of same <=? count - 1
               then if bits t1 =? 64 then None else Some (wide, map (add_int wide 1) (map (widen t1 wide) raw))
               else Some (same, map (add_int same 1) (map (wrap same) raw))
             else
               if count - 1 =? max_of t1
               then if bits t1 =? 64 then None else Some (wide, map (add_int wide 1) (map (widen t1 wide) raw))
               else Some (t1, map (add_int t1 1) raw)) with
      | None => None
      | Some (t2, key) =>
          Some (t2,
                match mask with
                | Some m => map (fun p => if fst p : bool then 0 else snd p) (combine m key)
                | None => key
                end,
                option_map (map negb) mask)
      end
  end.
(** rt_categorical.py:5526-5616 and 5693-5706 [_from_arrow] of an array with one chunk whose dictionary is not a
    struct *)
Definition from_arrow_cat (zero_copy : bool) (a : dict_arr) : option cat :=
  if zero_copy then None
  else match arrow_key (d_type a) (d_idx a) (Z.of_nat (dict_len (d_dict a))) with
       | None => None
       | Some (t, key, valid) =>
           match from_dict (d_dict a) with
           | None => None
           | Some cats => from_categories t key cats valid
           end
       end.

(** ---------- Categoricals of several keys ---------- *)
(** the key columns: their names, and whether they are plain numeric arrays *)
Record mcat := { m_type : dt; m_key : list Z; m_base : Z; m_cols : list (text * bool * list C) }.
Record mdict := { md_type : dt; md_idx : list (option Z); md_cols : list (text * list C) }.
(** rt_categorical.py:5902-5978: a plain numeric key column is not supported *)
Definition to_arrow_multi (c : mcat) : option mdict :=
  if existsb (fun p => snd (fst p)) (m_cols c) then None
  else let mask := map (fun z => (m_base c =? 1) && (z =? 0)) (m_key c) in
       let indices := if m_base c =? 0 then m_key c else map (add_int (m_type c) (- m_base c)) (m_key c) in
       Some {| md_type := m_type c;
               md_idx := map (fun p => if fst p : bool then None else snd p) (combine mask (to_arrow_int (m_type c) indices));
               md_cols := map (fun p => (fst (fst p), snd p)) (m_cols c) |}.
(** rt_categorical.py:5618-5691, for fields other than name and val: the Categorical is made from the key and the
    list of category arrays; rt_categorical.py:1966-1983: a list of two or more arrays is refused, and one
    array stands for itself *)
Definition from_arrow_multi (count : nat) (a : mdict) : option cat :=
  match arrow_key (md_type a) (md_idx a) (Z.of_nat count) with
  | None => None
  | Some (t, key, valid) =>
      match md_cols a with
      | [(_, cats)] => from_categories t key cats valid
      | _ => None
      end
  end.
End Cat.
Arguments cat : clear implicits.
Arguments dict_arr : clear implicits.
Arguments mcat : clear implicits.
Arguments mdict : clear implicits.

(** ---------- Categoricals with a mapping ---------- *)
(** codes, their type, and the names of codes in order *)
Record ecat := { e_type : dt; e_codes : list Z; e_map : list (text * Z) }.
(** the arrow dictionary: names (null or text) and codes *)
Record edict := { ed_type : dt; ed_idx : list (option Z); ed_names : list (option text); ed_codes : list Z }.
(** ismember: position of the first equal element *)
Fixpoint pos_of {X} (eqb : X -> X -> bool) (x : X) (l : list X) : option nat :=
  match l with
  | [] => None
  | y :: r => if eqb x y then Some O else option_map S (pos_of eqb x r)
  end.
Definition text_eqb (a b : text) : bool := if list_eq_dec Nat.eq_dec a b then true else false.
(** rt_categorical.py:5791-5900 for codes none of which is the invalid value.  The codes without a name are added
    with an empty name; unique() sorts them, here they come in order of appearance.  None: more
    codes than any type can count *)
Definition to_arrow_map (c : ecat) : option edict :=
  let named := map snd (e_map c) in
  let unnamed := nodup Z.eq_dec (filter (fun z => is_null (pos_of Z.eqb z named)) (e_codes c)) in
  let all := named ++ unnamed in
  match np_min_scalar_type (Z.of_nat (length all)) with
  | None => None
  | Some t =>
      Some {| ed_type := t;
              ed_idx := map (fun z => option_map Z.of_nat (pos_of Z.eqb z all)) (e_codes c);
              ed_names := map (fun s => if is_empty s then None else Some s) (map fst (e_map c) ++ repeat [] (length unnamed));
              ed_codes := all |}
  end.
(** issorted *)
Fixpoint increasing (l : list (option nat)) : bool :=
  match l with
  | Some a :: (Some b :: _) as r => (a <=? b)%nat && increasing r
  | _ => true
  end.
(** rt_categorical.py:5630-5674; the pairs of name and code are made unique in order of appearance (Categorical of
    two keys); with nulls a filter is passed, which a mapping refuses (rt_grouping.py:784-785).
    None: an exception is raised *)
Definition pair_dec (a b : text * Z) : {a = b} + {a <> b}.
Proof. decide equality. apply Z.eq_dec. apply (list_eq_dec Nat.eq_dec). Defined.
Fixpoint first_pairs (seen l : list (text * Z)) : list (text * Z) :=
  match l with
  | [] => []
  | p :: r => if in_dec pair_dec p seen then first_pairs seen r else p :: first_pairs (p :: seen) r
  end.
Definition from_arrow_map (t : dt) (a : edict) : option ecat :=
  match from_arrow_int (ed_type a) false true [ed_idx a] with
  | None => None
  | Some (_, raw) =>
      let pairs := first_pairs [] (combine (map strip0 (fill_null [] (ed_names a))) (ed_codes a)) in
      let cs := map snd pairs in
      let ns := map fst pairs in
      if negb (increasing (map (fun z => pos_of Z.eqb z cs) cs)) then None
      else if negb (increasing (map (fun s => pos_of text_eqb s ns) ns)) then None
      else if has_null (ed_idx a) then None
      else match opt_all (map (fun i => nth_error (ed_codes a) (Z.to_nat i)) raw) with
           | None => None
           | Some codes => Some {| e_type := t; e_codes := codes; e_map := pairs |}
           end
  end.
