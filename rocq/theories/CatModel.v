(** Model of riptable/rt_categorical.py: comparisons, category edits, assignment, copies, expansion,
    deduplication, alignment and mapped categoricals.

    A Categorical holds its categories twice: [Categories._list], read by category_array,
    comparisons and edits, and the unique array of its Grouping, read by c[i], expand_array and every
    group operation.  Both are references to arrays; the arrays live in a heap so that sharing
    between categoricals is visible.  Single key, unlocked categoricals; the dtype of the codes is
    not limited (see C25 for the dtype). *)
From Coq Require Import List Arith ZArith Bool Lia.
From Verif Require Import Sched GroupModel FlattenModel GroupingModel.
Import ListNotations.
Local Open Scope Z_scope.

(** Category values: equality, strict order, length and truncation to a fixed width (numpy S/U
    arrays cut longer strings on assignment; numeric values have length 0). *)
Record ord (A : Type) := mkOrd {
  o_eqb : A -> A -> bool; o_ltb : A -> A -> bool; o_len : A -> nat; o_trunc : nat -> A -> A }.
Arguments o_eqb {A} _ _ _. Arguments o_ltb {A} _ _ _. Arguments o_len {A} _ _. Arguments o_trunc {A} _ _ _.

Record arr (A : Type) := mkArr { a_width : nat; a_items : list A }.
Arguments mkArr {A} _ _. Arguments a_width {A} _. Arguments a_items {A} _.
Definition heap (A : Type) := list (arr A).

Record cat := mkCat {
  c_codes : list Z;       (* the codes, self._fa *)
  c_list : nat;           (* Categories._list *)
  c_uniq : nat;           (* the Grouping's unique array *)
  c_sorted : bool;        (* Categories._sorted *)
  c_ordered : bool;       (* Grouping.Ordered *)
  c_notord : bool;        (* Categorical._ordered is False *)
  c_base : Z }.           (* base_index, 0 or 1 *)

Inductive cop := Ceq | Cne | Clt | Cle | Cgt | Cge.
(** FastArray comparison of integer codes with a number, in half units (see [category_index]) *)
Definition zop (op : cop) (a b : Z) : bool :=
  match op with
  | Ceq => a =? b | Cne => negb (a =? b) | Clt => a <? b | Cle => a <=? b | Cgt => b <? a | Cge => b <=? a
  end.

Section Cat.
Context {A : Type}.
Variable o : ord A.

Definition get_arr (h : heap A) (l : nat) : arr A := nth l h (mkArr 0 []).
Definition items (h : heap A) (l : nat) : list A := a_items (get_arr h l).
Definition set_arr (h : heap A) (l : nat) (a : arr A) : heap A := firstn l h ++ a :: skipn (S l) h.

(** a new Categorical from codes and categories, rt_categorical.py:1725-1731 and 2069-2088 via
    Categories.from_grouping 402-428: [_list] is the very array of the Grouping *)
Definition new_cat (h : heap A) (w : nat) (cats : list A) (ordered : bool) (base : Z) (codes : list Z) : heap A * cat :=
  (h ++ [mkArr w cats], mkCat codes (length h) (length h) ordered ordered false base).

(** ** Looking up a value *)

(** np.searchsorted(list, s), side left: numpy's binary search *)
Fixpoint bsearch (fuel : nat) (l : list A) (s : A) (lo hi : nat) : nat :=
  match fuel with
  | O => lo
  | S f => if (lo <? hi)%nat then
             let mid := (lo + (hi - lo) / 2)%nat in
             match nth_error l mid with
             | Some x => if o_ltb o x s then bsearch f l s (S mid) hi else bsearch f l s lo mid
             | None => lo
             end
           else lo
  end.
Definition searchsorted (l : list A) (s : A) : nat := bsearch (length l) l s 0 (length l).

(** rt_categorical.py:743-785 [get_category_index], single key.  The result is in half units: twice
    the code, or an odd number (code - 0.5) for a value that falls between two categories. *)
Definition category_index (sorted : bool) (base : Z) (l : list A) (s : A) : Z :=
  if sorted then
    let p := searchsorted l s in
    match nth_error l p with
    | Some x => if o_eqb o s x then 2 * (Z.of_nat p + base) else 2 * (Z.of_nat p + base) - 1
    | None => 2 * (Z.of_nat p + base)
    end
  else match index_of (o_eqb o) s l with
       | Some j => 2 * (Z.of_nat j + base)
       | None => 2 * (Z.of_nat (length l) + base)
       end.
(** rt_categorical.py:788-803 [get_category_match_index] of one value: its code if it is a category *)
Definition match_index (sorted : bool) (base : Z) (l : list A) (s : A) : option Z :=
  let i := category_index sorted base l s in
  if Z.even i && (i <? 2 * (Z.of_nat (length l) + base)) then Some (i / 2) else None.
Definition cat_index (h : heap A) (c : cat) (s : A) : Z := category_index (c_sorted c) (c_base c) (items h (c_list c)) s.
Definition cat_match (h : heap A) (c : cat) (s : A) : option Z := match_index (c_sorted c) (c_base c) (items h (c_list c)) s.

(** ** Comparisons, rt_categorical.py:4704-4821 [_categorical_compare_check] *)

(** lines 4714-4738, 4820-4821: a scalar.  [None]: ValueError for an order comparison on a
    categorical flagged unordered. *)
Definition compare (h : heap A) (c : cat) (op : cop) (s : A) : option (list bool) :=
  if (match op with Ceq | Cne => false | _ => true end) && c_notord c then None
  else Some (map (fun k => zop op (2 * k) (cat_index h c s)) (c_codes c)).
(** lines 4776-4791: a list of strings; mask_ori is the row-wise or *)
Definition compare_list (h : heap A) (c : cat) (op : cop) (ss : list A) : option (list bool) :=
  match ss with
  | [] => None
  | _ => Some (map (fun k => existsb (fun s => zop op (2 * k) (cat_index h c s)) ss) (c_codes c))
  end.
(** lines 4764-4773: two categoricals.  merge_cats is called without base_index, so with base 1. *)
Definition compare_cats (crc : list A -> Z) (grp : list A -> list A * list nat) (op : cop)
    (k1 : list nat) (l1 : list A) (k2 : list nat) (l2 : list A) : list bool :=
  let m := fst (merge_cats 0 1 crc grp [k1; k2] [l1; l2]) in
  map (fun p => zop op (Z.of_nat (fst p)) (Z.of_nat (snd p)))
    (combine (firstn (length k1) m) (skipn (length k1) m)).
(** lines 4799-4800 and 6682-6729 [CompareCheckHelper]: an array of as many numbers as rows; the
    parallel loop stores [out i = op (categories()[codes i]) (y i)].  [f]: the operator, [inv]: the value
    categories() puts in front for base 1 (2676-2680), [junk]: read out of range. *)
Definition cat_values (inv : A) (base : Z) (l : list A) : list A := if base =? 1 then inv :: l else l.
Definition array_it (f : A -> A -> bool) (inv junk : A) (base : Z) (l : list A) (codes : list nat) (y : list A) (i : nat) : list (store bool) :=
  [(i, f (nth (nth i codes 0%nat) (cat_values inv base l) junk) (nth i y junk))].

(** ** Reading rows *)
Inductive row := Filtered | Bang (code : Z) | Val (a : A).
(** rt_categorical.py:4609-4661 [_getsingleitem]: what c[i] shows *)
Definition show_code (base : Z) (us : list A) (code : Z) : row :=
  let idx := code - base in
  if (idx <? 0) || (Z.of_nat (length us) <=? idx)
  then if (base =? 1) && (code =? 0) then Filtered else Bang code
  else match nth_error us (Z.to_nat idx) with Some a => Val a | None => Bang code end.
Definition show (h : heap A) (c : cat) : list row := map (show_code (c_base c) (items h (c_uniq c))) (c_codes c).
(** 6020-6131 [expand_array], 6170-6244 [_expand_array]: [None] is the filtered text / invalid number *)
Definition expand_array (h : heap A) (c : cat) : list (option A) :=
  let idx := if c_base c =? 0 then map (fun k => k + 1) (c_codes c) else c_codes c in
  map (mbget None (None :: map Some (items h (c_uniq c)))) idx.
(** 6136-6163 [expand_dict]: the column of the category_dict (990-1010: [_list]), indexed with the bare
    codes for either base *)
Definition expand_dict (h : heap A) (c : cat) : list (option A) :=
  map (mbget None (None :: map Some (items h (c_list c)))) (c_codes c).

(** ** Editing categories, rt_categorical.py:1118-1180 [_array_edit] and 3868-3913 *)

(** [category_add]: hstack makes a new, possibly wider array; [None] is the ValueError *)
Definition category_add (h : heap A) (c : cat) (v : A) : option (heap A * cat) :=
  match cat_match h c v with
  | Some _ => None
  | None =>
      let a := get_arr h (c_list c) in
      Some (h ++ [mkArr (Nat.max (a_width a) (o_len o v)) (a_items a ++ [v])],
            mkCat (c_codes c) (length h) (c_uniq c) false (c_ordered c) true (c_base c))
  end.
Definition remove_code (inv r k : Z) : Z :=
  let k1 := if k =? r then inv else k in
  if r <? k1 then k1 - 1 else k1.
Definition category_remove (h : heap A) (c : cat) (v : A) : option (heap A * cat) :=
  match cat_match h c v with
  | Some r =>
      let a := get_arr h (c_list c) in
      let j := Z.to_nat (r - c_base c) in
      Some (h ++ [mkArr (a_width a) (firstn j (a_items a) ++ skipn (S j) (a_items a))],
            mkCat (map (remove_code (if c_base c =? 0 then -1 else 0) r) (c_codes c))
              (length h) (c_uniq c) (c_sorted c) (c_ordered c) (c_notord c) (c_base c))
  | None => None
  end.
(** [category_replace]: to an existing category the codes change; to a new one the array [_list] is
    changed in place, cut to its width *)
Definition category_replace (h : heap A) (c : cat) (v w : A) : option (heap A * cat) :=
  match cat_match h c v with
  | Some r =>
      match cat_match h c w with
      | Some e => Some (h, mkCat (map (fun k => if k =? r then e else k) (c_codes c)) (c_list c) (c_uniq c)
                             (c_sorted c) (c_ordered c) (c_notord c) (c_base c))
      | None =>
          let a := get_arr h (c_list c) in
          let j := Z.to_nat (r - c_base c) in
          Some (set_arr h (c_list c) (mkArr (a_width a)
                  (firstn j (a_items a) ++ o_trunc o (a_width a) w :: skipn (S j) (a_items a))),
                mkCat (c_codes c) (c_list c) (c_uniq c) false (c_ordered c) true (c_base c))
      end
  | None => None
  end.
Inductive edit := Eadd (v : A) | Eremove (v : A) | Ereplace (v w : A).
Definition do_edit (h : heap A) (c : cat) (e : edit) : option (heap A * cat) :=
  match e with
  | Eadd v => category_add h c v | Eremove v => category_remove h c v | Ereplace v w => category_replace h c v w
  end.
(** a history of edits; an edit that raises leaves the categorical as it is *)
Definition edit_step (s : heap A * cat) (e : edit) : heap A * cat :=
  match do_edit (fst s) (snd s) e with Some s' => s' | None => s end.

(** ** Copies *)
(** 3185-3252 [copy] with 466-496 [Categories._copy] and 1757-1765: codes copied, [_list] shared, the new
    Grouping is made from [_list] and, base_index not being passed, has base 1 *)
Definition copy_cat (c : cat) : cat :=
  mkCat (c_codes c) (c_list c) (c_list c) (c_sorted c) false (c_notord c) 1.
(** 4582-4605 c[slice], c[mask]: the Grouping is copied shallowly (rt_grouping.py:1165-1247), then
    Categories.from_grouping.  Simplification: the codes are a new list (a slice is a numpy view). *)
Definition take_rows (c : cat) (rows : list nat) : cat :=
  mkCat (map (fun r => nth r (c_codes c) 0) rows) (c_uniq c) (c_uniq c) (c_ordered c) (c_ordered c) false (c_base c).

(** ** Assignment, rt_categorical.py:4305-4392 [__setitem__] *)

(** unique(arr, return_inverse=True): the sorted distinct values and the position of every element *)
Fixpoint usinsert (x : A) (l : list A) : list A :=
  match l with
  | [] => [x]
  | y :: r => if o_eqb o x y then l else if o_ltb o x y then x :: l else y :: usinsert x r
  end.
Definition usort (l : list A) : list A := fold_right usinsert [] l.
Definition position (l : list A) (x : A) : Z :=
  match index_of (o_eqb o) x l with Some j => Z.of_nat j | None => 0 end.
Definition put_mask (mask : list bool) (v : Z) (codes : list Z) : list Z :=
  map (fun p => if fst p : bool then v else snd p) (combine mask codes).
(** 4330-4348 with 596-637 [_possibly_add_categories]: c[mask] = v for a string.  [auto]: auto_add. *)
Definition setitem (h : heap A) (c : cat) (auto : bool) (mask : list bool) (v : A) : option (heap A * cat) :=
  let a := get_arr h (c_list c) in
  let s :=
    if existsb (o_eqb o v) (a_items a) then Some (h, c)
    else if auto then
      let all := a_items a ++ [v] in
      let l := usort all in
      let fix_index := map (position l) all in
      Some (h ++ [mkArr (Nat.max (a_width a) (o_len o v)) l],
            mkCat (map (fun k => mbget 0 fix_index (k - c_base c) + c_base c) (c_codes c))
              (length h) (c_uniq c) true (c_ordered c) (c_notord c) (c_base c))
    else None in
  match s with
  | Some (h', c') =>
      match cat_match h' c' v with
      | Some code => Some (h', mkCat (put_mask mask code (c_codes c')) (c_list c') (c_uniq c')
                                (c_sorted c') (c_ordered c') (c_notord c') (c_base c'))
      | None => None
      end
  | None => None
  end.
(** 4318-4326: c[mask] = other categorical (lengths equal; 6376-6435 [categories_equal]).  When the
    categories differ, [value = self.expand_array]: the values of c itself are stored as codes.
    [code_of]: how a category value is stored in an integer array ([None]: numpy raises, as for
    strings). *)
Definition setitem_cat (crc : list A -> Z) (code_of : option A -> option Z) (h : heap A) (c : cat)
    (mask : list bool) (v : cat) : option (list Z) :=
  let lc := items h (c_list c) in
  let lv := items h (c_list v) in
  let put := map (fun p => if fst (fst p) : bool then snd p else snd (fst p)) in
  if (length (items h (c_uniq c)) =? length (items h (c_uniq v)))%nat && (crc lc =? crc lv)
  then Some (put (combine (combine mask (c_codes c)) (c_codes v)))
  else
    let ex := map code_of (expand_array h c) in
    if forallb (fun e => match e with Some _ => true | None => false end) ex
    then Some (put (combine (combine mask (c_codes c)) (map (fun e => match e with Some z => z | None => 0 end) ex)))
    else None.

(** ** isin, rt_grouping.py:1353-1375 [Grouping.isin]: found[codes - 1] *)
Definition group_isin (us : list A) (codes : list Z) (base : Z) (vs : list A) : list bool :=
  let found := map (fun u => existsb (o_eqb o u) vs) us in
  map (fun k => mbget false found (k - base)) codes.

(** ** Deduplication, rt_categorical.py:3915-3937 [_from_maybe_non_unique_labels] *)
(** [grp]: Categorical(categories): distinct categories and the base 1 code of every category *)
Definition make_unique (grp : list A -> list A * list nat) (base : Z) (values : list Z) (cats : list A) : list Z * list A :=
  let '(us, ik) := grp cats in
  let pointer := map (fun k => Z.of_nat k - (1 - base)) ik in
  if (length cats =? length us)%nat then (values, cats)
  else if 0 <? base then
    (map (fun k => if k =? 0 then 0 else mbget 0 pointer (k - base)) values, us)
  else (map (mbget 0 pointer) values, us).

(** ** align, rt_categorical.py:6439-6477 *)
Definition cats_equal (crc : list A -> Z) (cs : list (list nat * list A)) : bool :=
  match cs with
  | [] => false
  | c :: r => forallb (fun d => (length (snd d) =? length (snd c))%nat && (crc (snd d) =? crc (snd c))) r
  end.
Fixpoint split_at (lens : list nat) (codes : list nat) : list (list nat) :=
  match lens with [] => [] | n :: r => firstn n codes :: split_at r (skipn n codes) end.
Definition align (base : nat) (crc : list A -> Z) (grp : list A -> list A * list nat) (cs : list (list nat * list A))
    : list (list nat * list A) :=
  if cats_equal crc cs then cs
  else let '(codes, us) := merge_cats 0 base crc grp (map fst cs) (map snd cs) in
       map (fun k => (k, us)) (split_at (map (fun c => length (fst c)) cs) codes).

(** ** map, rt_categorical.py:3965-4098 with a dictionary *)
(** [d]: the (old, new) pairs in order, keys distinct; [filtered_text]: what a filtered row expands to in
    this categorical, [result_filtered]: in a fresh one; [inv]: the invalid value asked for.  Base 1. *)
Fixpoint assoc {B} (d : list (A * B)) (a : A) : option B :=
  match d with [] => None | (k, v) :: r => if o_eqb o a k then Some v else assoc r a end.
Definition map_dict {B} (us : list A) (codes : list nat) (d : list (A * B)) (filtered_text : A) (inv result_filtered : B) : list B :=
  if forallb (fun u => match assoc d u with Some _ => true | None => false end) us then
    map (fun k => match k with
                  | O => result_filtered
                  | S j => match nth_error us j with
                           | Some u => match assoc d u with Some b => b | None => inv end
                           | None => result_filtered end end) codes
  else
    map (fun k => let a := match k with O => filtered_text | S j => nth j us filtered_text end in
                  match assoc d a with Some b => b | None => inv end) codes.

(** ** nunique, rt_categorical.py:4905-4930 *)
Definition nunique (base : Z) (codes : list Z) : nat :=
  let un := nodup Z.eq_dec codes in
  if base =? 0 then length un
  else if existsb (Z.eqb 0) un then (length un - 1)%nat else length un.

(** ** shift_cat, rt_categorical.py:3336-3350: FastArray.shift fills with code 0 *)
Definition shift_codes (n : nat) (codes : list Z) : list Z :=
  firstn (length codes) (repeat 0 n ++ codes).

(** ** unique(categorical), rt_numpy.py:897-956: the full list when the Grouping is not dirty *)
Definition unique_cat (inv : A) (dirty : bool) (ikey : list nat) (us : list A) (flt : option (list bool)) : list A :=
  match flt with
  | Some _ => snd (regroup inv (length us) ikey us flt)
  | None => if dirty then snd (regroup inv (length us) ikey us None) else us
  end.
End Cat.
Arguments Filtered {A}. Arguments Bang {A} _. Arguments Val {A} _.
Arguments Eadd {A} _. Arguments Eremove {A} _. Arguments Ereplace {A} _ _.

(** ** one_hot_encode(categories=None), rt_categorical.py:3138-3165 *)
Definition one_hot (base : Z) (ncats : nat) (codes : list Z) : list (list bool) :=
  map (fun j => map (fun k => k =? Z.of_nat j + base) codes) (seq 0 ncats).

(** ** Mapped categoricals *)
(** [m_i2s]: int2strdict, [m_s2i]: str2intdict; Python dictionaries (distinct keys, insertion order) *)
Section Map.
Definition i2s := list (Z * name).
Definition s2i := list (name * Z).
Fixpoint get_i (d : i2s) (c : Z) : option name :=
  match d with [] => None | (k, v) :: r => if k =? c then Some v else get_i r c end.
Fixpoint get_s (d : s2i) (s : name) : option Z :=
  match d with [] => None | (k, v) :: r => if name_dec k s then Some v else get_s r s end.
Fixpoint set_i (d : i2s) (c : Z) (s : name) : i2s :=
  match d with [] => [(c, s)] | (k, v) :: r => if k =? c then (k, s) :: r else (k, v) :: set_i r c s end.
Fixpoint set_s (d : s2i) (s : name) (c : Z) : s2i :=
  match d with [] => [(s, c)] | (k, v) :: r => if name_dec k s then (k, c) :: r else (k, v) :: set_s r s c end.
Definition del_i (d : i2s) (c : Z) : i2s := filter (fun p => negb (fst p =? c)) d.
Definition del_s (d : s2i) (s : name) : s2i := filter (fun p => if name_dec (fst p) s then false else true) d.
Record maps := mkMaps { m_i2s : i2s; m_s2i : s2i }.
Inductive medit := Madd (c : Z) (s : name) | Mremove (c : Z) | Mreplace (c : Z) (s : name).
(** rt_categorical.py:1050-1098 [_mapping_edit]; the second component tells whether it raised.  In a
    removal the first dictionary is changed before the second one can raise a KeyError. *)
Definition mapping_edit (m : maps) (e : medit) : maps * bool :=
  match e with
  | Madd c s => match get_i (m_i2s m) c with
                | None => (mkMaps (set_i (m_i2s m) c s) (set_s (m_s2i m) s c), false)
                | Some _ => (m, true)
                end
  | Mremove c => match get_i (m_i2s m) c with
                 | Some s => (mkMaps (del_i (m_i2s m) c) (del_s (m_s2i m) s),
                              match get_s (m_s2i m) s with Some _ => false | None => true end)
                 | None => (m, true)
                 end
  | Mreplace c s => match get_i (m_i2s m) c with
                    | Some _ => (mkMaps (set_i (m_i2s m) c s) (set_s (m_s2i m) s c), false)
                    | None => (m, true)
                    end
  end.

(** rt_categorical.py:3272-3300 [set_valid] of a mapped categorical, boolean filter.  The result shares
    the code array with the source.  Result: the codes (of both), the new mapping; [inv]: the invalid
    of the code dtype. *)
Definition filtered_name : name := [70; 105; 108; 116; 101; 114; 101; 100]%nat.
Definition set_valid_map (inv : Z) (codes : list Z) (d : i2s) (flt : option (list bool)) : list Z * i2s :=
  let ikey := match flt with
              | None => codes
              | Some f => map (fun p => if snd p : bool then fst p else inv) (combine codes f)
              end in
  let newd := filter (fun p => existsb (Z.eqb (fst p)) ikey) d in
  (ikey, match flt with None => newd | Some _ => set_i newd inv filtered_name end).
(** GroupingEnum.from_code, rt_grouping.py:3977-3979 *)
Definition show_map (d : i2s) (c : Z) : name + Z := match get_i d c with Some s => inl s | None => inr c end.
End Map.
