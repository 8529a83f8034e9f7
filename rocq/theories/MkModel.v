(** Model of riptable/rt_categorical.py: Categoricals with several keys compared with, searched for
    and assigned tuples; from_bin / from_category; isin with lists; as_singlekey; merging mapped
    Categoricals. *)
From Coq Require Import List Arith ZArith Bool.
From Verif Require Import FlattenModel GroupModel GroupingModel CatModel MkSpec.
Import ListNotations.
Local Open Scope Z_scope.

Definition name_eqb (a b : name) : bool := if name_dec a b then true else false.

(** rt_categorical.py:715-732: the mask of one key column.  [inl None]: a number looked for in a column
    of strings, the function returns at once; [inr]: it raises, or numpy decides *)
Definition col_mask (c : col) (v : cell) : option (list bool) + outcome (list bool) :=
  match c, v with
  | Bytes l, Cs s => if ascii s then inl (Some (map (name_eqb s) l)) else inr Raises
  | Unicode l, Cs s => inl (Some (map (name_eqb s) l))
  | Nums l, Cn z => inl (Some (map (Z.eqb z) l))
  | Bytes _, Cn _ | Unicode _, Cn _ => inl None
  | Nums _, Cs _ => inr Numpy
  end.
(** 715-734: the loop over the key columns, [n]: rows of the unique columns; mask_and is the row-wise
    and.  [Got None]: returned at once *)
Fixpoint masks (n : nat) (cols : list col) (q : list cell) (acc : list bool) : outcome (option (list bool)) :=
  match cols, q with
  | c :: cr, v :: qr =>
      match col_mask c v with
      | inl (Some m) => masks n cr qr (map (fun p => fst p && snd p) (combine acc m))
      | inl None => Got None
      | inr Numpy => Numpy
      | inr _ => Raises
      end
  | _, _ => Got (Some acc)
  end.
Fixpoint first_true (l : list bool) (i : nat) : option nat :=
  match l with [] => None | b :: r => if b then Some i else first_true r (S i) end.
(** rt_categorical.py:681-740 [get_multikey_index] *)
Definition multikey_index (k : mcat) (q : list cell) : outcome Z :=
  if negb (length q =? length (k_cols k))%nat then Raises
  else match masks (ncats k) (k_cols k) q (repeat true (ncats k)) with
       | Got (Some m) => match first_true m 0 with
                         | Some i => Got (Z.of_nat i + k_base k)
                         | None => Got (-2 + k_base k)
                         end
       | Got None => Got (-2 + k_base k)
       | Raises => Raises
       | Numpy => Numpy
       end.

(** rt_categorical.py:4810-4821: comparison with a tuple: the codes are compared with the index *)
Definition compare_tuple (k : mcat) (op : cop) (q : list cell) : outcome (list bool) :=
  match multikey_index k q with
  | Got i => Got (map (fun c => zop op c i) (k_codes k))
  | Raises => Raises
  | Numpy => Numpy
  end.
(** the indices of several tuples; the first call that raises ends the loop *)
Fixpoint all_indices (k : mcat) (qs : list (list cell)) : outcome (list Z) :=
  match qs with
  | [] => Got []
  | q :: r => match multikey_index k q with
              | Got i => match all_indices k r with Got l => Got (i :: l) | Raises => Raises | Numpy => Numpy end
              | Raises => Raises
              | Numpy => Numpy
              end
  end.
(** rt_categorical.py:4776-4778, 4793-4797: comparison with a list of tuples; mask_ori is the row-wise or *)
Definition compare_tuples (k : mcat) (op : cop) (qs : list (list cell)) : outcome (list bool) :=
  match qs with
  | [] => Raises
  | _ => match all_indices k qs with
         | Got l => Got (map (fun c => existsb (fun i => zop op c i) l) (k_codes k))
         | Raises => Raises
         | Numpy => Numpy
         end
  end.
(** rt_categorical.py:4171-4229 [isin].  An empty list: 4223-4224.  A list of one tuple with a string among
    its entries: np.array makes a table of strings with one row, 4229 compares with it, 4802-4803 with its
    row, and 4789 looks up the first string as a category of its own, which 743-785
    [get_category_index] refuses for several keys.  Simplification: [Numpy] for other lists, which np.array may turn
    into tables of numbers; Categoricals of exactly one row (4799) are left out. *)
Definition is_str (v : cell) : bool := match v with Cs _ => true | Cn _ => false end.
Definition isin_tuples (k : mcat) (qs : list (list cell)) : outcome (list bool) :=
  match qs with
  | [] => Got (map (fun _ => false) (k_codes k))
  | [q] => if existsb is_str q then Raises else Numpy
  | _ => Numpy
  end.

(** rt_categorical.py:4609-4657 [_getsingleitem]: c[i] *)
Definition show_tuple (k : mcat) (code : Z) : @row (list cell) := show_code (k_base k) (uniq k) code.
(** rt_categorical.py:4411-4462 [from_bin], several keys: category_array raises, then one entry is read
    from every column; numpy raises beyond the end *)
Definition from_bin_multi (k : mcat) (bin : Z) : outcome (list cell) :=
  if bin <? k_base k then Raises
  else match nth_error (uniq k) (Z.to_nat (bin - k_base k)) with Some t => Got t | None => Raises end.
(** rt_categorical.py:4465-4516 [from_category] with a tuple *)
Definition from_category_multi (k : mcat) (q : list cell) : outcome Z :=
  match multikey_index k q with
  | Got b => if b =? Z.of_nat (ncats k) + k_base k then Raises else Got b
  | Raises => Raises
  | Numpy => Numpy
  end.
(** the same two functions for a single key; an odd index (see [category_index]) is a float *)
Definition from_bin_single {A} (base : Z) (l : list A) (bin : Z) : outcome A :=
  if bin <? base then Raises
  else match nth_error l (Z.to_nat (bin - base)) with Some a => Got a | None => Raises end.
Definition from_category_single {A} (o : ord A) (sorted : bool) (base : Z) (l : list A) (s : A) : outcome Z :=
  let b := category_index o sorted base l s in
  if (b =? 2 * (Z.of_nat (length l) + base)) || Z.odd b then Raises else Got (b / 2).

(** ** Assignment, rt_categorical.py:4305-4392 [__setitem__], several keys *)
(** 4350-4373: the code to be stored *)
Definition source_code (k : mcat) (v : source) : outcome Z :=
  match v with
  | Code z => if (z <? 0) || (Z.of_nat (ncats k) - 1 + k_base k <? z) then Raises else Got z
  | Tuple q => match multikey_index k q with
               | Got i => if -1 <? i then Got i else Raises
               | Raises => Raises
               | Numpy => Numpy
               end
  end.
(** 4382-4388: the rows to be changed *)
Definition target_mask (k : mcat) (t : target) : outcome (list bool) :=
  match t with
  | Rows m => Got m
  | Having q => match multikey_index k q with
                | Got i => if -1 <? i then Got (map (fun c => c =? i) (k_codes k)) else Raises
                | Raises => Raises
                | Numpy => Numpy
                end
  end.
Definition assign (k : mcat) (t : target) (v : source) : outcome mcat :=
  match source_code k v with
  | Got z => match target_mask k t with
             | Got m => Got (mkMcat (k_base k) (k_cols k) (put_mask m z (k_codes k)))
             | Raises => Raises
             | Numpy => Numpy
             end
  | Raises => Raises
  | Numpy => Numpy
  end.
(** a history of assignments; one that raises changes nothing *)
Definition assign_step (k : mcat) (a : target * source) : mcat :=
  match assign k (fst a) (snd a) with Got k' => k' | _ => k end.

(** ** as_singlekey, rt_categorical.py:5426-5483 *)
Section Single.
(** [text]: how astype("S") writes a key *)
Variable text : cell -> name.
(** rt_grouping.py:3230-3269 [onedict] without the invalid entry: the first column as text, then for
    each further column the separator and its text *)
Definition onedict (sep : name) (k : mcat) : list name :=
  match k_cols k with
  | [] => []
  | c :: r => fold_left (fun arr d => map (fun p => fst p ++ sep ++ text (snd p)) (combine arr (col_cells d)))
                r (map text (col_cells c))
  end.
(** 5476-5479 with 2007-2017 and rt_grouping.py:565-628: the codes as they are, categories the texts,
    base index 1.  The result: codes and categories. *)
Definition singlekey_multi (sep : name) (k : mcat) : list Z * list name := (k_codes k, onedict sep k).
End Single.
(** 5480-5483, a single key: codes, categories, always base index 1 *)
Definition singlekey_single {A} (base : Z) (codes : list Z) (l : list A) : list Z * list A :=
  if base =? 0 then (map (fun c => c + 1) codes, l) else (codes, l).
(** 5456-5474, a mapped Categorical *)
Definition singlekey_enum (o : ord name) (ordered : bool) (d : list (Z * name)) (codes : list Z) : list Z * list name :=
  let strings := map snd d in
  let ikey := map (fun c => index_of Z.eqb c (map fst d)) codes in
  if ordered then
    (* an invalid position reads the empty string; Categorical(values, ordered=True) *)
    let values := map (fun i => match i with Some j => nth j strings [] | None => [] end) ikey in
    let us := usort o values in
    (map (fun p => match fst p with Some _ => position o us (snd p) + 1 | None => 0 end) (combine ikey values), us)
  else (map (fun i => match i with Some j => Z.of_nat j + 1 | None => 0 end) ikey, strings).

(** ** categorical_merge_dict, rt_categorical.py:6594-6651 *)
Definition all_codes (ms : list maps) (s : name) : list Z :=
  flat_map (fun m => match get_s (m_s2i m) s with Some c => [c] | None => [] end) ms.
Definition all_names (ms : list maps) (c : Z) : list name :=
  flat_map (fun m => match get_i (m_i2s m) c with Some s => [s] | None => [] end) ms.
(** lines 6613-6632: is there a string with two codes, or a code with two strings?
    [strings], [ints]: the two sets in the order Python walks through them *)
Definition safe (strings : list name) (ints : list Z) (ms : list maps) : bool :=
  forallb (fun s => (length (nodup Z.eq_dec (all_codes ms s)) <=? 1)%nat) strings &&
  forallb (fun c => (length (nodup name_dec (all_names ms c)) <=? 1)%nat) ints.
(** lines 6639-6645: the combined dictionary, name -> code *)
Definition combined (strings : list name) (ms : list maps) : s2i :=
  flat_map (fun s => match all_codes ms s with c :: _ => [(s, c)] | [] => [] end) strings.
(** 6650 with rt_grouping.py:3838-3849 [GroupingEnum], trusted: {v: k for k, v in mapping.items()} *)
Definition reverse (d : s2i) : i2s := fold_left (fun r p => set_i r (snd p) (fst p)) d [].
Definition merge_dict (strings : list name) (ints : list Z) (ms : list maps) : option maps :=
  if safe strings ints ms then Some (mkMaps (reverse (combined strings ms)) (combined strings ms)) else None.
(** rt_categorical.py:4757-4762: comparing two mapped Categoricals *)
Definition compare_mapped (strings : list name) (ints : list Z) (op : cop) (m1 m2 : maps) (c1 c2 : list Z) : option (list bool) :=
  if safe strings ints [m1; m2] then Some (map (fun p => zop op (fst p) (snd p)) (combine c1 c2)) else None.
