(** C149-C152: conversion of arrays and Categoricals to and from pyarrow. *)
From Coq Require Import List Arith ZArith Bool Lia.
From Verif Require Import LosslessModel ArrowModel ArrowSpec ArrowProofs ArrowProofs2.
Import ListNotations.
Open Scope Z_scope.

(** C149: an integer array exported to pyarrow and read back is the same array, of the same type. *)
Theorem C149_integers_round_trip_partial : forall t raw aw,
  is_int t = true -> Forall (fun z => min_of t <= z <= max_of t) raw ->
  from_arrow_int t false aw [to_arrow_int t raw] = Some (t, raw).
Proof.
  intros t raw aw Ht F.
  assert (Ns : ~ In (Some (sentinel t)) (concat [to_arrow_int t raw])).
  { cbn [concat]. rewrite app_nil_r. intros I. apply in_map_iff in I. destruct I as [z [E _]]. destruct (Z.eqb_spec z (sentinel t)); congruence. }
  destruct (from_arrow_int_ok t aw [to_arrow_int t raw]) as (t' & r & E & S & D).
  - exact Ht.
  - cbn [concat]. rewrite app_nil_r. apply Forall_forall. intros x I. apply in_map_iff in I. destruct I as [z [<- I]]. rewrite Forall_forall in F. destruct (z =? sentinel t); [exact Logic.I|exact (F z I)].
  - intros I. contradiction.
  - destruct D as [[-> _]|[_ I]]; [|contradiction]. rewrite E. f_equal. f_equal. cbn [concat] in S. rewrite app_nil_r in S. clear - S. unfold to_arrow_int in S. revert raw S. induction r as [|a r IH]; intros [|b raw] S; try discriminate; [reflexivity|].
    cbn [map] in S. injection S as S1 S2. f_equal; [|now apply IH]. unfold shown in S1. destruct (Z.eqb_spec a (sentinel t)), (Z.eqb_spec b (sentinel t)); congruence.
Qed.
Print Assumptions C149_integers_round_trip_partial.

(** an arrow array, in any number of chunks, is read as the same values and nulls, in its own type; an array that
    uses the invalid value of its type is widened, if it has no nulls *)
Theorem C149_arrow_values_are_kept_partial : forall t aw chunks, let l := concat chunks in
  is_int t = true -> Forall (fits t) l ->
  (In (Some (sentinel t)) l -> aw = true /\ bits t <> 64 /\ ~ In None l) ->
  exists t' raw, from_arrow_int t false aw chunks = Some (t', raw) /\ map (shown t') raw = l /\
    is_int t' = true /\ is_signed t' = is_signed t /\
    (~ In (Some (sentinel t)) l -> t' = t) /\ (In (Some (sentinel t)) l -> bits t < bits t').
Proof.
  intros t aw chunks l Ht F H. destruct (from_arrow_int_ok t aw chunks Ht F H) as (t' & r & E & S & D). fold l in E, S, D. exists t', r. split; [exact E|]. split; [exact S|].
  destruct D as [[-> N]|[-> Y]].
  - repeat split; try assumption. contradiction.
  - destruct (H Y) as (_ & B & _). split; [now rewrite wider_int|]. split; [apply wider_sign|]. split; [contradiction|]. intros _. now apply wider_bits.
Qed.
Print Assumptions C149_arrow_values_are_kept_partial.

(** it is refused exactly in these cases *)
Theorem C149_refused : forall t zero_copy auto_widen chunks, let l := concat chunks in
  is_int t = true -> Forall (fits t) l ->
  (from_arrow_int t zero_copy auto_widen chunks = None <->
   (zero_copy = true /\ (In None l \/ In (Some (sentinel t)) l \/ (1 < length chunks)%nat)) \/
   (In (Some (sentinel t)) l /\ (bits t = 64 \/ auto_widen = false))).
Proof. intros. now apply from_arrow_int_none. Qed.
Print Assumptions C149_refused.
(** asking for no copy does not change the result *)
Theorem C149_zero_copy : forall t auto_widen chunks r,
  from_arrow_int t true auto_widen chunks = Some r -> from_arrow_int t false auto_widen chunks = Some r.
Proof. intros. now apply zero_copy_same. Qed.
Print Assumptions C149_zero_copy.

(** Finding: FastArray.from_arrow(pa.array([-128, None], int8), auto_widen=True) is int16 [-128, -128]: the nulls of
    a widened array are filled with the invalid value of the old type, which is an ordinary value of the new
    type (rt_fastarray.py:5809-5815), so the null becomes the number -128. *)
Theorem C149_arrow_values_are_kept_refuted : exists t chunks t' raw, let l := concat chunks in
  is_int t = true /\ Forall (fits t) l /\ bits t <> 64 /\
  from_arrow_int t false true chunks = Some (t', raw) /\ map (shown t') raw <> l.
Proof.
  exists I8, [[Some (-128); None]], I16, [-128; -128]. split; [reflexivity|]. split; [|split; [discriminate|split; [reflexivity|discriminate]]].
  repeat constructor; cbn; lia.
Qed.
Print Assumptions C149_arrow_values_are_kept_refuted.
Example C149_case :
  from_arrow_int I8 false true [[Some 3; Some (-128)]; [Some 5]] = Some (I16, [3; -128; 5]) /\
  from_arrow_int U8 false true [[Some 3; None]; [Some 254]] = Some (U8, [3; 255; 254]) /\
  from_arrow_int U8 false false [[Some 3; Some 255]] = None /\
  to_arrow_int I32 [1; -2147483648; 7] = [Some 1; None; Some 7].
Proof. vm_compute. repeat split. Qed.

(** C150: strings without NUL at their end survive the way to pyarrow and back, empty strings included; so do byte
    strings, and those kept in their fixed width; pyarrow strings that are not empty survive the way through
    riptable, and nulls stay nulls. *)
Theorem C150_strings_round_trip_partial : forall bytes empty_to_null a x,
  to_arrow_str bytes empty_to_null a = Some x -> Forall no_end_nul a -> from_arrow_str false x = Some a.
Proof. intros. eapply str_round; eauto. Qed.
Print Assumptions C150_strings_round_trip_partial.
Theorem C150_arrow_strings_round_trip_partial : forall x,
  Forall (fun o => match o with Some s => s <> [] /\ no_end_nul s | None => True end) x ->
  exists a, from_arrow_str false x = Some a /\ to_arrow_str false true a = Some x.
Proof. intros x F. eexists. split; [reflexivity|]. now apply str_back. Qed.
Print Assumptions C150_arrow_strings_round_trip_partial.
(** byte strings are refused exactly when they are not ASCII *)
Theorem C150_refused : forall bytes empty_to_null a,
  to_arrow_str bytes empty_to_null a = None <-> bytes = true /\ exists s c, In s a /\ In c s /\ (128 <= c)%nat.
Proof.
  intros b e a. unfold to_arrow_str. destruct b; cbn [andb]; [|split; [discriminate|intros [Z _]; discriminate]].
  destruct (existsb (existsb (fun c => (128 <=? c)%nat)) a) eqn:E.
  - split; [|reflexivity]. intros _. split; [reflexivity|]. apply existsb_exists in E. destruct E as [s [I E]]. apply existsb_exists in E. destruct E as [c [J E]]. exists s, c. now rewrite <- Nat.leb_le.
  - split; [discriminate|]. intros [_ (s & c & I & J & L)]. exfalso. assert (T : existsb (existsb (fun c => (128 <=? c)%nat)) a = true); [|congruence]. apply existsb_exists. exists s. split; [exact I|]. apply existsb_exists. exists c. split; [exact J|]. now apply Nat.leb_le.
Qed.
Print Assumptions C150_refused.
Theorem C150_fixed_bytes_round_trip_partial : forall width empty_to_null a,
  Forall (fun s => no_end_nul s /\ (length s <= width)%nat) a ->
  from_arrow_fixed false (to_arrow_fixed width empty_to_null a) = Some a.
Proof. intros. now apply fixed_round. Qed.
Print Assumptions C150_fixed_bytes_round_trip_partial.
(** a fixed_size_binary array that is not a slice is read value by value *)
Theorem C150_fixed_bytes_are_kept_partial : forall b,
  fb_offset b = O -> fb_length b = length (fb_buffer b) -> length (fb_null b) = fb_length b ->
  Forall (fun s => length s = fb_width b /\ no_end_nul s) (fb_buffer b) ->
  from_arrow_fixed false b = Some (map (fun p => if fst p : bool then [] else snd p) (combine (fb_null b) (fb_values b))).
Proof.
  intros b O L N W. rewrite fixed_whole; try assumption.
  - f_equal. unfold fb_values. rewrite O, L, firstn_all. cbn [skipn]. apply map_ext_in. intros [m s] I. cbn [fst snd]. destruct m; [reflexivity|]. apply strip0_id. apply in_combine_r in I. rewrite Forall_forall in W. now apply W.
  - eapply Forall_impl; [|exact W]. now intros s [? _].
Qed.
Print Assumptions C150_fixed_bytes_are_kept_partial.
(** Finding: FastArray.from_arrow of a slice of a fixed_size_binary array without nulls returns the whole array that was
    sliced: the buffer is read from its start to its end (rt_fastarray.py:5888-5891), so the length and the values
    are those of another array. *)
Theorem C150_fixed_bytes_slice_refuted : exists b r,
  fb_null b = repeat false (fb_length b) /\ from_arrow_fixed false b = Some r /\ length r <> fb_length b /\ nth_error r 0 <> nth_error (fb_values b) 0.
Proof.
  exists {| fb_width := 1; fb_buffer := [[97%nat]; [98%nat]; [99%nat]]; fb_offset := 1; fb_length := 1; fb_null := [false] |}, [[97%nat]; [98%nat]; [99%nat]].
  split; [reflexivity|]. split; [reflexivity|]. split; vm_compute; discriminate.
Qed.
Print Assumptions C150_fixed_bytes_slice_refuted.
(** Finding: pyarrow tells an empty string from a null, riptable does not: both are read as the empty string, so they
    come back as null (or, by default, both as the empty string); trailing NULs are lost too. *)
Theorem C150_arrow_strings_round_trip_refuted : forall empty_to_null, exists x y a, x <> y /\
  from_arrow_str false x = Some a /\ from_arrow_str false y = Some a /\
  (to_arrow_str false empty_to_null a <> Some x \/ to_arrow_str false empty_to_null a <> Some y).
Proof.
  intros e. exists [None; Some [97%nat]], [Some []; Some [97%nat]], [[]; [97%nat]]. split; [discriminate|]. split; [reflexivity|]. split; [reflexivity|]. destruct e; [right|left]; discriminate.
Qed.
Print Assumptions C150_arrow_strings_round_trip_refuted.
Example C150_case :
  to_arrow_str true true [[97]; []; [98; 99]]%nat = Some [Some [97]; None; Some [98; 99]]%nat /\
  from_arrow_str false [Some [97]; None; Some [98; 99; 0]]%nat = Some [[97]; []; [98; 99]]%nat /\
  to_arrow_str true false [[200]]%nat = None /\
  from_arrow_fixed false (to_arrow_fixed 2 true [[97]; []; [98; 99]]%nat) = Some [[97]; []; [98; 99]]%nat.
Proof. vm_compute. repeat split. Qed.

(** C151: a Categorical exported to pyarrow and read back has the same categories in the same order and every row its
    category; filtered rows are nulls in between.  The result has base index 1; its key is the same if the
    old one had, too. *)
Theorem C151_categorical_round_trip_partial : forall (C D : Type) (dict_len : D -> nat) from_dict (to_dict : list C -> D) sorted c,
  cat_ok c -> from_dict (to_dict (c_cats c)) = Some (c_cats c) -> dict_len (to_dict (c_cats c)) = length (c_cats c) ->
  exists c', from_arrow_cat dict_len from_dict sorted false (to_arrow_cat to_dict c) = Some c' /\
    c_base c' = 1 /\ c_cats c' = c_cats c /\ map (cat_value c') (c_key c') = map (cat_value c) (c_key c) /\
    (c_base c = 1 -> c_key c' = c_key c) /\ (c_base c = 0 -> c_key c' = map (fun z => if z <? 0 then 0 else z + 1) (c_key c)).
Proof. intros C D dl fd td sd c K F L. destruct (cat_round_trip dl fd td sd c K F L) as (c' & E & H1 & H2 & H3 & H4 & H5 & H6 & H7 & _). exists c'. repeat split; assumption. Qed.
Print Assumptions C151_categorical_round_trip_partial.
(** the exported array holds the category of every row, and null where the row is filtered *)
Theorem C151_categorical_to_arrow : forall (C D : Type) (to_dict : list C -> D) c,
  cat_ok c -> d_dict (to_arrow_cat to_dict c) = to_dict (c_cats c) /\
  map (dict_value (c_cats c)) (d_idx (to_arrow_cat to_dict c)) = map (cat_value c) (c_key c).
Proof.
  intros C D td c K. split; [reflexivity|]. rewrite (to_arrow_cat_idx td c K), map_map. apply map_ext_in. intros z I. pose proof K as (Hi & Hs & B & F).
  assert (Sm : sentinel (c_type c) < 0) by (destruct (c_type c); try discriminate Hi; try discriminate Hs; cbn; lia).
  unfold idx_of, dict_value, cat_value. destruct F as [[Eb F]|[Eb F]]; rewrite Eb; cbn [Z.eqb Pos.eqb]; rewrite Forall_forall in F; pose proof (F _ I) as Q; cbn beta in Q.
  - destruct (Z.eqb_spec z 0), (Z.ltb_spec z 1); try lia; reflexivity.
  - destruct (Z.eqb_spec z (sentinel (c_type c))), (Z.ltb_spec z 0); try lia; try reflexivity. now rewrite Z.sub_0_r.
Qed.
Print Assumptions C151_categorical_to_arrow.
(** a pyarrow dictionary array is read row by row, for indices of any integer type *)
Theorem C151_dictionary_array_partial : forall (C D : Type) (dict_len : D -> nat) (from_dict : D -> option (list C)) sorted a cats,
  from_dict (d_dict a) = Some cats -> dict_len (d_dict a) = length cats ->
  is_int (d_type a) = true -> idx_ok (d_type a) (d_idx a) (Z.of_nat (length cats)) -> Z.of_nat (length cats) <= max_of I64 ->
  (is_signed (d_type a) = false -> In (Some (max_of (d_type a))) (d_idx a) -> ~ In None (d_idx a) /\ bits (d_type a) <> 64) ->
  (is_signed (d_type a) = true -> In (Some (max_of (d_type a))) (d_idx a) -> Z.of_nat (length cats) - 1 = max_of (d_type a)) ->
  exists c, from_arrow_cat dict_len from_dict sorted false a = Some c /\ c_base c = 1 /\ c_cats c = cats /\
    is_signed (c_type c) = true /\ map (cat_value c) (c_key c) = map (dict_value cats) (d_idx a).
Proof. intros C D dl fd sd a cats F L T O B U S. destruct (from_arrow_cat_ok dl fd sd a cats F L T O U S B) as (c & E & H1 & H2 & _ & H4 & _ & H6 & _). exists c. repeat split; assumption. Qed.
Print Assumptions C151_dictionary_array_partial.

(** Finding: a pyarrow dictionary array with uint8 indices and 256 entries that uses the last entry and has nulls is read
    with the nulls turned into the last entry, since the invalid value of uint8 is 255 and from_arrow widens the
    indices and fills the nulls with 255 (rt_categorical.py:5548; see C149). *)
Theorem C151_dictionary_array_refuted : exists (a : dict_arr (list Z)) c,
  idx_ok (d_type a) (d_idx a) (Z.of_nat (length (d_dict a))) /\
  from_arrow_cat (@length Z) Some (fun _ => true) false a = Some c /\
  map (cat_value c) (c_key c) <> map (dict_value (d_dict a)) (d_idx a) /\
  In None (d_idx a) /\ ~ In None (map (cat_value c) (c_key c)).
Proof.
  set (d := map Z.of_nat (seq 0 256)).
  exists {| d_type := U8; d_idx := [Some 255; None]; d_dict := d; d_ord := false |},
         {| c_type := I16; c_key := [256; 256]; c_base := 1; c_cats := d; c_ord := true |}.
  split; [repeat constructor; vm_compute; discriminate|]. split; [vm_compute; reflexivity|].
  split; [vm_compute; discriminate|]. split; [right; now left|]. vm_compute. intros [E|[E|[]]]; discriminate.
Qed.
Print Assumptions C151_dictionary_array_refuted.
(** Finding: a pyarrow dictionary array with int8 indices whose dictionary has more than 128 entries and which uses the
    index 127 cannot be read: the test whether the indices must be widened compares the number of entries for
    equality only (rt_categorical.py:5590), so 127 + 1 wraps to -128 and the array is refused. *)
Theorem C151_longer_dictionary_refuted : exists (a : dict_arr (list Z)),
  idx_ok (d_type a) (d_idx a) (Z.of_nat (length (d_dict a))) /\ d_type a = I8 /\ d_idx a = [Some 0; Some 127] /\ length (d_dict a) = 129%nat /\
  from_arrow_cat (@length Z) Some (fun _ => true) false a = None.
Proof.
  exists {| d_type := I8; d_idx := [Some 0; Some 127]; d_dict := map Z.of_nat (seq 0 129); d_ord := false |}.
  split; [repeat constructor; vm_compute; discriminate|]. repeat split.
Qed.
Print Assumptions C151_longer_dictionary_refuted.
(** Finding: whether the dictionary is ordered is not read from pyarrow: the flag is computed from the categories
    (rt_grouping.py:565-628), so an unordered Categorical with sorted categories comes back ordered. *)
Theorem C151_ordered_flag_refuted : exists (c c' : cat Z), cat_ok c /\
  from_arrow_cat (@length Z) Some (fun _ => true) false (to_arrow_cat (fun l => l) c) = Some c' /\ c_ord c' <> c_ord c.
Proof.
  exists {| c_type := I8; c_key := [1; 0; 2]; c_base := 1; c_cats := [5; 6]; c_ord := false |}, {| c_type := I8; c_key := [1; 0; 2]; c_base := 1; c_cats := [5; 6]; c_ord := true |}.
  split; [|split; [vm_compute; reflexivity|discriminate]].
  split; [reflexivity|]. split; [reflexivity|]. split; [cbn; lia|]. left. split; [reflexivity|]. repeat constructor; cbn; lia.
Qed.
Print Assumptions C151_ordered_flag_refuted.
(** Finding: a Categorical of two or more keys cannot be read back from pyarrow at all: from_arrow hands the list of
    key arrays to the constructor, which refuses a list of arrays (rt_categorical.py:5691, 1979-1983). *)
Theorem C151_multikey_round_trip_refuted : forall (C : Type) (sorted : list C -> bool) (c : mcat C) a count,
  (2 <= length (m_cols c))%nat -> to_arrow_multi c = Some a -> from_arrow_multi sorted count a = None.
Proof.
  intros C sd c a n L E. unfold to_arrow_multi in E. destruct (existsb _ (m_cols c)); [discriminate|]. injection E as <-. unfold from_arrow_multi. destruct (arrow_key _ _ _) as [[[t k] v]|]; [|reflexivity].
  cbn [md_cols]. destruct (m_cols c) as [|[[x1 x2] x3] [|y q]]; cbn [length] in L; try lia. reflexivity.
Qed.
Print Assumptions C151_multikey_round_trip_refuted.
Example C151_case :
  let c := {| c_type := I8; c_key := [1; 0; 2]; c_base := 1; c_cats := [5; 6]; c_ord := false |} in
  d_idx (to_arrow_cat (fun l : list Z => l) c) = [Some 0; None; Some 1] /\ map (cat_value c) (c_key c) = [Some 5; None; Some 6] /\
  (exists c', from_arrow_cat (@length Z) Some (fun _ => true) false {| d_type := U8; d_idx := [Some 127; None; Some 0]; d_dict := map Z.of_nat (seq 0 128); d_ord := false |} = Some c' /\
     c_type c' = I16 /\ c_key c' = [128; 0; 1]) /\
  to_arrow_multi {| m_type := I8; m_key := [1; 0]; m_base := 1; m_cols := [([97%nat], false, [5]); ([98%nat], false, [6])] |} =
    Some {| md_type := I8; md_idx := [Some 0; None]; md_cols := [([97%nat], [5]); ([98%nat], [6])] |}.
Proof.
  cbv zeta. split; [vm_compute; reflexivity|]. split; [vm_compute; reflexivity|]. split; [|vm_compute; reflexivity].
  exists {| c_type := I16; c_key := [128; 0; 1]; c_base := 1; c_cats := map Z.of_nat (seq 0 128); c_ord := true |}. vm_compute. repeat split.
Qed.

(** C152: a Categorical made from a mapping keeps the code of every row and the name of every named code on the way
    through pyarrow. *)
Theorem C152_mapping_round_trip_partial : forall c, map_ok c ->
  exists a c', to_arrow_map c = Some a /\ from_arrow_map (e_type c) a = Some c' /\
    e_type c' = e_type c /\ e_codes c' = e_codes c /\
    (forall z s, In (s, z) (e_map c) -> name_of (e_map c) z = Some s /\ name_of (e_map c') z = Some s).
Proof.
  intros c K. destruct (map_round_trip c K) as (a & E1 & E2). eexists a, _. split; [exact E1|]. split; [exact E2|]. cbn [e_type e_codes e_map]. split; [reflexivity|]. split; [reflexivity|].
  intros z s I. destruct K as (_ & N & _). pose proof (name_of_in _ s z N I) as Q. split; [exact Q|]. now apply name_of_app.
Qed.
Print Assumptions C152_mapping_round_trip_partial.
(** Finding: a code that has no name (shown as !<7>) comes back with the empty name, and is shown as an empty string
    (rt_categorical.py:5838-5860 and the TODO in 5636-5638). *)
Theorem C152_mapping_round_trip_refuted : exists c a c', map_ok c /\ to_arrow_map c = Some a /\ from_arrow_map (e_type c) a = Some c' /\
  exists z, In z (e_codes c) /\ name_of (e_map c) z = None /\ name_of (e_map c') z = Some [].
Proof.
  exists {| e_type := I32; e_codes := [7; 1]; e_map := [([97%nat], 1)] |},
         {| ed_type := U8; ed_idx := [Some 1; Some 0]; ed_names := [Some [97%nat]; None]; ed_codes := [1; 7] |},
         {| e_type := I32; e_codes := [7; 1]; e_map := [([97%nat], 1); ([], 7)] |}.
  split; [|split; [vm_compute; reflexivity|split; [vm_compute; reflexivity|exists 7; split; [now left|split; reflexivity]]]].
  unfold map_ok. cbn [e_map e_codes map fst snd length]. split; [repeat constructor; cbn; intros []|]. split; [repeat constructor; cbn; intros []|].
  split; [|cbn; lia]. constructor; [|constructor]. split; [discriminate|]. unfold no_end_nul. cbn. discriminate.
Qed.
Print Assumptions C152_mapping_round_trip_refuted.
Example C152_case :
  let c := {| e_type := I32; e_codes := [30; 10; 30]; e_map := [([97%nat], 10); ([98%nat], 30)] |} in
  map_ok c /\ to_arrow_map c = Some {| ed_type := U8; ed_idx := [Some 1; Some 0; Some 1]; ed_names := [Some [97%nat]; Some [98%nat]]; ed_codes := [10; 30] |}.
Proof.
  split; [|vm_compute; reflexivity]. unfold map_ok. cbn [e_map e_codes map fst snd length].
  split; [repeat constructor; cbn; intuition discriminate|]. split; [repeat constructor; cbn; intuition discriminate|].
  split; [|cbn; lia]. repeat constructor; unfold no_end_nul; cbn; discriminate.
Qed.
