(** Properties C156 to C159: stacking Structs and dictionaries of arrays, comparing Structs. *)
From Coq Require Import List Arith ZArith Bool Lia.
From Verif Require Import FlattenModel DsModel GroupingModel StModel StSpec StProofs StProofs2 StProofs3.
Import ListNotations.

(** *** C156: Struct.hstack *)
(** Structs whose items of one name are of one type, at every depth: stacking succeeds, and at every path the array of the
    result is the arrays (and scalars) found there one after the other, a Dataset is Dataset.hstack of the Datasets found
    there, a Struct has all the names found there in order of first appearance, and nothing else is in the result. *)
Theorem C156_stacked_structs_partial :
  forall (X D : Type) (ds_stack : list D -> option D), (forall l, 2 <= length l -> ds_stack l <> None) ->
  forall (ls : list (list (name * item X D))), ls <> [] -> (forall s, In s ls -> well_formed (ISt s)) -> agree (map ISt ls) ->
  exists r, hstack_struct ds_stack ls = Some r /\ forall p,
    elems_at p (ISt r) = concat (map (elems_at p) (map ISt ls)) /\
    names_at p (ISt r) = firsts (concat (map (names_at p) (map ISt ls))) /\
    match concat (map (datasets_at p) (map ISt ls)) with
    | [] => datasets_at p (ISt r) = []
    | [d] => datasets_at p (ISt r) = [d]
    | ds => exists d, ds_stack ds = Some d /\ datasets_at p (ISt r) = [d]
    end /\
    ((exists y, get p (ISt r) = Some y) <-> (exists s y, In s ls /\ get p (ISt s) = Some y)) /\
    (forall s y z, In s ls -> get p (ISt s) = Some y -> get p (ISt r) = Some z -> bucket_of z = bucket_of y).
Proof.
  intros X D ds T ls Ne W A. destruct (hstack_struct_good ds T ls Ne W A) as (r & E & [G1 G2 G3 G4 G5]). exists r. split; [exact E|]. intros p.
  split; [apply G1|]. split; [apply G3|]. split; [apply G2|]. split.
  - rewrite G4. split.
    + intros (i & y & I & Q). apply in_map_iff in I. destruct I as (s & <- & I). eauto.
    + intros (s & y & I & Q). exists (ISt s), y. split; [now apply in_map|exact Q].
  - intros s y z I. apply G5. now apply in_map.
Qed.
Print Assumptions C156_stacked_structs_partial.

Definition st1 : list (name * item nat nat) := [([97], IArr 0 [1; 2]); ([98], ISt [([99], IScal 5); ([100], IDs 70)])].
Definition st2 : list (name * item nat nat) := [([98], ISt [([100], IDs 80); ([101], IArr 3 [9])]); ([97], IArr 0 [3]); ([102], IScal 4)].
Example C156_case :
  hstack_struct (fun l => Some (list_sum l)) [st1; st2]
  = Some [([97], IArr 0 [1; 2; 3]); ([98], ISt [([99], IArr 0 [5]); ([100], IDs 150); ([101], IArr 3 [9])]); ([102], IArr 0 [4])].
Proof. vm_compute. reflexivity. Qed.
Example C156_case_hyp : (forall s, In s [st1; st2] -> well_formed (ISt s)) /\ agree (map ISt [st1; st2]).
Proof.
  assert (G : forall (s : list (name * item nat nat)) k q, get (k :: q) (ISt s) = match dget k s with Some j => get q j | None => None end) by reflexivity.
  assert (V : forall s, In s [st1; st2] -> forall p y, get p (ISt s) = Some y -> (p, bucket_of y) = ([], BSt) \/ (p, bucket_of y) = ([[97]], BArr 0) \/ (p, bucket_of y) = ([[98]], BSt) \/ (p, bucket_of y) = ([[98]; [99]], BArr 0) \/ (p, bucket_of y) = ([[98]; [100]], BDs) \/ (p, bucket_of y) = ([[98]; [101]], BArr 3) \/ (p, bucket_of y) = ([[102]], BArr 0)).
  { intros s Hs p y E. destruct Hs as [<-|[<-|[]]]; destruct p as [|k q]; try (injection E as <-; now left).
    - rewrite G in E. unfold st1 in E. cbn [dget] in E. destruct (name_dec [97] k) as [<-|_]; [destruct q; [injection E as <-; cbn; tauto|discriminate]|]. destruct (name_dec [98] k) as [<-|_]; [|discriminate].
      destruct q as [|k2 q2]; [injection E as <-; cbn; tauto|]. rewrite G in E. cbn [dget] in E. destruct (name_dec [99] k2) as [<-|_]; [destruct q2; [injection E as <-; cbn; tauto|discriminate]|]. destruct (name_dec [100] k2) as [<-|_]; [destruct q2; [injection E as <-; cbn; tauto|discriminate]|discriminate].
    - rewrite G in E. unfold st2 in E. cbn [dget] in E. destruct (name_dec [98] k) as [<-|_].
      + destruct q as [|k2 q2]; [injection E as <-; cbn; tauto|]. rewrite G in E. cbn [dget] in E. destruct (name_dec [100] k2) as [<-|_]; [destruct q2; [injection E as <-; cbn; tauto|discriminate]|]. destruct (name_dec [101] k2) as [<-|_]; [destruct q2; [injection E as <-; cbn; tauto|discriminate]|discriminate].
      + destruct (name_dec [97] k) as [<-|_]; [destruct q; [injection E as <-; cbn; tauto|discriminate]|]. destruct (name_dec [102] k) as [<-|_]; [destruct q; [injection E as <-; cbn; tauto|discriminate]|discriminate]. }
  split.
  - intros s Hs p. unfold names_at. destruct (get p (ISt s)) as [[]|] eqn:E; try constructor. pose proof (V s Hs p _ E) as Q. cbn [bucket_of] in Q.
    destruct Q as [Q|[Q|[Q|[Q|[Q|[Q|Q]]]]]]; try discriminate; injection Q as ->; destruct Hs as [<-|[<-|[]]]; cbn in E; injection E as <-; repeat constructor; cbn; intuition discriminate.
  - intros p i j x y I J Ex Ey. apply in_map_iff in I. destruct I as (s & <- & I). apply in_map_iff in J. destruct J as (t & <- & J). pose proof (V s I p x Ex) as A. pose proof (V t J p y Ey) as B.
    destruct A as [A|[A|[A|[A|[A|[A|A]]]]]]; destruct B as [B|[B|[B|[B|[B|[B|B]]]]]]; congruence.
Qed.

(** Finding: when two Structs have an item of one name but of different types (an array and a Categorical, say), the type that
    was seen last keeps its data and the data of the others is dropped; there is only a warning (rt_hstack.py:336-342,
    376-378). *)
Theorem C156_no_data_is_lost_refuted :
  ~ (forall (X D : Type) (ds_stack : list D -> option D) (ls : list (list (name * item X D))) r,
     (forall s, In s ls -> NoDup (map fst s)) -> hstack_struct ds_stack ls = Some r ->
     forall p, elems_at p (ISt r) = concat (map (elems_at p) (map ISt ls))).
Proof.
  intros H. specialize (H nat nat (fun _ => None) [[([97], IArr 0 [1; 2])]; [([97], IArr 1 [3])]] [([97], IArr 1 [3])]).
  assert (K : elems_at [[97]] (ISt (D := nat) [([97], IArr 1 [3])]) = [1; 2; 3]); [|discriminate K].
  apply H; [intros s [<-|[<-|[]]]; repeat constructor; cbn; tauto|vm_compute; reflexivity].
Qed.
Print Assumptions C156_no_data_is_lost_refuted.

(** *** C157: hstack_any of a dictionary of arrays *)
(** The arrays one after the other, and a Categorical that shows, in every row, the key of the array the row is from. *)
Theorem C157_stacked_dictionary_partial :
  forall (X : Type) (d : list (name * list X)), d <> [] ->
  (length d <= 127 \/ length d <= length (concat (map snd d))) -> (Z.of_nat (length (concat (map snd d))) < 2 ^ 63)%Z ->
  exists codes, hstack_dict d = Some (concat (map snd d), (codes, map fst d)) /\ length codes = length (concat (map snd d)) /\
    combine (map (name_of (map fst d)) codes) (concat (map snd d)) = concat (map (fun p => map (pair (Some (fst p))) (snd p)) d).
Proof. exact @hstack_dict_ok. Qed.
Print Assumptions C157_stacked_dictionary_partial.
Example C157_case :
  hstack_dict [([97], [10; 20]); ([98], []); ([99], [30])] = Some ([10; 20; 30], ([1; 1; 3]%Z, [[97]; [98]; [99]])).
Proof. vm_compute. reflexivity. Qed.
(** Finding: the type of the codes is chosen by the number of rows, not by the number of arrays: 128 or more arrays with
    fewer than 100 rows in all need codes that do not fit int8 (rt_hstack.py:198-204). *)
Theorem C157_dictionary_is_stacked_refuted :
  ~ (forall (X : Type) (d : list (name * list X)), d <> [] -> NoDup (map fst d) -> hstack_dict d <> None).
Proof.
  intros H. set (d := map (fun k => ([k], if k =? 130 then [0] else [])) (seq 0 131)).
  apply (H nat d); [discriminate| |vm_compute; reflexivity]. unfold d. rewrite map_map. cbn [fst]. apply FinFun.Injective_map_NoDup; [intros a b E; injection E as E; exact E|apply seq_NoDup].
Qed.
Print Assumptions C157_dictionary_is_stacked_refuted.

(** *** C158: Struct.equals *)
(** True exactly for Structs with the same names in the same order, arrays with the same bytes, and equal scalars, at every
    depth, as far as the CRC tells arrays apart. *)
Theorem C158_equals_partial :
  forall (S I : Type) (crc : list Z -> Z) (scal_eq : S -> S -> bool) (a b : list (name * val S I)),
  (forall x y, In x (arrays (VSt a)) -> In y (arrays (VSt b)) -> crc x = crc y -> x = y) ->
  struct_equals crc scal_eq a b = Yes <-> same scal_eq (VSt a) (VSt b).
Proof. intros S I crc se a b H. exact (equals_same crc se (VSt a) (VSt b) H). Qed.
Print Assumptions C158_equals_partial.
(** It answers unless a scalar meets a Struct. *)
Theorem C158_equals_answers_partial :
  forall (S I : Type) (crc : list Z -> Z) (scal_eq : S -> S -> bool) (a b : list (name * val S I)),
  comparable (VSt a) (VSt b) -> struct_equals crc scal_eq a b <> Raises.
Proof. intros S I crc se a b. exact (equals_no_raise crc se (VSt a) (VSt b)). Qed.
Print Assumptions C158_equals_answers_partial.
(** Both directions give the same answer, and a Struct equals its copy if its scalars equal themselves. *)
Theorem C158_equals_symmetric :
  forall (S I : Type) (crc : list Z -> Z) (scal_eq : S -> S -> bool), (forall x y, scal_eq x y = scal_eq y x) ->
  forall a b : list (name * val S I), struct_equals crc scal_eq a b = struct_equals crc scal_eq b a.
Proof. intros S I crc se H a b. exact (equals_sym crc se H (VSt a) (VSt b)). Qed.
Print Assumptions C158_equals_symmetric.
Theorem C158_equals_itself_partial :
  forall (S I : Type) (crc : list Z -> Z) (scal_eq : S -> S -> bool), (forall x, scal_eq x x = true) ->
  forall a : list (name * val S I), struct_equals crc scal_eq a a = Yes.
Proof. intros S I crc se H a. exact (equals_itself crc se H (VSt a)). Qed.
Print Assumptions C158_equals_itself_partial.
Example C158_case :
  let a := [([97], VArr 0 [1; 2]%Z); ([98], VSt [([99], VScal 5); ([100], VArr 1 [7]%Z)])] in
  struct_equals (fun l => fold_right Z.add 0%Z l) Nat.eqb a a = Yes /\
  struct_equals (fun l => fold_right Z.add 0%Z l) Nat.eqb a [([97], VArr 0 [1; 2]%Z); ([98], VSt [([99], VScal 6); ([100], VArr 1 [7]%Z)])] = No /\
  struct_equals (fun l => fold_right Z.add 0%Z l) Nat.eqb a (rev a) = No.
Proof. vm_compute. repeat split. Qed.
(** Finding: arrays are compared by the CRC of their bytes alone (rt_struct.py:3886): Categoricals with the same codes but
    other categories, dates and integers, int64 and float64 arrays with the same bytes are "equal". *)
Theorem C158_equal_structs_show_the_same_refuted :
  ~ (forall (S I : Type) (crc : list Z -> Z) (scal_eq : S -> S -> bool) (a b : list (name * val S I)),
     (forall x y, In x (arrays (VSt a)) -> In y (arrays (VSt b)) -> crc x = crc y -> x = y) -> (forall x y, scal_eq x y = true <-> x = y) -> struct_equals crc scal_eq a b = Yes -> a = b).
Proof.
  intros H.
  assert (K : [([97], VArr 0 [1]%Z)] = [([97], VArr 1 [1]%Z)] :> list (name * val nat nat)); [|discriminate K].
  apply (H nat nat (fun l => fold_right Z.add 0%Z l) Nat.eqb); [|apply Nat.eqb_eq|reflexivity]. intros x y [<-|[]] [<-|[]] _. reflexivity.
Qed.
Print Assumptions C158_equal_structs_show_the_same_refuted.
(** Finding: a NaN scalar makes a Struct different from itself (arrays with NaN are equal, by their bytes). *)
Theorem C158_struct_equals_itself_refuted :
  ~ (forall (S I : Type) (crc : list Z -> Z) (scal_eq : S -> S -> bool) (a : list (name * val S I)), struct_equals crc scal_eq a a = Yes).
Proof. intros H. specialize (H nat nat (fun _ => 0%Z) (fun _ _ => false) [([97], VScal 0)]). discriminate H. Qed.
Print Assumptions C158_struct_equals_itself_refuted.
(** Finding: when an item is a scalar in one Struct and a Struct in the other, equals does not answer False but raises
    (AttributeError or TypeError, rt_struct.py:3893-3897). *)
Theorem C158_equals_answers_refuted :
  ~ (forall (S I : Type) (crc : list Z -> Z) (scal_eq : S -> S -> bool) (a b : list (name * val S I)), struct_equals crc scal_eq a b <> Raises).
Proof. intros H. apply (H nat nat (fun _ => 0%Z) Nat.eqb [([97], VScal 0)] [([97], VSt [])]). reflexivity. Qed.
Print Assumptions C158_equals_answers_refuted.

(** *** C159: the comparison operators of Struct *)
(** The result has every name of either Struct once; a name is True exactly if both have it and all elements below it satisfy
    the operator; all() of the result is True exactly if that is so for all names. *)
Theorem C159_comparison_partial :
  forall (X S : Type) (op : X -> X -> bool) (sop : S -> S -> option bool) (xop : X -> S -> bool) (a b : list (name * obj X S)) l,
  distinct (OSt a) -> distinct (OSt b) -> struct_compare op sop xop a b = Some l ->
  map fst l = map fst a ++ filter (fun n => negb (mem n (map fst a))) (map fst b) /\
  (forall n, In n (map fst a) \/ In n (map fst b) ->
     exists t, dget n l = Some t /\ (t = true <-> exists v w, dget n a = Some v /\ dget n b = Some w /\ matches op sop xop v w)) /\
  (forallb snd l = true <-> matches op sop xop (OSt a) (OSt b)).
Proof.
  intros X S op sop xop a b l Da Db E. destruct (struct_compare_ok op sop xop a b l Da Db E) as [H1 H2]. split; [exact H1|]. split; [|exact H2].
  intros n. exact (struct_compare_key op sop xop a b l n Da Db E).
Qed.
Print Assumptions C159_comparison_partial.
Example C159_case :
  struct_compare Nat.eqb (fun x y => Some (x =? y)) Nat.eqb
    [([97], OArray [1; 2]); ([98], OSt [([99], OScal 5)]); ([100], OArray [7; 8])]
    [([98], OSt [([99], OScal 5)]); ([97], OArray [1; 2]); ([100], OArray [7; 9]); ([101], OScal 0)]
  = Some [([97], true); ([98], true); ([100], false); ([101], false)].
Proof. vm_compute. reflexivity. Qed.
Example C159_case_hyp : distinct (OSt [([97], OArray [1; 2]); ([98], OSt [([99], OScal 5)])]).
Proof.
  constructor; [repeat constructor; cbn; intuition discriminate|]. intros n v [E|[E|[]]]; injection E as <- <-; [constructor|]. constructor; [repeat constructor; cbn; tauto|]. intros n v [E|[]]; injection E as <- <-. constructor.
Qed.
(** Finding: st1 != st2 reports True for an array only if all its elements differ: two Structs that are not equal can be "not
    different" as well (rt_struct.py:898-906, 918-919). *)
Theorem C159_not_equal_means_different_refuted :
  ~ (forall (a b : list (name * obj nat nat)) l m, distinct (OSt a) -> distinct (OSt b) ->
     struct_compare Nat.eqb (fun x y => Some (x =? y)) Nat.eqb a b = Some l ->
     struct_compare (fun x y => negb (x =? y)) (fun x y => Some (negb (x =? y))) (fun x y => negb (x =? y)) a b = Some m ->
     forall n, dget n l = Some false -> dget n m = Some true).
Proof.
  intros H. specialize (H [([97], OArray [1; 2])] [([97], OArray [1; 3])] [([97], false)] [([97], false)]).
  assert (D : forall l : list nat, distinct (S := nat) (OSt [([97], OArray l)])) by (intros l; constructor; [repeat constructor; cbn; tauto|]; intros n v [E|[]]; injection E as <- <-; constructor).
  assert (K : dget [97] [([97], false)] = Some true); [|discriminate K]. apply H; try apply D; reflexivity.
Qed.
Print Assumptions C159_not_equal_means_different_refuted.
(** Finding: a Struct with an empty array is not == to itself: the truth value of the empty comparison is False (rt_struct.py:901). *)
Theorem C159_equal_to_itself_refuted :
  ~ (forall (a : list (name * obj nat nat)) l, distinct (OSt a) -> struct_compare Nat.eqb (fun x y => Some (x =? y)) Nat.eqb a a = Some l -> forallb snd l = true).
Proof.
  intros H. specialize (H [([97], OArray [])] [([97], false)]).
  assert (K : forallb snd [([97], false)] = true); [|discriminate K]. apply H; [|reflexivity]. constructor; [repeat constructor; cbn; tauto|]. intros n v [E|[]]; injection E as <- <-. constructor.
Qed.
Print Assumptions C159_equal_to_itself_refuted.
(** For Structs without empty arrays and with scalars that equal themselves it is. *)
Theorem C159_equal_to_itself_partial :
  forall (X S : Type) (op : X -> X -> bool) (sop : S -> S -> option bool) (xop : X -> S -> bool), (forall x, op x x = true) -> (forall x, sop x x = Some true) ->
  forall a : list (name * obj X S), distinct (OSt a) -> no_empty (OSt a) ->
  exists l, struct_compare op sop xop a a = Some l /\ forallb snd l = true /\ map fst l = map fst a.
Proof. exact @compare_itself. Qed.
Print Assumptions C159_equal_to_itself_partial.
(** Finding: comparing a Struct holding the int 1 with one holding the float 1.0 raises, because int's own method does not know floats
    (rt_struct.py:892-897). *)
Theorem C159_scalars_are_compared_refuted :
  ~ (forall (X S : Type) (op : X -> X -> bool) (sop : S -> S -> option bool) (xop : X -> S -> bool) (x y : S), struct_compare op sop xop [([97], OScal x)] [([97], OScal y)] <> None).
Proof. intros H. apply (H nat nat Nat.eqb (fun _ _ => None) Nat.eqb 1 1). reflexivity. Qed.
Print Assumptions C159_scalars_are_compared_refuted.
