(** Key columns and results of grouped calculations (properties C112-C115). *)
From Coq Require Import List Arith Bool ZArith Permutation Lia.
From Verif Require Import FlattenModel DsModel GroupingModel GroupingSpec AggModel AggSpec AggProofs AggProofs2 AggProofs3 AggProofs4 AggProofs5 AggProofs6.
Import ListNotations.

(** Example: keys found in the order 30, 10, 20; six rows *)
Definition ka : name := [107].
Definition xa : name := [120].
Definition ex_t : list (name * list nat) := [(ka, [30; 10; 20])].
Definition ex_codes := [1; 2; 3; 1; 2; 1].
Definition ex_data : list (name * list nat) := [(ka, [30; 10; 20; 30; 10; 30]); (xa, [1; 2; 3; 4; 5; 6])].
Definition fbin : list nat -> nat := fun _ => 999.
Definition ex_obj (ordered : bool) (base : option nat) (sd : option bool) (codes : list nat) (t : list (name * list nat)) (n : nat) (disp pre : bool) : gobj :=
  mkO codes n base ordered sd false (new_keychain t disp pre).
(** a GroupBy with its default, sorted display *)
Definition ex_gb := ex_obj false (Some 1) (Some true) ex_codes ex_t 3 true false.
Lemma ex_table : key_table 0 ex_t 3.
Proof.
  split; [discriminate|]. split; [repeat constructor; intros []|]. split; [intros p [<-|[]]; reflexivity|].
  intros [|[|[|i]]] [|[|[|j]]] Hi Hj E; try lia; cbn in E; try discriminate; reflexivity.
Qed.
Lemma ex_fresh : fresh_object 0 ex_t 3 true false ex_gb.
Proof. split; [exact ex_table|]. split; [repeat constructor|]. split; [reflexivity|]. split; [reflexivity|]. split; [|reflexivity]. intros b E. cbn in E. split; congruence. Qed.
Lemma ex_data_ok : data_ok ex_codes None ex_data.
Proof. split; [repeat constructor; cbn; intuition discriminate|]. split; [intros p [<-|[<-|[]]]; reflexivity|]. discriminate. Qed.

(** *** C112: the key columns *)
Theorem C112_keys_partial :
  forall (V : Type) (inv : V) (vlt : V -> V -> Prop) (lexsort : list (list V) -> list nat) (binname : list V -> V)
         (veqb : V -> V -> bool) (t : list (name * list V)) (n : nat) (sort_display pre_sorted : bool),
  lexsort_ok inv vlt lexsort -> (forall x y, veqb x y = true <-> x = y) -> key_table inv t n ->
  exists p, key_order inv vlt (sort_display && negb pre_sorted) t n p /\
  forall ops, forallb plain ops = true ->
    Forall2 (answers inv (sort_display && negb pre_sorted) binname t n p) ops (kouts inv lexsort binname veqb (new_keychain t sort_display pre_sorted) ops).
Proof.
  intros V inv vlt lexsort binname veqb t n sd pre LS VE KT. exists (order lexsort (sd && negb pre) t n). split; [eapply order_ok; eauto|].
  intros ops P. apply (history_ok inv vlt lexsort LS binname veqb VE t n sd pre KT); [now apply kinv_new|exact P].
Qed.
Print Assumptions C112_keys_partial.
Example C112_case :
  kouts 0 nat_lexsort fbin Nat.eqb (new_keychain ex_t true false) [KFiltered; KKeys None false; KIsort; KBin 0; KIndex [30]; KIndex [7]] =
  [OCols [(ka, [999; 10; 20; 30])]; OCols [(ka, [10; 20; 30])]; OIdx [1; 2; 0]; OBin (Some [10]); OIndex (Some 2%Z); OIndex (Some (-1)%Z)] /\
  key_table 0 ex_t 3 /\ lexsort_ok 0 lt nat_lexsort /\ forallb plain [@KFiltered nat; KKeys None false; KIsort; KBin 0; KIndex [30]; KIndex [7]] = true.
Proof. split; [vm_compute; reflexivity|]. split; [exact ex_table|]. split; [apply nat_lexsort_ok|reflexivity]. Qed.
(** keys(sort=True) on unsorted keys, after the filtered entry has been shown once: the filtered
    entry is sorted in with the keys, and from then on the first key is missing instead of it. *)
Theorem C112_sort_after_filtered_refuted : lexsort_ok 0 lt nat_lexsort /\ key_table 0 ex_t 3 /\
  kouts 0 nat_lexsort fbin Nat.eqb (new_keychain ex_t false false) [KKeys (Some true) false] = [OCols [(ka, [10; 20; 30])]] /\
  kouts 0 nat_lexsort fbin Nat.eqb (new_keychain ex_t false false) [KFiltered; KKeys (Some true) false]
    = [OCols [(ka, [999; 30; 10; 20])]; OCols [(ka, [20; 30; 999])]].
Proof. split; [apply nat_lexsort_ok|]. split; [exact ex_table|]. vm_compute. repeat split. Qed.
Print Assumptions C112_sort_after_filtered_refuted.
(** isortrows of unsorted keys counts the filtered entry as a key once that has been shown. *)
Theorem C112_isortrows_after_filtered_refuted : lexsort_ok 0 lt nat_lexsort /\ key_table 0 ex_t 3 /\
  kouts 0 nat_lexsort fbin Nat.eqb (new_keychain ex_t false false) [KIsort] = [OIdx [1; 2; 0]] /\
  kouts 0 nat_lexsort fbin Nat.eqb (new_keychain ex_t false false) [KFiltered; KIsort]
    = [OCols [(ka, [999; 30; 10; 20])]; OIdx [2; 3; 1; 0]].
Proof. split; [apply nat_lexsort_ok|]. split; [exact ex_table|]. vm_compute. repeat split. Qed.
Print Assumptions C112_isortrows_after_filtered_refuted.

(** *** C113: results carry the right keys *)
Theorem C113_reduce_result :
  forall (V : Type) (inv : V) (vlt : V -> V -> Prop) (lexsort : list (list V) -> list nat) (binname : list V -> V)
         (t : list (name * list V)) (n : nat) (sort_display pre_sorted : bool) (o : gobj),
  lexsort_ok inv vlt lexsort -> fresh_object inv t n sort_display pre_sorted o ->
  exists p, key_order inv vlt (sort_display && negb pre_sorted) t n p /\
  forall (history : list cop) usable f data flt showfilter,
    let now := cfinal inv lexsort binname o history in
    o_flag now = false -> data_ok (o_ikey o) flt data ->
    exists d, snd (calculate inv lexsort binname usable f data flt false showfilter now) = Some d /\
      keyed_result inv binname t p showfilter (fun x b => f (bin_values inv (o_ikey o) flt x b)) usable data d.
Proof.
  intros V inv vlt lexsort binname t n sd pre o LS (KT & CI & N & Fl & SDO & KC). exists (order lexsort (sd && negb pre) t n). split; [eapply order_ok; eauto|].
  intros history usable f data flt sf now Fn D.
  assert (O0 : oinv inv lexsort binname t n sd pre o o) by (split; [rewrite KC; now apply kinv_new|repeat split]).
  assert (O : oinv inv lexsort binname t n sd pre o now) by (eapply cfinal_inv; eauto).
  assert (Ik : o_ikey now = o_ikey o) by (destruct O as (_ & X & _); exact X). rewrite <- Ik in *.
  eapply calc_ok; eauto.
Qed.
Print Assumptions C113_reduce_result.
Theorem C113_count :
  forall (V : Type) (inv : V) (vlt : V -> V -> Prop) (lexsort : list (list V) -> list nat) (binname : list V -> V)
         (t : list (name * list V)) (n : nat) (sort_display pre_sorted : bool) (o : gobj),
  lexsort_ok inv vlt lexsort -> fresh_object inv t n sort_display pre_sorted o ->
  exists p, key_order inv vlt (sort_display && negb pre_sorted) t n p /\
  forall (history : list cop) num flt showfilter, (forall f, flt = Some f -> length f = length (o_ikey o)) ->
    exists d, snd (count_ds inv lexsort binname num flt showfilter (cfinal inv lexsort binname o history)) = Some d /\
      keyed_result inv binname t p showfilter (fun _ b => num (bin_size (o_ikey o) flt b)) (fun _ => true) [(count_name, [])] d.
Proof.
  intros V inv vlt lexsort binname t n sd pre o LS (KT & CI & N & Fl & SDO & KC). exists (order lexsort (sd && negb pre) t n). split; [eapply order_ok; eauto|].
  intros history num flt sf F. set (now := cfinal inv lexsort binname o history).
  assert (O0 : oinv inv lexsort binname t n sd pre o o) by (split; [rewrite KC; now apply kinv_new|repeat split]).
  assert (O : oinv inv lexsort binname t n sd pre o now) by (eapply cfinal_inv; eauto).
  assert (Ik : o_ikey now = o_ikey o) by (destruct O as (_ & X & _); exact X). rewrite <- Ik in *.
  eapply count_ok; eauto.
Qed.
Print Assumptions C113_count.
Theorem C113_apply_reduce_partial :
  forall (V : Type) (inv : V) (vlt : V -> V -> Prop) (lexsort : list (list V) -> list nat) (binname : list V -> V)
         (t : list (name * list V)) (n : nat) (sort_display pre_sorted : bool) (o : gobj),
  lexsort_ok inv vlt lexsort -> fresh_object inv t n sort_display pre_sorted o ->
  exists p, key_order inv vlt (sort_display && negb pre_sorted) t n p /\
  forall (history : list cop) usable f data flt, data_ok (o_ikey o) flt data ->
    (exists c x, In (c, x) data /\ ~ In c (map fst t) /\ usable c = true) ->
    exists d, snd (apply_reduce inv lexsort usable f data flt false false (cfinal inv lexsort binname o history)) = Some d /\
      keyed_result inv binname t p false (fun x b => on_rows inv f (bin_values inv (o_ikey o) flt x b)) usable data d.
Proof.
  intros V inv vlt lexsort binname t n sd pre o LS (KT & CI & N & Fl & SDO & KC). exists (order lexsort (sd && negb pre) t n). split; [eapply order_ok; eauto|].
  intros history usable f data flt D X.
  assert (O0 : oinv inv lexsort binname t n sd pre o o) by (split; [rewrite KC; now apply kinv_new|repeat split]).
  eapply apply_keyed; eauto. eapply cfinal_inv; eauto.
Qed.
Print Assumptions C113_apply_reduce_partial.
Example C113_case : fresh_object 0 ex_t 3 true false ex_gb /\ data_ok ex_codes None ex_data /\
  snd (calculate 0 nat_lexsort fbin (fun _ => true) list_sum ex_data None false true
         (cfinal 0 nat_lexsort fbin ex_gb [CKeys; CCount (fun c => c) None true])) = Some [(ka, [999; 10; 20; 30]); (xa, [0; 7; 3; 11])] /\
  snd (apply_reduce 0 nat_lexsort (fun _ => true) list_sum ex_data None false false ex_gb) = Some [(xa, [7; 3; 11]); (ka, [10; 20; 30])].
Proof. split; [exact ex_fresh|]. split; [exact ex_data_ok|]. vm_compute. repeat split. Qed.
(** apply_reduce with showfilter=True always fails: the key columns are added without the entry
    for the filtered rows. *)
Theorem C113_apply_reduce_showfilter_refuted : fresh_object 0 ex_t 3 true false ex_gb /\ data_ok ex_codes None ex_data /\
  snd (apply_reduce 0 nat_lexsort (fun _ => true) list_sum ex_data None false true ex_gb) = None.
Proof. split; [exact ex_fresh|]. split; [exact ex_data_ok|]. vm_compute. reflexivity. Qed.
Print Assumptions C113_apply_reduce_showfilter_refuted.

(** *** C114: transform *)
Theorem C114_transform_partial :
  forall (V : Type) (inv : V) (vlt : V -> V -> Prop) (lexsort : list (list V) -> list nat) (binname : list V -> V)
         (t : list (name * list V)) (n : nat) (sort_display pre_sorted : bool) (o : gobj)
         (history : list cop) usable f data flt transform showfilter,
  (forall x y, vlt x y -> vlt y x -> False) ->
  lexsort_ok inv vlt lexsort -> fresh_object inv t n sort_display pre_sorted o ->
  let now := cfinal inv lexsort binname o history in
  let translated := match o_sd o with Some true => o_ordered o | _ => false end in
  o_flag now || transform = true -> data_ok (o_ikey o) flt data ->
  showfilter = true \/ o_base o = Some 1 ->
  (translated = true -> showfilter = false) ->
  sort_display && negb pre_sorted && negb transform = translated \/ in_key_order inv vlt t n ->
  exists d, snd (calculate inv lexsort binname usable f data flt transform showfilter now) = Some d /\
    expanded t (o_ikey o) showfilter (fun x b => f (bin_values inv (o_ikey o) flt x b)) usable data d.
Proof.
  intros V inv vlt lexsort binname t n sd pre o history usable f data flt tr sf AS LS (KT & CI & N & Fl & SDO & KC) now translated FT D B RM Q.
  assert (O0 : oinv inv lexsort binname t n sd pre o o) by (split; [rewrite KC; now apply kinv_new|repeat split]).
  assert (O : oinv inv lexsort binname t n sd pre o now) by (eapply cfinal_inv; eauto).
  eapply transform_ok; eauto.
Qed.
Print Assumptions C114_transform_partial.
Theorem C114_apply_transform_partial :
  forall (V : Type) (inv : V) (vlt : V -> V -> Prop) (lexsort : list (list V) -> list nat) (binname : list V -> V)
         (t : list (name * list V)) (n : nat) (sort_display pre_sorted : bool) (o : gobj)
         (history : list cop) usable f data flt,
  (forall x y, vlt x y -> vlt y x -> False) ->
  lexsort_ok inv vlt lexsort -> fresh_object inv t n sort_display pre_sorted o ->
  let now := cfinal inv lexsort binname o history in
  let translated := match o_sd o with Some true => o_ordered o | _ => false end in
  data_ok (o_ikey o) flt data -> (exists c x, In (c, x) data /\ ~ In c (map fst t) /\ usable c = true) -> o_base o = Some 1 ->
  sort_display && negb pre_sorted = translated \/ in_key_order inv vlt t n ->
  exists d, snd (apply_reduce inv lexsort usable f data flt true false now) = Some d /\
    expanded t (o_ikey o) false (fun x b => on_rows inv f (bin_values inv (o_ikey o) flt x b)) usable data d.
Proof.
  intros V inv vlt lexsort binname t n sd pre o history usable f data flt AS LS (KT & CI & N & Fl & SDO & KC) now translated D X B Q.
  assert (O0 : oinv inv lexsort binname t n sd pre o o) by (split; [rewrite KC; now apply kinv_new|repeat split]).
  assert (O : oinv inv lexsort binname t n sd pre o now) by (eapply cfinal_inv; eauto).
  eapply apply_expanded; eauto.
Qed.
Print Assumptions C114_apply_transform_partial.
(** the property transform counts for one calculation only *)
Theorem C114_transform_once :
  forall (V : Type) (inv : V) (lexsort : list (list V) -> list nat) (binname : list V -> V) (o : gobj) usable f data flt transform showfilter d,
  snd (calculate inv lexsort binname usable f data flt transform showfilter o) = Some d ->
  o_flag (fst (calculate inv lexsort binname usable f data flt transform showfilter o)) = false.
Proof.
  intros V inv lexsort binname o usable f data flt tr sf d. unfold calculate.
  destruct (return_dataset _ _ _ _ _ _ _ _) as [c1 ds]. destruct (gbkeys inv lexsort c1) as [c2 lk]. unfold possibly_transform. destruct ds as [d0|]; [|discriminate]. cbn [o_flag with_kc].
  destruct (o_flag o) eqn:F; cbn [orb].
  - destruct (match o_sd _ with Some true => _ | _ => _ end). reflexivity.
  - destruct tr; [destruct (match o_sd _ with Some true => _ | _ => _ end); reflexivity|]. intros _. exact F.
Qed.
Print Assumptions C114_transform_once.
Example C114_case : fresh_object 0 ex_t 3 true false ex_gb /\ data_ok ex_codes None ex_data /\
  snd (calculate 0 nat_lexsort fbin (fun _ => true) list_sum ex_data None true false ex_gb) = Some [(xa, [11; 7; 3; 11; 7; 11])].
Proof. split; [exact ex_fresh|]. split; [exact ex_data_ok|]. vm_compute. reflexivity. Qed.
(** The property transform (gb.transform.sum()) on a GroupBy with sorted display: the sums are put in
    the order of the sorted keys but fetched by the unsorted codes.  Here the keys are 30, 10, 20
    with sums 11, 7, 3, and the rows of key 30 get 7. *)
Theorem C114_flag_refuted : fresh_object 0 ex_t 3 true false ex_gb /\ data_ok ex_codes None ex_data /\
  snd (calculate 0 nat_lexsort fbin (fun _ => true) list_sum ex_data None false false (fst (cstep 0 nat_lexsort fbin ex_gb CTransform)))
    = Some [(xa, [7; 3; 11; 7; 3; 7])].
Proof. split; [exact ex_fresh|]. split; [exact ex_data_ok|]. vm_compute. reflexivity. Qed.
Print Assumptions C114_flag_refuted.
(** apply_reduce(transform=True) on a GroupBy with sorted display goes wrong in the same way. *)
Theorem C114_apply_reduce_refuted : fresh_object 0 ex_t 3 true false ex_gb /\ data_ok ex_codes None ex_data /\
  snd (apply_reduce 0 nat_lexsort (fun _ => true) list_sum ex_data None true false ex_gb) = Some [(xa, [7; 3; 11; 7; 3; 7])].
Proof. split; [exact ex_fresh|]. split; [exact ex_data_ok|]. vm_compute. reflexivity. Qed.
Print Assumptions C114_apply_reduce_refuted.
(** A Categorical with base index 0 (or none, as with an enum): transform=True gives every row the value of the next
    group, and rows of the last group an invalid value. *)
Theorem C114_base_refuted : forall base, base = Some 0 \/ base = None ->
  let cat := ex_obj false base None ex_codes ex_t 3 false false in
  fresh_object 0 ex_t 3 false false cat /\ data_ok ex_codes None [(xa, [1; 2; 3; 4; 5; 6])] /\
  snd (calculate 0 nat_lexsort fbin (fun _ => true) list_sum [(xa, [1; 2; 3; 4; 5; 6])] None true false cat)
    = Some [(xa, [7; 3; 0; 7; 3; 7])].
Proof.
  intros base B cat. split.
  - split; [exact ex_table|]. split; [repeat constructor|]. split; [reflexivity|]. split; [reflexivity|]. split; [|reflexivity]. intros b E. discriminate.
  - split; [split; [repeat constructor; intros []|]; split; [intros p [<-|[]]; reflexivity|discriminate]|]. destruct B as [->| ->]; vm_compute; reflexivity.
Qed.
Print Assumptions C114_base_refuted.
(** A row that belongs to no group gets the value of the last group with transform=True. *)
Theorem C114_filtered_row_refuted :
  let cat := ex_obj true (Some 1) None [0; 1; 2; 2] [(ka, [10; 20])] 2 false true in
  nth_error (o_ikey cat) 0 = Some 0 /\
  snd (calculate 0 nat_lexsort fbin (fun _ => true) list_sum [(xa, [5; 1; 2; 3])] None true false cat) = Some [(xa, [5; 1; 5; 5])].
Proof. vm_compute. repeat split. Qed.
Print Assumptions C114_filtered_row_refuted.
(** A GroupBy over an ordered Categorical, with transform=True and showfilter=True: the codes count
    the filtered bin but the translation does not, so every row gets a wrong group's value. *)
Theorem C114_showfilter_refuted :
  let gb := ex_obj true (Some 1) (Some true) [1; 2; 1] [(ka, [10; 20])] 2 true false in
  snd (calculate 0 nat_lexsort fbin (fun _ => true) list_sum [(xa, [1; 2; 4])] None true false gb) = Some [(xa, [5; 2; 5])] /\
  snd (calculate 0 nat_lexsort fbin (fun _ => true) list_sum [(xa, [1; 2; 4])] None true true gb) = Some [(xa, [5; 0; 5])].
Proof. vm_compute. repeat split. Qed.
Print Assumptions C114_showfilter_refuted.

(** *** C115: apply *)
Theorem C115_apply_reducing_partial :
  forall (V : Type) (inv : V) (vlt : V -> V -> Prop) (lexsort : list (list V) -> list nat) (binname : list V -> V)
         (t : list (name * list V)) (n : nat) (sort_display pre_sorted : bool) (o : gobj)
         (history : list cop) (f : list V -> list V) (c : name) (x : list V) (flt : option (list bool)),
  lexsort_ok inv vlt lexsort -> fresh_object inv t n sort_display pre_sorted o ->
  let now := cfinal inv lexsort binname o history in
  let has_rows := fun k => negb (bin_size (o_ikey o) flt (S k) =? 0) in
  o_flag now = false -> data_ok (o_ikey o) flt [(c, x)] -> ~ In c (map fst t) ->
  (exists k, k < n /\ has_rows k = true) ->
  (forall k, k < n -> has_rows k = true -> length (f (bin_values inv (o_ikey o) flt x (S k))) = 1) ->
  (sort_display && negb pre_sorted = true -> forall k, k < n -> has_rows k = true) ->
  exists p d, (if sort_display && negb pre_sorted then sorts_keys inv vlt t n p else p = filter has_rows (seq 0 n)) /\
    snd (apply_user inv lexsort f c x flt now) = Some d /\
    keyed_result inv binname t p false (fun _ b => nth 0 (f (bin_values inv (o_ikey o) flt x b)) inv) (fun _ => true) [(c, x)] d.
Proof.
  intros V inv vlt lexsort binname t n sd pre o history f c x flt LS (KT & CI & N & Fl & SDO & KC) now hr Fn (ND & L & F) NK Ex One All.
  assert (O0 : oinv inv lexsort binname t n sd pre o o) by (split; [rewrite KC; now apply kinv_new|repeat split]).
  assert (O : oinv inv lexsort binname t n sd pre o now) by (eapply cfinal_inv; eauto).
  assert (XL : length x = length (o_ikey o)) by (apply (L (c, x)); now left).
  destruct (reduce_ok inv vlt lexsort LS binname t n sd pre KT o N f c x flt F XL now O Fn NK Ex One All) as [d [E KR]].
  eexists. exists d. split; [|split; [exact E|exact KR]].
  pose proof (order_ok inv vlt lexsort LS (sd && negb pre) t n KT) as OK. destruct (sd && negb pre); [exact OK|reflexivity].
Qed.
Print Assumptions C115_apply_reducing_partial.
Theorem C115_apply_same_length_partial :
  forall (V : Type) (inv : V) (vlt : V -> V -> Prop) (lexsort : list (list V) -> list nat) (binname : list V -> V)
         (t : list (name * list V)) (n : nat) (sort_display pre_sorted : bool) (o : gobj)
         (history : list cop) (f : list V -> list V) (c : name) (x : list V) (flt : option (list bool)),
  lexsort_ok inv vlt lexsort -> fresh_object inv t n sort_display pre_sorted o ->
  let now := cfinal inv lexsort binname o history in
  o_flag now = false -> data_ok (o_ikey o) flt [(c, x)] ->
  (forall k, k < n -> length (f (bin_values inv (o_ikey o) flt x (S k))) = length (bin_values inv (o_ikey o) flt x (S k))) ->
  (exists k, k < n /\ 2 <= bin_size (o_ikey o) flt (S k)) ->
  exists col, snd (apply_user inv lexsort f c x flt now) = Some [(c, col)] /\ length col = length (o_ikey o) /\
    forall r, r < length (o_ikey o) ->
      nth_error col r = Some (match bin_of (o_ikey o) flt r with
                              | 0 => inv
                              | b => nth (rank (o_ikey o) flt r) (f (bin_values inv (o_ikey o) flt x b)) inv
                              end).
Proof.
  intros V inv vlt lexsort binname t n sd pre o history f c x flt LS (KT & CI & N & Fl & SDO & KC) now Fn (ND & L & F) Len Two.
  assert (O0 : oinv inv lexsort binname t n sd pre o o) by (split; [rewrite KC; now apply kinv_new|repeat split]).
  assert (O : oinv inv lexsort binname t n sd pre o now) by (eapply cfinal_inv; eauto).
  assert (XL : length x = length (o_ikey o)) by (apply (L (c, x)); now left).
  exact (nonreduce_ok inv vlt lexsort LS binname t n sd pre KT o N CI f c x flt F XL now O Fn Len Two).
Qed.
Print Assumptions C115_apply_same_length_partial.
Example C115_case : fresh_object 0 ex_t 3 true false ex_gb /\
  snd (apply_user 0 nat_lexsort (fun l => [list_sum l]) xa [1; 2; 3; 4; 5; 6] None ex_gb) = Some [(xa, [7; 3; 11]); (ka, [10; 20; 30])] /\
  snd (apply_user 0 nat_lexsort (@rev nat) xa [1; 2; 3; 4; 5; 6] None ex_gb) = Some [(xa, [6; 5; 3; 4; 2; 1])].
Proof. split; [exact ex_fresh|]. vm_compute. repeat split. Qed.
(** A GroupBy with sorted display fails when the filter leaves a group without rows. *)
Theorem C115_empty_group_refuted : fresh_object 0 ex_t 3 true false ex_gb /\
  snd (apply_user 0 nat_lexsort (fun l => [list_sum l]) xa [1; 2; 3; 4; 5; 6] (Some [true; true; false; true; true; true]) ex_gb) = None.
Proof. split; [exact ex_fresh|]. vm_compute. reflexivity. Qed.
Print Assumptions C115_empty_group_refuted.
(** When every group has one row, a function that returns its rows is taken for a reduction: the
    result is in the order of the keys, not of the rows. *)
Theorem C115_single_rows_refuted :
  let gb := ex_obj false (Some 1) (Some true) [1; 2; 3] ex_t 3 true false in
  fresh_object 0 ex_t 3 true false gb /\
  snd (apply_user 0 nat_lexsort (fun l => l) xa [1; 2; 3] None gb) = Some [(xa, [2; 3; 1]); (ka, [10; 20; 30])].
Proof.
  split; [|vm_compute; reflexivity]. split; [exact ex_table|]. split; [repeat constructor|]. split; [reflexivity|]. split; [reflexivity|]. split; [|reflexivity]. intros b E. cbn in E. split; congruence.
Qed.
Print Assumptions C115_single_rows_refuted.
