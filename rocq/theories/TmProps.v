(** Theorems on arithmetic between dates, times and spans: C165-C168. *)
From Coq Require Import List Arith ZArith Bool Lia.
From Verif Require Import DateTables DateModel TmModel TmSpec TmProofs TmProofs2 TmProofs3.
Import ListNotations.
Open Scope Z_scope.

(** * C165: + *)
(** Point + span, span + point and span + span: the class is that of the table, there are as many rows as in the longer operand, and each
    row shows the sum of what the rows of the operands show, invalid if one of them is invalid.  Not covered: arrays of one element, and
    the cases of [add_covered]; see the refuted theorems. *)
Theorem C165_add_partial big utc n ka (a : cells) kb (b : cells) k : (2 <= n)%nat -> rows n a b -> add_kind ka kb = Some k ->
  add_covered n ka a kb b -> Forall (stored ka) a -> Forall (stored kb) b -> all_fit Z.add n ka a kb b k ->
  exists r, math big utc true ka a kb b = Done k r /\ rowwise Z.add n ka a kb b k r.
Proof. apply add_ok. Qed.
Print Assumptions C165_add_partial.

(** The order of the operands does not matter. *)
Theorem C165_commutes_partial big utc n ka (a : cells) kb (b : cells) k : (2 <= n)%nat -> rows n a b -> add_kind ka kb = Some k ->
  add_covered n ka a kb b -> add_covered n kb b ka a -> Forall (stored ka) a -> Forall (stored kb) b -> all_fit Z.add n ka a kb b k ->
  exists r r', math big utc true ka a kb b = Done k r /\ math big utc true kb b ka a = Done k r' /\ map (meaning k) r = map (meaning k) r'.
Proof.
  intros N R K C C' Sa Sb Fit.
  destruct (add_ok big utc n ka a kb b k) as [r [E W]]; auto.
  destruct (add_ok big utc n kb b ka a k) as [r' [E' W']]; auto.
  { now apply rows_swap. }
  { destruct ka, kb; cbn in *; congruence. }
  { now apply all_fit_swap. }
  exists r, r'. split; [exact E|]. split; [exact E'|].
  destruct W as [L [_ H]], W' as [L' [_ H']]. apply nth_error_same. intros i.
  destruct (lt_dec i n) as [I|I].
  - destruct (at_row_some n a i) as [x A]; [unfold rows in R; lia|auto|].
    destruct (at_row_some n b i) as [y B]; [unfold rows in R; lia|auto|].
    destruct (H i x y I A B) as [w [W M]]. destruct (H' i y x I B A) as [w' [W' M']].
    rewrite (map_nth_error (meaning k) i r W), (map_nth_error (meaning k) i r' W'). f_equal. rewrite M, M'. apply both_comm.
  - assert (nth_error (map (meaning k) r) i = None) by (apply nth_error_None; rewrite map_length; lia).
    assert (nth_error (map (meaning k) r') i = None) by (apply nth_error_None; rewrite map_length; lia). congruence.
Qed.
Print Assumptions C165_commutes_partial.

(** Two points cannot be added. *)
Theorem C165_refused big utc ka a kb b : add_kind ka kb = None -> math big utc true ka a kb b = Refused.
Proof. apply (refused_ok big utc true). Qed.
Print Assumptions C165_refused.

Example C165_case : let a := [Some 18993; Some 0; Some 18995] in let b := [Some 3600000000000; Some 5; None] in
  rows 3 a b /\ add_kind KDate KTimeSpan = Some KNano /\ add_covered 3 KDate a KTimeSpan b /\ Forall (stored KDate) a /\ Forall (stored KTimeSpan) b /\
  all_fit Z.add 3 KDate a KTimeSpan b KNano /\ math 0 id true KDate a KTimeSpan b = Done KNano [Some (18993 * day + 3600000000000); Some 0; Some 0].
Proof.
  cbv zeta. split; [left; split; [reflexivity|left; reflexivity]|]. split; [reflexivity|]. split; [reflexivity|].
  split; [repeat constructor; unfold stored; lia|]. split; [repeat constructor; unfold stored; try lia|].
  split; [|vm_compute; reflexivity].
  intros i x y z I A B E. destruct i as [|[|[|i]]]; cbn [at_row nth_error] in A, B; inversion A; subst; inversion B; subst; [|discriminate|discriminate|lia].
  assert (Z : z = 18993 * day + 3600000000000) by (vm_compute in E; injection E as <-; vm_compute; reflexivity). subst z. unfold fits, day. lia.
Qed.

(** Finding: with arrays of one element the invalid of the other operand is lost: a date plus an invalid span of days is some day in the
    far past, and a span of zero or fewer days plus anything is invalid.  Code: the one-element path of the mask helper (rt_datetime.py:550-554)
    looks only at whether the first element of the left operand is positive. *)
Theorem C165_one_element_refuted big utc :
  meaning KDateSpan (Some (- 2 ^ 31)) = None /\
  math big utc true KDate [Some 18993] KDateSpan [Some (- 2 ^ 31)] = Done KDate [Some (18993 - 2 ^ 31)] /\
  meaning KDate (Some (18993 - 2 ^ 31)) = Some ((18993 - 2 ^ 31) * day) /\
  math big utc true KDateSpan [Some (-1)] KDate [Some 18993] = Done KDate [Some (- 2 ^ 31)] /\
  math big utc true KDate [Some 18993] KDateSpan [Some (-1)] = Done KDate [Some 18992] /\
  math big utc true KDate [Some 0] KDateSpan [Some 1; Some 2; Some 3] = Done KDate [Some (- 2 ^ 31)].
Proof. repeat split; vm_compute; reflexivity. Qed.
Print Assumptions C165_one_element_refuted.

(** Finding: an invalid span of days plus a time (or plus a time span) is filled with the invalid of 32-bit integers, which is a valid time
    (2.1 seconds before 1970) and a valid time span; the other order gives an invalid.  Code: NAN_DATE of DateSpan is used for results
    of nanosecond classes (rt_datetime.py:1069-1071, 2925-2951). *)
Theorem C165_filled_with_days_refuted utc : let t := 1650000000000000000 in
  meaning KDateSpan (Some (- 2 ^ 31)) = None /\
  math 0 utc true KDateSpan [Some (- 2 ^ 31); Some 1] KNano [Some t; Some t] = Done KNano [Some (- 2 ^ 31); Some (t + day)] /\
  meaning KNano (Some (- 2 ^ 31)) = Some (- 2 ^ 31) /\
  math 0 utc true KNano [Some t; Some t] KDateSpan [Some (- 2 ^ 31); Some 1] = Done KNano [Some 0; Some (t + day)] /\
  math 0 utc true KDateSpan [Some (- 2 ^ 31); Some 1] KTimeSpan [Some 5; None] = Done KTimeSpan [Some (- 2 ^ 31); Some (- 2 ^ 31)] /\
  math 0 utc true KTimeSpan [Some 5; None] KDateSpan [Some (- 2 ^ 31); Some 1] = Done KTimeSpan [None; None].
Proof. cbv zeta. repeat split; vm_compute; reflexivity. Qed.
Print Assumptions C165_filled_with_days_refuted.

(** Finding: a time span plus an invalid span of days of length 1 is valid.  Code: for a mask of length 1 the test is whether the mask
    itself is a NaN (rt_datetime.py:6877-6879). *)
Theorem C165_timespan_one_refuted utc :
  meaning KDateSpan (Some (- 2 ^ 31)) = None /\
  math 0 utc true KTimeSpan [Some 5; Some 6] KDateSpan [Some (- 2 ^ 31)] = Done KTimeSpan [Some 5; Some 6].
Proof. split; vm_compute; reflexivity. Qed.
Print Assumptions C165_timespan_one_refuted.

(** * C166: - *)
(** Point - point, point - span and span - span, row by row.  [id]: the time of the DateTimeNano operand is read as UTC (from_tz GMT).  Not
    covered: arrays of one element (where the mask helper is used) and the cases of [sub_covered]; see the refuted theorems. *)
Theorem C166_sub_partial big n ka (a : cells) kb (b : cells) k : (2 <= n)%nat -> rows n a b -> sub_kind ka kb = Some k ->
  sub_covered n ka a kb b -> Forall (stored ka) a -> Forall (stored kb) b -> all_fit Z.sub n ka a kb b k ->
  exists r, math big id false ka a kb b = Done k r /\ rowwise Z.sub n ka a kb b k r.
Proof. apply sub_ok. Qed.
Print Assumptions C166_sub_partial.

(** A point cannot be subtracted from a span. *)
Theorem C166_refused big utc ka a kb b : sub_kind ka kb = None -> math big utc false ka a kb b = Refused.
Proof. apply (refused_ok big utc false). Qed.
Print Assumptions C166_refused.

Example C166_case : let a := [Some 1640995200000000007; Some 1640995200000000000] in let b := [Some 18993] in
  rows 2 a b /\ sub_kind KNano KDate = Some KTimeSpan /\ sub_covered 2 KNano a KDate b /\ Forall (stored KNano) a /\ Forall (stored KDate) b /\
  all_fit Z.sub 2 KNano a KDate b KTimeSpan /\ math 0 id false KNano a KDate b = Done KTimeSpan [Some 7; Some 0].
Proof.
  cbv zeta. split; [left; split; [reflexivity|right; reflexivity]|]. split; [reflexivity|].
  split; [cbn; intros [H|[]]; discriminate|].
  split; [repeat constructor; unfold stored; lia|]. split; [repeat constructor; unfold stored; lia|].
  split; [|vm_compute; reflexivity].
  intros i x y z I A B E. destruct i as [|[|i]]; cbn [at_row nth_error] in A, B; inversion A; subst; inversion B; subst; [| |lia].
  - assert (Z : z = 7) by (vm_compute in E; injection E as <-; vm_compute; reflexivity). subst z. unfold fits. lia.
  - assert (Z : z = 0) by (vm_compute in E; injection E as <-; vm_compute; reflexivity). subst z. unfold fits. lia.
Qed.

(** Finding: a time span minus a span of days subtracts the number of days as if it were nanoseconds, and so does -= (and +=).  Code:
    TimeSpan.__sub__ does not scale a DateSpan (rt_datetime.py:6795-6799; __add__ and __rsub__ do), and += is that of the number array. *)
Theorem C166_days_as_nanos_refuted utc :
  math 0 utc false KTimeSpan [Some (3 * day); Some day] KDateSpan [Some 1; Some (-1)] = Done KTimeSpan [Some (3 * day - 1); Some (day + 1)] /\
  meaning KDateSpan (Some 1) = Some day /\
  imath 0 utc true KTimeSpan [Some (3 * day); Some day] KDateSpan [Some 1; Some (-1)] =
    (let r := [Some (3 * day + 1); Some (day - 1)] in (r, Done KTimeSpan r)).
Proof. split; [vm_compute; reflexivity|]. split; [vm_compute; reflexivity|]. vm_compute. reflexivity. Qed.
Print Assumptions C166_days_as_nanos_refuted.

(** Finding: for times of another zone, date - time and time - date are not negatives of each other: the first takes the date as midnight
    in the zone of the time, the second as midnight UTC.  Code: Date.__sub__ (rt_datetime.py:2331-2333), DateTimeNano.__sub__ (5840-5846). *)
Theorem C166_zone_refuted : let utc := fun z => z + 5 * 3600 * 10 ^ 9 in let t := 18993 * day + 10 ^ 9 in
  math 0 utc false KNano [Some t; Some t] KDate [Some 18993; Some 18993] = Done KTimeSpan [Some (10 ^ 9); Some (10 ^ 9)] /\
  math 0 utc false KDate [Some 18993; Some 18993] KNano [Some t; Some t] =
    Done KTimeSpan [Some (5 * 3600 * 10 ^ 9 - 10 ^ 9); Some (5 * 3600 * 10 ^ 9 - 10 ^ 9)].
Proof. cbv zeta. split; vm_compute; reflexivity. Qed.
Print Assumptions C166_zone_refuted.

(** * C167: round trips *)
(** (t + s) - s shows t again, for points t and spans s, in every row where s is valid. *)
Theorem C167_add_then_sub_partial big utc n ka (a : cells) kb (b : cells) k k' : (2 <= n)%nat -> length a = n -> length b = n \/ length b = 1%nat ->
  ka = KDate \/ ka = KNano -> kb = KDateSpan \/ kb = KTimeSpan -> add_kind ka kb = Some k -> sub_kind k kb = Some k' ->
  Forall (stored ka) a -> Forall (stored kb) b -> all_fit Z.add n ka a kb b k -> all_fit (fun u _ => u) n ka a kb b k' ->
  exists r r', math big utc true ka a kb b = Done k r /\ math big id false k r kb b = Done k' r' /\ rowwise (fun u _ => u) n ka a kb b k' r'.
Proof.
  intros N La Lb Ka Kb K K' Sa Sb Fit Fit'.
  assert (R : rows n a b) by (left; auto).
  destruct (add_ok big utc n ka a kb b k) as [r [E W]]; auto.
  { destruct Ka, Kb; subst ka kb; exact La. }
  pose proof W as [L [S _]].
  destruct (sub_ok big n k r kb b k') as [r' [E' W']]; auto.
  { left; auto. }
  { destruct Ka, Kb; subst ka kb; cbn in K; inversion K; subst k; exact L. }
  { apply (fit_b Z.add Z.sub (fun u _ => u) n ka kb k k' a b r); auto. intros; lia. }
  exists r, r'. split; [exact E|]. split; [exact E'|].
  apply (comp_b Z.add Z.sub (fun u _ => u) n ka kb k k' a b r N); auto. intros; lia.
Qed.
Print Assumptions C167_add_then_sub_partial.

(** (t + s) - t shows s again. *)
Theorem C167_add_then_sub_point_partial big utc n ka (a : cells) kb (b : cells) k k' : (2 <= n)%nat -> length a = n -> length b = n \/ length b = 1%nat ->
  ka = KDate \/ ka = KNano -> kb = KDateSpan \/ kb = KTimeSpan -> add_kind ka kb = Some k -> sub_kind k ka = Some k' ->
  Forall (stored ka) a -> Forall (stored kb) b -> ~ (ka = KDate /\ In (Some (- 2 ^ 31)) a) ->
  all_fit Z.add n ka a kb b k -> all_fit (fun _ v => v) n ka a kb b k' ->
  exists r r', math big utc true ka a kb b = Done k r /\ math big id false k r ka a = Done k' r' /\ rowwise (fun _ v => v) n ka a kb b k' r'.
Proof.
  intros N La Lb Ka Kb K K' Sa Sb NI Fit Fit'.
  assert (R : rows n a b) by (left; auto).
  destruct (add_ok big utc n ka a kb b k) as [r [E W]]; auto.
  { destruct Ka, Kb; subst ka kb; exact La. }
  pose proof W as [L [S _]].
  destruct (sub_ok big n k r ka a k') as [r' [E' W']]; auto.
  { left; auto. }
  { destruct Ka, Kb; subst ka kb; cbn in K; inversion K; subst k; cbn; auto. }
  { apply (fit_a Z.add Z.sub (fun _ v => v) n ka kb k k' a b r); auto. intros; lia. }
  exists r, r'. split; [exact E|]. split; [exact E'|].
  apply (comp_a Z.add Z.sub (fun _ v => v) n ka kb k k' a b r N); auto. intros; lia.
Qed.
Print Assumptions C167_add_then_sub_point_partial.

(** (t - u) + u shows t again, for points t and u. *)
Theorem C167_sub_then_add_partial big utc n ka (a : cells) kb (b : cells) k k' : (2 <= n)%nat -> rows n a b -> length b = n ->
  ka = KDate \/ ka = KNano -> kb = KDate \/ kb = KNano -> sub_kind ka kb = Some k -> add_kind k kb = Some k' -> sub_covered n ka a kb b ->
  Forall (stored ka) a -> Forall (stored kb) b -> all_fit Z.sub n ka a kb b k -> all_fit (fun u _ => u) n ka a kb b k' ->
  exists r r', math big id false ka a kb b = Done k r /\ math big utc true k r kb b = Done k' r' /\ rowwise (fun u _ => u) n ka a kb b k' r'.
Proof.
  intros N R Lb Ka Kb K K' C Sa Sb Fit Fit'.
  destruct (sub_ok big n ka a kb b k) as [r [E W]]; auto.
  pose proof W as [L [S _]].
  destruct (add_ok big utc n k r kb b k') as [r' [E' W']]; auto.
  { left; auto. }
  { destruct Ka, Kb; subst ka kb; cbn in K; inversion K; subst k; cbn; auto. }
  { apply (fit_b Z.sub Z.add (fun u _ => u) n ka kb k k' a b r); auto. intros; lia. }
  exists r, r'. split; [exact E|]. split; [exact E'|].
  apply (comp_b Z.sub Z.add (fun u _ => u) n ka kb k k' a b r N); auto. intros; lia.
Qed.
Print Assumptions C167_sub_then_add_partial.

Example C167_case : let a := [Some 18993; Some 18994] in let b := [Some 30; Some (- 2 ^ 31)] in
  all_fit Z.add 2 KDate a KDateSpan b KDate /\ all_fit (fun u _ => u) 2 KDate a KDateSpan b KDate /\ Forall (stored KDateSpan) b /\
  math 0 id true KDate a KDateSpan b = Done KDate [Some 19023; Some 0] /\
  math 0 id false KDate [Some 19023; Some 0] KDateSpan b = Done KDate [Some 18993; Some 0] /\
  math 0 id false KDate [Some 19023; Some 0] KDate a = Done KDateSpan [Some 30; Some (- 2 ^ 31)] /\
  math 0 id true KDateSpan [Some 30; Some (- 2 ^ 31)] KDate a = Done KDate [Some 19023; Some (- 2 ^ 31)].
Proof.
  cbv zeta. split; [|split; [|split; [repeat constructor; unfold stored; lia|repeat split]]].
  - intros i x y z I A B E. destruct i as [|[|i]]; cbn [at_row nth_error] in A, B; inversion A; subst; inversion B; subst; [|discriminate|lia].
    assert (Z : z = 19023 * day) by (vm_compute in E; injection E as <-; vm_compute; reflexivity). subst z. unfold fits, day. lia.
  - intros i x y z I A B E. destruct i as [|[|i]]; cbn [at_row nth_error] in A, B; inversion A; subst; inversion B; subst; [|discriminate|lia].
    assert (Z : z = 18993 * day) by (vm_compute in E; injection E as <-; vm_compute; reflexivity). subst z. unfold fits, day. lia.
Qed.

(** * C168: += and -= *)
(** Where the result has the class of the left operand, the array afterwards holds the result of + or -, and so does the name; for a
    TimeSpan only with a TimeSpan on the right. *)
Theorem C168_in_place_partial big utc plus ka a kb b r : (2 <= length a)%nat -> (ka = KTimeSpan -> kb = KTimeSpan) ->
  math big utc plus ka a kb b = Done ka r -> imath big utc plus ka a kb b = (r, Done ka r).
Proof. apply inplace_same. Qed.
Print Assumptions C168_in_place_partial.

(** Date += TimeSpan and DateSpan += DateTimeNano leave the array as it is and bind the name to the new times. *)
Theorem C168_new_array big utc plus a b ka kb : (ka = KDate /\ kb = KTimeSpan) \/ (ka = KDateSpan /\ kb = KNano) ->
  imath big utc plus ka a kb b = (a, math big utc plus ka a kb b).
Proof. intros [[-> ->]|[-> ->]]; reflexivity. Qed.
Print Assumptions C168_new_array.

(** A refused operation leaves the array as it was, unless both hold days. *)
Theorem C168_refused_partial big utc plus ka a kb b a' : ~ ((ka = KDate \/ ka = KDateSpan) /\ kb = KDate) ->
  imath big utc plus ka a kb b = (a', Refused) -> a' = a.
Proof.
  intros D H. destruct ka, kb; try (exfalso; apply D; auto; fail); cbn [imath date_imath datespan_imath nano_imath timespan_imath] in H;
    try (inversion H; reflexivity);
    try (unfold in_place in H; cbn zeta in H; destruct a as [|x [|y a]]; inversion H).
Qed.
Print Assumptions C168_refused_partial.

Example C168_case : let a := [Some 18993; Some 0; Some 18995] in
  math 0 id true KDate a KDateSpan [Some 1] = Done KDate [Some 18994; Some 0; Some 18996] /\
  imath 0 id true KDate a KDateSpan [Some 1] = ([Some 18994; Some 0; Some 18996], Done KDate [Some 18994; Some 0; Some 18996]) /\
  imath 0 id true KNano a KDate a = (a, Refused).
Proof. cbv zeta. repeat split. Qed.

(** Finding: date += date and date -= date raise, but only after the array was overwritten by the sums; span of days -= date too.  Code: the
    calculation (rt_datetime.py:1045-1046) runs in place before the classes are checked (1049). *)
Theorem C168_overwritten_refuted big utc :
  imath big utc true KDate [Some 18993; Some 18994] KDate [Some 18993; Some 1] = ([Some 37986; Some 18995], Refused) /\
  imath big utc false KDate [Some 18993; Some 18994] KDate [Some 18993; Some 1] = ([Some 0; Some 18993], Refused) /\
  imath big utc false KDateSpan [Some 5; Some 6] KDate [Some 18993; Some 1] = ([Some (-18988); Some 5], Refused).
Proof. repeat split; vm_compute; reflexivity. Qed.
Print Assumptions C168_overwritten_refuted.

(** Finding: += on one invalid element makes it valid.  Code: the one-element path of the mask helper looks at the left operand after it was
    overwritten (rt_datetime.py:552, 1046, 4084-4088). *)
Theorem C168_one_element_refuted big utc :
  meaning KDate (Some 0) = None /\
  math big utc true KDate [Some 0] KDateSpan [Some 5] = Done KDate [Some (- 2 ^ 31)] /\
  imath big utc true KDate [Some 0] KDateSpan [Some 5] = ([Some 5], Done KDate [Some 5]) /\
  imath big utc true KNano [Some 0] KTimeSpan [Some 5] = ([Some 5], Done KNano [Some 5]).
Proof. repeat split; vm_compute; reflexivity. Qed.
Print Assumptions C168_one_element_refuted.
