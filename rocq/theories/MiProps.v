(** merge_lookup in place (C240). *)
From Coq Require Import List Arith Bool Lia String.
From Verif Require Import Sched SchedFacts GroupModel MergeSpec MergeModel MergeColsModel MergeColsProofs MergeColsProofs2 MergeColsProofs3 MergeProps MiModel MiProofs.
Import ListNotations.
Local Open Scope list_scope.

(** In place, merge_lookup raises when it raises out of place with all the left columns; else
    the Dataset keeps its columns, in their places, followed by the new ones, and has exactly
    the columns that merge_lookup out of place returns. *)
Theorem C240_inplace : forall {V} (veqb : V -> V -> bool), (forall a b, veqb a b = true <-> a = b) -> forall null inv sched,
  (forall its, interleave its (sched its)) -> forall junk group, (forall keys, groups_keys keys (group keys)) ->
  forall strcol left right, well_formed left -> well_formed right -> forall left_on right_on, List.length left_on = List.length right_on ->
  forall suffix cr, NoDup cr -> forall rm k,
  match merge_lookup veqb null inv sched junk group strcol left right left_on right_on rm (Some (Some ""%string, suffix)) (names left) cr k,
        merge_lookup_inplace veqb null inv sched junk group strcol left right left_on right_on rm suffix cr k with
  | None, None => True
  | Some (out, _), Some ds => (exists more, ds = left ++ more /\ forall n c, In (n, c) more -> In (n, c) out) /\ NoDup (names ds) /\ forall n, col n ds = col n out
  | _, _ => False
  end.
Proof.
  intros V veqb E null inv sched HS junk group HG strcol left right WL WR left_on right_on L suffix cr N rm k.
  pose proof (inplace_is veqb E null inv sched HS junk group HG strcol left right WL WR left_on right_on L suffix cr N rm k) as H.
  destruct (merge_lookup veqb null inv sched junk group strcol left right left_on right_on rm _ (names left) cr k) as [[out ind]|];
    destruct (merge_lookup_inplace veqb null inv sched junk group strcol left right left_on right_on rm suffix cr k) as [ds|]; try exact H. apply H.
Qed.
Print Assumptions C240_inplace.

(** So, in place, every column of the right Dataset that is asked for and is not a shared key
    comes in under its name, or with the suffix if there is a left column of that name: in
    each row the value of the only, first or last right row with the key of that row, or
    the invalid value. *)
Theorem C240_lookup : forall {V} (veqb : V -> V -> bool), (forall a b, veqb a b = true <-> a = b) -> forall null inv sched,
  (forall its, interleave its (sched its)) -> forall junk group, (forall keys, groups_keys keys (group keys)) ->
  forall strcol left right, well_formed left -> well_formed right -> forall left_on right_on, List.length left_on = List.length right_on ->
  forall suffix cr, NoDup cr -> forall rm k ds,
  merge_lookup_inplace veqb null inv sched junk group strcol left right left_on right_on rm suffix cr k = Some ds ->
  let l := nullable (has_null null) (tuples inv left left_on (nrows left)) in
  let r := nullable (has_null null) (tuples inv right right_on (nrows right)) in
  (forall c, In c (names left) -> col c ds = Some (getcol left c)) /\
  (forall c, In c cr -> ~ (In c left_on /\ In c right_on) ->
     exists n, (n = c \/ (In c (names left) /\ exists s, suffix = Some s /\ n = (c ++ s)%string)) /\
       col n ds = Some (map (fun i => cell inv (getcol right c) (partner (tuple_eqb veqb) k (nth i l None) r)) (seq 0 (nrows left)))).
Proof.
  intros V veqb E null inv sched HS junk group HG strcol left right WL WR left_on right_on L suffix cr N rm k ds H l r.
  pose proof (C240_inplace veqb E null inv sched HS junk group HG strcol left right WL WR left_on right_on L suffix cr N rm k) as I. rewrite H in I.
  destruct (merge_lookup veqb null inv sched junk group strcol left right left_on right_on rm _ (names left) cr k) as [[out ind]|] eqn:ML; [|destruct I].
  destruct I as ((more & -> & _) & ND & C).
  pose proof (C47_lookup_columns veqb E null inv sched HS junk group HG strcol left right WL WR left_on right_on L _ (names left) cr (proj1 WL) N rm k out ind ML) as (_ & _ & C3 & NO & _).
  assert (KL : forall c, In c (names left) -> col c (left ++ more) = Some (getcol left c)).
  { intros c J. unfold getcol. destruct (col_present left c J) as (x & X). rewrite X. apply col_in; [exact ND|]. apply in_or_app. left. now apply col_some. }
  split; [exact KL|]. intros c J S. destruct (C3 c J S) as (n & A & X). exists n. split; [exact A|]. now rewrite C.
Qed.
Print Assumptions C240_lookup.

Definition minplace := merge_lookup_inplace Nat.eqb isnull 0 (@serial _) junk0 tgroup (fun _ => false).
Example C240_case : well_formed tl2 /\ well_formed tr2 /\
  minplace tl2 tr2 ["k"]%string ["k"]%string false (Some "_r"%string) ["k"; "v"]%string None =
    Some [("k", [3; 0; 5; 3]); ("v", [1; 2; 3; 4]); ("w", [9; 9; 9; 9]); ("v_r", [12; 0; 11; 12])]%string /\
  minplace tl2 tr2 ["k"]%string ["k"]%string false None ["k"; "v"]%string None = None /\
  minplace tr2 tl2 ["k"]%string ["k"]%string false (Some "_r"%string) ["w"]%string (Some KLast) =
    Some (tr2 ++ [("w"%string, [9; 9; 0])]).
Proof. split; [apply wf_check; vm_compute; reflexivity|]. split; [apply wf_check; vm_compute; reflexivity|]. repeat split; vm_compute; reflexivity. Qed.
