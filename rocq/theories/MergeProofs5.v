(** Schedule independence of the join indices; the executable grouping used in examples. *)
From Coq Require Import List Arith Bool Lia Permutation.
From Verif Require Import Sched SchedFacts GroupModel GroupFacts MergeSpec MergeModel MergeFacts MergeProofs MergeProofs2 MergeProofs3 MergeProofs4.
Import ListNotations.

Definition group_by {B} (eqb : B -> B -> bool) (keys : list (option B)) : keygroup := mkKG (uniques eqb keys) (ikeys eqb keys).
Lemma group_by_ok {B} (eqb : B -> B -> bool) (eqb_eq : forall a b, eqb a b = true <-> a = b) keys : groups_keys keys (group_by eqb keys).
Proof.
  split; [now apply ikeys_grouping|]. intros b Hb. cbn [kg_us group_by] in Hb. now apply (proj2 (uniques_spec eqb eqb_eq keys)).
Qed.

Section Det.
Context {B : Type}.
Variable eqb : B -> B -> bool.
Hypothesis eqb_eq : forall a b, eqb a b = true <-> a = b.
Variables s1 s2 : list (list (store (option nat))) -> list (store (option nat)).
Hypothesis HS1 : forall its, interleave its (s1 its).
Hypothesis HS2 : forall its, interleave its (s2 its).
Variables j1 j2 : mem (option nat).
Definition same_indices (nl nr : nat) (a b : join_indices) : Prop :=
  resolve nl (left_index a) = resolve nl (left_index b) /\ resolve nr (right_index a) = resolve nr (right_index b) /\ right_only a = right_only b.
Lemma left_or_inner_det lkeys rkeys lg rg inner kl kr : groups_keys lkeys lg -> groups_keys rkeys rg ->
  same_indices (length lkeys) (length rkeys) (left_or_inner eqb s1 j1 lg rg inner kl kr) (left_or_inner eqb s2 j2 lg rg inner kl kr) /\
  right_index (left_or_inner eqb s1 j1 lg rg inner kl kr) = right_index (left_or_inner eqb s2 j2 lg rg inner kl kr).
Proof using eqb_eq HS1 HS2.
  intros [GL OL] [GR OR]. destruct lg as [lus likey], rg as [rus rikey]. cbn [kg_us kg_ikey] in *.
  assert (E : right_index (left_or_inner eqb s1 j1 (mkKG lus likey) (mkKG rus rikey) inner kl kr) = right_index (left_or_inner eqb s2 j2 (mkKG lus likey) (mkKG rus rikey) inner kl kr)).
  { unfold left_or_inner. cbn [right_index]. f_equal. rewrite (build_right_eq eqb eqb_eq s1 HS1 j1 lkeys rkeys _ _ _ _ GL GR OL OR).
    symmetry. apply build_right_eq; assumption. }
  split; [|exact E]. split; [|split; [now rewrite E|reflexivity]].
  unfold left_or_inner. cbn [left_index]. rewrite (build_left_gen eqb eqb_eq s1 HS1 j1 lkeys rkeys _ _ _ _ GL GR OL OR).
  symmetry. apply build_left_gen; assumption.
Qed.
Lemma build_left_none lg rg inner kl kr r2l : @build_left B s1 j1 r2l lg rg inner kl kr = None <-> @build_left B s2 j2 r2l lg rg inner kl kr = None.
Proof using.
  unfold build_left. destruct (_ =? 0); [reflexivity|]. destruct (_ =? 0); [reflexivity|]. destruct (_ || _); [reflexivity|]. destruct kl; split; discriminate.
Qed.
Lemma resolve_inj n a b : (a = None <-> b = None) -> resolve n a = resolve n b -> a = b.
Proof using. destruct a, b; cbn; intros [H1 H2] E; try congruence; [discriminate (H2 eq_refl)|discriminate (H1 eq_refl)]. Qed.
Lemma left_or_inner_eq lkeys rkeys lg rg inner kl kr : groups_keys lkeys lg -> groups_keys rkeys rg ->
  left_or_inner eqb s1 j1 lg rg inner kl kr = left_or_inner eqb s2 j2 lg rg inner kl kr.
Proof using eqb_eq HS1 HS2.
  intros GL GR. destruct (left_or_inner_det lkeys rkeys lg rg inner kl kr GL GR) as [[H1 _] H2]. unfold left_or_inner in *. cbn [left_index right_index] in *. f_equal; [|exact H2].
  eapply resolve_inj; [apply build_left_none|exact H1].
Qed.
Theorem create_det lkeys rkeys lg rg rgb h kl kr : groups_keys lkeys lg -> groups_keys rkeys rg ->
  create_indices eqb s1 j1 lg rg rgb h kl kr = create_indices eqb s2 j2 lg rg rgb h kl kr.
Proof using eqb_eq HS1 HS2.
  intros GL GR. assert (E := left_or_inner_eq lkeys rkeys lg rg). assert (E' := left_or_inner_eq rkeys lkeys rg lg).
  unfold create_indices. destruct h; rewrite ?E, ?E' by assumption; try reflexivity.
  destruct (_ =? 0); [reflexivity|]. destruct (_ =? 0); [reflexivity|]. unfold outer_join. now rewrite E by assumption.
Qed.
End Det.
