From Coq Require Import List Bool Arith Lia.
From Verif Require Import GbrModel.
Import ListNotations.

Section Rows.
Variable V : Type.

Lemma combine_app_eq : forall A B (a1 a2 : list A) (b1 b2 : list B), List.length a1 = List.length b1 ->
  combine (a1 ++ a2) (b1 ++ b2) = combine a1 b1 ++ combine a2 b2.
Proof. induction a1 as [|x a1 IH]; intros a2 [|y b1] b2 H; cbn in *; try discriminate; auto. rewrite IH; auto. Qed.

Lemma members_app : forall g c1 c2 (v1 v2 : list V), List.length c1 = List.length v1 ->
  members V g (c1 ++ c2) (v1 ++ v2) = members V g c1 v1 ++ members V g c2 v2.
Proof. intros. unfold members. rewrite combine_app_eq, filter_app, map_app; auto. Qed.

Lemma members_seq : forall (c : list V) g i,
  members V g (seq i (List.length c)) c = if Nat.leb i g then match nth_error c (g - i) with Some v => [v] | None => [] end else [].
Proof.
  unfold members. induction c as [|v c IH]; intros g i; cbn [List.length seq combine filter map fst].
  - destruct (Nat.leb i g); auto. destruct (g - i); auto.
  - destruct (Nat.eqb_spec i g) as [->|E].
    + cbn [map snd]. rewrite IH, Nat.leb_refl, Nat.sub_diag. destruct (Nat.leb_spec (S g) g); [lia|]. auto.
    + rewrite IH. destruct (Nat.leb_spec (S i) g); destruct (Nat.leb_spec i g); try lia; auto.
      replace (g - i) with (S (g - S i)) by lia. auto.
Qed.

Lemma members_tile : forall nrows g (cols : list (list V)), g < nrows ->
  (forall c, In c cols -> List.length c = nrows) ->
  List.length (members V g (concat (repeat (seq 0 nrows) (List.length cols))) (concat cols)) = List.length cols /\
  forall j c, nth_error cols j = Some c ->
    nth_error (members V g (concat (repeat (seq 0 nrows) (List.length cols))) (concat cols)) j = nth_error c g.
Proof.
  intros nrows g cols G. induction cols as [|c cols IH]; intros H.
  - split; [reflexivity|]. intros [|j] c J; discriminate.
  - cbn [List.length repeat concat].
    assert (L : List.length c = nrows) by (apply H; left; auto).
    destruct IH as [A B]; [intros; apply H; right; auto|].
    rewrite members_app by (rewrite seq_length; auto).
    pose proof (members_seq c g 0) as K. rewrite L in K. rewrite K. cbn [Nat.leb]. rewrite Nat.sub_0_r.
    destruct (nth_error c g) as [v|] eqn:E; [|apply nth_error_None in E; lia].
    split; [cbn; rewrite A; auto|]. intros [|j] c' J; cbn in J.
    + injection J as <-. cbn. auto.
    + apply B; auto.
Qed.
End Rows.
