(** Reductions over the rows of a Dataset see each row's own values (C251). *)
From Coq Require Import List Bool Arith Lia.
From Verif Require Import GbrModel GbrProofs.
Import ListNotations.

(** There is one result for each row, and that of row g is the function of the list that has, for the
    j-th of the columns of the kind asked for, its value in row g. *)
Theorem C251_rows_partial : forall {V R} (f : list V -> R) nrows strings (ds : list (bool * list V)),
  (forall k c, In (k, c) ds -> List.length c = nrows) ->
  let cols := filter (fun c => Bool.eqb (fst c) (negb strings)) ds in
  cols <> [] ->
  List.length (gbrows V f nrows strings ds) = nrows /\
  forall g, g < nrows -> exists row, nth_error (gbrows V f nrows strings ds) g = Some (f row) /\
    List.length row = List.length cols /\
    forall j k c, nth_error cols j = Some (k, c) -> nth_error row j = nth_error c g.
Proof.
  intros V R f nrows strings ds H cols _. unfold gbrows. rewrite map_length, seq_length. split; [reflexivity|]. intros g G.
  assert (E : rowlist V strings ds = map snd cols).
  { unfold rowlist, cols. f_equal. apply filter_ext. intros [[|] c]; destruct strings; reflexivity. }
  assert (L : forall c, In c (rowlist V strings ds) -> List.length c = nrows).
  { rewrite E. intros c J. apply in_map_iff in J. destruct J as [[k c'] [<- J]]. apply filter_In in J. destruct J as [J _]. exact (H k c' J). }
  destruct (members_tile V nrows g (rowlist V strings ds) G L) as [A B].
  eexists. split.
  - rewrite nth_error_map. rewrite (nth_error_nth' _ 0) by (rewrite seq_length; exact G). rewrite seq_nth by exact G. cbn [option_map Nat.add]. reflexivity.
  - unfold row_codes, row_values. split; [rewrite A, E, map_length; reflexivity|].
    intros j k c J. apply B. rewrite E, nth_error_map, J. reflexivity.
Qed.
Print Assumptions C251_rows_partial.
Example C251_case : let ds := [(true, [1; 2; 3]); (false, [7; 8; 9]); (true, [10; 20; 30])] in
  (forall k c, In (k, c) ds -> List.length c = 3) /\
  gbrows nat (fun l => l) 3 false ds = [[1; 10]; [2; 20]; [3; 30]] /\
  gbrows nat (fun l => fold_right Nat.add 0 l) 3 false ds = [11; 22; 33] /\
  gbrows nat (fun l => l) 3 true ds = [[7]; [8]; [9]].
Proof.
  split; [intros k c [J|[J|[J|[]]]]; inversion J; reflexivity|]. repeat split; vm_compute; reflexivity.
Qed.
