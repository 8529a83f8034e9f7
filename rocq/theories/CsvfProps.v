(** csv files become Datasets without shifted values (C249); Datasets kept as directories of numpy
    files come back (C250). *)
From Coq Require Import List String Ascii Bool Arith Lia Permutation.
From Verif Require Import CsvfModel CsvfSpec CsvfProofs.
Import ListNotations.

(** The rows a version of the loader looks at: the one that goes row by row does not see empty lines. *)
Definition rows_seen (version : nat) (rows : list (list string)) : list (list string) :=
  if Nat.eqb version 1 then filter (fun r => match r with [] => false | _ => true end) rows else rows.

(** Versions 0, 1 and 3 of the loader: a Dataset is made exactly when no name begins with an
    underscore and every row seen has a field for every name, and then the j-th value of each column
    is the converted field of the j-th row; fields beyond the names are dropped. Names that are not
    given are taken from the first row. For distinct names that are neither keywords nor attributes
    of Datasets. *)
Theorem C249_table_partial : forall {V} (conv : string -> string -> V) is_ident stored version h rows,
  In version [0; 1; 3] -> h <> [] -> NoDup h -> (forall n, In n h -> is_ident n = true) -> (forall n, In n h -> stored n = n) ->
  let made := load_csv V conv is_ident stored version h rows in
  load_csv V conv is_ident stored version [] (h :: rows) = made /\
  ((exists ds, made = Some ds) <->
    (forall n t, In n h -> n <> String "_" t) /\ forall r, In r (rows_seen version rows) -> List.length h <= List.length r) /\
  forall ds, made = Some ds -> table_of conv h (rows_seen version rows) ds.
Proof.
  intros V conv is_ident stored version h rows HV NE ND HI ST made.
  assert (I : forallb is_ident h = true) by (apply forallb_forall; auto).
  set (m := match version with 0 => load_by_col V conv stored h rows | 1 => load_by_row V conv stored h rows
                | 2 => load_tagged V conv stored h rows | 3 => load_rows_cols V conv stored h rows | _ => None end).
  assert (G : made = m).
  { unfold made, m, load_csv. destruct h as [|n0 ns] eqn:E; [congruence|]. rewrite I. reflexivity. }
  split.
  { unfold made, load_csv. destruct h; [congruence|]. reflexivity. }
  rewrite G.
  assert (K : exists rs, rs = rows_seen version rows /\
    (plain_names h -> (forall r, In r rs -> List.length h <= List.length r) -> m = Some (combine h (picks V conv rs 0 h))) /\
    (forall ds, m = Some ds -> plain_names h /\ forall r, In r rs -> List.length h <= List.length r)).
  { unfold m. destruct HV as [<-|[<-|[<-|[]]]].
    - exists rows. split; [reflexivity|]. exact (by_col_ok V conv stored h rows ND ST NE).
    - exists (filter full rows). split; [reflexivity|]. exact (by_row_ok V conv stored h rows ND ST NE).
    - exists rows. split; [reflexivity|]. exact (rows_cols_ok V conv stored h rows ND ST NE). }
  destruct K as (rs & <- & A & B). split.
  - split.
    + intros [ds E]. destruct (B ds E) as [[_ U] L]. split; assumption.
    + intros [U L]. eexists. apply A; [split; assumption | exact L].
  - intros ds E. destruct (B ds E) as [P L]. rewrite (A P L) in E. injection E as <-. apply table_picks, L.
Qed.
Print Assumptions C249_table_partial.

(** Version 2 makes a Dataset exactly when no name begins with an underscore, some row is not empty and
    every such row has a field for every name, and then it is the table of those rows. *)
Theorem C249_tagged_partial : forall {V} (conv : string -> string -> V) is_ident stored h rows,
  h <> [] -> NoDup h -> (forall n, In n h -> is_ident n = true) -> (forall n, In n h -> stored n = n) ->
  let made := load_csv V conv is_ident stored 2 h rows in
  load_csv V conv is_ident stored 2 [] (h :: rows) = made /\
  ((exists ds, made = Some ds) <->
    (forall n t, In n h -> n <> String "_" t) /\ rows_seen 1 rows <> [] /\
    forall r, In r (rows_seen 1 rows) -> List.length h <= List.length r) /\
  forall ds, made = Some ds -> table_of conv h (rows_seen 1 rows) ds.
Proof.
  intros V conv is_ident stored h rows NE ND HI ST made.
  assert (I : forallb is_ident h = true) by (apply forallb_forall; auto).
  assert (G : made = load_tagged V conv stored h rows).
  { unfold made, load_csv. destruct h as [|n0 ns] eqn:E; [congruence|]. rewrite I. reflexivity. }
  split; [unfold made, load_csv; destruct h; [congruence|]; reflexivity|]. rewrite G. split; [split|].
  - intros [ds E]. destruct (tagged_some V conv stored h rows ds ND ST NE E) as ([_ U] & R & L). repeat split; assumption.
  - intros (U & RE & L). eexists. apply tagged_ok; auto. split; assumption.
  - intros ds E. destruct (tagged_some V conv stored h rows ds ND ST NE E) as (P & R & L).
    rewrite (tagged_ok V conv stored h rows P ST NE R L) in E. injection E as <-. apply table_picks, L.
Qed.
Print Assumptions C249_tagged_partial.

Definition same (_ f : string) : string := f.
Definition any (_ : string) : bool := true.
(** sum is a method of Datasets. *)
Definition caps (s : string) : string := if String.eqb s "sum" then "Sum"%string else s.
(** Finding: an empty line is an error in versions 0 and 3 but not in version 1. *)
Theorem C249_empty_line_refuted :
  load_csv string same any caps 0 [] [["a"]; ["1"]; []; ["2"]]%string = None /\
  load_csv string same any caps 3 [] [["a"]; ["1"]; []; ["2"]]%string = None /\
  load_csv string same any caps 1 [] [["a"]; ["1"]; []; ["2"]]%string = Some [("a", ["1"; "2"])]%string.
Proof. repeat split; vm_compute; reflexivity. Qed.
Print Assumptions C249_empty_line_refuted.
(** Finding: of two columns with one name only the last is kept, and so of sum and Sum, for sum is a
    method of Datasets and is capitalized. *)
Theorem C249_twice_refuted : forall version, In version [0; 1; 3] ->
  load_csv string same any caps version [] [["a"; "b"; "a"]; ["1"; "2"; "3"]]%string = Some [("a", ["3"]); ("b", ["2"])]%string /\
  load_csv string same any caps version [] [["Sum"; "sum"]; ["1"; "2"]]%string = Some [("Sum", ["2"])]%string.
Proof. intros v [<-|[<-|[<-|[]]]]; split; vm_compute; reflexivity. Qed.
Print Assumptions C249_twice_refuted.
(** Finding: a file with names but no rows is an error in version 2 and gives empty columns in the
    others; equal names are an error in version 2 only. *)
Theorem C249_no_rows_refuted :
  load_csv string same any caps 2 [] [["a"; "b"]]%string = None /\
  (forall version, In version [0; 1; 3] -> load_csv string same any caps version [] [["a"; "b"]]%string = Some [("a", []); ("b", [])]%string) /\
  load_csv string same any caps 2 [] [["a"; "a"]; ["1"; "2"]]%string = None.
Proof. split; [vm_compute; reflexivity|]. split; [intros v [<-|[<-|[<-|[]]]]; vm_compute; reflexivity|]. vm_compute; reflexivity. Qed.
Print Assumptions C249_no_rows_refuted.
Example C249_case : plain_names ["a"; "b"]%string /\
  load_csv string same any caps 1 [] [["_id"; "b"]; ["1"; "2"]]%string = None /\
  load_csv string same any caps 0 [] [["a"; "b"]; ["1"; "2"]; ["3"; "4"; "5"]]%string = Some [("a", ["1"; "3"]); ("b", ["2"; "4"])]%string /\
  load_csv string same any caps 1 ["a"; "b"]%string [["1"; "2"]; []; ["3"; "4"; "5"]]%string = Some [("a", ["1"; "3"]); ("b", ["2"; "4"])]%string /\
  load_csv string same any caps 3 [] [["a"; "b"]; ["1"; "2"]; ["3"; "4"; "5"]]%string = Some [("a", ["1"; "3"]); ("b", ["2"; "4"])]%string /\
  load_csv string same any caps 2 [] [["b"; "a"]; ["1"; "2"]; []; ["3"; "4"; "5"]]%string = Some [("b", ["1"; "3"]); ("a", ["2"; "4"])]%string /\
  load_csv string same any caps 2 [] [["a"; "b"]; ["1"; "2"]; ["3"]]%string = None /\
  load_csv string same any caps 2 [] [["a"; "b"]; ["1"]; ["3"]]%string = None /\
  load_csv string same any caps 1 [] [["a"; "b"]; ["1"; "2"]; ["3"]]%string = None /\
  load_csv string same (fun s => negb (String.eqb s "a b"%string)) caps 1 [] [["a b"]; ["1"]]%string = None.
Proof.
  split.
  - split; [repeat constructor; cbn; intuition discriminate|]. intros n t [<-|[<-|[]]]; discriminate.
  - repeat split; vm_compute; reflexivity.
Qed.

(** A Dataset written to a new directory is read back with the same columns, in whatever order the
    directory is listed, and other directories stay as they are; a directory that exists is not
    written to. For column names without the text ".npy"
    that a Dataset keeps as they are. *)
Theorem C250_roundtrip_partial : forall {V} stored (d : disk V) name ds listing,
  is_dataset ds -> (forall n, In n (map fst ds) -> stored n = n) -> (forall k, In k (map fst ds) -> ~ occurs ".npy" k) ->
  (forall l, Permutation l (listing l)) ->
  (on_disk d name <> None -> write_np d name ds = None) /\
  (on_disk d name = None -> exists d' ds', write_np d name ds = Some d' /\ read_np stored listing d' name = Some ds' /\
     Permutation ds ds' /\ forall other, other <> name -> on_disk d' other = on_disk d other).
Proof.
  intros V stored d name ds listing HD ST HO HL. split.
  - intros H. unfold write_np. destruct (on_disk d name); [reflexivity|congruence].
  - apply np_roundtrip; assumption.
Qed.
Print Assumptions C250_roundtrip_partial.
(** Finding: the columns come back in the order of the directory listing, not in their own. *)
Theorem C250_order_refuted : exists listing : list (string * list nat) -> list (string * list nat),
  (forall l, Permutation l (listing l)) /\ exists d', write_np [] "t" [("b", [1]); ("a", [2])]%string = Some d' /\
  read_np caps listing d' "t" = Some [("a", [2]); ("b", [1])]%string.
Proof.
  exists (@rev _). split; [apply Permutation_rev|]. eexists. split; [reflexivity|]. vm_compute; reflexivity.
Qed.
Print Assumptions C250_order_refuted.
(** Finding: columns a and a.npy go to one file, and only one of them comes back, and a column
    x.npy1 comes back as x1. *)
Theorem C250_names_refuted : exists d1 d2,
  write_np [] "t" [("a", [1]); ("a.npy", [2])]%string = Some d1 /\ on_disk d1 "t" = Some [("a.npy", [2])]%string /\ read_np caps (fun l => l) d1 "t" = Some [("a", [2])]%string /\
  write_np [] "t" [("x.npy1", [1])]%string = Some d2 /\ read_np caps (fun l => l) d2 "t" = Some [("x1", [1])]%string.
Proof. eexists; eexists. split; [reflexivity|]. split; [vm_compute; reflexivity|]. split; [vm_compute; reflexivity|]. split; [reflexivity|]. vm_compute; reflexivity. Qed.
Print Assumptions C250_names_refuted.
Example C250_case : is_dataset [("b", [1; 2]); ("a.np", [3; 4])]%string /\
  (forall k, In k ["b"; "a.np"]%string -> ~ occurs ".npy" k) /\
  (exists d', write_np [("u", [])]%string "t" [("b", [1; 2]); ("a.np", [3; 4])]%string = Some d' /\
    read_np caps (@rev _) d' "t" = Some [("a.np", [3; 4]); ("b", [1; 2])]%string) /\
  write_np [("t", [])]%string "t" [("b", [1; 2])]%string = None.
Proof.
  split; [|split; [|split]].
  - split; [split|].
    + repeat constructor; cbn; intuition discriminate.
    + intros n t [<-|[<-|[]]]; discriminate.
    + intros k c k' c' [J|[J|[]]] [J'|[J'|[]]]; inversion J; inversion J'; reflexivity.
  - assert (AL : forall x y, String.length (x ++ y) = String.length x + String.length y) by (induction x; intros; cbn; auto).
    intros k J (a & b & E). pose proof (f_equal String.length E) as L. rewrite !AL in L.
    destruct a as [|x a]; [destruct J as [<-|[<-|[]]]; discriminate|].
    destruct J as [<-|[<-|[]]]; cbn in L; lia.
  - eexists. split; [reflexivity|]. vm_compute; reflexivity.
  - reflexivity.
Qed.
