(** save_sds asks before it overwrites (C243); names keep what is saved apart (C244). *)
From Coq Require Import List Ascii String Bool Arith Lia.
From Verif Require Import OvModel OvProofs.
Import ListNotations.
Local Open Scope list_scope.

Lemma usual_full path name : usual path name ->
  (name = None -> no_sep_at_end path) /\ lower_ext (fst (full_path path name)) /\ (forall n, name = Some n -> ~ In sep n /\ bad_leaf n = false) /\ location path name = target (fst (full_path path name)).
Proof.
  unfold location. destruct name as [n|]; cbn; [|intros [A B]; repeat split; auto; discriminate].
  intros (A & B & C). rewrite parse_id by exact A. split; [discriminate|]. split; [exact C|]. split; [|reflexivity]. intros m E. injection E as <-. auto.
Qed.
(** With overwrite=False, Datasets and arrays are written over a file that is there only after the
    answer Y or y; they are not after N or n; for any other answer it asks again. *)
Theorem C243_asks_partial : forall isfile isdir path name answers, usual path name -> Forall plain answers ->
  asks_first isfile isdir answers (location path name) (save_dataset isfile isdir path name false false answers) /\
  asks_first isfile isdir answers (location path name) (save_array isfile isdir path name false answers).
Proof.
  intros isfile isdir path name answers U P. destruct (usual_full path name U) as (A & B & C & ->).
  split; [apply dataset_asks; assumption|apply array_asks; assumption].
Qed.
Print Assumptions C243_asks_partial.
(** And Structs without nested containers. *)
Theorem C243_structs_partial : forall isfile isdir path name answers, usual path None -> Forall plain answers ->
  asks_first isfile isdir answers (location path None) (save_struct isfile isdir false path name false answers).
Proof. intros isfile isdir path name answers [A B] P. now apply struct_asks. Qed.
Print Assumptions C243_structs_partial.
(** Structs with nested containers go into a directory; if it is there, it asks; no answer is
    misunderstood. *)
Theorem C243_directories : forall isfile isdir path name answers,
  match save_struct isfile isdir true path name false answers with
  | WritesDir d => d = path /\ (isfile path = true \/ isdir path = true -> answered yes answers)
  | Declined => (isfile path = true \/ isdir path = true) /\ answered no answers
  | Asking => (isfile path = true \/ isdir path = true) /\ undecided answers
  | _ => False
  end.
Proof. exact dir_asks. Qed.
Print Assumptions C243_directories.
(** With overwrite=True nothing is asked. *)
Theorem C243_overwrite : forall isfile isdir path name answers, save_array isfile isdir path name true answers = save_array isfile isdir path name true [] /\
  (forall append, save_dataset isfile isdir path name true append answers = save_dataset isfile isdir path name true append []) /\
  (forall nested, save_struct isfile isdir nested path name true answers = save_struct isfile isdir nested path name true []) /\
  save_array isfile isdir path name true [] <> Asking /\ (forall append, save_dataset isfile isdir path name true append [] <> Asking) /\ (forall nested, save_struct isfile isdir nested path name true [] <> Asking).
Proof. exact overwrite_never_asks. Qed.
Print Assumptions C243_overwrite.
Definition there (l : list text) (p : text) : bool := existsb (text_eqb p) l.
(** Finding: the answer is tested with [choice in "Yy"], so the empty answer, just Enter, means
    yes: the file is written over. *)
Theorem C243_enter_refuted : exists isfile isdir path, usual path None /\ isfile (location path None) = true /\
  save_dataset isfile isdir path None false false [[]] = Writes (location path None) /\ save_array isfile isdir path None false [[]] = Writes (location path None) /\ ~ answered yes [[]].
Proof.
  exists (there [T "d/x.sds"]), (there []), (T "d/x"). split; [split; reflexivity|]. do 3 (split; [vm_compute; reflexivity|]).
  intros (b & a & c & E & Y & _). destruct b as [|z [|]]; cbn in E; [|discriminate E|discriminate E]. injection E as <- <-. destruct Y as [Y|Y]; discriminate Y.
Qed.
Print Assumptions C243_enter_refuted.
(** Finding: the extension is found in any case, but .SDS is not taken for it when the file is
    written: the file that is looked for is not the one that is written, and nothing is asked. *)
Theorem C243_capitals_refuted : exists isfile isdir path f, save_dataset isfile isdir path None false false [] = Writes f /\ save_array isfile isdir path None false [] = Writes f /\ isfile f = true.
Proof. exists (there [T "d/x.SDS.sds"]), (there []), (T "d/x.SDS"), (T "d/x.SDS.sds"). repeat split; vm_compute; reflexivity. Qed.
Print Assumptions C243_capitals_refuted.
(** Finding: a Dataset with a separator in its name is looked for with "!" in its place, but
    written with the separator: a file that is there is written over and nothing is asked. *)
Theorem C243_separator_refuted : exists isfile isdir path name f, save_dataset isfile isdir path (Some name) false false [] = Writes f /\ isfile f = true.
Proof. exists (there [T "d/a/b.sds"]), (there []), (T "d"), (T "a/b"), (T "d/a/b.sds"). split; vm_compute; reflexivity. Qed.
Print Assumptions C243_separator_refuted.
Example C243_case : usual (T "d/x") None /\ usual (T "d") (Some (T "y.sds")) /\ location (T "d") (Some (T "y.sds")) = T "d/y.sds" /\
  save_dataset (there [T "d/x.sds"]) (there []) (T "d/x") None false false [T "what"; T "y"] = Writes (T "d/x.sds") /\
  save_dataset (there [T "d/x.sds"]) (there []) (T "d/x") None false false [T "what"; T "n"; T "y"] = Declined /\
  save_array (there []) (there [T "d/x.sds"]) (T "d/x.sds") None false [] = Raises /\
  save_struct (there []) (there [T "d"]) true (T "d") None false [T ""; T "Yes"] = Asking.
Proof. split; [split; reflexivity|]. split; [split; [vm_compute; intuition discriminate|split; reflexivity]|]. repeat split; vm_compute; reflexivity. Qed.

(** Datasets saved in one directory under different names are in different files. *)
Theorem C244_names_partial : forall isfile isdir path n m overwrite answers f g, n <> m -> sds_endswith n = false -> sds_endswith m = false ->
  save_dataset isfile isdir path (Some n) overwrite false answers = Writes f -> save_dataset isfile isdir path (Some m) overwrite false answers = Writes g -> f <> g.
Proof.
  intros isfile isdir path n m overwrite answers f g D N M. unfold save_dataset.
  destruct (path_single isfile isdir path (Some n) overwrite false answers); try discriminate. destruct (bad_leaf n); [discriminate|]. intros [= <-].
  destruct (path_single isfile isdir path (Some m) overwrite false answers); try discriminate. destruct (bad_leaf m); [discriminate|]. intros [= <-]. now apply names_apart.
Qed.
Print Assumptions C244_names_partial.
(** Finding: a Struct without nested containers is not saved under its name: any name gives the file
    of the path, so the second Struct is written over the first. *)
Theorem C244_structs_refuted : forall isfile isdir path n m overwrite answers, save_struct isfile isdir false path (Some n) overwrite answers = save_struct isfile isdir false path (Some m) overwrite answers /\
  (usual path None -> save_struct (fun _ => false) (fun _ => false) false path (Some n) overwrite answers = Writes (location path None)).
Proof.
  intros isfile isdir path n m overwrite answers. split; [reflexivity|]. intros [A B]. unfold save_struct.
  destruct (single_at (fun _ => false) (fun _ => false) path None overwrite false answers (fun _ => A) B) as (nm & ->). cbn [full_path fst]. now rewrite target_idem.
Qed.
Print Assumptions C244_structs_refuted.
(** Finding: separators in the names of arrays become "!", so a/b and a!b are one file. *)
Theorem C244_arrays_refuted : exists isfile isdir path n m f, n <> m /\ save_array isfile isdir path (Some n) true [] = Writes f /\ save_array isfile isdir path (Some m) true [] = Writes f.
Proof. exists (there []), (there [T "d"]), (T "d"), (T "a/b"), (T "a!b"), (T "d/a!b.sds"). split; [discriminate|]. split; vm_compute; reflexivity. Qed.
Print Assumptions C244_arrays_refuted.
Example C244_case : save_dataset (there []) (there [T "d"]) (T "d") (Some (T "a")) true false [] = Writes (T "d/a.sds") /\
  save_dataset (there []) (there [T "d"]) (T "d") (Some (T "b")) true false [] = Writes (T "d/b.sds") /\
  save_struct (there []) (there [T "d"]) false (T "d") (Some (T "a")) true [] = Writes (T "d.sds").
Proof. repeat split; vm_compute; reflexivity. Qed.
