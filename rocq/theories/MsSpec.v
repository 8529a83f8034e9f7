(** Vocabulary for the statements about loading several files (C169-C173): what the cells show. *)
From Coq Require Import List Arith ZArith Bool.
From Verif Require Import FlattenModel DsModel GroupingSpec MsModel.
Import ListNotations.

Section Spec.
Context {V B M : Type}.
(** a number with the class data it is shown with, the invalid number, a category, the filtered category *)
Inductive shown := Number (m : option M) (v : V) | NoNumber | Label (b : B) | NoLabel.
Definition label (o : option B) : shown := match o with Some b => Label b | None => NoLabel end.
Definition column_shows (c : column V B M) : list shown :=
  match c with
  | Plain m l => map (Number m) l
  | Cat base codes cats => map label (if base =? 0 then shows0 codes cats else shows codes cats)
  end.
(** what a column of the loaded Dataset shows *)
Definition out_shows (c : outcol V B M) : list shown :=
  match c with
  | OPlain m l => map (fun x => match x with CV v => Number m v | _ => NoNumber end) l
  | OCat base codes cats => map label (if base =? 0 then shows0 codes cats else shows codes cats)
  end.
(** what a file contributes to column n: its column, or invalids of the kind of the column *)
Definition empty_like (c : column V B M) : shown := match c with Plain _ _ => NoNumber | Cat _ _ _ => NoLabel end.
Definition contributes (n : name) (like : column V B M) (f : file V B M) : list shown :=
  match dget n (f_cols f) with Some c => column_shows c | None => repeat (empty_like like) (f_rows f) end.
(** the class data, or the base *)
Definition form (c : column V B M) : option M + nat := match c with Plain m _ => inl m | Cat b _ _ => inr b end.
Definition col_length (c : column V B M) : nat := match c with Plain _ l => length l | Cat _ codes _ => length codes end.
Definition col_ok (c : column V B M) : Prop :=
  match c with
  | Plain _ _ => True
  | Cat b codes cats => NoDup cats /\ ((b = 0 /\ valid_codes0 codes cats) \/ (b = 1 /\ valid_codes codes cats))
  end.
(** a saved Dataset: different names, columns of one length, codes within the categories *)
Definition file_ok (f : file V B M) : Prop :=
  NoDup (map fst (f_cols f)) /\ Forall (fun p => ~ In bang (fst p) /\ col_length (snd p) = f_rows f /\ col_ok (snd p)) (f_cols f).
(** the column names of all files, each once *)
Definition all_names (fs : list (file V B M)) : list name := flat_map (fun f => map fst (f_cols f)) fs.
(** files agree on the form of each column; a base 0 Categorical is in every file *)
Definition agree (fs : list (file V B M)) : Prop :=
  forall n f g c d, In f fs -> In g fs -> dget n (f_cols f) = Some c -> dget n (f_cols g) = Some d -> form c = form d.
Definition base0_everywhere (fs : list (file V B M)) : Prop :=
  forall n f g c, In f fs -> In g fs -> dget n (f_cols f) = Some c -> form c = inr 0 -> dget n (f_cols g) <> None.
(** the checksum tells the categories apart *)
Definition crc_ok (crc : list B -> Z) (fs : list (file V B M)) : Prop :=
  forall u v, (u = [] \/ exists f n b k, In f fs /\ dget n (f_cols f) = Some (Cat b k u)) ->
              (v = [] \/ exists f n b k, In f fs /\ dget n (f_cols f) = Some (Cat b k v)) ->
              length u = length v -> crc u = crc v -> u = v.
End Spec.
Arguments shown : clear implicits.

(** the rows whose number is in l, in their order *)
Definition rows_named {X} (l : list Z) (rows : list X) : list X :=
  map snd (filter (fun p : nat * X => existsb (Z.eqb (Z.of_nat (fst p))) l) (combine (seq 0 (length rows)) rows)).
(** a path that exists, and what loading it alone gives *)
Definition found {P} (kind_of : P -> path_kind) (p : P) : bool := match kind_of p with IsMissing => false | _ => true end.
Definition one_result {P R} (kind_of : P -> path_kind) (load_dir load_file : P -> R) (p : P) : R :=
  match kind_of p with IsDir => load_dir p | _ => load_file p end.
