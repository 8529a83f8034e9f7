(** * Functions applied to Datasets; tables of percentages.

    Modelled: [Dataset.apply] (riptable/rt_dataset.py:7394-7474); [accum_ratiop]
    (rt_accumtable.py:1283-1323) with the columns of [AccumTable.gen] (409-438).

    Not modelled: how the tables are aggregated, the label columns, the
    footer rows of other tables, remove_blanks; numbers are exact, and division by zero is
    left to the hypotheses. *)
From Coq Require Import List QArith Bool.
From Verif Require Import FlattenModel CvModel ArSpec.
Import ListNotations.

(** ** apply *)
Section Apply.
Context {X : Type}.
Definition dataset := list (name * X).
(** a function, with args and kwargs: its __name__ and what it gives for an array (None: raises) *)
Record func := mkFunc { f_name : name; f_call : X -> option X }.
Inductive applied := One (d : dataset) | Many (l : list (name * dataset)) | Raised.
(** 7466-7467 *)
Fixpoint call_all (f : func) (d : dataset) : option dataset :=
  match d with
  | [] => Some []
  | (k, v) :: r => match f_call f v, call_all f r with Some v', Some r' => Some ((k, v') :: r') | _, _ => None end
  end.
(** 7450-7467; [method]: what getattr(self, name)() gives; None: there is none, or it raises *)
Definition apply_one (method : name -> option dataset) (check_op : bool) (f : func) (d : dataset) : option dataset :=
  match (if check_op then method (f_name f) else None) with
  | Some m => Some m
  | None => call_all f d
  end.
(** 7449-7469: the results by name *)
Fixpoint apply_each (method : name -> option dataset) (check_op : bool) (funcs : list func) (d : dataset) (results : list (name * dataset)) : option (list (name * dataset)) :=
  match funcs with
  | [] => Some results
  | f :: r => match apply_one method check_op f d with
              | Some m => apply_each method check_op r d (dset (capitalize (f_name f)) m results)
              | None => None
              end
  end.
(** 7435-7474 *)
Definition apply (method : name -> option dataset) (check_op : bool) (funcs : list func) (d : dataset) : applied :=
  match funcs with
  | [] => Raised
  | [f] => match apply_one method check_op f d with Some m => One m | None => Raised end
  | _ => match apply_each method check_op funcs d [] with Some l => Many l | None => Raised end
  end.
End Apply.
Arguments func : clear implicits.
Arguments dataset : clear implicits.
Arguments applied : clear implicits.

(** ** accum_ratiop *)
(** "TotalRatio" and "Total" *)
Definition total_ratio : name := [84; 111; 116; 97; 108; 82; 97; 116; 105; 111]%nat.
Definition total : name := [84; 111; 116; 97; 108]%nat.
(** the columns, the names of the summary columns, the footer row TotalRatio *)
Record table := mkTab { t_cols : columns; t_summary : list name; t_footer : list (name * Q) }.
(** 409-438: the inner table, its margin, the margin of Total *)
Definition gen (inner : columns) (margin : list Q) (footer : list (name * Q)) (include_total : bool) : table :=
  let cols := dset total_ratio margin inner in
  if include_total then mkTab (dset total margin cols) [total_ratio; total] footer
  else mkTab cols [total_ratio] footer.
Definition mem (k : name) (l : list name) : bool := existsb (fun x => if name_dec x k then true else false) l.
(** 1293-1297 *)
Definition ratio_keys (t : table) : list name :=
  filter (fun k => negb (mem k (t_summary t) && negb (if name_dec k total_ratio then true else false))) (map fst (t_cols t)).
(** accumr[col] = 100 * accumr[col] / d; None: an exception *)
Definition divide (d : list Q) (col : list Q) : list Q := map (fun p => pct (fst p) (snd p)) (combine d col).
Fixpoint by_total (d : Q) (keys : list name) (cols : columns) : option columns :=
  match keys with
  | [] => Some cols
  | k :: r => match dget k cols with Some l => by_total d r (dset k (map (pct d) l) cols) | None => None end
  end.
Fixpoint by_row (keys : list name) (cols : columns) : option columns :=
  match keys with
  | [] => Some cols
  | k :: r => match dget k cols, dget total_ratio cols with
              | Some l, Some d => by_row r (dset k (divide d l) cols)
              | _, _ => None
              end
  end.
Fixpoint by_col (footer : list (name * Q)) (keys : list name) (cols : columns) : option columns :=
  match keys with
  | [] => Some cols
  | k :: r => match dget k cols, dget k footer with
              | Some l, Some d => by_col footer r (dset k (map (pct d) l) cols)
              | _, _ => None
              end
  end.
(** 1299-1323 *)
Definition ratiop (n : norm) (t : table) : option table :=
  let keys := ratio_keys t in
  match dget total_ratio (t_footer t) with
  | None => None
  | Some d =>
      let shares := map (fun e => (fst e, pct d (snd e))) (t_footer t) in
      match n with
      | ByTable => option_map (fun c => mkTab c (t_summary t) shares) (by_total d keys (t_cols t))
      | ByRow => option_map (fun c => mkTab c (t_summary t) shares) (by_row keys (t_cols t))
      | ByColumn => option_map (fun c => mkTab c (t_summary t) (map (fun e => (fst e, 100%Q)) (t_footer t))) (by_col (t_footer t) keys (t_cols t))
      end
  end.
