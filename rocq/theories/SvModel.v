(* Model of what an SDS file keeps of one Dataset besides its columns, and of a
   Categorical: rt_struct.py Struct._build_sds_meta_data (1159-1316) and
   _load_from_sds_meta_data (1589-1737), rt_categorical.py
   _build_sds_meta_data (3640-3704), _load_from_sds_meta_data (3707-3763) and
   Categorical.__new__ (1772-1815), rt_sort_cache.py.  The file gives back the
   arrays, names and metadata written; columns are plain integer arrays. *)
From Coq Require Import List ZArith Bool.
From Verif Require Import FlattenModel DsModel SvSpec.
Import ListNotations.
Local Open Scope Z_scope.

Section Sv.
  (* rt_numpy.lexsort: most important key last (the model gives keys in order) *)
  Variable lexsort : list (list Z) -> bool -> list Z.

  Record file := mkFile { f_names : list name; f_arrays : list (option (list Z)); f_labels : list name;
                          f_keys : option (list name); f_foots : list name }.
  Definition column (cols : list (name * list Z)) (k : name) : list Z :=
    match dget k cols with Some c => c | None => [] end.

  (* 1176-1316: the columns with their names, then the sort index (1299-1303),
     then the values of _footers, which are None (1306-1309; rt_dataset.py
     5678), both without a name. *)
  Definition save (d : ds) : file :=
    mkFile (map fst (d_cols d))
           (map (fun p => Some (snd p)) (d_cols d)
            ++ (match d_keys d with [] => [] | ks => [Some (lexsort (map (column (d_cols d)) ks) (d_asc d))] end)
            ++ map (fun _ => None) (d_foots d))
           (d_labels d)
           (match d_keys d with [] => None | ks => Some ks end)
           (map fst (d_foots d)).

  (* The Dataset loaded: [l_cache]: the entry of the SortCache, [l_footers]: the
     dictionary _footers, whose values are arrays now. *)
  Record loaded := mkL { l_cols : list (name * list Z); l_labels : list name; l_keys : option (list name); l_asc : bool;
                         l_disp : bool; l_cache : option (list (list Z) * list Z * nat * bool);
                         l_footers : option (list (name * option (list Z))) }.

  (* 1658-1684 *)
  Definition load_cols (f : file) : list (name * list Z) :=
    fold_left (fun data p => match snd p with None => data | Some a => dset (fst p) a data end)
              (combine (f_names f) (f_arrays f)) [].
  Fixpoint all_some {X} (l : list (option X)) : option (list X) :=
    match l with
    | [] => Some []
    | Some x :: r => option_map (cons x) (all_some r)
    | None :: _ => None
    end.
  (* 1633-1638: arrays[i], arrays[i+1], ... ; None = IndexError *)
  Fixpoint read_footers (fs : list name) (arrays : list (option (list Z))) : option (list (name * option (list Z))) :=
    match fs, arrays with
    | [], _ => Some []
    | f :: r, a :: t => option_map (cons (f, a)) (read_footers r t)
    | _ :: _, [] => None
    end.
  (* 1618-1638 load_class_meta; every exception is swallowed (1729-1732) and
     leaves what was done before. *)
  Definition footers_from (f : file) (i : nat) : option (list (name * option (list Z))) :=
    match f_foots f with
    | [] => None
    | fs => read_footers fs (skipn i (f_arrays f))
    end.
  Definition load (f : file) : loaded :=
    let cols := load_cols f in
    let labels := filter (fun n => mem n (map fst cols)) (f_labels f) in
    match f_keys f with
    | None => mkL cols labels None true false None (footers_from f 0)
    | Some ks =>
        match all_some (map (fun k => dget k cols) ks), f_arrays f with
        | Some sl, Some idx :: _ =>
            mkL cols labels (Some ks) true false (Some (sl, idx, length idx, true)) (footers_from f 1)
        | _, _ => mkL cols labels (Some ks) true false None None
        end
    end.

  (* rt_dataset.py 3985-4000 get_row_sort_info and rt_sort_cache.py 44-88
     get_sorted_row_index, with checksums that tell all columns apart. *)
  Definition nrows (cols : list (name * list Z)) : nat := match cols with (_, c) :: _ => length c | [] => 0%nat end.
  Definition same_keys (a b : list (list Z)) : bool := if list_eq_dec (list_eq_dec Z.eq_dec) a b then true else false.
  Definition sorted_rows (l : loaded) : option (list Z) :=
    match l_keys l with
    | None | Some [] => None
    | Some ks =>
        match all_some (map (fun k => dget k (l_cols l)) ks) with
        | None => None
        | Some sl =>
            match l_cache l with
            | Some (sl', idx, n, asc) =>
                if same_keys sl' sl && Nat.eqb n (nrows (l_cols l)) && Bool.eqb asc (l_asc l) then Some idx
                else Some (lexsort sl (l_asc l))
            | None => Some (lexsort sl (l_asc l))
            end
        end
    end.

  (* rt_dataset.py 5502-5556 footer_get_values(): no column has footers, they
     are not in the file *)
  Definition footer_values (fill : Z) (l : loaded) : list (name * list Z) :=
    match l_footers l with
    | None => []
    | Some fs => map (fun p => (fst p, map (fun _ => fill) (l_cols l))) fs
    end.
  (* rt_dataset.py 726-730 in copy(): [item.copy() if (deep and item)]; the truth
     of an array with several elements raises ValueError.  true = raises *)
  Definition copy_raises (l : loaded) : bool :=
    match l_footers l with
    | None => false
    | Some fs => existsb (fun p => match snd p with Some a => Nat.leb 2 (length a) | None => false end) fs
    end.
End Sv.

Section CatSv.
  Context {M V : Type}.
  (* rt_categorical.py 3558-3583 _meta_dict, 3667-3704: settings, names of the
     columns, the metadata of the columns that have some (name + "_meta") *)
  Variable has_meta : M -> bool.   (* the class has _build_sds_meta_data *)
  Variable plain : M.              (* the class of an array without metadata *)
  Inductive scol := SKeys (l : list V) | SInts (l : list Z) | SNames (l : list name).
  Record cfile := mkCF { g_codes : list Z; g_mapping : bool; g_base : Z; g_ordered : bool; g_sort : bool;
                         g_invalid : option name; g_filtered : option name;
                         g_colnames : list name; g_metas : list (name * M); g_cols : list scol }.
  (* Categories.default_colname "key_0" *)
  Definition key_0 : name := [107; 101; 121; 95; 48]%nat.
  Definition save_cat (c : cat M V) : cfile :=
    match c_cats c with
    | Keys cols =>
        let cols := match cols with [(_, p)] => [(key_0, p)] | _ => cols end in
        mkCF (c_codes c) false (c_base c) (c_ordered c) (c_sort c) (c_invalid c) (c_filtered c)
             (map fst cols)
             (fold_left (fun m p => if has_meta (fst (snd p)) then dset (fst p) (fst (snd p)) m else m) cols [])
             (map (fun p => SKeys (snd (snd p))) cols)
    | Mapping _ names =>
        mkCF (c_codes c) true (c_base c) (c_ordered c) (c_sort c) (c_invalid c) (c_filtered c)
             [[99; 111; 100; 101; 115]%nat; [118; 97; 108; 117; 101; 115]%nat] []
             [SInts (map fst names); SNames (map snd names)]
    end.
  Fixpoint zset {X} (k : Z) (v : X) (d : list (Z * X)) : list (Z * X) :=
    match d with
    | [] => [(k, v)]
    | (k', v') :: r => if k' =? k then (k', v) :: r else (k', v') :: zset k v r
    end.
  Definition reverse (d : list (name * Z)) : list (Z * name) := fold_left (fun r p => zset (snd p) (fst p) r) d [].
  (* 1772-1815; rt_grouping.py 3838-3851 GroupingEnum(_trusted=True) *)
  Definition load_cat (g : cfile) : option (cat M V) :=
    let make cs := Some (mkCat (g_codes g) cs (g_base g) (g_ordered g) (g_sort g) (g_invalid g) (g_filtered g)) in
    if g_mapping g then
      match g_cols g with
      | SInts ints :: SNames strs :: _ =>
          let s2i := dset_all (combine strs ints) [] in
          make (Mapping s2i (reverse s2i))
      | _ => None
      end
    else
      match all_some (map (fun x => match x with SKeys l => Some l | _ => None end) (g_cols g)) with
      | Some arrs =>
          make (Keys (dset_all (map (fun p => (fst p, (match dget (fst p) (g_metas g) with Some m => m | None => plain end, snd p)))
                                    (combine (g_colnames g) arrs)) []))
      | None => None
      end.
  (* rt_grouping.py 3873-3933 _build_dicts_python: the mapping of
     Categorical(codes, dict), given as pairs of name and code *)
  Definition make_mapping (l : list (name * Z)) : cats M V :=
    Mapping (dset_all l []) (fold_left (fun r p => zset (snd p) (fst p) r) l []).
End CatSv.
