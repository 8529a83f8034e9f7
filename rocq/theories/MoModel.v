(** Model of rt.merge (riptable/rt_merge.py:2874-3226, 268-379) and rt.merge_asof (3572-4420).

    A Dataset is the list of its (name, column) pairs, as in MergeColsModel.v; the naming of the columns is shared with merge2.
    Simplifications: the type check of the keys (103-265) is left out except for the number of key columns; key cells are compared as
    they are, invalid ones too; on columns of merge_asof are integers without overflow and without invalids; copy=True. *)
From Coq Require Import List Arith ZArith Bool String.
From Verif Require Import MergeSpec MergeModel MergeColsModel MoSpec.
Import ListNotations.
Local Open Scope list_scope.

Section Merge.
Context {V : Type}.
Variable veqb : V -> V -> bool.
Variable inv : V.
Notation teqb := (tuple_eqb veqb).

(** ** rt.merge *)
(** rt_numpy.py ismember, by contract: the first row of the table with that key *)
Definition first_row (k : list V) (t : list (list V)) : option nat := find (fun j => teqb k (nth j t [])) (seq 0 (List.length t)).
Definition ismember (ks t : list (list V)) : list (option nat) := map (fun k => first_row k t) ks.
(** unique32, by contract: the rows at which a key occurs first *)
Definition first_rows (t : list (list V)) : list nat :=
  filter (fun i => match first_row (nth i t []) t with Some j => j =? i | None => false end) (seq 0 (List.length t)).
(** rt_merge.py:268-379 [_construct_index]: the keys of the result rows *)
Definition construct_index (h : how) (lk rk : list (list V)) : list (list V) :=
  match h with
  | HLeft => lk
  | HRight => rk
  | HOuter => let s := lk ++ rk in map (fun i => nth i s []) (first_rows s)
  | HInner => filter (fun k => is_some (first_row k rk)) lk
  end.
(** rt_merge.py:3120-3135 *)
Definition p_left (h : how) (lk rk : list (list V)) : list (option nat) :=
  match h with HLeft => map Some (seq 0 (List.length lk)) | _ => ismember (construct_index h lk rk) lk end.
Definition p_right (h : how) (lk rk : list (list V)) : list (option nat) :=
  match h with HRight => map Some (seq 0 (List.length rk)) | _ => ismember (construct_index h lk rk) rk end.
(** rt_merge.py:3154-3170: columns that are keys on both sides *)
Definition shared_column (h : how) (pl pr : list (option nat)) (lc rc : list V) : list V :=
  match h with
  | HInner => mbget inv lc pl
  | HLeft => lc
  | HRight => rc
  | HOuter => map (fun p : option nat * option nat => match p with (None, Some j) => nth j rc inv | (o, _) => match o with Some i => nth i lc inv | None => inv end end) (combine pl pr)
  end.
(** rt_merge.py:3178-3203 *)
Definition left_column (h : how) (pl : list (option nat)) (c : list V) : list V := match h with HLeft => c | _ => mbget inv c pl end.
Definition right_column (h : how) (pr : list (option nat)) (c : list V) : list V := match h with HRight => c | _ => mbget inv c pr end.
(** rt_merge.py:3068: (False, False) or two empty suffixes *)
Definition falsy (s : option string) : bool := match s with None => true | Some s => String.eqb s ""%string end.
Definition plain_suffixes (s : option string * option string) : suffix_pair := if falsy (fst s) && falsy (snd s) then None else Some s.
(** rt_merge.py:3217-3218: 1 = left_only, 2 = right_only, 3 = both *)
Definition merge_indicator (pl pr : list (option nat)) : list nat :=
  map (fun p : option nat * option nat => (if is_some (fst p) then 1 else 0) + (if is_some (snd p) then 2 else 0)) (combine pl pr).
(** rt_merge.py:2874-3226; [None]: raises *)
Definition merge (left right : @dataset V) (left_on right_on : list string) (h : how) (suffixes : option string * option string)
    (cl cr : list string) (indicator : option string) : option (@dataset V * option (string * list nat)) :=
  if negb (List.length left_on =? List.length right_on) || (List.length left_on =? 0) then None
  else if negb (forallb (fun c => smem c (names left)) (left_on ++ cl) && forallb (fun c => smem c (names right)) (right_on ++ cr)) then None
  else match construct_colname_mapping left_on right_on (plain_suffixes suffixes) cl cr with
  | None => None
  | Some cm =>
      let lk := tuples inv left left_on (nrows left) in
      let rk := tuples inv right right_on (nrows right) in
      let pl := p_left h lk rk in let pr := p_right h lk rk in
      let out := map (fun f => (f, shared_column h pl pr (getcol left f) (getcol right f))) (cm_keys cm)
                 ++ map (fun p => (snd p, left_column h pl (getcol left (fst p)))) (cm_left cm)
                 ++ map (fun p => (snd p, right_column h pr (getcol right (fst p)))) (cm_right cm) in
      match indicator with
      | None => Some (out, None)
      | Some ind => if smem ind (names out) then None else Some (out, Some (ind, merge_indicator pl pr))
      end
  end.
End Merge.

(** ** rt.merge_asof *)
Section Asof.
Context {V : Type}.
Variable inv : V.
Variable num : V -> Z.
(** issorted, argsort(kind="stable") and alignmk (rc.MultiKeyAlign32), by contract, see MoSpec.v.
    [align forward exact left_by right_by left_on right_on] *)
Variable argsort : list Z -> list nat.
Variable align : bool -> bool -> list (list V) -> list (list V) -> list Z -> list Z -> list (option nat).
Fixpoint issorted (l : list Z) : bool := match l with x :: (y :: _) as r => (x <=? y)%Z && issorted r | _ => true end.
(** rt_merge.py:4373-4377 *)
Definition permuted {X} (d : X) (p : option (list nat)) (l : list X) : list X :=
  match p with None => l | Some p => map (fun i => nth i l d) p end.
(** pright[left_argsort_indices] = pright.copy() *)
Definition store_at {X} (l : list X) (i : nat) (x : X) : list X := firstn i l ++ x :: skipn (S i) l.
Definition scatter {X} (p : list nat) (v : list X) (l : list X) : list X :=
  fold_left (fun l q => store_at l (fst q) (snd q)) (combine p v) l.
(** rt_merge.py:4332-4420 *)
Definition asof_indices (fwd exact : bool) (lby rby : list (list V)) (lon ron : list Z) (lp rp : option (list nat)) : list (option nat) :=
  let r := align fwd exact (permuted [] lp lby) (permuted [] rp rby) (permuted 0%Z lp lon) (permuted 0%Z rp ron) in
  let r := match lp with None => r | Some p => scatter p r r end in
  match rp with None => r | Some p => map (fun o => match o with Some j => nth_error p j | None => None end) r end.
(** rt_merge.py:4121-4210: the closer one, backward on ties *)
Definition asof_nearest (lon ron : list Z) (b f : list (option nat)) : list (option nat) :=
  map (fun q : Z * (option nat * option nat) =>
         let '(x, (b, f)) := q in
         let db := match b with Some j => match nth_error ron j with Some y => Some (Z.abs (x - y)) | None => None end | None => None end in
         let df := match f with Some j => match nth_error ron j with Some y => Some (Z.abs (x - y)) | None => None end | None => None end in
         match db, df with
         | _, None => b
         | None, Some _ => f
         | Some u, Some v => if (v <? u)%Z then f else b
         end) (combine lon (combine b f)).
(** rt_merge.py:4039-4329 and 3572-4034; tolerance is not used; [None]: raises *)
Definition merge_asof (left right : @dataset V) (left_on right_on : string) (left_by right_by : list string) (suffixes : suffix_pair)
    (cl cr : list string) (exact : bool) (d : direction) (sort_unsorted : bool) (matched_on : option string) : option (@dataset V) :=
  if negb (List.length left_by =? List.length right_by) then None
  else if negb (forallb (fun c => smem c (names left)) ((left_on :: left_by) ++ cl) && forallb (fun c => smem c (names right)) ((right_on :: right_by) ++ cr)) then None
  else match construct_colname_mapping (left_on :: left_by) (right_on :: right_by) suffixes cl cr with
  | None => None
  | Some cm =>
      let lon := map num (getcol left left_on) in
      let ron := map num (getcol right right_on) in
      if negb (sort_unsorted || (issorted lon && issorted ron)) then None
      else
        let lp := if issorted lon then None else Some (argsort lon) in
        let rp := if issorted ron then None else Some (argsort ron) in
        let lby := tuples inv left left_by (nrows left) in
        let rby := tuples inv right right_by (nrows right) in
        let go fwd := asof_indices fwd exact lby rby lon ron lp rp in
        let pr := match d with Backward => go false | Forward => go true | Nearest => asof_nearest lon ron (go false) (go true) end in
        let out := map (fun f => (f, getcol left f)) (cm_keys cm)
                   ++ map (fun p => (snd p, getcol left (fst p))) (cm_left cm)
                   ++ map (fun p => (snd p, mbget inv (getcol right (fst p)) pr)) (cm_right cm) in
        match matched_on with
        | None => Some out
        | Some m => if smem m (names out) then None else Some (out ++ [(m, mbget inv (getcol right right_on) pr)])
        end
  end.
End Asof.
