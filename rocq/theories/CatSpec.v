(** Specification of categoricals: what a row's value is, and how values compare. *)
From Coq Require Import List Arith ZArith Bool.
From Verif Require Import CatModel.
Import ListNotations.

(** category values are totally ordered; truncation leaves short values alone *)
Record total {A} (o : ord A) : Prop := mkTotal {
  t_eq : forall a b, o_eqb o a b = true <-> a = b;
  t_irr : forall a, o_ltb o a a = false;
  t_trans : forall a b c, o_ltb o a b = true -> o_ltb o b c = true -> o_ltb o a c = true;
  t_tri : forall a b, a = b \/ o_ltb o a b = true \/ o_ltb o b a = true;
  t_fit : forall n a, o_len o a <= n -> o_trunc o n a = a }.

(** strictly increasing list *)
Definition increasing {A} (o : ord A) (l : list A) : Prop :=
  forall i j a b, i < j -> nth_error l i = Some a -> nth_error l j = Some b -> o_ltb o a b = true.

(** the value a code stands for: code [base + j] is category number [j]; [None]: filtered *)
Definition cval {A} (base : Z) (l : list A) (k : Z) : option A :=
  if (k <? base)%Z then None else nth_error l (Z.to_nat (k - base)).
(** codes that stand for a category or are the filtered code [base - 1] *)
Definition in_range {A} (base : Z) (l : list A) (k : Z) : Prop :=
  (base - 1 <= k < base + Z.of_nat (length l))%Z.

(** comparing two values *)
Definition cmp_vals {A} (o : ord A) (op : cop) (a b : A) : bool :=
  match op with
  | Ceq => o_eqb o a b
  | Cne => negb (o_eqb o a b)
  | Clt => o_ltb o a b
  | Cle => o_ltb o a b || o_eqb o a b
  | Cgt => o_ltb o b a
  | Cge => o_ltb o b a || o_eqb o a b
  end.

(** what an edit of the categories does to the value of a row *)
Definition after_edit {A} (o : ord A) (e : @edit A) (v : option A) : option A :=
  match v with
  | None => None
  | Some a =>
      match e with
      | Eadd _ => Some a
      | Eremove x => if o_eqb o a x then None else Some a
      | Ereplace x y => if o_eqb o a x then Some y else Some a
      end
  end.

(** what "c == w" gives after an edit of the categories, from what it gave before ([m]) *)
Definition mask_after {A} (o : ord A) (e : @edit A) (m : A -> list bool) (w : A) : list bool :=
  match e with
  | Eadd _ => m w
  | Eremove x => if o_eqb o w x then map (fun _ => false) (m w) else m w
  | Ereplace x y =>
      if o_eqb o w y then map (fun p => fst p || snd p) (combine (m x) (m y))
      else if o_eqb o w x then map (fun _ => false) (m w) else m w
  end.
(** rows chosen by the mask take the new entry *)
Definition overwrite {X} (mask : list bool) (new : X) (rows : list X) : list X :=
  map (fun p => if fst p : bool then new else snd p) (combine mask rows).

(** natural numbers as category values (for the examples); the length of a value is itself, so that
    an array of width [n] cuts values to at most [n] *)
Definition nat_ord : ord nat := mkOrd nat Nat.eqb Nat.ltb (fun _ => 0) (fun _ a => a).
Definition cut_ord : ord nat := mkOrd nat Nat.eqb Nat.ltb (fun a => a) Nat.min.
