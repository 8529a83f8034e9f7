(** Properties C01-C09, C69: string columns.  Statements only; proofs are in StrProofs*.v. *)
From Coq Require Import List Arith ZArith Bool Lia.
From Verif Require Import Sched SchedFacts StrModel StrSpec StrProofs StrProofs2 StrProofs3.
Import ListNotations.
Open Scope Z_scope.

(** A concrete column used to show that the hypotheses below are met:
    'abca', '' and 'Ab' stored with width 5. *)
Definition ex_col : list text := [[97; 98; 99; 97]; []; [65; 98]].
Example ex_col_ok : column 5 ex_col.
Proof. exact ex_col_ok_proof. Qed.

(** ** C01 upper / lower.  [src] is any flat character array of rows of width [w]; [m0] the
    uninitialised destination; the outcome may come from any schedule. *)
Theorem C01_upper : forall junk src w m0 m,
  (0 < w)%nat -> (length src mod w = 0)%nat ->
  outcome (launch (k_upper junk src w) src w) m0 m ->
  segment m 0 (length src) = map upper_char src.
Proof. exact upper_correct. Qed.
Print Assumptions C01_upper.

Theorem C01_lower : forall junk src w m0 m,
  (0 < w)%nat -> (length src mod w = 0)%nat ->
  outcome (launch (k_lower junk src w) src w) m0 m ->
  segment m 0 (length src) = map lower_char src.
Proof. exact lower_correct. Qed.
Print Assumptions C01_lower.

(** what [upper_char] / [lower_char] do to one character *)
Theorem C01_case_chars : forall c,
  (is_lower c -> is_upper (upper_char c) /\ lower_char (upper_char c) = c) /\
  (~ is_lower c -> upper_char c = c) /\
  (is_upper c -> is_lower (lower_char c) /\ upper_char (lower_char c) = c) /\
  (~ is_upper c -> lower_char c = c) /\
  upper_char (upper_char c) = upper_char c /\ lower_char (lower_char c) = lower_char c /\
  upper_char (lower_char c) = upper_char c /\ (c = 0 <-> upper_char c = 0) /\ (c = 0 <-> lower_char c = 0).
Proof. exact case_chars. Qed.
Print Assumptions C01_case_chars.

Theorem C01_upper_inplace : forall w n m p,
  (p < n * w)%nat -> upper_inplace w n m p = upper_char (m p).
Proof. exact upper_inplace_correct. Qed.
Print Assumptions C01_upper_inplace.

Example C01_ex : exists m, outcome (launch (k_upper 0 (enc 5 ex_col) 5) (enc 5 ex_col) 5) (fun _ => 7) m /\
  rows m 5 3 = [[65; 66; 67; 65; 0]; [0; 0; 0; 0; 0]; [65; 66; 0; 0; 0]].
Proof. exact upper_ex. Qed.

(** ** C02 reverse *)
Theorem C02_reverse : forall junk w ts m0 m,
  column w ts ->
  outcome (launch (k_reverse junk (enc w ts) w) (enc w ts) w) m0 m ->
  rows m w (length ts) = map (fun t => pad w (rev t)) ts.
Proof. exact reverse_correct. Qed.
Print Assumptions C02_reverse.

Theorem C02_reverse_twice : forall junk junk' w ts m0 m m0' m',
  column w ts ->
  outcome (launch (k_reverse junk (enc w ts) w) (enc w ts) w) m0 m ->
  let src' := segment m 0 (length (enc w ts)) in
  outcome (launch (k_reverse junk' src' w) src' w) m0' m' ->
  segment m' 0 (length (enc w ts)) = enc w ts.
Proof. exact reverse_twice. Qed.
Print Assumptions C02_reverse_twice.

Theorem C02_reverse_inplace : forall w ts m,
  column w ts -> rows m w (length ts) = map (pad w) ts ->
  rows (reverse_inplace w (length ts) m) w (length ts) = map (fun t => pad w (rev t)) ts.
Proof. exact reverse_inplace_correct. Qed.
Print Assumptions C02_reverse_inplace.

Example C02_ex : exists m, outcome (launch (k_reverse 0 (enc 5 ex_col) 5) (enc 5 ex_col) 5) (fun _ => 7) m /\
  rows m 5 3 = [[97; 99; 98; 97; 0]; [0; 0; 0; 0; 0]; [98; 65; 0; 0; 0]].
Proof. exact reverse_ex. Qed.

(** ** C03 strlen *)
Theorem C03_strlen : forall junk w ts m0 m,
  column w ts ->
  outcome (launch (k_strlen junk (enc w ts) w) (enc w ts) w) m0 m ->
  cells m (length ts) = map (fun t => Z.of_nat (length t)) ts.
Proof. exact strlen_correct. Qed.
Print Assumptions C03_strlen.

(** ** C04 index, contains, index_any_of *)
Theorem C04_index : forall w ts p m0 m,
  column w ts -> no_nul p -> p <> [] ->
  outcome (launch (k_index p (enc w ts) w) (enc w ts) w) m0 m ->
  Forall2 (is_first_occurrence p) ts (cells m (length ts)).
Proof. exact index_correct. Qed.
Print Assumptions C04_index.

Theorem C04_contains : forall w ts p m0 m,
  column w ts -> no_nul p -> p <> [] ->
  outcome (launch (k_contains p (enc w ts) w) (enc w ts) w) m0 m ->
  Forall2 (fun t r => r = true <-> exists a b, t = a ++ p ++ b) ts (cells m (length ts)).
Proof. exact contains_correct. Qed.
Print Assumptions C04_contains.

Theorem C04_index_any_of : forall junk w ts set m0 m,
  column w ts -> no_nul set ->
  outcome (launch (k_index_any_of junk set (enc w ts) w) (enc w ts) w) m0 m ->
  Forall2 (is_first_member set) ts (cells m (length ts)).
Proof. exact any_of_correct. Qed.
Print Assumptions C04_index_any_of.

Example C04_ex : exists m, outcome (launch (k_index [98] (enc 5 ex_col) 5) (enc 5 ex_col) 5) (fun _ => 7) m /\
  cells m 3 = [1; -1; 1].
Proof. exact index_ex. Qed.

(** ** C05 startswith, endswith *)
Theorem C05_startswith : forall junk w ts p m0 m,
  column w ts -> no_nul p ->
  outcome (launch (k_startswith junk p (enc w ts) w) (enc w ts) w) m0 m ->
  Forall2 (fun t r => r = true <-> exists b, t = p ++ b) ts (cells m (length ts)).
Proof. exact startswith_correct. Qed.
Print Assumptions C05_startswith.

Theorem C05_endswith : forall junk w ts p m0 m,
  column w ts ->
  outcome (launch (k_endswith junk p (enc w ts) w) (enc w ts) w) m0 m ->
  Forall2 (fun t r => r = true <-> exists a, t = a ++ p) ts (cells m (length ts)).
Proof. exact endswith_correct. Qed.
Print Assumptions C05_endswith.

Example C05_ex : exists m, outcome (launch (k_endswith 0 [98] (enc 5 ex_col) 5) (enc 5 ex_col) 5) (fun _ => true) m /\
  cells m 3 = [false; false; true].
Proof. exact endswith_ex. Qed.

(** ** C06 removetrailing *)
Theorem C06_removetrailing : forall junk rc w ts m0 m,
  column w ts -> rc <> 0 ->
  outcome (launch (k_removetrailing junk rc (enc w ts) w) (enc w ts) w) m0 m ->
  exists us, Forall2 (strips_trailing rc) ts us /\ Forall (fits w) us /\
             rows m w (length ts) = map (pad w) us.
Proof. exact removetrailing_correct. Qed.
Print Assumptions C06_removetrailing.

Example C06_ex : exists m, outcome (launch (k_removetrailing 0 97 (enc 5 ex_col) 5) (enc 5 ex_col) 5) (fun _ => 7) m /\
  rows m 5 3 = [[97; 98; 99; 0; 0]; [0; 0; 0; 0; 0]; [65; 98; 0; 0; 0]].
Proof. exact removetrailing_ex. Qed.

(** ** C07 replace.  When some row contains [old] the kernel runs with a zeroed destination
    of the computed width ... *)
Theorem C07_replace : forall junk w ts old,
  column w ts -> no_nul old -> old <> [] ->
  forall new, no_nul new ->
  forall m, outcome (replace_its junk old (np_str new) (enc w ts) w) (fun _ => 0) m ->
  let dw := replace_width old (np_str new) (locations old (enc w ts) w) w (length ts) in
  exists us, Forall2 (replaced old new) ts us /\ Forall (fits dw) us /\
             rows m dw (length ts) = map (pad dw) us.
Proof. exact replace_correct. Qed.
Print Assumptions C07_replace.

(** ... and otherwise the input is returned unchanged, which is also what [replaced] says. *)
Theorem C07_replace_nothing : forall w ts old,
  column w ts -> no_nul old -> old <> [] ->
  forall new, no_nul new ->
  any_loc old (enc w ts) w = false -> Forall2 (replaced old new) ts ts.
Proof. exact (replace_none 0). Qed.
Print Assumptions C07_replace_nothing.

(** the specification determines the replaced text *)
Theorem C07_replaced_deterministic : forall old new t u u',
  old <> [] -> replaced old new t u -> replaced old new t u' -> u = u'.
Proof. exact replaced_det. Qed.
Print Assumptions C07_replaced_deterministic.

Example C07_ex : exists m, outcome (replace_its 0 [97] (np_str [120; 121]) (enc 5 ex_col) 5) (fun _ => 0) m /\
  rows m 7 3 = [[120; 121; 98; 99; 120; 121; 0]; [0; 0; 0; 0; 0; 0; 0]; [65; 98; 0; 0; 0; 0; 0]].
Proof. exact replace_ex. Qed.

(** ** C08 substr; [start], [stop] give the per-row bounds (constant functions for scalars) *)
Theorem C08_substr : forall junk w ts start stop,
  column w ts ->
  let strlen i := Z.of_nat (length (nth i ts [])) in
  let slices := map (fun i => py_slice (start i) (stop i) (nth i ts [])) (seq 0 (length ts)) in
  forall m,
  outcome (launch (k_substr junk start stop strlen (enc w ts) w) (enc w ts) w) (fun _ => 0) m ->
  let mc := substr_max start stop strlen (length ts) in
  substr_view mc (rows m w (length ts)) = map (pad (Nat.max 1 mc)) slices /\
  Forall (fits (Nat.max 1 mc)) slices.
Proof. exact substr_correct. Qed.
Print Assumptions C08_substr.

Theorem C08_char : forall junk w ts,
  column w ts ->
  let strlen i := Z.of_nat (length (nth i ts [])) in
  forall position m0 m,
  char_raises position strlen w (length ts) = false ->
  outcome (launch (k_char junk position strlen (enc w ts) w) (enc w ts) w) m0 m ->
  forall i, (i < length ts)%nat ->
    m i = nth (Z.to_nat (char_pos (position i) (strlen i))) (pad w (nth i ts [])) 0 /\
    0 <= char_pos (position i) (strlen i) < Z.of_nat w.
Proof. exact char_correct'. Qed.
Print Assumptions C08_char.

Example C08_ex : exists m,
  outcome (launch (k_substr 0 (fun _ => -2) (fun _ => 9) (fun i => Z.of_nat (length (nth i ex_col []))) (enc 5 ex_col) 5)
                  (enc 5 ex_col) 5) (fun _ => 0) m /\
  substr_view 2 (rows m 5 3) = [[99; 97]; [0; 0]; [65; 98]].
Proof. exact substr_ex. Qed.

(** ** C09 (string part): the visible result never depends on the schedule nor on what the
    destination contained before, for all the kernels that write a fresh array. *)
Theorem C09_string_rows : forall junk rc w ts m0 m m0' m',
  column w ts -> rc <> 0 ->
  (outcome (launch (k_upper junk (enc w ts) w) (enc w ts) w) m0 m ->
   outcome (launch (k_upper junk (enc w ts) w) (enc w ts) w) m0' m' -> rows m w (length ts) = rows m' w (length ts)) /\
  (outcome (launch (k_lower junk (enc w ts) w) (enc w ts) w) m0 m ->
   outcome (launch (k_lower junk (enc w ts) w) (enc w ts) w) m0' m' -> rows m w (length ts) = rows m' w (length ts)) /\
  (outcome (launch (k_reverse junk (enc w ts) w) (enc w ts) w) m0 m ->
   outcome (launch (k_reverse junk (enc w ts) w) (enc w ts) w) m0' m' -> rows m w (length ts) = rows m' w (length ts)) /\
  (outcome (launch (k_removetrailing junk rc (enc w ts) w) (enc w ts) w) m0 m ->
   outcome (launch (k_removetrailing junk rc (enc w ts) w) (enc w ts) w) m0' m' -> rows m w (length ts) = rows m' w (length ts)).
Proof. exact string_rows_schedule. Qed.
Print Assumptions C09_string_rows.

(** The general principle, used for every parallel kernel: iterations that store to their
    own row only give the same array under every interleaving. *)
Theorem C09_disjoint_rows : forall (V : Type) (w n : nat) (it : nat -> list (store V)) m0 ws ws',
  (forall i, (i < n)%nat -> forall s, In s (it i) -> (i * w <= fst s < i * w + w)%nat) ->
  interleave (map it (seq 0 n)) ws -> interleave (map it (seq 0 n)) ws' ->
  segment (run_stores ws m0) 0 (n * w) = segment (run_stores ws' m0) 0 (n * w).
Proof. exact @disjoint_rows. Qed.
Print Assumptions C09_disjoint_rows.

(** ** C69 substr_char_stop: up to the first occurrence of [stop]; [inclusive] keeps [stop].
    The bound computed by the code from [index]'s answer [idx] for a text [t]. *)
Theorem C69_char_stop_partial : forall w t stop inclusive idx,
  fits w t -> stop <> [] -> is_first_occurrence stop t idx ->
  inclusive = false \/ length stop = 1%nat ->
  stops_at inclusive stop t (py_slice 0 (char_stop inclusive w idx) t).
Proof. exact char_stop_partial. Qed.
Print Assumptions C69_char_stop_partial.

(** Missing: [inclusive] with a longer stop string keeps only its first character. *)
Theorem C69_char_stop_refuted : exists w t stop idx,
  fits w t /\ stop <> [] /\ no_nul stop /\ is_first_occurrence stop t idx /\
  ~ stops_at true stop t (py_slice 0 (char_stop true w idx) t).
Proof. exact char_stop_refuted. Qed.
Print Assumptions C69_char_stop_refuted.
