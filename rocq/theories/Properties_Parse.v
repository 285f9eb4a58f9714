(** C38: int() and float() of symbolic strings *)
From Coq Require Import ZArith List Bool Lia.
From Verif Require Import Py Parse_Spec Parse_Model Parse_Proofs.
Import ListNotations.
Open Scope Z_scope.

(** Full statement: m_int s base = CPython's int(s, base), for every string and base.  Proved
    when the base is absent, 10, or not between 2 and 10, or all characters are ASCII digits
    below the base; and, for those digits, as long as CPython's limit on the number of digits
    is not exceeded (there is none for powers of two). *)
Theorem C38_int_partial : forall uspace udecimal max_digits s base,
  let py := py_int uspace udecimal max_digits in
  let b := match base with None => 10 | Some b => b end in
  (b = 10 \/ b < 2 \/ 10 < b \/ forall c, In c s -> 48 <= c < 48 + b) ->
  ((forall c, In c s -> 48 <= c < 48 + b) -> limited b = true -> match max_digits with Some m => Z.of_nat (length s) <= m | None => True end) ->
  m_int py s base = py s b.
Proof.
  intros uspace udecimal md s base py b H L. unfold py, b in *. fold (the_base base) in *.
  assert (EQ : forallb (in_base (the_base base)) s = true <-> forall c, In c s -> 48 <= c < 48 + the_base base).
  { rewrite forallb_forall. split; intros X c I; specialize (X c I); unfold in_base in *; [apply andb_true_iff in X; lia|apply andb_true_iff; lia]. }
  apply m_int_ok; [|rewrite EQ; exact L]. rewrite EQ. exact H.
Qed.
(** The base is dropped when some character is not an ASCII digit below it: "9" in base 8,
    "1_1" and "0b1" in base 2 (no limit on digits, no other Unicode digits needed). *)
Theorem C38_base_refuted : let py := py_int (fun _ => false) (fun _ => None) None in
  (exists s b v, m_int py s (Some b) = Ok v /\ py s b = Err ValueError) /\
  (exists s b v w, m_int py s (Some b) = Ok v /\ py s b = Ok w /\ v <> w) /\
  (exists s b w, m_int py s (Some b) = Err ValueError /\ py s b = Ok w).
Proof.
  split; [|split].
  - exists [57], 8, 9. split; reflexivity.
  - exists [49; 95; 49], 2, 11, 3. repeat split; try reflexivity. discriminate.
  - exists [48; 98; 49], 2, 1. split; reflexivity.
Qed.
(** CPython 3.11 refuses more than 4300 digits in base 10. *)
Theorem C38_limit_refuted : let py := py_int (fun _ => false) (fun _ => None) (Some 4300) in
  exists s v, m_int py s None = Ok v /\ py s 10 = Err ValueError.
Proof. exists (repeat 48 (Z.to_nat 4301)), 0. split; vm_compute; reflexivity. Qed.
(** float() of a plain decimal is exactly the number written (CPython rounds it to the nearest
    double: that is not modelled on either side), and all other strings are left to CPython. *)
Theorem C38_float_partial : forall uspace udecimal max_digits s,
  let py := py_int uspace udecimal max_digits in
  (forall num den, decimal s num den -> m_float py s = Some (Ok (num, den))) /\
  (~ (exists num den, decimal s num den) -> m_float py s = None).
Proof.
  intros us ud md s py. split; [intros; now apply float_ok|]. intro N. destruct (m_float py s) as [r|] eqn:E; [|reflexivity].
  exfalso. apply N. exact (float_only us ud md s r E).
Qed.

Example C38_int_case : let py := py_int (fun _ => false) (fun c => if c =? 1633 then Some 1 else None) (Some 4300) in
  m_int py [49; 48; 49] (Some 2) = Ok 5 /\ m_int py [45; 1633; 95; 50; 32] None = Ok (-12) /\ m_int py [122] (Some 36) = Ok 35 /\
  m_int py [48; 120; 102] (Some 0) = Ok 15 /\ m_int py [] None = Err ValueError.
Proof. vm_compute. auto 10. Qed.
Example C38_float_case : decimal [45; 49; 50; 46; 53] (-125) 10 /\ m_float (py_int (fun _ => false) (fun _ => None) None) [45; 49; 50; 46; 53] = Some (Ok (-125, 10)).
Proof. split; [|reflexivity]. apply (decimal_point [45] [49; 50] [53]); auto; discriminate. Qed.

Print Assumptions C38_int_partial.
Print Assumptions C38_base_refuted.
Print Assumptions C38_limit_refuted.
Print Assumptions C38_float_partial.
(** The reference against answers of CPython 3.11. *)
Example C38_reference_case : let py := py_int (fun _ => false) (fun _ => None) (Some 4300) in let E := @Err Z ValueError in
  [py [49; 95; 48] 10; py [95; 49] 10; py [49; 95] 10; py [49; 95; 95; 48] 10; py [48; 98; 95; 49] 2; py [48; 98; 95; 95; 49] 2; py [48; 98] 2;
   py [48; 111; 49; 55] 8; py [45; 48; 66; 49] 2; py [32; 49; 50; 9] 10; py [49; 32; 50] 10; py [43; 32; 49] 10; py [28; 49] 10; py [48; 48] 0; py [48; 49] 0;
   py [49; 48] 1; py [49; 48] 37; py [48; 98; 49] 3; py [48; 98; 49] 16] =
  [Ok 10; E; E; E; Ok 1; E; E; Ok 15; Ok (-1); Ok 12; E; E; E; Ok 0; E; E; E; E; Ok 177].
Proof. vm_compute. reflexivity. Qed.
