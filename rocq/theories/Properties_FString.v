(* C114: f-strings. *)
From Coq Require Import ZArith List Bool Lia.
From Verif Require Import Py FString_Model FString_Spec FString_Proofs.
Import ListNotations.

(** C114.  The full claim: while code is traced, an f-string of any values, conversions and
    formats has the text it has in Python, or fails as in Python.  Proved for fields without
    conversion whose format, if any, is a real string, and fields with !s or !r and no format.
    Strings' formatting is assumed to depend on their characters only, and to leave the string
    if the format is empty. *)
Theorem fstring_text_partial : forall V str_of repr_of format_of quote escape format_str,
  (forall t spec, letters (format_str t spec) = letters (format_str (Text false (chars t)) (Text false (chars spec)))) ->
  (forall s, letters (format_str (Text false s) (Text false [])) = Done s) ->
  forall l stack, Forall (easy_piece V) l -> length l < 256 ->
  leaves V stack (py_fstring V str_of repr_of format_of quote escape format_str l)
    (traced_fstring V str_of repr_of format_of quote escape format_str l stack).
Proof. intros. now apply traced_ok. Qed.

(** A world of numbers written in unary, and of strings that a format pads on the left. *)
Open Scope Z_scope.
Definition tally (n : nat) : outcome text := Done (Text (Nat.ltb 2 n) (repeat 73 n)).
Definition pad (t spec : text) : outcome text :=
  Done (Text (symbolic t || symbolic spec) (repeat 32 (length (chars spec) - length (chars t)) ++ chars t)).
Definition pad_number (n : nat) (spec : text) : outcome text :=
  if Nat.eqb n 0 then Fails (Raise ValueError) else pad (Text (Nat.ltb 2 n) (repeat 73 n)) spec.
Definition in_quotes (s : str) : str := 39 :: s ++ [39].
Definition to_ascii (s : str) : str := map (fun c => if c <? 128 then c else 63) s.
Notation python := (py_fstring nat tally tally pad_number in_quotes to_ascii pad).
Notation traced := (traced_fstring nat tally tally pad_number in_quotes to_ascii pad).
Notation str_ s := (Txt nat (Text false s)).
Notation sym_ s := (Txt nat (Text true s)).

Example fstring_example :
  (forall t spec, letters (pad t spec) = letters (pad (Text false (chars t)) (Text false (chars spec)))) /\
  (forall s, letters (pad (Text false s) (Text false [])) = Done s) /\
  let l := [Lit _ [97]; Field _ (Val _ 3%nat) 0 (Some (str_ [0; 0; 0; 0; 0])); Field _ (sym_ [233]) 2 None; Field _ (sym_ [98]) 0 None] in
  Forall (easy_piece nat) l /\ python l = Done [97; 32; 32; 73; 73; 73; 39; 233; 39; 98] /\
  traced l [str_ []] = Done [sym_ [97; 32; 32; 73; 73; 73; 39; 233; 39; 98]; str_ []].
Proof.
  split; [reflexivity|]. split; [reflexivity|]. cbn. repeat split. repeat constructor.
Qed.

(** A conversion together with a format, such as !r:>10, always fails: the format is taken for
    the value. *)
Lemma conversion_and_format : forall V str_of repr_of format_of quote escape format_str o n spec,
  (1 <= n <= 3)%nat -> exists e,
  traced_fstring V str_of repr_of format_of quote escape format_str [Field V o n (Some spec)] [] = Fails e.
Proof.
  intros. assert (n = 1 \/ n = 2 \/ n = 3)%nat as [->|[->| ->]] by lia;
    unfold traced_fstring, push_pieces, push_piece, traced_format_value; cbn -[op_str op_repr op_ascii];
    [destruct (op_str _ _ _) as [[s t]|e]|destruct (op_repr _ _ _ _) as [[s t]|e]|destruct (op_ascii _ _ _ _ _) as [[s t]|e]];
    cbn; eauto.
Qed.
Theorem conversion_and_format_refuted : exists o spec text,
  python [Field _ o 2 (Some spec)] = Done text /\ traced [Field _ o 2 (Some spec)] [] = Fails SystemError.
Proof. exists (Val _ 2%nat), (str_ [0; 0; 0]). eexists. split; reflexivity. Qed.
(** !a gives what !r gives. *)
Theorem ascii_refuted : exists o,
  python [Field _ o 3 None] = Done [39; 63; 39] /\ traced [Field _ o 3 None] [] = Done [str_ [39; 233; 39]].
Proof. exists (str_ [233]). split; reflexivity. Qed.
(** A format computed from symbolic values fails. *)
Lemma symbolic_format : forall V str_of repr_of format_of quote escape format_str o s,
  traced_fstring V str_of repr_of format_of quote escape format_str [Field V o 0 (Some (Txt V (Text true s)))] [] = Fails SystemError.
Proof. intros. reflexivity. Qed.
Theorem symbolic_format_refuted : exists o spec text,
  python [Field _ o 0 (Some spec)] = Done text /\ traced [Field _ o 0 (Some spec)] [] = Fails SystemError.
Proof. exists (Val _ 2%nat), (sym_ [0; 0; 0]). eexists. split; reflexivity. Qed.

Print Assumptions fstring_text_partial.
Print Assumptions conversion_and_format_refuted.
Print Assumptions ascii_refuted.
Print Assumptions symbolic_format_refuted.
