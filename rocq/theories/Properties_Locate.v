(** Where messages are put (C123).

    Full property: a message about a function is put on a line of that function: on the line where
    the problem is, if that is one of the function's, and otherwise on its first line, with the
    text of the line where the problem is.  A message about a method of a class is put on a line of
    the class. *)
From Coq Require Import ZArith List Bool Lia.
From Verif Require Import Locate_Model.
Import ListNotations.
Open Scope Z_scope.

(** The function's own lines: in which file, from which line, how many *)
Record place := Place { p_file : Z; p_first : Z; p_count : nat }.
Definition on_line_of (abspath : Z -> Z) (p : place) (file line : Z) : Prop :=
  abspath file = abspath (p_file p) /\ p_first p <= line < p_first p + Z.of_nat (p_count p).
(** A function that is not wrapped: the code object's lines are those of its source. *)
Definition undecorated (f : fn) (p : place) : Prop :=
  own_code f = Some (Code (p_file p) (p_first p)) /\ source_lines f = p_count p.

Section T.
Variable abspath : Z -> Z.
Variable getlines : Z -> list Z.
Variable no_file : Z.
Notation message_of f := (make abspath getlines (new_generator no_file f)).

(** On a line of the function, the message stays there, and its text is not changed. *)
Theorem message_stays f p file line : undecorated f p -> on_line_of abspath p file line ->
  message_of f (Some file) line = Some (Msg file line Nothing).
Proof.
  intros [O L] [A B]. unfold make, new_generator. rewrite O, L. cbn. rewrite (proj2 (Z.eqb_eq _ _) A).
  destruct (p_first p <=? line) eqn:E1; [|lia]. cbn. destruct (line <=? p_first p + Z.of_nat (p_count p)) eqn:E2; [reflexivity|lia].
Qed.
(** Anywhere else but on the line after the function, the message goes to the function's first
    line, and names the text of the line where the problem is. *)
Theorem message_moved_partial f p file line : undecorated f p -> ~ on_line_of abspath p file line ->
  (abspath file = abspath (p_file p) -> line <> p_first p + Z.of_nat (p_count p)) -> 1 <= line ->
  exists q, message_of f (Some file) line = Some (Msg (p_file p) (p_first p) q) /\
    match nth_error (getlines file) (Z.to_nat (line - 1)) with Some t => q = Line t | None => q = Unknown end.
Proof.
  intros [O L] N NX P. unfold make, new_generator. rewrite O, L. cbv zeta. cbn [filename start_lineno end_lineno co_filename co_firstlineno].
  assert (I : index (getlines file) (line - 1) = nth_error (getlines file) (Z.to_nat (line - 1))).
  { unfold index. destruct (line - 1 <? 0) eqn:E; [lia|]. now rewrite E. }
  rewrite I. exists (match nth_error (getlines file) (Z.to_nat (line - 1)) with Some t => Line t | None => Unknown end).
  split; [|destruct (nth_error _ _); reflexivity].
  unfold on_line_of in N. destruct (abspath file =? abspath (p_file p)) eqn:E; [|reflexivity]. apply Z.eqb_eq in E.
  specialize (NX E). cbn [andb]. destruct (p_first p <=? line) eqn:E1; [|reflexivity].
  destruct (line <=? p_first p + Z.of_nat (p_count p)) eqn:E2; [|reflexivity]. exfalso. apply N. split; [exact E|lia].
Qed.
(** Nothing is known about where the problem is: the first line. *)
Theorem message_without_place f p line : undecorated f p ->
  message_of f None line = Some (Msg (p_file p) (p_first p) Unknown).
Proof. intros [O L]. unfold make, new_generator. now rewrite O. Qed.
(** So the message is always in the function's file, on one of its lines or the line after it. *)
Theorem message_on_function_partial f p file line m : undecorated f p -> (0 < p_count p)%nat ->
  message_of f file line = Some m ->
  abspath (m_file m) = abspath (p_file p) /\ p_first p <= m_line m <= p_first p + Z.of_nat (p_count p).
Proof.
  intros [O L] N. unfold make, new_generator. rewrite O, L. cbv zeta. cbn [filename start_lineno end_lineno co_filename co_firstlineno].
  assert (X : forall q, Some (Msg (p_file p) (p_first p) q) = Some m ->
    abspath (m_file m) = abspath (p_file p) /\ p_first p <= m_line m <= p_first p + Z.of_nat (p_count p)).
  { intros q H. injection H as <-. cbn. split; [reflexivity|lia]. }
  destruct file as [file|]; [|apply X].
  destruct (abspath file =? abspath (p_file p)) eqn:E; cbn [andb]; [|apply X]. apply Z.eqb_eq in E.
  destruct (p_first p <=? line) eqn:E1; [|apply X].
  destruct (line <=? p_first p + Z.of_nat (p_count p)) eqn:E2; [|apply X]. intro H. injection H as <-. cbn. split; [exact E|lia].
Qed.
(** Every function with code gets its message; so does a callable without, unless the problem is
    said to be in the current directory. *)
Theorem message_made f file line :
  own_code f <> None \/ (forall x, file = Some x -> abspath x <> abspath no_file) ->
  exists m, message_of f file line = Some m.
Proof.
  intro H. unfold make, new_generator. destruct (own_code f) as [c|].
  - cbn [filename start_lineno end_lineno]. destruct file; [|eauto]. destruct (_ && _); [|eauto]. destruct (_ <=? _); eauto.
  - cbn [filename start_lineno end_lineno]. destruct file as [x|]; [|eauto]. destruct H as [H|H]; [congruence|].
    specialize (H x eq_refl). destruct (abspath x =? abspath no_file) eqn:E; [apply Z.eqb_eq in E; contradiction|]. cbn. eauto.
Qed.

(** A class: messages of its own file stay, others go to the class's first line. *)
Variable same_file : Z -> Z -> bool.
Theorem clamped_partial cf cl m : same_file cf cf = true ->
  same_file (m_file (clamp same_file cf cl m)) cf = true /\
  (same_file (m_file m) cf = true -> clamp same_file cf cl m = m) /\
  (same_file (m_file m) cf = false -> clamp same_file cf cl m = Msg cf cl (m_quoted m)).
Proof.
  intro R. unfold clamp. destruct (same_file (m_file m) cf) eqn:E; cbn; repeat split; auto; discriminate.
Qed.
End T.
Print Assumptions message_stays.
Print Assumptions message_moved_partial.
Print Assumptions message_without_place.
Print Assumptions message_on_function_partial.
Print Assumptions message_made.
Print Assumptions clamped_partial.

(** * Witnesses: a file 1 of ten lines with the texts 101, ..., 110; the function is on its lines
    3 to 5 *)
Definition texts (file : Z) : list Z := if file =? 1 then map (fun i => 100 + Z.of_nat i) (seq 1 10) else [].
Definition ident (x : Z) : Z := x.
Definition f35 : fn := Fn (Some (Code 1 3)) 3.
Definition p35 : place := Place 1 3 3.
Example message_cases :
  undecorated f35 p35 /\ on_line_of ident p35 1 4 /\
  make ident texts (new_generator 0 f35) (Some 1) 4 = Some (Msg 1 4 Nothing) /\
  make ident texts (new_generator 0 f35) (Some 1) 9 = Some (Msg 1 3 (Line 109)) /\
  make ident texts (new_generator 0 f35) (Some 2) 4 = Some (Msg 1 3 Unknown) /\
  clamp Z.eqb 7 20 (Msg 1 4 Nothing) = Msg 7 20 Nothing.
Proof. repeat split; discriminate. Qed.

(** The line after the function counts as its own. *)
Theorem message_on_function_refuted : exists f p file line m,
  undecorated f p /\ (0 < p_count p)%nat /\ make ident texts (new_generator 0 f) (Some file) line = Some m /\
  ~ on_line_of ident p (m_file m) (m_line m).
Proof. exists f35, p35, 1, 6, (Msg 1 6 Nothing). repeat split; [cbn; lia|]. intros [_ H]. cbn in H. lia. Qed.
(** When the line is not known (0), the text that is named is that of the file's last line. *)
Theorem message_moved_refuted : exists f p file,
  undecorated f p /\ length (texts file) = 10%nat /\
  make ident texts (new_generator 0 f) (Some file) 0 = Some (Msg (p_file p) (p_first p) (Line 110)).
Proof. exists f35, p35, 1. repeat split. Qed.
(** A decorated function (functools.wraps): its own lines are 3 to 5 of the file 1, the wrapper's
    code is in the file 2.  A problem on a line of the function is reported on the wrapper's first
    line, in the other file. *)
Theorem message_decorated_refuted : exists f p file line,
  source_lines f = p_count p /\ on_line_of ident p file line /\
  make ident texts (new_generator 0 f) (Some file) line = Some (Msg 2 50 (Line 104)) /\ p_file p = 1.
Proof. exists (Fn (Some (Code 2 50)) 3), p35, 1, 4. repeat split; discriminate. Qed.
(** A method that is inherited from a class in the same file: the message stays on the superclass's
    line, outside the class (whose lines here are 7 to 9). *)
Theorem clamped_refuted : exists p m,
  m_line (clamp Z.eqb (p_file p) (p_first p) m) = 4 /\ ~ on_line_of ident p (m_file m) 4.
Proof. exists (Place 1 7 3), (Msg 1 4 Nothing). split; [reflexivity|]. intros [_ H]. cbn in H. lia. Qed.
Print Assumptions message_on_function_refuted.
Print Assumptions message_moved_refuted.
Print Assumptions message_decorated_refuted.
Print Assumptions clamped_refuted.
