(** C158: which exceptions of the checked program are reported. *)
From Coq Require Import String Ascii List Bool.
From Verif Require Import Noise_Model Noise_Spec.
Import ListNotations.
Open Scope string_scope.

Lemma starts_iff : forall sub s, starts sub s = true <-> exists b, s = sub ++ b.
Proof.
  induction sub as [|a sub IH]; intros s; cbn [starts append].
  - split; [intros _; exists s; reflexivity|reflexivity].
  - destruct s as [|c s].
    + split; [discriminate|intros [b H]; discriminate].
    + rewrite andb_true_iff, IH, Ascii.eqb_eq. split.
      * intros [-> [b ->]]. exists b. reflexivity.
      * intros [b H]. injection H as -> ->. split; [reflexivity|exists b; reflexivity].
Qed.
Lemma contains_iff : forall sub s, contains sub s = true <-> mentions s sub.
Proof.
  intros sub. induction s as [|c s IH]; cbn [contains].
  - rewrite orb_false_r, starts_iff. split.
    + intros [b H]. exists "", b. exact H.
    + intros [a [b H]]. destruct a; [exists b; exact H|discriminate].
  - rewrite orb_true_iff, starts_iff, IH. split.
    + intros [[b H]|[a [b H]]]; [exists "", b; exact H|].
      exists (String c a), b. cbn [append]. rewrite H. reflexivity.
    + intros [[|c' a] [b H]]; [left; exists b; exact H|].
      cbn [append] in H. injection H as <- ->. right. exists a, b. reflexivity.
Qed.
Lemma contains_not : forall sub s, contains sub s = false <-> ~ mentions s sub.
Proof.
  intros sub s. rewrite <- contains_iff. destruct (contains sub s); split; congruence.
Qed.

(** Full statement: an exception that the program raised is reported as an error.
    Proved: if it is not a TypeError, or its text has none of the six signs, or it has
    one of the texts that are known to be genuine.  Exactly the others are not. *)
Theorem C158_reported_partial : forall e, of_program e ->
  (is_type_error e = false \/
   (forall s, In s signs -> ~ mentions (text e) s) \/
   (exists s, In s genuine /\ mentions (text e) s) ->
   on_exit e = UserError) /\
  (on_exit e = UserError \/ on_exit e = PathUnsupported) /\
  (on_exit e = PathUnsupported ->
   is_type_error e = true /\ (exists s, In s signs /\ mentions (text e) s) /\
   forall s, In s genuine -> ~ mentions (text e) s).
Proof.
  intros e [E1 [E2 [E3 [E4 E5]]]]. unfold on_exit. rewrite E1, E2, E3, E4, E5. cbn [orb].
  assert (S : suspected e = true -> is_type_error e = true /\
    (exists s, In s signs /\ mentions (text e) s) /\ forall s, In s genuine -> ~ mentions (text e) s).
  { unfold suspected. destruct (is_type_error e); cbn [negb]; [|discriminate].
    destruct (_ || contains "expected string or bytes-like object" (text e)) eqn:C; [|discriminate].
    destruct (_ || contains "object is not callable" (text e)) eqn:D; [discriminate|].
    intros _. split; [reflexivity|]. split.
    - rewrite !orb_true_iff, !contains_iff in C.
      destruct C as [[[[[C|C]|C]|C]|C]|C]; eexists; (split; [|exact C]); cbn; tauto.
    - rewrite !orb_false_iff, !contains_not in D. destruct D as [[D1 D2] D3].
      intros s [<-|[<-|[<-|[]]]]; assumption. }
  split; [|split].
  - intros H. destruct (suspected e) eqn:Q; [|reflexivity]. exfalso.
    destruct (S eq_refl) as [T [[s [I M]] G]].
    destruct H as [H|[H|[s' [I' M']]]]; [congruence|exact (H s I M)|exact (G s' I' M')].
  - destruct (suspected e); [right|left]; reflexivity.
  - destruct (suspected e) eqn:Q; [|discriminate]. intros _. exact (S eq_refl).
Qed.
Print Assumptions C158_reported_partial.

Definition type_error (t : string) : raised := mkRaised false false false true true false t.
Example C158_reported_example :
  of_program (type_error "can only concatenate str (not ""SymbolicInt"") to str") /\
  on_exit (type_error "can only concatenate str (not ""SymbolicInt"") to str") = UserError /\
  on_exit (type_error "unsupported operand type(s) for +: 'list' and 'str'") = UserError /\
  on_exit (type_error "'SymbolicInt' object cannot be converted to 'PyString'") = PathUnsupported.
Proof.
  split; [repeat split|]. split; [reflexivity|]. split; reflexivity.
Qed.

(** Errors of the program that go unreported: a __hash__ method that returns a string,
    a pattern matched against a number, and an operator that a class of the user, which
    is named like a symbolic class, does not have. *)
Theorem C158_reported_refuted : forall t,
  In t ["__hash__ method should return an integer";
        "expected string or bytes-like object, got 'int'";
        "unsupported operand type(s) for +: 'SymbolicStringTable' and 'int'"] ->
  of_program (type_error t) /\ on_exit (type_error t) = PathUnsupported.
Proof.
  intros t H. split; [repeat split|].
  destruct H as [<-|[<-|[<-|[]]]]; reflexivity.
Qed.
Print Assumptions C158_reported_refuted.

(** The other direction: an error whose text names the class of a symbolic value is not
    blamed on the program (unless it is known to be genuine).  Proved for integers,
    floats, strings and bytes. *)
Theorem C158_blame_partial : forall name before after,
  In name noticed ->
  (forall s, In s genuine -> ~ mentions (before ++ name ++ after) s) ->
  ~ mentions (before ++ name ++ after) "object is not iterable" ->
  on_exit (type_error (before ++ name ++ after)) = PathUnsupported.
Proof.
  intros name before after I G N.
  set (t := before ++ name ++ after) in *.
  assert (M : forall sub, contains sub name = true -> contains sub t = true).
  { intros sub H. apply contains_iff in H. destruct H as [a [b H]]. apply contains_iff.
    exists (before ++ a), (b ++ after). unfold t. rewrite H.
    assert (A : forall x y z : string, (x ++ y) ++ z = x ++ y ++ z).
    { induction x as [|c x IH]; intros y z; cbn [append]; [reflexivity|rewrite IH; reflexivity]. }
    rewrite !A. reflexivity. }
  unfold on_exit, suspected, type_error.
  cbn [is_postcondition_failed is_ignore_attempt is_expected is_type_error is_exception
       is_engine text orb negb].
  rewrite (proj2 (contains_not "can only concatenate" t)) by (apply G; cbn; tauto).
  rewrite (proj2 (contains_not "NoneType" t)) by (apply G; cbn; tauto).
  rewrite (proj2 (contains_not "object is not callable" t)) by (apply G; cbn; tauto).
  rewrite (proj2 (contains_not "object is not iterable" t) N). rewrite andb_false_r. cbn [orb].
  assert (C : contains "SymbolicInt" t = true \/ contains "SymbolicFloat" t = true \/
              contains "SymbolicStr" t = true \/ contains "SymbolicBytes" t = true).
  { clearbody t. destruct I as [<-|[<-|[<-|[<-|[<-|[]]]]]].
    - left. apply M. reflexivity.
    - right. left. apply M. reflexivity.
    - right. left. apply M. reflexivity.
    - right. right. left. apply M. reflexivity.
    - right. right. right. apply M. reflexivity. }
  clearbody t.
  destruct C as [C|[C|[C|C]]]; rewrite C; cbn [orb];
    rewrite ?orb_true_r; cbn [orb]; rewrite ?orb_true_r; reflexivity.
Qed.
Print Assumptions C158_blame_partial.
Example C158_blame_example :
  on_exit (type_error "write() argument must be str, not LazyIntSymbolicStr") = PathUnsupported.
Proof. reflexivity. Qed.

(** Refuted for every other class of symbolic values: an interpreter function that does
    not accept one is reported as an error of the program, which has none. *)
Theorem C158_blame_refuted : forall name, In name unnoticed ->
  on_exit (type_error ("a bytes-like object is required, not '" ++ name ++ "'")) = UserError.
Proof.
  assert (H : forallb (fun name =>
    match on_exit (type_error ("a bytes-like object is required, not '" ++ name ++ "'")) with
    | UserError => true | _ => false end) unnoticed = true) by (vm_compute; reflexivity).
  rewrite forallb_forall in H. intros name I. specialize (H name I).
  destruct (on_exit _); congruence.
Qed.
Print Assumptions C158_blame_refuted.

(** Exceptions that the contract allows are never reported, whatever their text; failed
    postconditions of callees and abandoned attempts leave no trace; other things than
    exceptions (time limits, interrupts) are passed on. *)
Theorem C158_allowed : forall e,
  (is_postcondition_failed e = true \/ is_ignore_attempt e = true -> on_exit e = PathIgnored) /\
  (is_postcondition_failed e = false -> is_ignore_attempt e = false -> is_expected e = true ->
   on_exit e = PathConfirmed) /\
  (on_exit e = UserError -> is_exception e = true /\ is_engine e = false /\ is_expected e = false).
Proof.
  intros e. unfold on_exit. split; [|split].
  - intros [H|H]; rewrite H; [reflexivity|]. rewrite orb_true_r. reflexivity.
  - intros -> -> ->. reflexivity.
  - destruct (is_postcondition_failed e || is_ignore_attempt e); [discriminate|].
    destruct (is_expected e); [discriminate|]. destruct (suspected e); [discriminate|].
    destruct (is_exception e); [|discriminate]. destruct (is_engine e); [discriminate|].
    intros _. split; [reflexivity|]. split; reflexivity.
Qed.
Print Assumptions C158_allowed.
Example C158_allowed_example :
  on_exit (mkRaised false false true true true false "expected string or bytes-like object") = PathConfirmed.
Proof. reflexivity. Qed.
