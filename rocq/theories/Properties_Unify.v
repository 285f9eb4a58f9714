(* C117: which values fit a type. *)
From Coq Require Import List Bool Arith Lia.
From Verif Require Import Py Unify_Model Unify_Spec Unify_Proofs.
Import ListNotations.

(** C117.  The full claim: if the types of arguments are found to fit the types of parameters,
    one after another and with bindings for the type variables, then each is a subtype of what
    is wanted under these bindings; and arguments that are subtypes are found to fit.  The
    classes are any that agree with Python on object, tuple, Callable and Sequence.  Proved:
    the first half
    (1) for types without type variables, if there are no Tuple[x, ...] or tuple among them, or
        else no tuple is wanted; *)
Theorem match_sound_closed_partial : forall issub arity fuel v r b',
  (forall a, issub a a = true) -> python_classes issub arity -> written arity v = true -> written arity r = true ->
  closed v = true -> closed r = true ->
  (sized_tuples v = true /\ sized_tuples r = true) \/ (no_tuple_wanted false v = true /\ no_tuple_wanted true r = true) ->
  unify issub fuel [] v r = Ok (Some b') -> sub issub v r.
Proof.
  intros issub arity fuel v r b' R (P1 & P2 & P3 & P4 & P5 & P6 & P7 & P8 & P9 & P10 & P11) W W' C C' T E.
  destruct (unify_ok issub arity R P1 P2 P3 P4 P5 P6 P8 P9 P10 P11 fuel [] v r b') as (_ & _ & S); auto.
  - intros n t. discriminate.
  - left. auto.
  - specialize (S b' (extends_refl b')). now rewrite !subst_closed in S.
Qed.
(** (2) for arguments' types without type variables and unions and parameters' types with type
    variables (in unions only where something is wanted), without Tuple[x, ...] and tuple. *)
Theorem match_sound_partial : forall issub arity fuel args params b',
  (forall a, issub a a = true) -> python_classes issub arity -> length args = length params ->
  (forall v, In v args -> closed v = true /\ union_free v = true /\ sized_tuples v = true /\ written arity v = true) ->
  (forall r, In r params -> unions_ok true r = true /\ sized_tuples r = true /\ written arity r = true) ->
  unify_list (unify issub fuel) [] args params = Ok (Some b') ->
  forall v r, In (v, r) (combine args params) -> sub issub v (subst b' r).
Proof.
  intros issub arity fuel args params b' R (P1 & P2 & P3 & P4 & P5 & P6 & P7 & P8 & P9 & P10 & P11) L A Q E v r I.
  destruct (unify_list_ok issub arity (unify issub fuel)
    (unify_ok issub arity R P1 P2 P3 P4 P5 P6 P8 P9 P10 P11 fuel) args params [] b') as (_ & _ & S); auto.
  - intros n t. discriminate.
  - intros x y J. assert (J' := combine_in _ _ _ _ J). destruct J' as (J1 & J2). apply A in J1. apply Q in J2.
    right. tauto.
  - apply forallb_forall. intros x J. apply A in J. tauto.
  - apply forallb_forall. intros x J. apply Q in J. tauto.
  - specialize (S b' (extends_refl b') v r I). rewrite subst_closed in S; auto.
    apply combine_in in I as (I & _). apply A in I. tauto.
Qed.

(** Some classes: 4 is list, 5 int, 6 str, 7 float, 8 a class of functions. *)
Definition some_sub (a b : nat) : bool :=
  Nat.eqb a b || Nat.eqb b cobject || (Nat.eqb b csequence && (Nat.eqb a ctuple || Nat.eqb a 4)) || (Nat.eqb b ccallable && Nat.eqb a 8).
Definition some_arity (a : nat) : nat := if Nat.eqb a csequence || Nat.eqb a 4 then 1 else 0.
Example some_classes : (forall a, some_sub a a = true) /\ python_classes some_sub some_arity.
Proof.
  unfold python_classes, some_sub, some_arity, cobject, ctuple, ccallable, csequence.
  assert (H : forall x y, Nat.eqb x y = true <-> x = y) by apply Nat.eqb_eq.
  split; [intros; now rewrite Nat.eqb_refl|].
  repeat apply conj; try reflexivity; intros *; rewrite ?orb_true_iff, ?andb_true_iff, ?orb_true_iff, ?H; try lia.
  - intros _ _. destruct (_ || _); lia.
  - intros _. destruct (_ || _); lia.
Qed.
Notation int_ := (App 5 []).
Notation str_ := (App 6 []).
Notation float_ := (App 7 []).
Notation list_ t := (App 4 [t]).
Example match_example :
  unify_list (unify some_sub 9) [] [list_ int_; Fun (Some [Object]) str_; Tup [int_; str_]]
    [App csequence [Var 1]; Fun (Some [Var 1]) (Var 2); Union [float_; Tup [Var 1; Var 2]]] = Ok (Some [(2, str_); (1, int_)]) /\
  sub some_sub (Fun (Some [Object]) str_) (Fun (Some [int_]) str_) /\
  unify some_sub 9 [] (TupVar int_) (App csequence [Union [str_; int_]]) = Ok (Some []).
Proof.
  split; [reflexivity|]. split; [|reflexivity]. apply sub_fun; [now apply sub_class|].
  intros l l' [= <-] [= <-]. split; auto. intros x y [[= <- <-]|[]]. apply sub_object.
Qed.

(** A list fits Tuple[int, ...]; tuple fits Tuple[object, object]. *)
Theorem list_for_tuple_refuted : exists v r, unify some_sub 9 [] v r = Ok (Some []) /\ ~ sub some_sub v r.
Proof. exists (list_ int_), (TupVar int_). split; [reflexivity|]. intros H. inversion H. Qed.
Theorem tuple_for_pair_refuted : exists v r, unify some_sub 9 [] v r = Ok (Some []) /\ ~ sub some_sub v r.
Proof. exists RawTup, (Tup [Object; Object]). split; [reflexivity|]. intros H. inversion H. Qed.
(** What a union binds is forgotten: Union[int, str] and float both fit T. *)
Theorem union_binding_refuted : exists v1 v2 r b,
  unify_list (unify some_sub 9) [] [v1; v2] [r; r] = Ok (Some b) /\ ~ sub some_sub v1 (subst b r).
Proof.
  exists (Union [int_; str_]), float_, (Var 1). eexists. split; [reflexivity|]. cbn. intros H. inversion H as [| | |l r A| | | | | | | | | | | | | | | | | | | |]; subst.
  specialize (A int_ (or_introl eq_refl)). inversion A; discriminate.
Qed.
(** The second half fails: a list of integers does not fit object; and on some tuples there is
    an error instead of an answer. *)
Theorem match_incomplete_refuted : exists v r, sub some_sub v r /\ unify some_sub 9 [] v r = Ok None.
Proof. exists (list_ int_), Object. split; [apply sub_object|reflexivity]. Qed.
Theorem match_error_refuted : exists v1 r1 v2 r2,
  unify some_sub 9 [] v1 r1 = Err IndexError /\
  sub some_sub v2 r2 /\ unify some_sub 9 [] v2 r2 = Err TypeError.
Proof.
  exists (Tup []), int_, (Tup [int_; str_]), (TupVar Object). split; [reflexivity|]. split; [|reflexivity].
  apply sub_tup_var. intros. apply sub_object.
Qed.

Print Assumptions match_sound_closed_partial.
Print Assumptions match_sound_partial.
Print Assumptions list_for_tuple_refuted.
Print Assumptions tuple_for_pair_refuted.
Print Assumptions union_binding_refuted.
Print Assumptions match_incomplete_refuted.
Print Assumptions match_error_refuted.
