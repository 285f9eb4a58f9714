(** Property theorems for declared exceptions (C134).  Model: [Raises_Model]; spec: [Raises_Spec]. *)
From Coq Require Import ZArith List Bool.
From Verif Require Import Raises_Model Raises_Spec Raises_Proofs.
Import ListNotations.
Open Scope Z_scope.

(** C134, partial.  The exceptions a docstring declares are exactly those named in its lines ":raises NAME: ..."
    and "raises: NAME, NAME" (or ":raises: ..."; up to a comment), in docstrings made of such lines, blank lines,
    other prose and sentences that begin with "raises".  [eval] is the meaning of a name for the function's
    globals.  Missing: other layouts, and names the function sees that are not global; both refuted below. *)
Theorem C134_declared_exceptions_partial (space word : Z -> bool) (E : Type) (eval : list Z -> option E) (lines : list line) :
  space newline = true -> space colon = false -> space 114 = false -> word colon = false ->
  Forall (well_formed space word) lines ->
  forall e, In e (declared space word E eval (Some (document lines))) <->
    exists l n, In l lines /\ In n (names_of l) /\ eval n = Some e.
Proof.
  intros H1 H2 H3 H4 W e. unfold declared. rewrite (named_lines space word H1 H2 H3 H4 lines W), (classes_in eval).
  split.
  - intros (n & I & V). apply in_flat_map in I as (l & Il & In'). exists l, n. auto.
  - intros (l & n & Il & In' & V). exists n. split; [|exact V]. apply in_flat_map. eauto.
Qed.
Print Assumptions C134_declared_exceptions_partial.

Definition ascii_space (c : Z) : bool := (c =? 32) || ((9 <=? c) && (c <=? 13)).
Definition ascii_word (c : Z) : bool :=
  ((48 <=? c) && (c <=? 57)) || ((65 <=? c) && (c <=? 90)) || ((97 <=? c) && (c <=? 122)) || (c =? 95).
Example C134_declared_exceptions_partial_witness :
  let lines := [Prose [32; 32] [65]; Blank [32]; Field [32] [32] [65; 46; 66] [32; 120]; Blank []; Sentence [] [32] [116];
                Listing [9] false [] [[32; 67]; [32; 68; 32]] (Some [120])] in
  Forall (well_formed ascii_space ascii_word) lines /\
  declared ascii_space ascii_word _ Some (Some (document lines)) = [[65; 46; 66]; [32; 67]; [32; 68; 32]].
Proof.
  split; [|reflexivity].
  repeat match goal with |- Forall _ _ => constructor end; cbn; unfold blank, one_line, newline, colon, raises, starts_with, comma, hash;
    repeat split; try discriminate; intros;
    repeat match goal with
    | H : In _ (_ :: _) |- _ => destruct H as [<-|H]
    | H : In _ [] |- _ => destruct H
    | H : _ \/ _ |- _ => destruct H
    | H : False |- _ => destruct H
    end; subst; cbn in *; try discriminate; try reflexivity; try tauto;
    try (now (intros [r X]; discriminate X)); try (now (intros X; repeat destruct X as [X|X]; try discriminate X));
    try (now (do 2 eexists; repeat split; try reflexivity; discriminate)).
  all: repeat match goal with H : _ \/ _ |- _ => destruct H | H : False |- _ => destruct H end; subst; try discriminate; auto.
Qed.

(** C134, violated.  Several names in one field, as in ":raises KeyError, ValueError: text", declare nothing; nor
    does a list that begins on the next line, a layout that is accepted for "pre:" and "post:". *)
Theorem C134_other_layouts_refuted : exists d1 d2 : list Z,
  d1 = [58] ++ raises ++ [32; 65; 44; 32; 66; 58; 32; 120] /\      (* :raises A, B: x *)
  d2 = raises ++ [58; 10; 32; 32; 65; 10] /\                       (* raises: / A *)
  declared ascii_space ascii_word _ Some (Some d1) = [] /\ declared ascii_space ascii_word _ Some (Some d2) = [].
Proof. do 2 eexists. repeat split. Qed.
Print Assumptions C134_other_layouts_refuted.

(** C134, violated.  A name that the function sees in an enclosing function is looked up in the globals only: it is
    not declared, or another class is declared. *)
Theorem C134_enclosing_names_refuted : exists (globals closure : list Z -> option nat) (d : list Z),
  let sees n := match closure n with Some e => Some e | None => globals n end in
  d = document [Field [] [32] [65] [32; 120]; Field [] [32] [66] [32; 120]] /\
  sees [65] = Some 1%nat /\ sees [66] = Some 2%nat /\
  declared ascii_space ascii_word _ globals (Some d) = [3%nat].
Proof.
  exists (fun n => match n with [66] => Some 3%nat | _ => None end),
         (fun n => match n with [65] => Some 1%nat | [66] => Some 2%nat | _ => None end). eexists. repeat split.
Qed.
Print Assumptions C134_enclosing_names_refuted.
