(* Assert-based contracts. *)
From Coq Require Import ZArith List Bool Lia.
From Verif Require Import Asserts_Model Asserts_Spec Asserts_Proofs.
Import ListNotations.
Local Open Scope Z_scope.

(** * C102: which functions are analyzed, and what is reported *)

(** A function is analyzed exactly when it is a plain function starting with asserts
    (docstrings may come between). *)
Theorem C102_which_functions :
  forall (St V : Type) (vnone : V) (f : func St V) expected s,
    (exists v, check vnone f expected s = Some v) <->
    is_def f = true /\ exists pre rest, splits (body f) pre rest.
Proof.
  intros. rewrite <- analyzed_iff. unfold check.
  destruct (get_first_body_line f); split; intros H; try easy; eauto.
  destruct H; easy.
Qed.
Print Assumptions C102_which_functions.

(** For a function whose body goes on after its leading asserts on a line of its own, that
    its frames identify and that is not called again below itself: a call is reported, with
    an exception and a line, exactly when its inputs pass the leading asserts (or these fail
    with another exception) and the call raises that exception, undeclared, at that line.
    Missing for the full claim: the three conditions on the function; see the refutations. *)
Theorem C102_reported_partial :
  forall (St V : Type) (vnone : V) (f : func St V) pre rest expected s e l,
    is_def f = true -> splits (body f) pre rest ->
    laid_out f pre rest -> recognizable f -> not_reentered f ->
    (check vnone f expected s = Some (Reports e l) <-> faulty (body f) pre expected s e l).
Proof. intros. eapply report_iff; eauto. Qed.
Print Assumptions C102_reported_partial.

(** Either the function's own result is used, or the call is judged on a None it never
    returned, and then it had raised AssertionError. *)
Theorem C102_result :
  forall (St V : Type) (vnone : V) (f : func St V) fbl s,
    wrapped vnone f fbl s = exec vnone f (body f) s \/
    (wrapped vnone f fbl s = Returned vnone /\
     exists tb, exec vnone f (body f) s = Raised AssertionErr tb).
Proof. intros. apply wrapped_cases. Qed.
Print Assumptions C102_result.

(** ** Witness: the example of the documentation, on the number of times the smallest
    element occurs: "assert n > 0", some work, "assert n == 1". *)
Definition pos_assert (line : Z) : stmt Z Z :=
  SAssert line (fun s => if 0 <? s then Holds s else Fails AssertionErr line []).
Definition one_assert (line : Z) : stmt Z Z :=
  SAssert line (fun s => if s =? 1 then Holds s else Fails AssertionErr line []).
Definition work (line : Z) : stmt Z Z := SOther line (fun s => Next s).

Definition doc_fn : func Z Z :=
  Func 7 (Some 1) 7 1 10 true [Frame 90 99 1086; Frame 91 99 90]
    [SString 2; pos_assert 3; work 5; one_assert 6].

(** (tracebacks below show the line within the function) *)
Example C102_hypotheses :
  is_def doc_fn = true /\ splits (body doc_fn) [SString 2; pos_assert 3] [work 5; one_assert 6] /\
  recognizable doc_fn /\ not_reentered doc_fn.
Proof.
  split; [reflexivity|]. split; [|split].
  - unfold splits. cbn. repeat split; auto.
    + repeat constructor.
    + apply Exists_cons_tl, Exists_cons_hd. exact I.
  - split; reflexivity.
  - intros t s e l i [<-|[<-|[<-|[<-|[]]]]]; cbn; try easy.
    + destruct (0 <? s); [easy|]. intros [= _ _ <-] fr [].
    + destruct (s =? 1); [easy|]. intros [= _ _ <-] fr [].
Qed.

(** [doc_fn] with the lines shown in tracebacks (the function starts at line 10) *)
Definition pos_assert_at (line shown : Z) : stmt Z Z :=
  SAssert line (fun s => if 0 <? s then Holds s else Fails AssertionErr shown []).
Definition one_assert_at (line shown : Z) : stmt Z Z :=
  SAssert line (fun s => if s =? 1 then Holds s else Fails AssertionErr shown []).

Definition doc_fn2 : func Z Z :=
  Func 7 (Some 1) 7 1 10 true [Frame 90 99 1086; Frame 91 99 90]
    [SString 2; pos_assert_at 3 12; work 5; one_assert_at 6 15].

Example C102_layout :
  laid_out doc_fn2 [SString 2; pos_assert_at 3 12] [work 5; one_assert_at 6 15].
Proof.
  cbn. split; [lia|]. split.
  - intros p l [<-|[<-|[]]]; cbn; [easy|]. intros (s & e & i & H).
    destruct (0 <? s); [easy|]. injection H as _ <- _. lia.
  - intros p l [<-|[<-|[]]]; cbn.
    + intros (s & e & i & H). easy.
    + intros (s & e & i & H). destruct (s =? 1); [easy|]. injection H as _ <- _. lia.
Qed.

Example C102_reports :
  check 0 doc_fn2 (fun _ => false) 2 = Some (Reports AssertionErr 15) /\
  check 0 doc_fn2 (fun _ => false) 1 = Some Confirms /\
  check 0 doc_fn2 (fun _ => false) 0 = Some Confirms.
Proof. repeat split. Qed.

(** ** Refutations of the full claim *)

(** A function that calls itself with inputs its own asserts reject: the failure is taken
    for an unmet precondition of the outer call and not reported. *)
Definition rec_fn : func Z Z :=
  Func 7 (Some 1) 7 1 10 true []
    [pos_assert_at 2 11;
     SOther 3 (fun s => if s =? 1 then Raise AssertionErr 12 [Frame 7 1 11] else Return s)].

Theorem C102_recursive_refuted :
  exists (f : func Z Z) pre rest s l,
    is_def f = true /\ splits (body f) pre rest /\ laid_out f pre rest /\ recognizable f /\
    faulty (body f) pre (fun _ => false) s AssertionErr l /\
    check 0 f (fun _ => false) s = Some Confirms.
Proof.
  exists rec_fn, [pos_assert_at 2 11],
    [SOther 3 (fun s => if s =? 1 then Raise AssertionErr 12 [Frame 7 1 11] else Return s)], 1, 12.
  split; [reflexivity|]. split; [|split; [|split; [|split]]].
  - unfold splits. cbn. repeat split; auto; repeat constructor.
  - cbn. split; [lia|]. split.
    + intros p l [<-|[]]; cbn. intros (s & e & i & H).
      destruct (0 <? s); [easy|]. injection H as _ <- _. lia.
    + intros p l [<-|[]]; cbn. intros (s & e & i & H).
      destruct (s =? 1); [|easy]. injection H as _ <- _. lia.
  - split; reflexivity.
  - split; [|split; [|reflexivity]].
    + intros (l & R). inversion R; subst; cbn in *; easy.
    + eapply RHolds; [reflexivity|]. eapply RRaise. reflexivity.
  - reflexivity.
Qed.
Print Assumptions C102_recursive_refuted.

(** A function behind a wrapper (with functools.wraps) that is written in another file: the
    file looked for is the wrapper's, no frame is found, the line falls back to the first line
    of the function, and no failing assert is ever reported. *)
Definition wrapped_fn : func Z Z :=
  Func 7 (Some 2) 7 1 10 true [Frame 90 99 1086; Frame 91 99 90; Frame 8 2 5]
    [SString 2; pos_assert_at 3 12; work 5; one_assert_at 6 15].

Theorem C102_wrapped_refuted :
  exists (f : func Z Z) pre rest s l,
    is_def f = true /\ splits (body f) pre rest /\ laid_out f pre rest /\ not_reentered f /\
    fn_name f = co_name f /\
    faulty (body f) pre (fun _ => false) s AssertionErr l /\
    (forall expected s, check 0 f expected s = Some Confirms).
Proof.
  exists wrapped_fn, [SString 2; pos_assert_at 3 12], [work 5; one_assert_at 6 15], 2, 15.
  split; [reflexivity|]. split; [|split; [|split; [|split; [|split]]]].
  - unfold splits. cbn. repeat split; auto.
    + repeat constructor.
    + apply Exists_cons_tl, Exists_cons_hd. exact I.
  - exact C102_layout.
  - intros t s e l i [<-|[<-|[<-|[<-|[]]]]]; cbn; try easy.
    + destruct (0 <? s); [easy|]. intros [= _ _ <-] fr [].
    + destruct (s =? 1); [easy|]. intros [= _ _ <-] fr [].
  - reflexivity.
  - split; [|split; [|reflexivity]].
    + intros (l & R). inversion R as [|? ? ? ? R'| | | | |]; subst.
      inversion R'; subst; cbn in *; try easy.
    + apply RString. eapply RHolds; [reflexivity|]. eapply RNext; [reflexivity|].
      eapply RFails. reflexivity.
  - intros expected s. unfold check, judge, wrapped. cbn.
    destruct (0 <? s); [|reflexivity]. destruct (s =? 1); reflexivity.
Qed.
Print Assumptions C102_wrapped_refuted.

(** A function that consists of asserts only: the last one is not taken as a precondition, so
    inputs it rejects are reported. *)
Definition only_asserts : func Z Z :=
  Func 7 (Some 1) 7 1 10 true [] [pos_assert_at 2 11; one_assert_at 3 12].

Theorem C102_only_asserts_refuted :
  exists (f : func Z Z) pre s,
    is_def f = true /\ splits (body f) pre [] /\ recognizable f /\ not_reentered f /\
    unmet pre s /\ check 0 f (fun _ => false) s = Some (Reports AssertionErr 12).
Proof.
  exists only_asserts, (body only_asserts), 2.
  split; [reflexivity|]. split; [|split; [|split; [|split]]].
  - unfold splits. cbn. repeat split; auto; repeat constructor.
  - split; reflexivity.
  - intros t s e l i [<-|[<-|[]]]; cbn.
    + destruct (0 <? s); [easy|]. intros [= _ _ <-] fr [].
    + destruct (s =? 1); [easy|]. intros [= _ _ <-] fr [].
  - exists 12. eapply RHolds; [reflexivity|]. eapply RFails. reflexivity.
  - reflexivity.
Qed.
Print Assumptions C102_only_asserts_refuted.

(** * C103: inputs that no leading assert accepts *)

(** A call whose inputs fail the leading asserts counts as a confirming call. *)
Theorem C103_unmet_confirms_partial :
  forall (St V : Type) (vnone : V) (f : func St V) pre rest expected s,
    is_def f = true -> splits (body f) pre rest ->
    laid_out f pre rest -> recognizable f -> not_reentered f ->
    unmet pre s -> check vnone f expected s = Some Confirms.
Proof. intros. eapply unmet_confirms; eauto. Qed.
Print Assumptions C103_unmet_confirms_partial.

Example C103_unmet : unmet [SString 2; pos_assert_at 3 12] (-1).
Proof. exists 12. apply RString. eapply RFails. reflexivity. Qed.

(** So a function whose leading asserts nothing satisfies is confirmed, not reported as
    having a precondition that cannot be met. *)
Definition never_fn : func Z Z :=
  Func 7 (Some 1) 7 1 10 true []
    [SAssert 2 (fun _ => Fails AssertionErr 11 []); one_assert_at 3 12; work 4].

Theorem C103_unsatisfiable_refuted :
  exists (f : func Z Z) pre rest,
    is_def f = true /\ splits (body f) pre rest /\
    (forall s, unmet pre s) /\
    forall expected s, check 0 f expected s = Some Confirms.
Proof.
  exists never_fn, [SAssert 2 (fun _ => Fails AssertionErr 11 []); one_assert_at 3 12], [work 4].
  split; [reflexivity|]. split; [|split].
  - unfold splits. cbn. repeat split; auto; repeat constructor.
  - intros s. exists 11. eapply RFails. reflexivity.
  - intros expected s. reflexivity.
Qed.
Print Assumptions C103_unsatisfiable_refuted.
