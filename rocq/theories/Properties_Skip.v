(** C82: skipping calls of functions with contracts does not change what is reported. *)
From Coq Require Import ZArith List Bool PeanoNat Lia.
From Verif Require Import Py Skip_Model Skip_Spec Skip_Proofs.
Import ListNotations.

(** which calls are skipped by a list of choices *)
Definition skips {V} (ds : list (option V)) : list bool := map (fun d => match d with Some _ => true | None => false end) ds.
(** no function, called as its precondition asks, changes an object that a call returned to it *)
Definition results_kept {V} (fns : nat -> fn_ V) : Prop := forall f vs, pre (fns f) vs = true -> keeps V (length vs) (body (fns f)).

(** FULL: for all programs, a path that is reported is what the program does.
    Proved for programs that do not change the objects that calls returned to them, and with an ==
    that holds for equal values only; false otherwise (below).
    If a path is reported as a counterexample, then the program, run by Python without skipping
    anything, returns a wrong result or raises, or a contract of a function it calls is broken. *)
Theorem skip_counterexamples_real_partial : forall V dflt veq fns fuel ds p h good,
  (forall a b, veq a b = true -> a = b) -> results_kept fns -> keeps V (length h) p ->
  attempt V dflt veq fns fuel ds p h good = Refuted ->
  (exists v, does V dflt fns p h (Ok v) /\ good v = false) \/ (exists e, does V dflt fns p h (Err e)) \/
  ends V dflt fns p h PreconditionFailed \/ ends V dflt fns p h PostconditionFailed.
Proof.
  intros V dflt veq fns fuel ds p h good Eq B K H. unfold attempt in H.
  destruct (skipping V dflt fns fuel ds p h []) as [[[o ds'] later]|] eqn:E; [|discriminate].
  assert (Rep : report V dflt veq fns fuel later = Refuted -> Forall (real V dflt fns) later).
  { unfold report. destruct (reconcile V dflt veq fns fuel later) eqn:R; try discriminate. intros _. eapply reconcile_real; eassumption. }
  assert (So : report V dflt veq fns fuel later = Refuted -> o <> PostconditionFailed -> similar V dflt fns p h o).
  { intros R O. eapply (skipping_sound V dflt fns B); [exact E|exact K|apply Nat.le_refl|apply Forall_nil|now apply Rep|exact O]. }
  destruct o as [v|e| |].
  - destruct (good v) eqn:G; [discriminate|]. destruct (So H ltac:(discriminate)) as [D _]. left. eauto.
  - destruct (So H ltac:(discriminate)) as [D _]. right. left. eauto.
  - destruct (So H ltac:(discriminate)) as [_ (o' & En & [->|[->| ->]])]; auto.
  - discriminate.
Qed.

(** FULL: for all programs, if no path that skips certain calls is reported, nothing is wrong.
    Proved under the same condition, and if the functions that are skipped return and keep their
    contracts; false otherwise (below).
    Given which calls are skipped, if no path is reported then the run without skipping is not wrong. *)
Theorem skip_confirmations_real_partial : forall V dflt veq fns bs p h good,
  (forall a, veq a a = true) -> results_kept fns -> keeps V (length h) p ->
  (forall f, pure (fns f) = true -> honours V dflt fns (fns f)) ->
  (forall fuel ds, skips ds = bs -> attempt V dflt veq fns fuel ds p h good <> Refuted) ->
  forall o, ends V dflt fns p h o -> ~ wrong V good o.
Proof.
  intros V dflt veq fns bs p h good Eq B K Ho No o E W.
  destruct (skipping_finds V dflt fns B Ho p h o E (length h) [] bs K (Nat.le_refl _) (conj (Forall_nil _) (Forall_nil _))) as (u & r & Bs & F).
  destruct (F (map (fun b : bool => if b then Some dflt else None) r)) as (ds & fuel & later & D & Sk & R).
  { unfold pattern. rewrite map_map. rewrite <- (map_id r) at 2. apply map_ext. intros [|]; reflexivity. }
  destruct (real_reconcile V dflt veq fns Eq later R) as (m & Rc).
  apply (No (fuel + m) (ds ++ map (fun b : bool => if b then Some dflt else None) r)).
  - unfold skips. rewrite map_app. unfold pattern in D. rewrite D, Bs. f_equal. rewrite map_map. rewrite <- (map_id r) at 2. apply map_ext. intros [|]; reflexivity.
  - unfold attempt. rewrite (skipping_more V dflt fns _ (fuel + m) _ _ _ _ _ Sk) by lia. unfold report. rewrite Rc by lia.
    destruct o as [v|e| |]; cbn [wrong] in W; try reflexivity; [now rewrite W|contradiction].
Qed.
(** nor are all of them ignored: the outcome of the run without skipping is found *)
Theorem skip_never_all_ignored_partial : forall V dflt veq fns bs p h good o,
  (forall a, veq a a = true) -> results_kept fns -> keeps V (length h) p ->
  (forall f, pure (fns f) = true -> honours V dflt fns (fns f)) ->
  ends V dflt fns p h o -> o <> PostconditionFailed ->
  exists fuel ds, skips ds = bs /\
    ((wrong V good o /\ attempt V dflt veq fns fuel ds p h good = Refuted) \/ (~ wrong V good o /\ attempt V dflt veq fns fuel ds p h good = Confirmed)).
Proof.
  intros V dflt veq fns bs p h good o Eq B K Ho E O.
  destruct (skipping_finds V dflt fns B Ho p h o E (length h) [] bs K (Nat.le_refl _) (conj (Forall_nil _) (Forall_nil _))) as (u & r & Bs & F).
  destruct (F (map (fun b : bool => if b then Some dflt else None) r)) as (ds & fuel & later & D & Sk & R).
  { unfold pattern. rewrite map_map. rewrite <- (map_id r) at 2. apply map_ext. intros [|]; reflexivity. }
  destruct (real_reconcile V dflt veq fns Eq later R) as (m & Rc).
  exists (fuel + m), (ds ++ map (fun b : bool => if b then Some dflt else None) r). split.
  - unfold skips. rewrite map_app. unfold pattern in D. rewrite D, Bs. f_equal. rewrite map_map. rewrite <- (map_id r) at 2. apply map_ext. intros [|]; reflexivity.
  - unfold attempt. rewrite (skipping_more V dflt fns _ (fuel + m) _ _ _ _ _ Sk) by lia. unfold report. rewrite Rc by lia.
    destruct o as [v|e| |]; cbn [wrong]; [|left; auto|left; auto|congruence]. destruct (good v); [right; split; [discriminate|reflexivity]|left; auto].
Qed.
(** a run has one outcome, and Python does the same *)
Theorem skip_reference_determined : forall V dflt fns p h o, ends V dflt fns p h o ->
  (forall o', ends V dflt fns p h o' -> o' = o) /\
  match o with Returns v => does V dflt fns p h (Ok v) | Raises e => does V dflt fns p h (Err e) | _ => True end.
Proof. intros V dflt fns p h o E. split; [intros o' E'; symmetry; now apply (ends_fun V dflt fns p h o E)|now apply ends_does]. Qed.

(** def f(): return 1, declared pure; the caller changes what f returned *)
Open Scope Z_scope.
Definition const (r : res Z) : fn_ Z :=
  {| body := match r with Ok v => Ret v | Err e => Raise e end; pre := fun _ => true; post := fun _ _ => true; pure := true |}.
Definition call_and_change : prog Z := Call 0 [] (fun r => match r with Ok x => Update x (fun v => v + 1) (Look x (fun v => Ret v)) | Err e => Raise e end).
Definition call_only : prog Z := Call 0 [] (fun r => match r with Ok x => Look x (fun v => Ret v) | Err e => Raise e end).
(** a counterexample is reported though the program returns 2, which is good *)
Theorem skip_changed_result_refuted : exists fuel ds good,
  attempt Z 0 Z.eqb (fun _ => const (Ok 1)) fuel ds call_and_change [] good = Refuted /\
  (forall r, does Z 0 (fun _ => const (Ok 1)) call_and_change [] r -> r = Ok 2) /\ good 2 = true /\
  ends Z 0 (fun _ => const (Ok 1)) call_and_change [] (Returns 2).
Proof.
  exists 9%nat, [Some 0], (fun v => negb (v =? 1)). split; [reflexivity|]. assert (E : ends Z 0 (fun _ => const (Ok 1)) call_and_change [] (Returns 2)).
  { unfold call_and_change. eapply ends_call; [reflexivity|apply ends_ret|reflexivity|]. apply ends_update, ends_look. apply ends_ret. }
  split; [|split; [reflexivity|exact E]]. intros r D. apply ends_does in E. exact (does_fun Z 0 _ _ _ _ _ D E).
Qed.
(** the function raises: every path that skips it is confirmed, but the program raises *)
Theorem skip_raising_function_refuted : exists good,
  (forall fuel ds, skips ds = [true] -> (5 <= fuel)%nat -> attempt Z 0 Z.eqb (fun _ => const (Err ValueError)) fuel ds call_only [] good = Confirmed) /\
  does Z 0 (fun _ => const (Err ValueError)) call_only [] (Err ValueError).
Proof.
  exists (fun _ => true). split.
  - intros fuel ds D L. destruct ds as [|[v|] [|d ds]]; try discriminate. do 5 (destruct fuel as [|fuel]; [lia|]). reflexivity.
  - unfold call_only. eapply does_catch; [apply does_raise|apply does_raise].
Qed.
(** ... or the exception ends the analysis, when a path is about to be reported *)
Theorem skip_reconcile_raises_refuted : exists fuel ds good,
  attempt Z 0 Z.eqb (fun _ => const (Err ValueError)) fuel ds call_only [] good = Crashes ValueError.
Proof. exists 9%nat, [Some 0], (fun _ => false). reflexivity. Qed.
(** values that are equal but not the same (1 and True): a counterexample that is not real *)
Theorem skip_equal_not_same_refuted : exists fuel ds good,
  attempt (bool * Z) (false, 0) (fun a b => snd a =? snd b) (fun _ => {| body := Ret (true, 1); pre := fun _ => true; post := fun _ _ => true; pure := true |}) fuel ds
    (Call 0 [] (fun r => match r with Ok x => Look x (fun v => Ret v) | Err e => Raise e end)) [] good = Refuted /\ good (true, 1) = true.
Proof. exists 9%nat, [Some (false, 1)], fst. split; reflexivity. Qed.
Print Assumptions skip_counterexamples_real_partial.
Print Assumptions skip_confirmations_real_partial.
Print Assumptions skip_never_all_ignored_partial.
Print Assumptions skip_reference_determined.
Print Assumptions skip_changed_result_refuted.
Print Assumptions skip_raising_function_refuted.
Print Assumptions skip_reconcile_raises_refuted.
Print Assumptions skip_equal_not_same_refuted.

(** def twice(x): pre: x >= 0, post: _ >= x.  The program calls it on its argument and returns the
    result; 6 is a wrong result. *)
Definition twice : fn_ Z :=
  {| body := Look 0 (fun v => Ret (v + v)); pre := fun vs => match vs with [v] => 0 <=? v | _ => false end;
     post := fun vs r => match vs with [v] => v <=? r | _ => false end; pure := true |}.
Definition call_twice : prog Z := Call 0 [0%nat] (fun r => match r with Ok x => Look x (fun v => Ret v) | Err e => Raise e end).
Example skip_hypotheses : results_kept (fun _ => twice) /\ keeps Z (length [3]) call_twice /\ (forall f : nat, pure ((fun _ => twice) f) = true -> honours Z 0 (fun _ => twice) twice).
Proof.
  split; [|split].
  - intros f vs _. apply keeps_look. intro. apply keeps_ret.
  - apply keeps_call. intros [x|e]; [apply keeps_look; intro; apply keeps_ret|apply keeps_raise].
  - intros _ _ vs P. destruct vs as [|v [|w vs]]; try discriminate. exists (v + v). split; [apply ends_look, ends_ret|]. cbn in *. lia.
Qed.
(** of the paths that skip the call, the ones with 6 are reported, the others not *)
Example skip_runs : attempt Z 0 Z.eqb (fun _ => twice) 9 [Some 6] call_twice [3] (fun v => negb (v =? 6)) = Refuted /\
  attempt Z 0 Z.eqb (fun _ => twice) 9 [Some 7] call_twice [3] (fun v => negb (v =? 7)) = Ignored /\
  attempt Z 0 Z.eqb (fun _ => twice) 9 [Some 7] call_twice [3] (fun v => negb (v =? 6)) = Confirmed /\
  attempt Z 0 Z.eqb (fun _ => twice) 9 [Some 2] call_twice [3] (fun v => negb (v =? 2)) = Ignored /\
  attempt Z 0 Z.eqb (fun _ => twice) 9 [None] call_twice [-3] (fun v => true) = Refuted.
Proof. repeat split. Qed.
