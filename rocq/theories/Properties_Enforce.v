(** C41: contract enforcement *)
From Coq Require Import List Bool Arith Lia.
From Verif Require Import Enforce_Model Enforce_Spec Enforce_Proofs.
Import ListNotations.

Definition unchecked (enforcing : option (list nat)) (f : nat) : Prop := match enforcing with None => True | Some l => In f l end.
Definition well_formed {V store old} (conditions : nat -> option (contract V store old)) : Prop :=
  forall f c, conditions f = Some c -> unknown_mutable _ _ _ c = false /\ ~ In None (pre _ _ _ c).

Lemma fits_unchecked store s e l : fits store (unchecked e) (W store s e l).
Proof.
  intro f. unfold unchecked, not_enforced. cbn. destruct e as [k|]; [|tauto]. rewrite existsb_exists. split.
  - intro I. exists f. split; [exact I|apply Nat.eqb_refl].
  - intros (g & I & E). apply Nat.eqb_eq in E. now subst.
Qed.

(** Full statement: for all contracts.  Proved for the contracts whose preconditions compile
    and whose mutable arguments are parameters: running code with enforcement has exactly the
    events, outcome and final state that contracts mean; and afterwards, also after an
    exception, the set of functions under check is as before. *)
Theorem C41_meaning_partial : forall V store old truth body (conditions : nat -> option (contract V store old)) bind copy_args,
  well_formed conditions -> forall enforcing s c t o s',
  does V store old truth body conditions bind copy_args (unchecked enforcing) s c t o s' <->
  exists n, run V store old truth body conditions bind copy_args n (W store s enforcing []) c = Some (o, W store s' enforcing t).
Proof.
  intros V store old truth body conditions bind copy_args WF e s c t o s'. split.
  - intro D. exact (proj1 (complete V store old truth body conditions bind copy_args WF) _ _ _ _ _ _ D (W store s e []) eq_refl (fits_unchecked store s e [])).
  - intros [n E]. destruct (run_sound V store old truth body conditions bind copy_args WF n _ _ _ _ _ E (fits_unchecked store s e [])) as (_ & t' & L & D). cbn in L, D. now subst.
Qed.
(** While a function's contract is being checked, it is not checked again. *)
Theorem C41_not_reentered_partial : forall V store old truth body (conditions : nat -> option (contract V store old)) bind copy_args,
  well_formed conditions -> forall n s c o w,
  run V store old truth body conditions bind copy_args n (W store s (Some []) []) c = Some (o, w) -> checks [] (log store w) = Some [].
Proof.
  intros V store old truth body conditions bind copy_args WF n s c o w E.
  destruct (run_sound V store old truth body conditions bind copy_args WF n _ _ _ _ _ E (fits_unchecked store s (Some []) [])) as (_ & t & L & D). cbn in L, D. rewrite L.
  apply (nesting V store old truth body conditions bind copy_args _ _ _ _ _ _ D). intros f [].
Qed.
(** The order for one call: a false precondition keeps the body from running ... *)
Theorem C41_precondition_partial : forall V store old truth body (conditions : nat -> option (contract V store old)) bind copy_args,
  well_formed conditions -> forall f c p l args a v s s1 t n,
  conditions f = Some c -> pre _ _ _ c = Some p :: l -> bind f a = Some args ->
  run V store old truth body conditions bind copy_args n (W store s (Some [f]) []) (p args) = Some (Returned V v, W store s1 (Some [f]) t) -> truth v = false ->
  exists m, run V store old truth body conditions bind copy_args m (W store s (Some []) []) (Call V store f a (Done V store)) =
    Some (PreconditionFailed V f, W store s1 (Some []) ([Checking f; EvalPre f 0] ++ t ++ [Checked f])).
Proof.
  intros V store old truth body conditions bind copy_args WF f c p l args a v s s1 t n C P B E T.
  destruct (run_sound V store old truth body conditions bind copy_args WF n _ _ _ _ (unless (fun _ => False) f) E) as (_ & t' & L & D).
  { intro g. unfold unless, not_enforced. cbn. destruct (g =? f) eqn:G; cbn; [apply Nat.eqb_eq in G|apply Nat.eqb_neq in G]; intuition congruence. }
  cbn in L, D. subst t'.
  refine (proj1 (complete V store old truth body conditions bind copy_args WF) (fun _ => False) s _ _ _ s1 _ (W store s (Some []) []) eq_refl _); [|intro; cbn; intuition congruence].
  assert (X : Checking f :: EvalPre f 0 :: t ++ [Checked f] = (Checking f :: (EvalPre f 0 :: t) ++ [Checked f]) ++ []) by (rewrite app_nil_r; reflexivity). cbn [app]. rewrite X.
  apply does_call with (o := PreconditionFailed V f) (s1 := s1); [|constructor].
  apply calls_pre with c args; auto. rewrite P. now apply pres_false with v.
Qed.
(** ... and with enforcement off a call is just the body. *)
Theorem C41_off : forall V store old truth body (conditions : nat -> option (contract V store old)) bind copy_args,
  forall n s c o w,
  run V store old truth body conditions bind copy_args n (W store s None []) c = Some (o, w) ->
  does V store old truth body (fun _ => None) bind copy_args (fun _ => True) s c (log store w) o (st store w).
Proof.
  intros V store old truth body conditions bind copy_args n s c o w E.
  assert (X : forall n w c o w', fns_enforcing store w = None -> run V store old truth body conditions bind copy_args n w c = Some (o, w') ->
            run V store old truth body (fun _ => None) bind copy_args n w c = Some (o, w') /\ fns_enforcing store w' = None).
  { clear. induction n as [|n IH]; intros w c o w' N E; [discriminate|]. cbn in *. destruct c as [o'|u k|f a k].
    - inversion E; subst. auto.
    - apply IH; auto.
    - destruct (match conditions f with None => _ | Some c => _ end) as [[o1 w1]|] eqn:C; [|discriminate].
      assert (R : run V store old truth body conditions bind copy_args n (emit store (Enter f) w) (body f a) = Some (o1, w1)).
      { destruct (conditions f); [|exact C]. unfold wrapper, not_enforced in C. rewrite N in C. exact C. }
      destruct (IH (emit store (Enter f) w) _ _ _ N R) as [R' N']. rewrite R'. apply IH; auto. }
  destruct (X n (W store s None []) c o w eq_refl E) as [E' _].
  assert (WF' : well_formed (fun _ : nat => @None (contract V store old))) by (intros f ct H; discriminate).
  destruct (run_sound V store old truth body _ bind copy_args WF' n _ _ _ _ _ E' (fits_unchecked store s None [])) as (_ & t & L & D). cbn in L, D. now rewrite L.
Qed.

(** ** What goes wrong for other contracts *)
(** A precondition that does not compile: calls raise TypeError (postconditions that do not
    compile are skipped). *)
Theorem C41_uncompiled_refuted : exists (body : nat -> bool -> code bool unit) (conditions : nat -> option (contract bool unit unit)) c,
  (exists n, run bool unit unit (fun b => b) body conditions (fun _ a => Some a) (fun _ _ => tt) n (W unit tt (Some []) []) c = Some (TypeErr bool, W unit tt (Some []) [Checking 0; Checked 0])) /\
  does bool unit unit (fun b => b) body conditions (fun _ a => Some a) (fun _ _ => tt) (fun _ => False) tt c [Checking 0; Checked 0; Enter 0; Checking 0; Checked 0] (Returned bool true) tt.
Proof.
  exists (fun _ a => Done bool unit (Returned bool a)), (fun _ => Some {| pre := [None]; post := [None]; unknown_mutable := false |}), (Call bool unit 0 true (Done bool unit)).
  split; [exists 2; reflexivity|].
  replace [Checking 0; Checked 0; Enter 0; Checking 0; Checked 0] with ((Checking 0 :: [] ++ [Checked 0; Enter 0] ++ [] ++ [Checking 0] ++ [] ++ [Checked 0]) ++ []) by reflexivity.
  eapply does_call; [|constructor]. eapply (calls_post _ _ _ _ _ _ _ _ _ _ _ _ _ _ _ _ _ true _ _ None); try reflexivity; try tauto; repeat constructor.
Qed.
(** A contract that names an unknown mutable argument: PostconditionFailed, though the body
    was not run. *)
Theorem C41_mutable_refuted : exists (body : nat -> bool -> code bool unit) (conditions : nat -> option (contract bool unit unit)) c,
  exists n, run bool unit unit (fun b => b) body conditions (fun _ a => Some a) (fun _ _ => tt) n (W unit tt (Some []) []) c = Some (PostconditionFailed bool 0, W unit tt (Some []) [Checking 0; Checked 0]).
Proof.
  exists (fun _ a => Done bool unit (Returned bool a)), (fun _ => Some {| pre := []; post := []; unknown_mutable := true |}), (Call bool unit 0 true (Done bool unit)), 2. reflexivity.
Qed.

(** f(x) with precondition f(x) (not checked again), whose body negates the state, and a
    postcondition about the old state. *)
Definition ex_body (f : nat) (a : bool) : code bool bool := Step bool bool negb (fun s => Done bool bool (Returned bool (negb s))).
Definition ex_conditions (f : nat) : option (contract bool bool bool) :=
  match f with
  | 0 => Some {| pre := [Some (fun a => Call bool bool 0 a (fun o => Call bool bool 1 a (Done bool bool)))];
                 post := [None; Some (fun a o r => Step bool bool (fun s => s) (fun s => Done bool bool (Returned bool (eqb s (eqb o r)))))]; unknown_mutable := false |}
  | 1 => Some {| pre := [Some (fun a => Done bool bool (Returned bool a))]; post := []; unknown_mutable := false |}
  | _ => None
  end.
Definition ex_run := run bool bool bool (fun b => b) ex_body ex_conditions (fun _ a => Some a) (fun _ s => s) 20.
Example C41_case : well_formed ex_conditions /\
  ex_run (W bool true (Some []) []) (Call bool bool 0 true (Done bool bool)) =
    Some (Returned bool false, W bool false (Some []) [Checking 0; EvalPre 0 0; Enter 0; Checking 1; EvalPre 1 0; Checked 1; Enter 1; Checking 1; Checked 1; Checked 0; Enter 0; Checking 0; EvalPost 0 1; Checked 0]) /\
  ex_run (W bool true (Some []) []) (Call bool bool 0 false (Done bool bool)) =
    Some (PreconditionFailed bool 1, W bool false (Some []) [Checking 0; EvalPre 0 0; Enter 0; Checking 1; EvalPre 1 0; Checked 1; Checked 0]) /\
  ex_run (W bool true (Some []) []) (Call bool bool 1 false (Done bool bool)) =
    Some (PreconditionFailed bool 1, W bool true (Some []) [Checking 1; EvalPre 1 0; Checked 1]) /\
  ex_run (W bool true None []) (Call bool bool 0 false (Done bool bool)) = Some (Returned bool false, W bool false None [Enter 0]).
Proof.
  split.
  - intros [|[|f]] c E; inversion E; subst; cbn; split; try reflexivity; intros H; intuition discriminate.
  - repeat split.
Qed.

Print Assumptions C41_meaning_partial.
Print Assumptions C41_not_reentered_partial.
Print Assumptions C41_precondition_partial.
Print Assumptions C41_off.
Print Assumptions C41_uncompiled_refuted.
Print Assumptions C41_mutable_refuted.
