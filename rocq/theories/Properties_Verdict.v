(** C09: what the user is told agrees with what the search found. *)
From Coq Require Import List Bool ZArith Lia.
From Verif Require Import SearchTree_Model SearchTree_Spec SearchTree_Examples
  Py Verdict_Model Verdict_Spec Verdict_Proofs.
Import ListNotations.

Section Claims.
  (** Inputs, solver expressions and values; the contract and body under analysis. *)
  Variables (Asg Expr VExpr Val : Type).
  Variable holds : Asg -> Expr -> bool.
  Variable veval : Asg -> VExpr -> Val.
  Variable expr_eqb : Expr -> Expr -> bool.
  Hypothesis expr_eqb_spec : forall a b, expr_eqb a b = true <-> a = b.
  Hypothesis val_dec : forall v w : Val, {v = w} + {v <> w}.
  Variable code : list (ans Val) -> req Expr VExpr + path.
  Variable cex : list (ans Val) -> option (VExpr + Expr).
  Notation Does := (Does Asg Expr VExpr Val holds veval code).
  Notation truthful := (truthful Asg Expr VExpr Val holds veval).
  Notation assumes_well := (assumes_well Asg Expr VExpr Val holds veval code).
  Notation no_alternatives := (no_alternatives Expr VExpr Val code).
  Notation analyze := (analyze Expr VExpr Val expr_eqb code cex).
  Notation env := (env Expr VExpr Val).

  (** "Confirmed over all paths": it is the only message, the code was run to the
      end for every input, and no input violates the contract. *)
  Theorem C09_confirmed : forall (n : nat) (pres : list Z) (sched : list (nat * env)) ms,
    Forall (fun fe => truthful (snd fe)) sched -> no_alternatives ->
    analyze n pres sched = Ok ms -> In MConfirmed ms ->
    ms = [MConfirmed] /\
    forall a, (exists po, Does a [] po) /\
      forall p, Does a [] (Some p) -> forall m, ~ counterexample p m.
  Proof.
    exact (confirmed_means Asg Expr VExpr Val holds veval expr_eqb expr_eqb_spec val_dec code cex).
  Qed.

  (** Some input got past the preconditions to a checked postcondition or a declared
      exception, unless a precondition itself raised a declared exception. *)
  Theorem C09_confirmed_reached_partial : forall (n : nat) (pres : list Z) (sched : list (nat * env)) ms,
    Forall (fun fe => truthful (snd fe)) sched -> assumes_well -> inhabited Asg ->
    analyze n pres sched = Ok ms -> ms = [MConfirmed] ->
    exists a p, Does a [] (Some p) /\
      (satisfied p \/
       exists before line after,
         p_pres p = before ++ (line, Some (EvRaise XExpected)) :: after /\
         forall l o, In (l, Some o) before -> o = EvTrue).
  Proof.
    exact (confirmed_reached Asg Expr VExpr Val holds veval expr_eqb expr_eqb_spec val_dec code cex).
  Qed.

  (** Every counterexample message is of the right kind for some input. *)
  Theorem C09_counterexamples_real : forall (n : nat) (pres : list Z) (sched : list (nat * env)) ms m,
    Forall (fun fe => truthful (snd fe)) sched -> assumes_well -> inhabited Asg ->
    analyze n pres sched = Ok ms -> In (MPath m) ms ->
    exists a p, Does a [] (Some p) /\ counterexample p m.
  Proof.
    exact (messages_real Asg Expr VExpr Val holds veval expr_eqb expr_eqb_spec val_dec code cex).
  Qed.

  (** The analysis always ends with at least one message (when at least one
      iteration is allowed), and its internal assertion never fails. *)
  Theorem C09_answers_partial : forall (n : nat) (pres : list Z) (sched : list (nat * env)),
    Forall (fun fe => truthful (snd fe)) sched -> assumes_well -> inhabited Asg ->
    0 < n -> exists ms, analyze n pres sched = Ok ms /\ ms <> [].
  Proof.
    intros n pres sched F W A N.
    destruct (calltree_returns Asg Expr VExpr Val holds veval expr_eqb expr_eqb_spec val_dec code cex
                n pres sched F W A N) as [v V].
    assert (exists ms, analyze n pres sched = Ok ms) as [ms M].
    { unfold Verdict_Model.analyze. rewrite V. cbn. eauto. }
    exists ms. split; auto.
    exact (always_speaks Asg Expr VExpr Val holds veval expr_eqb expr_eqb_spec val_dec code cex
             n pres sched ms F W A M).
  Qed.

  (** "Not confirmed" is shown exactly when the search neither found a violation nor
      confirmed everything, and some path got past the preconditions (or there are
      none). *)
  Theorem C09_not_confirmed : forall (n : nat) (pres : list Z) (sched : list (nat * env)) v ms,
    analyze_calltree Expr VExpr Val expr_eqb code cex n pres sched = Ok v ->
    analyze n pres sched = Ok ms ->
    (In MCannotConfirm ms <-> v_status v = Unknown) /\
    (In MConfirmed ms <-> v_status v = Confirmed) /\
    (v_status v = Refuted -> ms = v_msgs v).
  Proof.
    intros n pres sched v ms V M. unfold Verdict_Model.analyze in M. rewrite V in M.
    inversion M; clear M.
    assert (K : v_status v = Refuted -> ~ In MCannotConfirm (v_msgs v) /\ ~ In MConfirmed (v_msgs v)).
    { clear H0. unfold analyze_calltree in V. intros _.
      set (s := fst _) in V. clearbody s.
      assert (G : forall x l, ~ In x (map MPath l) \/ exists m, x = MPath m).
      { intros x l. destruct x; try (left; intro I; apply in_map_iff in I as (y & E & _); discriminate).
        right. eauto. }
      destruct (l_fp s) as [[line w]|].
      - destruct (negb _); [discriminate|]. destruct (Nat.eqb n 0); [discriminate|].
        inversion V; subst v. cbn. split; intro I; apply in_app_or in I as [I|[I|[]]]; try discriminate;
          match type of I with In ?x (map _ ?l) => destruct (G x l) as [E|[m E]]; [exact (E I)|discriminate] end.
      - destruct (Nat.eqb n 0); [discriminate|].
        inversion V; subst v. cbn. split; intro I;
          match type of I with In ?x (map _ ?l) => destruct (G x l) as [E|[m E]]; [exact (E I)|discriminate] end. }
    destruct (v_status v); cbn.
    - destruct (K eq_refl). repeat split; try tauto; try discriminate.
    - repeat split; try discriminate; auto; intros [E|[]]; discriminate.
    - repeat split; try discriminate; auto; intros [E|[]]; discriminate.
  Qed.

  (** "Unable to meet precondition": there is a precondition, and no path that was
      tried ended with the contract satisfied or violated.  Missing from the full
      property: paths cut short after the preconditions held ([A_unknown]). *)
  Theorem C09_pre_unsat_partial : forall (n : nat) (pres : list Z) (sched : list (nat * env)) ms line w,
    Forall (fun fe => truthful (snd fe)) sched -> assumes_well -> inhabited Asg ->
    analyze n pres sched = Ok ms -> In (MPreUnsat line w) ms ->
    pres <> [] /\
    Forall (fun r => r = A_unknown \/
                     exists a p, Does a [] (Some p) /\ ends p (Ended r) /\
                                 ~ satisfied p /\ forall m, ~ counterexample p m)
      (snd (loop Expr VExpr Val expr_eqb code cex (firstn n sched) (start Expr VExpr Val pres))).
  Proof.
    intros n pres sched ms line w F W A An I.
    destruct (pre_unsat Asg Expr VExpr Val holds veval expr_eqb expr_eqb_spec val_dec code cex
                n pres sched ms line w F W A An I) as (P & U & L).
    split; auto. rewrite Forall_forall in *. intros r Ir.
    destruct (U r Ir) as [->|S]; [now left|]. destruct (L r Ir) as [->|(a & p & D & En)]; [now left|].
    right. exists a, p. split; auto. split; auto. split.
    - intro Sa. rewrite (satisfied_ends p r Sa En) in S. discriminate.
    - intros m C. rewrite (counterexample_ends p m r C En) in S. discriminate.
  Qed.
End Claims.
Print Assumptions C09_confirmed.
Print Assumptions C09_confirmed_reached_partial.
Print Assumptions C09_counterexamples_real.
Print Assumptions C09_answers_partial.
Print Assumptions C09_not_confirmed.
Print Assumptions C09_pre_unsat_partial.

(** *** Concrete contracts over two boolean inputs. *)
Definition v_pre (b : bool) : ev := if b then EvTrue else EvFalse.

(** pre: the first input; the postcondition holds. *)
Definition v_good (h : list (ans bool)) : req bool bool + path :=
  match h with
  | [] => inl (QFork true)
  | ABool b :: _ => inr (mkPath [(1%Z, Some (v_pre b))] None false EvTrue true)
  | _ => inr (mkPath [] None false EvTrue true)
  end.
(** The same, but the postcondition is the second input. *)
Definition v_bad (h : list (ans bool)) : req bool bool + path :=
  match h with
  | [] => inl (QFork true)
  | [ABool true] => inl (QRealize false)
  | [ABool _] => inr (mkPath [(1%Z, Some EvFalse)] None false EvTrue true)
  | AVal b :: _ => inr (mkPath [(1%Z, Some EvTrue)] None false (v_pre b) true)
  | _ => inr (mkPath [] None false EvTrue true)
  end.
Definition v_cex (h : list (ans bool)) : option (bool + bool) :=
  match h with [AUnit; _; _] => Some (inl true) | _ => None end.
(** The precondition never holds. *)
Definition v_unsat (h : list (ans bool)) : req bool bool + path :=
  inr (mkPath [(1%Z, Some EvTrue); (2%Z, Some EvFalse)] None false EvTrue true).
(** The precondition always holds but the body uses something unsupported. *)
Definition v_unsupported (h : list (ans bool)) : req bool bool + path :=
  inr (mkPath [(1%Z, Some EvTrue)] (Some XProxy) false EvTrue true).
(** The precondition always raises an exception listed under "raises:". *)
Definition v_excused (h : list (ans bool)) : req bool bool + path :=
  inr (mkPath [(1%Z, Some (EvRaise XExpected))] None false EvFalse true).

Notation v_analyze c := (analyze bool bool bool Bool.eqb c v_cex).

Lemma v_assumes c : (forall h e, c h <> inl (QAssume e)) ->
  assumes_well xAsg bool bool bool xholds xholds c.
Proof. intros N a h e _ H. destruct (N h e H). Qed.
Lemma v_good_q h : (forall e, v_good h <> inl (QAssume e)) /\ v_good h <> inl QPar.
Proof. destruct h as [|[]]; cbn; split; intros; discriminate. Qed.
Lemma v_bad_q h : (forall e, v_bad h <> inl (QAssume e)) /\ v_bad h <> inl QPar.
Proof. destruct h as [|[[]| |] [|]]; cbn; split; intros; discriminate. Qed.

(** Witness for C09_confirmed and C09_confirmed_reached_partial. *)
Example C09_confirmed_nonvacuous :
  v_analyze v_good 8 [1%Z] xsched = Ok [MConfirmed] /\
  Forall (fun fe => truthful xAsg bool bool bool xholds xholds (snd fe)) xsched /\
  no_alternatives bool bool bool v_good /\
  assumes_well xAsg bool bool bool xholds xholds v_good /\ inhabited xAsg.
Proof.
  split; [reflexivity|]. split; [apply xsched_truthful|].
  split; [intro h; apply v_good_q|]. split; [apply v_assumes; apply v_good_q|].
  exact (inhabits (true, true)).
Qed.

(** Witness for C09_counterexamples_real and C09_answers_partial. *)
Example C09_counterexample_nonvacuous :
  v_analyze v_bad 8 [1%Z] xsched = Ok [MPath msg_post_fail] /\
  assumes_well xAsg bool bool bool xholds xholds v_bad.
Proof. split; [reflexivity|]. apply v_assumes. apply v_bad_q. Qed.

Example C09_not_confirmed_nonvacuous :
  v_analyze v_good 1 [] xsched = Ok [MCannotConfirm].
Proof. reflexivity. Qed.

Example C09_pre_unsat_nonvacuous :
  v_analyze v_unsat 8 [1%Z; 2%Z] xsched = Ok [MPreUnsat 2 0] /\
  assumes_well xAsg bool bool bool xholds xholds v_unsat.
Proof. split; [reflexivity|]. apply v_assumes. discriminate. Qed.

(** "Unable to meet precondition" is shown although the precondition was met: the
    body was cut short afterwards (core.py 1296-1300 is skipped when attempt_call
    raises UnexploredPath). *)
Theorem C09_pre_unsat_refuted :
  exists (c : list (ans bool) -> req bool bool + path) n pres,
    Forall (fun fe => truthful xAsg bool bool bool xholds xholds (snd fe)) xsched /\
    (forall a, exists p, Does xAsg bool bool bool xholds xholds c a [] (Some p) /\ pre_met p) /\
    exists line, v_analyze c n pres xsched = Ok [MPreUnsat line 0].
Proof.
  exists v_unsupported, 8, [1%Z]. split; [apply xsched_truthful|]. split.
  - intro a. eexists. split; [constructor; reflexivity|].
    intros line o [H|[]]. now inversion H.
  - exists 1%Z. reflexivity.
Qed.

(** "Confirmed over all paths" is shown although no input ever got past the
    precondition, whose evaluation raised an exception listed under "raises:". *)
Theorem C09_confirmed_reached_refuted :
  exists (c : list (ans bool) -> req bool bool + path) n pres,
    v_analyze c n pres xsched = Ok [MConfirmed] /\
    forall a p, Does xAsg bool bool bool xholds xholds c a [] (Some p) -> ~ pre_met p.
Proof.
  exists v_excused, 8, [1%Z]. split; [reflexivity|].
  intros a p D M. inversion D as [h0 p0 C| | | | | |]; subst; try discriminate.
  unfold v_excused in C. injection C as <-.
  specialize (M 1%Z _ (or_introl eq_refl)). discriminate.
Qed.

(** With max_iterations = 0 the analysis crashes. *)
Theorem C09_answers_refuted :
  exists (c : list (ans bool) -> req bool bool + path) pres,
    v_analyze c 0 pres xsched = Err UnboundLocalError.
Proof. exists v_good, []. reflexivity. Qed.
Print Assumptions C09_pre_unsat_refuted.
Print Assumptions C09_confirmed_reached_refuted.
Print Assumptions C09_answers_refuted.
