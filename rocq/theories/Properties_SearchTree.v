(** Properties C01-C06: the path search. *)
From Coq Require Import List Bool ZArith.
From Verif Require Import SearchTree_Model SearchTree_Spec SearchTree_Proofs SearchTree_Examples.
Import ListNotations.

Section Properties.
  (** Any type of inputs, of branch conditions, of realizable expressions and of
      values; any meaning for them; any deterministic program under analysis. *)
  Variables (Asg Expr VExpr Val : Type).
  Variable holds : Asg -> Expr -> bool.
  Variable veval : Asg -> VExpr -> Val.
  Variable expr_eqb : Expr -> Expr -> bool.
  Hypothesis expr_eqb_spec : forall a b, expr_eqb a b = true <-> a = b.
  Hypothesis val_dec : forall v w : Val, {v = w} + {v <> w}.
  Variable prog : list (ans Val) -> action Expr VExpr.

  Notation truthful := (truthful Asg Expr VExpr Val holds veval).
  Notation detach_ok := (detach_ok Expr VExpr Val prog).
  Notation assume_ok := (assume_ok Asg Expr VExpr Val holds veval prog).
  Notation no_par := (no_par Expr VExpr Val prog).
  Notation Runs := (Runs Asg Expr VExpr Val holds veval prog).
  Notation Agrees := (Agrees Asg Expr VExpr Val holds veval prog).
  Notation models := (models Asg Expr VExpr Val holds veval).
  Notation search := (search Expr VExpr Val expr_eqb prog).
  Notation iteration := (iteration Expr VExpr Val expr_eqb prog).
  Notation env := (env Expr VExpr Val).

  (** *** C01: a CONFIRMED verdict covers every input. *)
  Theorem C01_confirmed_sound : forall sched : list (nat * env),
    Forall (fun fe => truthful (snd fe)) sched -> detach_ok -> no_par ->
    n_status (search sched Stem) = Some Confirmed ->
    forall a, (exists o, Runs a [] o) /\ (forall o, Runs a [] o -> fine o).
  Proof.
    exact (fun sched F D N S => confirmed_sound_nopar Asg Expr VExpr Val holds veval expr_eqb
             expr_eqb_spec val_dec prog sched F D N (or_intror S)).
  Qed.

  (** With parallel forks (short-circuiting, premature realization), whose two
      sides are alternative ways to run the same program, every input still has
      a run with a good outcome, and the search is complete. *)
  Theorem C01_confirmed_sound_par : forall sched : list (nat * env),
    Forall (fun fe => truthful (snd fe)) sched -> detach_ok ->
    n_status (search sched Stem) = Some Confirmed ->
    n_exh (search sched Stem) = true /\ forall a, exists o, Runs a [] o /\ fine o.
  Proof.
    exact (fun sched F D S => confirmed_sound Asg Expr VExpr Val holds veval expr_eqb
             expr_eqb_spec val_dec prog sched F D (or_intror S)).
  Qed.

  (** *** C02: a reported counterexample is a real run. *)
  Theorem C02_refuted_real : forall sched : list (nat * env),
    Forall (fun fe => truthful (snd fe)) sched -> assume_ok -> inhabited Asg ->
    n_status (search sched Stem) = Some Refuted ->
    exists a o, Runs a [] o /\ refuting o.
  Proof.
    exact (refuted_sound Asg Expr VExpr Val holds veval expr_eqb expr_eqb_spec val_dec prog).
  Qed.

  (** *** C03: the search makes progress and ends. *)
  Theorem C03_terminates : forall d (sched : list (nat * env)),
    Forall (fun fe => truthful (snd fe) /\
                      forall h pc, e_abort (snd fe) h pc <> Some AbUnattached) sched ->
    Depth Expr VExpr Val prog d [] -> 2 ^ d <= length sched ->
    n_exh (search sched Stem) = true \/ n_status (search sched Stem) = Some Refuted.
  Proof.
    exact (search_terminates Asg Expr VExpr Val holds veval expr_eqb expr_eqb_spec val_dec prog).
  Qed.

  Theorem C03_finished_parts_frozen : forall (sched : list (nat * env)) fuel E,
    Forall (fun fe => truthful (snd fe)) sched -> truthful E ->
    n_exh (search sched Stem) = false ->
    frozen (search sched Stem) (o_node (iteration fuel E (search sched Stem))).
  Proof.
    exact (iteration_frozen Asg Expr VExpr Val holds veval expr_eqb expr_eqb_spec val_dec prog).
  Qed.

  (** *** C04: nothing unfinished below a confirmed (or ignored) position. *)
  Theorem C04_confirmed_is_closed : forall sched : list (nat * env),
    Forall (fun fe => truthful (snd fe)) sched ->
    AllPos (fun n => good_status (n_status n) -> n_exh n = true /\ is_open n = false)
           (search sched Stem).
  Proof.
    exact (search_closed Asg Expr VExpr Val holds veval expr_eqb expr_eqb_spec val_dec prog).
  Qed.

  (** *** C05: all answers given on one path come from one input. *)
  Theorem C05_path_consistent : forall (sched : list (nat * env)) fuel E,
    Forall (fun fe => truthful (snd fe)) sched -> truthful E -> assume_ok -> inhabited Asg ->
    n_exh (search sched Stem) = false ->
    let o := iteration fuel E (search sched Stem) in
    exists a, Agrees a (o_hist o) /\ models (o_pc o) a.
  Proof.
    exact (path_consistent Asg Expr VExpr Val holds veval expr_eqb expr_eqb_spec val_dec prog).
  Qed.

  Theorem C05_same_question_same_answer : forall (sched : list (nat * env)) fuel E,
    Forall (fun fe => truthful (snd fe)) sched -> truthful E -> assume_ok -> inhabited Asg ->
    n_exh (search sched Stem) = false ->
    forall l1 x t1 l2 y t2 e,
      o_hist (iteration fuel E (search sched Stem)) = l1 ++ x :: t1 ->
      o_hist (iteration fuel E (search sched Stem)) = l2 ++ y :: t2 ->
      prog t1 = AFork e -> prog t2 = AFork e -> x = y.
  Proof.
    exact (same_fork_same_answer Asg Expr VExpr Val holds veval expr_eqb expr_eqb_spec val_dec prog).
  Qed.

  (** *** C06: realizing an expression twice on one path gives the same value
      (and, by C05_path_consistent, one allowed by everything decided before and
      after). *)
  Theorem C06_realization_consistent : forall (sched : list (nat * env)) fuel E,
    Forall (fun fe => truthful (snd fe)) sched -> truthful E -> assume_ok -> inhabited Asg ->
    n_exh (search sched Stem) = false ->
    forall l1 x t1 l2 y t2 e,
      o_hist (iteration fuel E (search sched Stem)) = l1 ++ x :: t1 ->
      o_hist (iteration fuel E (search sched Stem)) = l2 ++ y :: t2 ->
      prog t1 = ARealize e -> prog t2 = ARealize e -> x = y.
  Proof.
    exact (same_realize_same_value Asg Expr VExpr Val holds veval expr_eqb expr_eqb_spec val_dec prog).
  Qed.
End Properties.

(** *** The hypotheses are met by concrete programs *)
Notation xsearch p := (search bool bool bool Bool.eqb p xsched Stem).

Example C01_witness :
  Forall (fun fe => truthful xAsg bool bool bool xholds xholds (snd fe)) xsched /\
  detach_ok bool bool bool xprog_ok /\ no_par bool bool bool xprog_ok /\
  n_status (xsearch xprog_ok) = Some Confirmed.
Proof.
  split; [exact xsched_truthful|]. split; [exact xprog_ok_detach|].
  split; [exact xprog_ok_nopar|]. vm_compute. reflexivity.
Qed.

Example C01_par_witness :
  detach_ok bool bool bool xprog_par /\ n_status (xsearch xprog_par) = Some Confirmed.
Proof. split; [exact xprog_par_detach|]. vm_compute. reflexivity. Qed.

Example C02_witness :
  assume_ok xAsg bool bool bool xholds xholds xprog_bad /\ inhabited xAsg /\
  n_status (xsearch xprog_bad) = Some Refuted.
Proof.
  split; [exact xprog_bad_assume|]. split; [exact (inhabits (true, true))|].
  vm_compute. reflexivity.
Qed.

Example C03_witness :
  Forall (fun fe => truthful xAsg bool bool bool xholds xholds (snd fe) /\
                    forall h pc, e_abort (snd fe) h pc <> Some AbUnattached) xsched /\
  Depth bool bool bool xprog_par 3 [] /\ 2 ^ 3 <= length xsched /\
  n_exh (search bool bool bool Bool.eqb xprog_par (firstn 1 xsched) Stem) = false.
Proof.
  split; [|split; [exact xprog_par_depth|split; [exact (le_n 8)|vm_compute; reflexivity]]].
  repeat (constructor; [split; [apply xenv_truthful | intros h pc H; discriminate H]|]).
  constructor.
Qed.

(** After two iterations, the tree is still open, and [frozen] constrains the
    part already finished. *)
Example C03_frozen_witness :
  let t := search bool bool bool Bool.eqb xprog_again (firstn 2 xsched) Stem in
  n_exh t = false /\ exists k f p q r x, t = Worst k f p q r x /\ (n_exh p = true \/ n_exh q = true \/
     exists k f p' q' r x, p = Worst k f p' q' r x /\ (n_exh p' || n_exh q' = true)).
Proof.
  vm_compute. split; [reflexivity|].
  do 6 eexists. split; [reflexivity|]. right; right.
  do 6 eexists. split; reflexivity.
Qed.

Example C04_witness :
  n_status (xsearch xprog_ok) = Some Confirmed /\ n_exh (xsearch xprog_ok) = true /\
  n_status (search bool bool bool Bool.eqb xprog_ok (firstn 1 xsched) Stem) = Some Unknown.
Proof. vm_compute. auto. Qed.

Example C05_C06_witness :
  assume_ok xAsg bool bool bool xholds xholds xprog_again /\
  let t := search bool bool bool Bool.eqb xprog_again (firstn 1 xsched) Stem in
  n_exh t = false /\
  o_hist (iteration bool bool bool Bool.eqb xprog_again 20 (xenv false) t)
    = [AVal false; AVal false; ABool false; ABool false; ABool false].
Proof. split; [exact xprog_again_assume|]. vm_compute. auto. Qed.

Print Assumptions C01_confirmed_sound.
Print Assumptions C01_confirmed_sound_par.
Print Assumptions C02_refuted_real.
Print Assumptions C03_terminates.
Print Assumptions C03_finished_parts_frozen.
Print Assumptions C04_confirmed_is_closed.
Print Assumptions C05_path_consistent.
Print Assumptions C05_same_question_same_answer.
Print Assumptions C06_realization_consistent.
