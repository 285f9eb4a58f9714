(* Properties of the command line front end. *)
From Coq Require Import ZArith List Bool Lia.
From Verif Require Import Cli_Model Cli_Spec Cli_Proofs.
Import ListNotations.
Local Open Scope Z_scope.

(* ------------------------------------------------------------------ *)
(** * C100: exit status and output of check *)

(** The property wanted: check exits with 1 exactly when it found a counterexample, with 2
    when something else went wrong and with 0 otherwise.  Proved: once all targets are
    loaded, the status is 1 if some counterexample was found or some contract could not be
    understood, and 0 otherwise; one error line is printed for each such message, in order,
    and nothing else unless all results were asked for. *)
Theorem check_status_partial : forall import analyze report_all ts entities,
  load_targets import ts = inl entities ->
  let '(status, out) := check import analyze report_all ts in
  (status = 1 <-> exists m, In m (analyze entities) /\ problem m)
  /\ (status = 0 \/ status = 1)
  /\ filter is_error_line out = map error_line (filter is_problem (analyze entities))
  /\ (report_all = false -> out = map error_line (filter is_problem (analyze entities))).
Proof.
  intros import analyze ra ts es H. unfold check. rewrite H.
  destruct (report_ok ra (analyze es) false) as [H1 [H2 H3]].
  destruct (report ra (analyze es) false) as [out p]. cbn [fst snd orb] in *. subst p.
  assert (HE : existsb is_problem (analyze es) = true <-> exists m, In m (analyze es) /\ problem m).
  { rewrite existsb_exists. split; intros [m [Hm HP]]; exists m; split; auto; apply is_problem_ok; auto. }
  destruct (existsb is_problem (analyze es)) eqn:EE.
  - repeat split; auto; intros; apply HE; auto.
  - repeat split; auto; try discriminate. intro HX. apply HE in HX. discriminate.
Qed.
Print Assumptions check_status_partial.

(** Targets that do not exist or cannot be imported: status 2, no output. *)
Theorem check_load_failure_status : forall import analyze report_all ts,
  load_targets import ts = inr FileNotFoundError \/ load_targets import ts = inr ErrorDuringImport ->
  check import analyze report_all ts = (2, []).
Proof. intros import analyze ra ts [H|H]; unfold check; rewrite H; reflexivity. Qed.
Print Assumptions check_load_failure_status.

(** Status 0 means that every target was found and that nothing wrong was found in them. *)
Theorem check_success_means_success : forall import analyze report_all ts,
  fst (check import analyze report_all ts) = 0 ->
  exists entities, load_targets import ts = inl entities
  /\ (forall m, In m (analyze entities) -> ~ problem m)
  /\ forall t, In t ts ->
     match t with
     | TName parts => exists o, denotes import parts o
     | TFileAtLine r | TPath r => exists o, r = LObj o
     end.
Proof.
  intros import analyze ra ts H.
  destruct (load_targets import ts) as [es|e] eqn:E.
  - exists es. split; [reflexivity|]. split.
    + pose proof (check_status_partial import analyze ra ts es E) as HS.
      destruct (check import analyze ra ts) as [st out]. cbn in H. subst st.
      destruct HS as [HS _]. intros m Hm HP.
      assert (0 = 1) by (apply HS; eauto). discriminate.
    + eapply targets_loaded. exact E.
  - unfold check in H. rewrite E in H. destruct e; discriminate.
Qed.
Print Assumptions check_success_means_success.

(** Names on the command line denote what Python's import system and attribute lookup give
    for them. *)
Theorem target_name_resolution : forall import parts o,
  load_by_qualname import parts = LObj o <-> denotes import parts o.
Proof. exact load_ok. Qed.
Print Assumptions target_name_resolution.

(** a module 1 holding a function 2 *)
Definition one_module (p : list Z) : import_result :=
  match p with
  | [x] => if x =? 1 then Imported (OModule [(2, OFunction)]) else NoSuchModule
  | _ => NoSuchModule
  end.

(** A misspelt function name ends in an exception that nothing catches, so the process exits
    with the status for "counterexample found" although nothing was analysed. *)
Theorem check_status_refuted : exists import ts,
  forall analyze report_all, check import analyze report_all ts = (1, []).
Proof. exists one_module, [TName [1; 3]]. reflexivity. Qed.
Print Assumptions check_status_refuted.

(** A contract with a syntax error also gives the status for "counterexample found". *)
Theorem check_status_syntax_refuted : exists import analyze ts entities,
  load_targets import ts = inl entities
  /\ (forall m, In m (analyze entities) -> ~ counterexample m)
  /\ fst (check import analyze false ts) = 1.
Proof.
  exists one_module, (fun _ => [Msg SYNTAX_ERR 9 4 0]), [TName [1; 2]], [OFunction].
  split; [reflexivity|]. split; [|reflexivity].
  intros m [<-|[]] [H|[H|H]]; discriminate.
Qed.
Print Assumptions check_status_syntax_refuted.

Example check_witness :
  let ms := [Msg CONFIRMED 9 1 0; Msg POST_FAIL 9 4 1; Msg POST_ERR 9 8 2] in
  load_targets one_module [TPath (LObj (OModule [])); TName [1; 2]] = inl [OFunction; OModule []]
  /\ check one_module (fun _ => ms) false [TName [1; 2]]
     = (1, [Line 9 4 Error false 1; Line 9 8 Error true 2])
  /\ check one_module (fun _ => ms) true [TName [1; 2]]
     = (1, [Line 9 1 Info false 0; Line 9 4 Error false 1; Line 9 8 Error true 2])
  /\ check one_module (fun _ => []) true [TName [1; 2]] = (0, [])
  /\ check one_module (fun _ => ms) true [TName [5; 2]] = (2, []).
Proof. repeat split; reflexivity. Qed.

(* ------------------------------------------------------------------ *)
(** * C101: what watch displays *)

(** On a terminal whose lines can be rewritten: after every pass, the display shows, of the
    problems reported since the files last changed, the first at each place. *)
Theorem watch_display_partial : forall old since last,
  (old = [] \/ exists o p, old = o ++ [p] /\ interrupted p = true) ->
  (forall p, In p since -> interrupted p = false) ->
  first_at_each_place (problems_in (since ++ [last]))
                      (screen (watch_loop true (old ++ since ++ [last]))).
Proof.
  intros old since last HO HN.
  destruct (loop_settled (old ++ since ++ [last])) as [_ [HS [_ HA]]].
  rewrite HS. eapply HA; eauto.
Qed.
Print Assumptions watch_display_partial.

(** On other terminals a change of the files is overlooked when it brings no new problem:
    a problem that has been fixed stays on the display. *)
Theorem watch_display_refuted : exists old last,
  (exists o p, old = o ++ [p] /\ interrupted p = true)
  /\ problems_in [last] = []
  /\ screen (watch_loop false (old ++ [last])) = [Msg POST_FAIL 9 4 1]
  /\ screen (watch_loop true (old ++ [last])) = [].
Proof.
  exists [[Batch [Msg POST_FAIL 9 4 1] false; Batch [] true]], [Batch [Msg CONFIRMED 9 4 0] false].
  split; [|repeat split; reflexivity].
  exists [], [Batch [Msg POST_FAIL 9 4 1] false; Batch [] true]. split; reflexivity.
Qed.
Print Assumptions watch_display_refuted.

Example watch_display_witness :
  let p1 := [Batch [Msg POST_FAIL 9 4 1; Msg CONFIRMED 9 6 0] false; Batch [] true] in
  let p2 := [Batch [Msg EXEC_ERR 9 7 2; Msg POST_FAIL 9 7 3] false] in
  let p3 := [Batch [Msg POST_ERR 9 7 4; Msg POST_ERR 8 1 5] false] in
  interrupted p1 = true /\ interrupted p2 = false
  /\ screen (watch_loop true [p1]) = [Msg POST_FAIL 9 4 1]
  /\ screen (watch_loop true ([p1] ++ [p2] ++ [p3])) = [Msg EXEC_ERR 9 7 2; Msg POST_ERR 8 1 5].
Proof. repeat split; reflexivity. Qed.
