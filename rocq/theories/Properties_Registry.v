(** C136: contracts registered for functions of other libraries.  Model: [Registry_Model]; spec: [Registry_Spec]. *)
From Coq Require Import ZArith List Bool Lia.
Import ListNotations.
From Verif Require Import Py Registry_Model Registry_Spec Registry_Proofs.

Section Functions.
Variable module_of : nat -> nat.
Variable no_auto : nat -> bool.
Variable python_sig : nat -> option sg.
Variable stub_sigs : nat -> list sg.
Variable bound_method : nat -> bool.
Variable cond_params : nat -> list (Z * bool).
Local Notation run := (run module_of no_auto python_sig stub_sigs bound_method cond_params).
Local Notation register := (register python_sig stub_sigs bound_method cond_params).
Local Notation get_contract := (get_contract module_of no_auto python_sig stub_sigs cond_params).
Local Notation careful := (careful module_of no_auto python_sig stub_sigs bound_method cond_params).
Local Notation acceptable := (acceptable python_sig cond_params).
Local Notation effective := (effective python_sig stub_sigs).

(** C136, partial.  After any history, register_contract returns True exactly for registrations that are well
    formed and agree with what is registered; then they are entered, and otherwise nothing changes.  Missing:
    histories that hand the same list of signatures to two registrations; refuted below. *)
Theorem C136_registration_partial (h : list call) (f : nat) (pre post : option nat) (sig : sigarg) (skip : bool) :
  let st := snd (run empty h) in
  careful empty h -> unused_arg st sig -> bound_method f = false ->
  let sigs := effective f (given st sig) in
  let st' := snd (register st f pre post sig skip) in
  (fst (register st f pre post sig skip) = true <-> acceptable (book_of st) f pre post sigs skip) /\
  (fst (register st f pre post sig skip) = true -> entered (book_of st) f pre post sigs skip (book_of st')) /\
  (fst (register st f pre post sig skip) = false -> unchanged (book_of st) (book_of st')).
Proof.
  intros st C U B sigs st'. subst st' sigs. destruct (empty_good python_sig cond_params) as [E1 E2].
  destruct (run_good module_of no_auto python_sig stub_sigs bound_method cond_params h empty E1 E2 C) as [S _]. fold st in S.
  unfold Registry_Model.register. rewrite B.
  destruct (internal_register python_sig stub_sigs cond_params st f pre post sig skip) as [ok st'] eqn:E.
  destruct (internal_spec python_sig stub_sigs cond_params st f pre post sig skip ok st' S U E) as (A1 & A2 & A3 & _).
  cbn [fst snd]. auto.
Qed.

(** C136, partial (same restriction).  get_contract gives what is registered; for functions of registered modules
    with nothing registered, a contract without conditions that skips the body is entered first, if a signature is
    known; nothing else changes. *)
Theorem C136_lookup_partial (h : list call) (f : nat) :
  let st := snd (run empty h) in
  careful empty h ->
  let st' := snd (get_contract st f) in
  let sigs := effective f [] in
  option_map (entry_of st') (fst (get_contract st f)) = entries (book_of st') f /\
  ((entries (book_of st) f = None /\ no_auto f = false /\ In (module_of f) (modules st) /\ acceptable (book_of st) f None None sigs true /\
    entered (book_of st) f None None sigs true (book_of st')) \/
   (~ (entries (book_of st) f = None /\ no_auto f = false /\ In (module_of f) (modules st) /\ acceptable (book_of st) f None None sigs true) /\
    unchanged (book_of st) (book_of st'))).
Proof.
  intros st C. destruct (empty_good python_sig cond_params) as [E1 E2].
  destruct (run_good module_of no_auto python_sig stub_sigs bound_method cond_params h empty E1 E2 C) as [S _]. fold st in S.
  unfold Registry_Model.get_contract. destruct (find (contracts st) f) as [c|] eqn:F.
  { cbn. rewrite F. split; [reflexivity|]. right. split; [|split; reflexivity]. intros [H _]. discriminate. }
  destruct (no_auto f) eqn:N.
  { cbn. rewrite F. split; [reflexivity|]. right. split; [|split; reflexivity]. intros (_ & H & _). discriminate. }
  destruct (existsb (Nat.eqb (module_of f)) (modules st)) eqn:M.
  - destruct (internal_register python_sig stub_sigs cond_params st f None None NoSig true) as [ok st'] eqn:E.
    destruct (internal_spec python_sig stub_sigs cond_params st f None None NoSig true ok st' S I E) as (A1 & A2 & A3 & _).
    cbn [fst snd]. cbn [given] in *. split; [reflexivity|].
    apply existsb_exists in M as (m & M & EM). apply Nat.eqb_eq in EM. subst m.
    assert (B : entries (book_of st) f = None) by (cbn; now rewrite F).
    destruct ok.
    + left. exact (conj B (conj eq_refl (conj M (conj (proj1 A1 eq_refl) (A2 eq_refl))))).
    + right. split; [|exact (A3 eq_refl)]. intros (_ & _ & _ & H). apply A1 in H. discriminate.
  - cbn [fst snd]. split; [cbn; now rewrite F|]. right. split; [|split; reflexivity]. intros (_ & _ & H & _).
    assert (existsb (Nat.eqb (module_of f)) (modules st) = true) by (apply existsb_exists; exists (module_of f); split; [exact H|apply Nat.eqb_refl]).
    congruence.
Qed.

(** C136.  An accepted registration holds for good: after any further calls whatever, the function has its
    conditions and its choice about the body. *)
Theorem C136_accepted_stays (st : registry) (f : nat) (pre post : option nat) (sig : sigarg) (skip : bool) (st1 : registry) (h : list call) :
  register st f pre post sig skip = (true, st1) ->
  exists answers sigs, fst (run st1 (h ++ [Lookup f])) = answers ++ [Found (Some (pre, post, sigs, skip))].
Proof.
  unfold Registry_Model.register. destruct (bound_method f); [discriminate|]. intros H.
  destruct (internal_enters python_sig stub_sigs cond_params st f pre post sig skip) as (d & D & P1 & P2 & P3); [now rewrite H|].
  rewrite H in D. cbn [snd] in D.
  rewrite run_app. cbn [fst]. set (st2 := snd (run st1 h)).
  pose proof (run_keeps module_of no_auto python_sig stub_sigs bound_method cond_params h st1 f d D) as K. fold st2 in K.
  exists (fst (run st1 h)), (the_list st2 (k_sigs d)). f_equal. cbn [Registry_Model.run Registry_Model.do_call].
  unfold Registry_Model.get_contract. rewrite K. cbn. now rewrite P1, P2, P3.
Qed.

(** C136, partial.  Conditions of accepted contracts can be evaluated on the arguments of calls.  Missing, besides
    shared lists: conditions with optional parameters; refuted below. *)
Theorem C136_conditions_evaluate_partial (h : list call) (f : nat) (c : contract) :
  let st := snd (run empty h) in
  careful empty h -> find (contracts st) f = Some c ->
  (forall p, k_pre c = Some p \/ k_post c = Some p -> forall x d, In (x, d) (cond_params p) -> d = false) ->
  (exists s, used_sig python_sig st f c = Some s) /\ eval_pre python_sig cond_params st f c = Ok tt /\ eval_post python_sig cond_params st f c = Ok tt.
Proof.
  intros st C F D. destruct (empty_good python_sig cond_params) as [E1 E2].
  destruct (run_good module_of no_auto python_sig stub_sigs bound_method cond_params h empty E1 E2 C) as [_ G]. fold st in G.
  destruct (G f c F) as [W N].
  assert (U : exists s, used_sig python_sig st f c = Some s /\ (In s (the_list st (k_sigs c)) \/ python_sig f = Some s)).
  { unfold used_sig. destruct (the_list st (k_sigs c)) as [|s l]; [|exists s; split; [reflexivity|left; now left]].
    destruct N as [N|N]; [congruence|]. destruct (python_sig f) as [s|]; [|congruence]. exists s. auto. }
  destruct U as (s & U & I). destruct (W s I) as (_ & W2 & W3). split; [now exists s|].
  unfold eval_pre, eval_post, evaluate. rewrite U. split.
  - destruct (k_pre c) as [p|] eqn:P; [|reflexivity]. replace (subset _ _) with true; [reflexivity|]. symmetry. apply subset_spec.
    intros x X. apply in_map_iff in X as ([y d] & Y & X). cbn in Y. subst. apply in_names. apply (W2 p eq_refl x).
    unfold must_give. rewrite <- (D p (or_introl eq_refl) x d X) at 1. exact X.
  - destruct (k_post c) as [p|] eqn:P; [|reflexivity]. replace (subset _ _) with true; [reflexivity|]. symmetry. apply subset_spec.
    intros x X. apply in_map_iff in X as ([y d] & Y & X). cbn in Y. subst. apply in_app_iff.
    destruct (W3 p eq_refl x) as [H|[H|H]]; [|left; now apply in_names|right; cbn; auto|right; cbn; auto].
    unfold must_give. rewrite <- (D p (or_intror eq_refl) x d X) at 1. exact X.
Qed.
End Functions.
Print Assumptions C136_registration_partial.
Print Assumptions C136_lookup_partial.
Print Assumptions C136_accepted_stays.
Print Assumptions C136_conditions_evaluate_partial.

(** Two functions 0 and 1 of module 7 with one required parameter 1, resp. 1 and 2; condition 0 takes parameter 1,
    condition 1 takes parameters 1 and __return__, condition 2 takes 1 and optionally 9 *)
Definition mods (f : nat) : nat := 7.
Definition plain_sig (f : nat) : option sg := match f with 0 => Some (Sg [(1%Z, false)] true) | 1 => Some (Sg [(1%Z, false); (2%Z, false)] false) | _ => None end.
Definition stubs (f : nat) : list sg := match f with 1 => [Sg [(1%Z, false); (2%Z, true)] true] | _ => [] end.
Definition conds (c : nat) : list (Z * bool) :=
  match c with 0 => [(1%Z, false)] | 1 => [(1%Z, false); (return_name, false)] | 2 => [(1%Z, false); (9%Z, true)] | _ => [(2%Z, false)] end.
Definition never (f : nat) : bool := false.
Definition history (h : list call) : list answer := fst (run mods never plain_sig stubs never conds empty h).
Example C136_witness :
  let h := [NewList [Sg [(1%Z, false)] true]; Register 0 (Some 0) (Some 1) (SigList 0) false; RegisterModule 7] in
  careful mods never plain_sig stubs never conds empty h /\
  history (h ++ [Lookup 0; Register 0 (Some 0) None NoSig false; Register 0 (Some 3) None NoSig false; Lookup 1; Lookup 2;
                 Register 0 (Some 0) (Some 1) (OneSig (Sg [(1%Z, true)] true)) false; Lookup 0]) =
  [Done; Accepted true; Done; Found (Some (Some 0, Some 1, [Sg [(1%Z, false)] true], false)); Accepted false; Accepted false;
   Found (Some (None, None, [Sg [(1%Z, false); (2%Z, true)] true], true)); Found None; Accepted true;
   Found (Some (Some 0, Some 1, [Sg [(1%Z, false)] true; Sg [(1%Z, true)] true], false))].
Proof. split; [|reflexivity]. cbn. repeat split; try (unfold lt; constructor); discriminate. Qed.

(** C136, violated.  "If you wish to register all functions, except function foo, register that function manually
    with the option skip_body=False": if the function was looked up in between, this is refused, and the body
    remains skipped. *)
Theorem C136_exempting_refuted : exists h f,
  history (h ++ [Register f None None NoSig false; Lookup f]) = fst (run mods never plain_sig stubs never conds empty h) ++
    [Accepted false; Found (Some (None, None, [], true))] /\
  history ([RegisterModule 7; Register f None None NoSig false; Lookup f]) = [Done; Accepted true; Found (Some (None, None, [], false))].
Proof. exists [RegisterModule 7; Lookup 0], 0. split; reflexivity. Qed.
Print Assumptions C136_exempting_refuted.
(** C136, violated.  A list of signatures handed to two registrations: a later registration for the one function
    adds a signature to the other too, which nobody checked, and registering again doubles it. *)
Theorem C136_shared_lists_refuted : exists h,
  history h = [Done; Accepted true; Accepted true; Accepted true;
               Found (Some (None, None, [Sg [(1%Z, false)] true; Sg [(1%Z, false); (2%Z, false)] true], true))] /\
  history [Register 0 None None (OneSig (Sg [(1%Z, false); (2%Z, false)] true)) true] = [Accepted false].
Proof.
  exists [NewList [Sg [(1%Z, false)] true]; Register 0 None None (SigList 0) true; Register 1 None None (SigList 0) true;
          Register 1 None None (OneSig (Sg [(1%Z, false); (2%Z, false)] true)) true; Lookup 0].
  split; reflexivity.
Qed.
Print Assumptions C136_shared_lists_refuted.
(** C136, violated.  A precondition with an optional parameter that the function does not have is accepted, and
    its evaluation fails. *)
Theorem C136_optional_parameters_refuted : exists c,
  let st := snd (run mods never plain_sig stubs never conds empty [Register 0 (Some 2) None NoSig true]) in
  history [Register 0 (Some 2) None NoSig true] = [Accepted true] /\ find (contracts st) 0 = Some c /\ eval_pre plain_sig conds st 0 c = Err KeyError.
Proof. eexists. repeat split; reflexivity. Qed.
Print Assumptions C136_optional_parameters_refuted.
