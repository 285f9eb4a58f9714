From Coq Require Import String List Bool Arith.
From Verif Require Import Py Icontract_Model Icontract_Spec.
Import ListNotations.
Open Scope string_scope. Open Scope list_scope. Open Scope nat_scope.

Section Proofs.
Variables V store : Type.
Notation lambda := (lambda V store).
(** a condition or capture that has none of the given names as parameters *)
Definition avoids {R} (bad : list string) (f : lambda R) : Prop :=
  incl (mandatory f) (params f) /\ forall n, In n (params f) -> ~ In n bad.

Lemma call_apply : forall R (f : lambda R) bad s s' e e', avoids bad f -> (forall n, ~ In n bad -> e n = e' n) ->
  run f s = run f s' -> call V store f s e = apply f s' e'.
Proof.
  intros R f bad s s' e e' [I A] E S. unfold call, apply, missing.
  assert (P : map e (params f) = map e' (params f)).
  { apply map_ext_in. intros n Hn. apply E, A, Hn. }
  rewrite P, S.
  assert (M : existsb (fun n => match e n with None => true | Some _ => false end) (mandatory f) =
              negb (forallb (fun n => match e' n with Some _ => true | None => false end) (mandatory f))).
  { assert (L : forall l, incl l (params f) -> existsb (fun n => match e n with None => true | Some _ => false end) l =
                negb (forallb (fun n => match e' n with Some _ => true | None => false end) l)).
    { induction l as [|n l IH]; intros H; [reflexivity|]. cbn [existsb forallb]. rewrite IH by (intros x Hx; apply H; right; exact Hx).
      rewrite (E n) by (apply A, H; left; reflexivity). destruct (e' n); [destruct (forallb _ l); reflexivity|reflexivity]. }
    apply L, I. }
  rewrite M. destruct (forallb _ (mandatory f)); reflexivity.
Qed.
Lemma conjunction_group : forall bad s e e' l, (forall n, ~ In n bad -> e n = e' n) -> Forall (avoids bad) l ->
  group_result V store s e' l (conjunction V store s e l).
Proof.
  intros bad s e e' l E. induction 1 as [|c l A _ IH]; [constructor|]. cbn [conjunction].
  rewrite (call_apply _ c bad s s e e' A E eq_refl). destruct (apply c s e') as [[|]|x] eqn:R; cbn [bind].
  - apply GNext; assumption.
  - apply GFalse, R.
  - apply GErr, R.
Qed.
Lemma disjunction_groups : forall bad s e e' l, (forall n, ~ In n bad -> e n = e' n) -> Forall (Forall (avoids bad)) l -> l <> [] ->
  groups_result V store s e' l (eval_disjunction V store s e l).
Proof.
  intros bad s e e' l E. induction 1 as [|g l A _ IH]; intros N; [congruence|]. cbn [eval_disjunction].
  pose proof (conjunction_group bad s e e' g E A) as G. destruct (conjunction V store s e g) as [[|]|x]; cbn [bind].
  - apply DHold, G.
  - destruct l as [|g' l]; [apply DLast, G|]. apply DNext; [exact G|discriminate|]. apply IH. discriminate.
  - apply DErr, G.
Qed.
Lemma all_hold_conjunction : forall s e (l : list (lambda bool)),
  all_hold (map (fun k : condition V store => k s e) (map (fun k s e => call V store k s e) l)) = conjunction V store s e l.
Proof. intros s e. induction l as [|c l IH]; [reflexivity|]. cbn [map all_hold conjunction]. rewrite IH. reflexivity. Qed.
Lemma single : forall r : res bool, all_hold [r] = r.
Proof. intros [[|]|x]; reflexivity. Qed.

(** C153, partial.  Preconditions are checked as icontract checks them, if no condition takes _ARGS or _KWARGS (or a
    parameter called __old__).  Missing: those; refuted below. *)
Theorem C153_pre_partial : forall c s args holder pos kw,
  Forall (Forall (avoids ["__old__"; "_ARGS"; "_KWARGS"])) (groups c) ->
  icontract_pre V store c s (resolved V args pos kw) (check_pre V store holder c s args).
Proof.
  intros c s args holder pos kw A. unfold icontract_pre, check_pre, pre_conditions.
  set (e := fun n => match args n with Some v => Some v | None => if String.eqb n "__old__" then Some holder else None end).
  assert (E : forall n, ~ In n ["__old__"; "_ARGS"; "_KWARGS"] -> e n = resolved V args pos kw n).
  { intros n H. unfold e, resolved. destruct (String.eqb_spec n "_ARGS") as [->|]; [exfalso; apply H; cbn; auto|].
    destruct (String.eqb_spec n "_KWARGS") as [->|]; [exfalso; apply H; cbn; auto|].
    destruct (String.eqb_spec n "__old__") as [->|]; [exfalso; apply H; cbn; auto|]. destruct (args n); reflexivity. }
  destruct (groups c) as [|g [|g' l]] eqn:G.
  - left. split; reflexivity.
  - right. rewrite all_hold_conjunction. inversion A as [|? ? Ag _]; subst.
    pose proof (conjunction_group _ s e _ g E Ag) as H. destruct (conjunction V store s e g) as [[|]|x].
    + apply DHold, H.
    + apply DLast, H.
    + apply DErr, H.
  - right. cbn [map]. rewrite single. rewrite <- G. apply (disjunction_groups _ s e _ (groups c) E); rewrite G; [exact A|discriminate].
Qed.

Lemma captures_captured : forall bad s s' e e' l, (forall n, ~ In n bad -> e n = e' n) ->
  (forall n f, In (n, f) l -> avoids bad f /\ run f s = run f s') ->
  captured V store s' e' l (captures V store s e l).
Proof.
  intros bad s s' e e' l E. induction l as [|[n f] l IH]; intros H; [constructor|]. cbn [captures].
  destruct (H n f (or_introl eq_refl)) as [A S]. rewrite (call_apply _ f bad s s' e e' A E S).
  specialize (IH (fun m g I => H m g (or_intror I))).
  destruct (apply f s' e') as [v|x] eqn:R; cbn [bind]; [|apply CErr, R].
  destruct (captures V store s e l) as [r|x]; cbn [bind]; [eapply CCons; eassumption|eapply CErrNext; eassumption].
Qed.
Lemma captured_det : forall s e l a b, captured V store s e l a -> captured V store s e l b -> a = b.
Proof.
  intros s e l a b H. revert b. induction H; intros b B; inversion B; subst; try congruence.
  - assert (Err x = Err x0) by auto. congruence.
  - assert (Err x = Ok r) by auto. discriminate.
  - assert (Ok r = Err x) by auto. discriminate.
  - assert (Ok r = Ok r0) by auto. congruence.
Qed.

(** C153, partial.  Postconditions are checked as icontract checks them, with OLD as captured before the call: if captures
    do not read the program's state and no condition or capture takes _ARGS, _KWARGS, a parameter _, or one with the
    function's own name.  Missing: those; refuted below. *)
Theorem C153_post_partial : forall old_of holder fname fvalue c s0 s1 before after ret pos kw snap,
  posts c <> [] ->
  let bad := ["_ARGS"; "_KWARGS"; "_"; "__return__"; "__old__"; fname] in
  ~ In fname ["result"; "OLD"] ->
  Forall (avoids bad) (posts c) ->
  (forall n f, In (n, f) (snapshots c) -> avoids bad f /\ run f s1 = run f s0) ->
  captured V store s0 (resolved V before pos kw) (snapshots c) snap ->
  match snap with
  | Err x => check_post V store old_of holder fname fvalue c s1 before after ret = Err x
  | Ok l => group_result V store s1 (with_result V (resolved V after pos kw) (old_of l) ret) (posts c)
              (check_post V store old_of holder fname fvalue c s1 before after ret)
  end.
Proof.
  intros old_of holder fname fvalue c s0 s1 before after ret pos kw snap NE bad NF A S C.
  assert (K : captures V store s1 before (snapshots c) = snap).
  { apply (captured_det s0 (resolved V before pos kw) (snapshots c)); [|exact C].
    apply (captures_captured bad); [|exact S]. intros n H. unfold resolved.
    destruct (String.eqb_spec n "_ARGS") as [->|]; [exfalso; apply H; cbn; auto|].
    destruct (String.eqb_spec n "_KWARGS") as [->|]; [exfalso; apply H; cbn; auto|]. reflexivity. }
  assert (PC : post_conditions V store old_of c = map (post_eval V store old_of c) (posts c)).
  { unfold post_conditions. destruct (posts c); [congruence|]. destruct (pre_conditions V store c); reflexivity. }
  unfold check_post. rewrite PC. clear PC C.
  destruct snap as [l|x].
  - clear NE. revert A. generalize (posts c) as ks. induction ks as [|k ks IH]; intros A; [constructor|].
    inversion A as [|? ? Ak Aks]; subst. cbn [map all_hold]. unfold post_eval at 1. rewrite K. cbn [bind].
    set (e := del _ _ _). 
    assert (E : forall n, ~ In n bad -> e n = with_result V (resolved V after pos kw) (old_of l) ret n).
    { intros n H. unfold e, del, put, call_env, with_result, resolved, put.
      assert (N : forall m, In m bad -> (n =? m)%string = false).
      { intros m Hm. destruct (String.eqb_spec n m) as [->|]; [contradiction|reflexivity]. }
      rewrite !(N "_"), !(N "__return__"), !(N "__old__"), !(N fname), (N "_ARGS"), (N "_KWARGS") by (unfold bad; cbn; tauto).
      destruct (String.eqb n "result"); [reflexivity|]. destruct (String.eqb n "OLD"); reflexivity. }
    rewrite (call_apply _ k bad s1 s1 _ _ Ak E eq_refl).
    destruct (apply k s1 _) as [[|]|x] eqn:R; cbn [bind].
    + apply GNext; [exact R|]. apply IH, Aks.
    + apply GFalse, R.
    + apply GErr, R.
  - destruct (posts c) as [|k ks]; [congruence|]. cbn [map all_hold]. unfold post_eval at 1. rewrite K. reflexivity.
Qed.

(** C153, partial.  Invariants that take self.  Missing: invariants that take nothing; refuted below. *)
Theorem C153_invariant_partial : forall (k : lambda bool) s self, In "self" (params k) -> incl (mandatory k) ["self"] ->
  check_invariant V store k s self = icontract_invariant V store k s self.
Proof.
  intros k s self P M. unfold check_invariant, icontract_invariant.
  assert (X : existsb (String.eqb "self") (params k) = true).
  { apply existsb_exists. exists "self". split; [exact P|reflexivity]. }
  rewrite X. unfold call, missing.
  assert (Y : existsb (fun n => match put V (fun _ => None) "self" self n with None => true | Some _ => false end) (mandatory k) = false).
  { induction (mandatory k) as [|n l IH]; [reflexivity|]. cbn [existsb].
    assert (n = "self") as -> by (destruct (M n (or_introl eq_refl)) as [<-|[]]; reflexivity).
    cbn. apply IH. intros m Hm. apply M. right. exact Hm. }
  rewrite Y. reflexivity.
Qed.
(** a function with preconditions only is analyzed nevertheless: it gets a postcondition, and that one holds *)
Theorem C153_always_post : forall old_of c, pre_conditions V store c <> [] ->
  post_conditions V store old_of c <> [] /\
  (posts c = [] -> forall k s b e r, In k (post_conditions V store old_of c) -> k s b e r = Ok true).
Proof.
  intros old_of c H. unfold post_conditions. destruct (posts c) as [|k l]; destruct (pre_conditions V store c); try congruence; split; try discriminate.
  intros _ k s b e r [<-|[]]. reflexivity.
Qed.
End Proofs.
Print Assumptions C153_pre_partial.
Print Assumptions C153_post_partial.
Print Assumptions C153_invariant_partial.
Print Assumptions C153_always_post.

(** Examples: values and state are numbers *)
Definition vals (l : list (string * nat)) : string -> option nat := fun n =>
  match find (fun p => String.eqb (fst p) n) l with Some p => Some (snd p) | None => None end.
Definition at_least (n : string) (k : nat) : lambda nat nat bool :=
  Lambda [n] [n] (fun _ l => Ok match l with [Some v] => Nat.leb k v | _ => false end).
(** @require(lambda x: x >= 3) with a weaker @require(lambda x, y: y >= 5) in a base class *)
Definition weakened : checker nat nat := Checker [[at_least "y" 5]; [at_least "x" 3; at_least "y" 2]] [] [].
(** @snapshot(lambda x: x, "x") @ensure(lambda OLD, result: OLD.x < result) *)
Definition grows : checker nat nat :=
  Checker [] [("x", Lambda ["x"] ["x"] (fun _ l => Ok match l with [Some v] => v | _ => 0 end))]
    [Lambda ["OLD"; "result"] ["OLD"; "result"] (fun _ l => Ok match l with [Some o; Some r] => Nat.ltb o r | _ => false end)].
Definition first (l : list (string * nat)) : nat := match l with (_, v) :: _ => v | [] => 0 end.
Example C153_witness :
  check_pre nat nat 0 weakened 0 (vals [("x", 3); ("y", 2)]) = Ok true /\
  check_pre nat nat 0 weakened 0 (vals [("x", 0); ("y", 7)]) = Ok true /\
  check_pre nat nat 0 weakened 0 (vals [("x", 0); ("y", 2)]) = Ok false /\
  check_post nat nat first 0 "grow" 0 grows 0 (vals [("x", 4)]) (vals [("x", 9)]) 5 = Ok true /\
  check_post nat nat first 0 "grow" 0 grows 0 (vals [("x", 4)]) (vals [("x", 9)]) 4 = Ok false /\
  Forall (Forall (avoids nat nat ["__old__"; "_ARGS"; "_KWARGS"])) (groups weakened) /\
  check_invariant nat nat (at_least "self" 1) 0 1 = Ok true.
Proof.
  assert (A : forall n k, ~ In n ["__old__"; "_ARGS"; "_KWARGS"] -> avoids nat nat ["__old__"; "_ARGS"; "_KWARGS"] (at_least n k)).
  { intros n k H. split; [intros m Hm; exact Hm|]. intros m [<-|[]]. exact H. }
  split; [reflexivity|]. split; [reflexivity|]. split; [reflexivity|]. split; [reflexivity|]. split; [reflexivity|]. split; [|reflexivity].
  apply Forall_cons; [|apply Forall_cons; [|apply Forall_nil]].
  - apply Forall_cons; [|apply Forall_nil]. apply A. cbn. intuition discriminate.
  - apply Forall_cons; [|apply Forall_cons; [|apply Forall_nil]]; apply A; cbn; intuition discriminate.
Qed.

(** C153, violated.  A condition on _ARGS fails with TypeError; icontract passes the positional arguments. *)
Theorem C153_args_refuted : exists (c : checker nat nat) args,
  check_pre nat nat 0 c 0 args = Err TypeError /\ icontract_pre nat nat c 0 (resolved nat args 2 0) (Ok true).
Proof.
  exists (Checker [[at_least "_ARGS" 2]] [] []), (vals [("x", 1)]). split; [reflexivity|].
  right. apply DHold. apply GNext; [reflexivity|constructor].
Qed.
Print Assumptions C153_args_refuted.
(** C153, violated.  A snapshot of the program's state (here a counter that the body increments) is taken after the
    body has run: a right function is reported. *)
Theorem C153_snapshot_refuted : exists (c : checker nat nat) l,
  captured nat nat 0 (resolved nat (vals []) 0 0) (snapshots c) (Ok l) /\
  group_result nat nat 1 (with_result nat (resolved nat (vals []) 0 0) (first l) 0) (posts c) (Ok true) /\
  check_post nat nat first 0 "step" 0 c 1 (vals []) (vals []) 0 = Ok false.
Proof.
  exists (Checker [] [("n", Lambda [] [] (fun s _ => Ok s))]
            [Lambda ["OLD"] ["OLD"] (fun s l => Ok match l with [Some o] => Nat.eqb s (S o) | _ => false end)]), [("n", 0)].
  split; [eapply CCons; [reflexivity|constructor]|]. split; [apply GNext; [reflexivity|constructor]|reflexivity].
Qed.
Print Assumptions C153_snapshot_refuted.
(** C153, violated.  A parameter with the name of the function, or called _: the condition gets the function, or fails. *)
Theorem C153_names_refuted : exists c d : checker nat nat,
  (group_result nat nat 0 (with_result nat (resolved nat (vals [("area", 3)]) 0 0) 0 0) (posts c) (Ok true) /\
   check_post nat nat first 0 "area" 0 c 0 (vals [("area", 3)]) (vals [("area", 3)]) 0 = Ok false) /\
  (group_result nat nat 0 (with_result nat (resolved nat (vals [("_", 3)]) 0 0) 0 0) (posts d) (Ok true) /\
   check_post nat nat first 0 "f" 0 d 0 (vals [("_", 3)]) (vals [("_", 3)]) 0 = Err TypeError).
Proof.
  exists (Checker [] [] [at_least "area" 3]), (Checker [] [] [at_least "_" 3]). repeat split; apply GNext; [reflexivity|constructor|reflexivity|constructor].
Qed.
Print Assumptions C153_names_refuted.
(** C153, violated.  When contracts of called functions are enforced, a parameter of a condition that has a default gets
    the value of a global of the same name. *)
Theorem C153_default_refuted : exists (c : checker nat nat) globals,
  group_result nat nat 0 (with_result nat (resolved nat (vals []) 0 0) 0 7) (posts c) (Ok true) /\
  enforce_post nat nat first 0 c 0 globals (vals []) (vals []) 7 = Ok false /\
  check_post nat nat first 0 "f" 0 c 0 (vals []) (vals []) 7 = Ok true.
Proof.
  exists (Checker [] [] [Lambda ["result"; "limit"] ["result"] (fun _ l =>
    Ok match l with [Some r; d] => Nat.leb match d with Some k => k | None => 5 end r | _ => false end)]), (vals [("limit", 9)]).
  split; [apply GNext; [reflexivity|constructor]|]. split; reflexivity.
Qed.
Print Assumptions C153_default_refuted.
(** C153, violated.  An invariant without self, on the program's state. *)
Theorem C153_invariant_refuted : exists k : lambda nat nat bool,
  icontract_invariant nat nat k 1 0 = Ok true /\ check_invariant nat nat k 1 0 = Err TypeError.
Proof. exists (Lambda [] [] (fun s _ => Ok (Nat.leb 1 s))). split; reflexivity. Qed.
Print Assumptions C153_invariant_refuted.
