(** C143: callbacks after instructions.  Model: [PostOp_Model]; spec: [PostOp_Spec]. *)
From Coq Require Import ZArith List Bool Lia.
Import ListNotations.
From Verif Require Import PostOp_Model PostOp_Spec.
Open Scope Z_scope.

Scheme trace_mut := Induction for trace Sort Prop
with calls_mut := Induction for calls Sort Prop.
Combined Scheme trace_calls_ind from trace_mut, calls_mut.

(** what an orderly execution looks like *)
Fixpoint log (f : nat) (pending : option nat) (t : trace) : list item :=
  match t with
  | End => []
  | Step i cb cs r => match pending with Some c => [Ran c] | None => [] end ++ Executed f i :: call_log cs ++ log f cb r
  end
with call_log (cs : calls) : list item :=
  match cs with NoCall => [] | Call f t more => log f None t ++ call_log more end.

Definition entry (f : nat) (pending : option (Z * nat)) : list waiting :=
  match pending with Some (p, c) => [Waiting f p c] | None => [] end.
Definition among (st : list waiting) (busy : list nat) : Prop := forall w, In w st -> In (w_frame w) busy.
Lemma handle_other st f i cb : (match st with [] => True | w :: _ => w_frame w <> f end) ->
  handle st (Event f i cb) = ([Executed f i], entry f (match cb with Some c => Some (i + 2, c) | None => None end) ++ st).
Proof.
  intros N. unfold handle. cbn [frame place asks]. destruct st as [|w st]; [destruct cb; reflexivity|]. destruct (Nat.eqb_spec (w_frame w) f); [contradiction|].
  destruct cb; reflexivity.
Qed.
Lemma handle_mine st f i c cb :
  handle (Waiting f i c :: st) (Event f i cb) = ([Ran c; Executed f i], entry f (match cb with Some c => Some (i + 2, c) | None => None end) ++ st).
Proof. unfold handle. cbn [frame place asks w_frame w_place w_callback]. rewrite Nat.eqb_refl, Z.eqb_refl. destruct cb; reflexivity. Qed.

Lemma run_log :
  (forall t busy f pend st l, orderly busy f (option_map fst pend) t -> ~ In f busy -> among st busy ->
     run (entry f pend ++ st) (events f t ++ l) = (log f (option_map snd pend) t ++ fst (run st l), snd (run st l))) /\
  (forall cs busy st l, orderly_calls busy cs -> among st busy ->
     run st (call_events cs ++ l) = (call_log cs ++ fst (run st l), snd (run st l))).
Proof.
  apply trace_calls_ind.
  - intros busy f pend st l O NI A. cbn in O. destruct pend as [[p c]|]; [discriminate|]. cbn. now destruct (run st l).
  - intros i cb cs IHc r IHr busy f pend st l (O1 & O2 & O3) NI A. cbn [events log app]. cbn [run].
    assert (H : handle (entry f pend ++ st) (Event f i cb) =
                (match option_map snd pend with Some c => [Ran c] | None => [] end ++ [Executed f i],
                 entry f (match cb with Some c => Some (i + 2, c) | None => None end) ++ st)).
    { destruct pend as [[p c]|]; cbn [entry option_map fst snd app] in *.
      - subst p. apply handle_mine.
      - apply handle_other. destruct st as [|w st]; [exact I|]. intros E. apply NI. rewrite <- E. apply A. now left. }
    rewrite H. clear H. rewrite <- app_assoc.
    assert (A' : among (entry f (match cb with Some c => Some (i + 2, c) | None => None end) ++ st) (f :: busy)).
    { intros w W. apply in_app_iff in W as [W|W]; [|right; now apply A]. destruct cb; cbn in W; [|contradiction]. destruct W as [<-|[]]. now left. }
    rewrite (IHc (f :: busy) _ (events f r ++ l) O2 A').
    assert (O3' : orderly busy f (option_map fst (match cb with Some c => Some (i + 2, c) | None => None end)) r) by (destruct cb; exact O3).
    rewrite (IHr busy f _ st l O3' NI A). cbn [fst snd].
    assert (E : option_map snd (match cb with Some c => Some (i + 2, c) | None => None end) = cb) by now destruct cb. rewrite E.
    f_equal. rewrite <- !app_assoc. cbn [app]. now rewrite <- !app_assoc.
  - intros busy st l _ _. cbn. now destruct (run st l).
  - intros f t IHt more IHm busy st l (O1 & O2 & O3) A. cbn [call_events call_log]. rewrite <- app_assoc.
    pose proof (IHt busy f None st (call_events more ++ l) O2 O1 A) as H. cbn [entry app option_map] in H. rewrite H, (IHm busy st l O3 A). cbn [fst snd].
    now rewrite <- app_assoc.
Qed.

Definition same_except (f : nat) (p q : nat -> option (Z * nat)) : Prop := q f = None /\ forall g, g <> f -> q g = p g.
Lemma due_log :
  (forall t busy f p l, orderly busy f (option_map fst (p f)) t -> ~ In f busy -> (forall g, ~ In g (f :: busy) -> p g = None) ->
     exists q, same_except f p q /\ due p (events f t ++ l) = log f (option_map snd (p f)) t ++ due q l) /\
  (forall cs busy p l, orderly_calls busy cs -> (forall g, ~ In g busy -> p g = None) ->
     exists q, (forall g, q g = p g) /\ due p (call_events cs ++ l) = call_log cs ++ due q l).
Proof.
  apply trace_calls_ind.
  - intros busy f p l O NI A. cbn in O. exists p. split; [|reflexivity]. split; [|reflexivity]. now destruct (p f).
  - intros i cb cs IHc r IHr busy f p l (O1 & O2 & O3) NI A. cbn [events log app due frame place asks].
    set (p1 := fun g => if (g =? f)%nat then match cb with Some c => Some (i + 2, c) | None => None end else p g).
    assert (P1 : p1 f = match cb with Some c => Some (i + 2, c) | None => None end) by (unfold p1; now rewrite Nat.eqb_refl).
    assert (A1 : forall g, ~ In g (f :: busy) -> p1 g = None).
    { intros g G. unfold p1. destruct (Nat.eqb_spec g f); [subst; destruct G; now left|]. now apply A. }
    destruct (IHc (f :: busy) p1 (events f r ++ l) O2 A1) as (q1 & Q1 & E1). rewrite <- app_assoc, E1.
    assert (O3' : orderly busy f (option_map fst (q1 f)) r) by (rewrite Q1, P1; destruct cb; exact O3).
    destruct (IHr busy f q1 l O3' NI) as (q2 & [Q2 Q3] & E2); [intros g G; rewrite Q1; now apply A1|]. rewrite E2.
    exists q2. split.
    + split; [exact Q2|]. intros g G. rewrite (Q3 g G), Q1. unfold p1. destruct (Nat.eqb_spec g f); [contradiction|reflexivity].
    + rewrite Q1, P1. assert (E : option_map snd (match cb with Some c => Some (i + 2, c) | None => None end) = cb) by now destruct cb. rewrite E.
      destruct (p f) as [[n c]|]; cbn [option_map fst snd app] in *.
      * subst n. rewrite Z.eqb_refl. cbn [app]. now rewrite <- app_assoc.
      * now rewrite <- app_assoc.
  - intros busy p l _ _. exists p. split; reflexivity.
  - intros f t IHt more IHm busy p l (O1 & O2 & O3) A. cbn [call_events call_log]. rewrite <- app_assoc.
    assert (PF : p f = None) by now apply A.
    destruct (IHt busy f p (call_events more ++ l)) as (q1 & [Q1 Q2] & E1); [rewrite PF; exact O2|exact O1|intros g G; apply A; intros B; apply G; now right|].
    assert (Q : forall g, q1 g = p g) by (intros g; destruct (Nat.eq_dec g f) as [->|N]; [now rewrite Q1, PF|now apply Q2]).
    destruct (IHm busy q1 l O3) as (q2 & Q3 & E2); [intros g G; rewrite Q; now apply A|].
    exists q2. split; [intros g; now rewrite Q3, Q|]. rewrite E1, E2, PF. cbn [option_map]. now rewrite <- app_assoc.
Qed.

(** C143, partial.  In every execution, however deeply frames call each other, each callback is called exactly when
    it is due, just before its frame's following instruction, and none is left over.
    Missing: executions in which an instruction with a callback fails; refuted below. *)
Theorem C143_callbacks_partial (f : nat) (t : trace) : orderly [] f None t ->
  run [] (events f t) = (due nothing_pending (events f t), []).
Proof.
  intros O. pose proof (proj1 run_log t [] f None [] [] O (fun x => x)) as R. cbn [entry app option_map] in R. rewrite app_nil_r in R.
  rewrite R by (intros w []). cbn [run fst snd]. f_equal.
  destruct (proj1 due_log t [] f nothing_pending [] O (fun x => x) (fun _ _ => eq_refl)) as (q & _ & E). rewrite app_nil_r in E. rewrite E. reflexivity.
Qed.
Print Assumptions C143_callbacks_partial.
(** frame 1 asks for callback 10 at 0; during this instruction, frame 2 asks for callback 20 and is done *)
Example C143_callbacks_partial_witness :
  let t := Step 0 (Some 10%nat) (Call 2 (Step 4 (Some 20%nat) NoCall (Step 6 None NoCall End)) NoCall) (Step 2 None NoCall End) in
  orderly [] 1 None t /\
  fst (run [] (events 1 t)) = [Executed 1 0; Executed 2 4; Ran 20; Executed 2 6; Ran 10; Executed 1 2].
Proof. cbn. repeat split. intros [H|[]]; discriminate. Qed.

(** C143, violated.  A callback of an instruction that failed stays on the stack.  If that instruction is executed
    again, now without need for a callback, the old one is called after it: a stale result replaces the true one. *)
Theorem C143_stale_refuted : exists l : list event,
  due nothing_pending l = [Executed 1 0; Executed 1 8; Executed 1 0; Executed 1 2] /\
  fst (run [] l) = [Executed 1 0; Executed 1 8; Executed 1 0; Ran 10; Executed 1 2].
Proof. exists [Event 1 0 (Some 10%nat); Event 1 8 None; Event 1 0 None; Event 1 2 None]. split; reflexivity. Qed.
Print Assumptions C143_stale_refuted.
(** C143, violated.  A callback left over in a function hides that of its caller, which is never called: the caller goes
    on with a placeholder for the result. *)
Theorem C143_hidden_refuted : exists l : list event,
  due nothing_pending l = [Executed 1 0; Executed 2 4; Executed 2 8; Ran 10; Executed 1 2] /\
  fst (run [] l) = [Executed 1 0; Executed 2 4; Executed 2 8; Executed 1 2].
Proof. exists [Event 1 0 (Some 10%nat); Event 2 4 (Some 20%nat); Event 2 8 None; Event 1 2 None]. split; reflexivity. Qed.
Print Assumptions C143_hidden_refuted.
