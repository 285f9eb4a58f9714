(** Counterexamples that depend on skipped functions (C124).

    Full property: when the function is called again under the patch that the counterexample
    prints, it does what it did on the path. *)
From Coq Require Import ZArith List Bool Arith Lia.
From Verif Require Import Interps_Model.
Import ListNotations.

(** The run of a program on the path changes no object that a skipped function returned. *)
Fixpoint changes_nothing (fresh : nat -> Z) (p : prog) (h : heap) : Prop :=
  match p with
  | Done _ => True
  | Call f k => changes_nothing fresh (k (length h)) (h ++ [fresh (length h)])
  | Get o k => changes_nothing fresh (k (read h o)) h
  | Put _ _ _ => False
  end.
(** A program that calls no skipped function. *)
Fixpoint calls_nothing (fresh : nat -> Z) (p : prog) (h : heap) : Prop :=
  match p with
  | Done _ => True
  | Call _ _ => False
  | Get o k => calls_nothing fresh (k (read h o)) h
  | Put o c k => calls_nothing fresh k (write h o c)
  end.

(** What is still to come: [later i j f] are the objects that [j] has for [f] beyond those of [i]. *)
Fixpoint objects (i : interps) (f : nat) : list nat :=
  match i with [] => [] | (g, l) :: r => if Nat.eqb g f then l else objects r f end.
Fixpoint values (ps : patches) (f : nat) : option (list Z) :=
  match ps with [] => None | (g, l) :: r => if Nat.eqb g f then Some l else values r f end.

Lemma append_objects i f o g : objects (append_return i f o) g = if Nat.eqb f g then objects i g ++ [o] else objects i g.
Proof.
  induction i as [|[k l] i IH]; cbn.
  - destruct (Nat.eqb_spec f g); reflexivity.
  - destruct (Nat.eqb_spec k f) as [E|E]; cbn.
    + subst k. destruct (Nat.eqb f g); reflexivity.
    + destruct (Nat.eqb_spec k g) as [E'|E']; [|exact IH]. subst k. destruct (Nat.eqb_spec f g); [congruence|reflexivity].
Qed.
Lemma append_keys i f o g : In g (map fst (append_return i f o)) <-> In g (map fst i) \/ g = f.
Proof.
  induction i as [|[k l] i IH]; cbn; [split; [intros [H|[]]; auto|intros [[]|H]; auto]|].
  destruct (Nat.eqb_spec k f) as [E|E]; cbn.
  - subst k. split; [tauto|]. intros [H|H]; auto.
  - rewrite IH. tauto.
Qed.
Lemma explore_grows fresh p : forall h i r h' i', explore fresh p h i = (r, h', i') -> changes_nothing fresh p h ->
  exists t, h' = h ++ t.
Proof.
  induction p as [r0|f k IH|o k IH|o c k IH]; intros h i r h' i' E C; cbn in *.
  - injection E as <- <- <-. exists []. now rewrite app_nil_r.
  - destruct (IH _ _ _ _ _ _ E C) as [t ->]. exists (fresh (length h) :: t). now rewrite <- app_assoc.
  - eauto.
  - contradiction.
Qed.
Lemma explore_objects fresh p : forall h i r h' i', explore fresh p h i = (r, h', i') -> forall f,
  (exists l, objects i' f = objects i f ++ l) /\ (In f (map fst i) -> In f (map fst i')).
Proof.
  induction p as [r0|f k IH|o k IH|o c k IH]; intros h i r h' i' E g; cbn in *.
  - injection E as <- <- <-. split; [exists []; now rewrite app_nil_r|auto].
  - destruct (IH _ _ _ _ _ _ E g) as [[l L] K]. split.
    + rewrite L, append_objects. destruct (Nat.eqb f g); [|eauto]. exists (length h :: l). now rewrite <- app_assoc.
    + intro I. apply K, append_keys. now left.
  - eauto.
  - eauto.
Qed.
Lemma next_values ps f : 
  match next ps f with
  | None => values ps f = None
  | Some None => values ps f = Some []
  | Some (Some (c, ps')) => exists l, values ps f = Some (c :: l) /\ forall g, values ps' g = if Nat.eqb f g then Some l else values ps g
  end.
Proof.
  induction ps as [|[k l] ps IH]; cbn; [reflexivity|]. destruct (Nat.eqb_spec k f) as [E|E].
  - subst k. destruct l as [|c l]; [reflexivity|]. exists l. split; [reflexivity|]. intro g. cbn. now destruct (Nat.eqb f g).
  - destruct (next ps f) as [[[c ps']|]|]; [|exact IH|exact IH]. destruct IH as (l' & V & W). exists l'. split; [exact V|].
    intro g. cbn. destruct (Nat.eqb_spec k g) as [E'|E']; [|apply W]. subst k. destruct (Nat.eqb_spec f g); [congruence|reflexivity].
Qed.
Lemma patch_values h i f : values (map (fun e => (fst e, map (read h) (snd e))) i) f =
  if existsb (Nat.eqb f) (map fst i) then Some (map (read h) (objects i f)) else None.
Proof.
  induction i as [|[k l] i IH]; cbn; [reflexivity|]. rewrite (Nat.eqb_sym f k). destruct (Nat.eqb k f); [reflexivity|]. exact IH.
Qed.

(** The main invariant: the patches hold the contents of the objects still to be returned. *)
Lemma replays real fresh p : forall h i r h' i' ps,
  explore fresh p h i = (r, h', i') -> changes_nothing fresh p h ->
  (forall f l, objects i' f = objects i f ++ l -> In f (map fst i') -> values ps f = Some (map (read h') l)) ->
  replay real p h ps = Value r.
Proof.
  induction p as [r0|f k IH|o k IH|o c k IH]; intros h i r h' i' ps E C P; cbn in *.
  - congruence.
  - pose proof (explore_objects _ _ _ _ _ _ _ E f) as [[l L] K].
    rewrite append_objects, Nat.eqb_refl, <- app_assoc in L.
    assert (KF : In f (map fst i')) by (apply K, append_keys; now right).
    pose proof (P f _ L KF) as V. pose proof (next_values ps f) as N. rewrite V in N. cbn in N.
    destruct (explore_grows _ _ _ _ _ _ _ E C) as [t T].
    assert (R : read h' (length h) = fresh (length h)).
    { rewrite T. unfold read. rewrite <- app_assoc. rewrite app_nth2 by lia. now rewrite Nat.sub_diag. }
    destruct (next ps f) as [[[c ps']|]|]; [|discriminate N|discriminate N].
    destruct N as (l' & [= EC EL] & W). rewrite <- EC, R. eapply IH; [exact E|exact C|].
    intros g lg LG KG. rewrite W. rewrite append_objects in LG. destruct (Nat.eqb_spec f g) as [EG|EG].
    + subst g. rewrite <- app_assoc in LG. rewrite L in LG. apply app_inv_head in LG. injection LG as <-. now rewrite <- EL.
    + now apply P.
  - eapply IH; eauto.
  - contradiction.
Qed.

(** The path's body is repeated exactly when neither the preconditions call a skipped function nor
    the body changes an object that one returned.  Missing: the other cases, refuted below. *)
Theorem counterexample_replays_partial real fresh pre body r ps :
  calls_nothing fresh pre [] -> changes_nothing fresh body [] ->
  counterexample fresh pre body = (r, ps) -> with_patch real body ps = Value r.
Proof.
  intros CP CB E. unfold counterexample in E.
  assert (X : forall p h i, calls_nothing fresh p h -> exists r h', explore fresh p h i = (r, h', i) /\ length h' = length h).
  { clear. assert (WL : forall h o c, length (write h o c) = length h) by (induction h as [|x h IH]; intros [|o] c; cbn; auto).
    induction p as [r0|f k IH|o k IH|o c k IH]; intros h i C; cbn in *; eauto; [contradiction|].
    destruct (IH (write h o c) i C) as (r & h' & A & B). exists r, h'. split; [exact A|]. now rewrite B, WL. }
  destruct (X pre [] [] CP) as (r0 & h0 & E0 & L0). rewrite E0 in E. destruct h0; [|discriminate].
  destruct (explore fresh body [] []) as [[r' h'] i'] eqn:EB. injection E as <- <-.
  unfold with_patch. eapply replays; [exact EB|exact CB|]. intros f l L K. cbn in L. rewrite <- L. unfold patch.
  destruct i' as [|e i']; [destruct K|]. rewrite patch_values.
  assert (B : existsb (Nat.eqb f) (map fst (e :: i')) = true). { apply existsb_exists. exists f. split; [exact K|apply Nat.eqb_refl]. }
  now rewrite B.
Qed.
Print Assumptions counterexample_replays_partial.

(** A patched function never returns anything that is not in the patch: each call takes the next
    value of that function, and one too many is an error. *)
Theorem patched_calls_in_order real f k h ps :
  match values ps f with
  | None => replay real (Call f k) h ps = replay real (k (length h)) (h ++ [real f]) ps
  | Some [] => replay real (Call f k) h ps = NotDeterministic
  | Some (c :: l) => exists ps', replay real (Call f k) h ps = replay real (k (length h)) (h ++ [c]) ps' /\
      values ps' f = Some l /\ forall g, g <> f -> values ps' g = values ps g
  end.
Proof.
  cbn. pose proof (next_values ps f) as N. destruct (next ps f) as [[[c ps']|]|].
  - destruct N as (l & V & W). rewrite V. exists ps'. split; [reflexivity|]. split; [now rewrite W, Nat.eqb_refl|].
    intros g G. rewrite W. destruct (Nat.eqb_spec f g); [congruence|reflexivity].
  - now rewrite N.
  - now rewrite N.
Qed.
Print Assumptions patched_calls_in_order.

(** No patch is printed when no skipped function was called. *)
Theorem patch_only_if_called fresh pre body : snd (counterexample fresh pre body) = None <->
  calls_nothing fresh pre [] /\ let '(_, h, _) := explore fresh pre [] [] in calls_nothing fresh body h.
Proof.
  assert (X : forall p h i, (let '(_, _, i') := explore fresh p h i in i' = []) <-> i = [] /\ calls_nothing fresh p h).
  { induction p as [r0|f k IH|o k IH|o c k IH]; intros h i; cbn.
    - tauto.
    - rewrite IH. split; [intros [A _]|intros [_ []]]. exfalso. destruct i as [|[g l] i]; cbn in A; [discriminate|].
      destruct (Nat.eqb g f); discriminate.
    - apply IH.
    - apply IH. }
  unfold counterexample. pose proof (X pre [] []) as A. destruct (explore fresh pre [] []) as [[r0 h0] i0].
  pose proof (X body h0 i0) as B. destruct (explore fresh body h0 i0) as [[r h] i]. cbn.
  assert (P : patch h i = None <-> i = []) by (destruct i; cbn; split; congruence). rewrite P, B, A. tauto.
Qed.
Print Assumptions patch_only_if_called.

(** * Witnesses *)
(** f() twice and g() once, and the result depends on all three *)
Definition three_calls : prog :=
  Call 0 (fun a => Call 1 (fun b => Call 0 (fun c => Get a (fun x => Get b (fun y => Get c (fun z => Done (x * 100 + y * 10 + z)%Z)))))).
Definition digits (n : nat) : Z := Z.of_nat (n + 1).
Example replay_case :
  counterexample digits (Done 1) three_calls = (123%Z, Some [(0, [1%Z; 3%Z]); (1, [2%Z])]) /\
  with_patch (fun _ => 0%Z) three_calls (Some [(0, [1%Z; 3%Z]); (1, [2%Z])]) = Value 123 /\
  with_patch (fun _ => 0%Z) three_calls (Some [(0, [1%Z])]) = NotDeterministic.
Proof. repeat split. Qed.
(** The values are written when the path is over: an object that was changed in between is printed
    as it is then, and changed once more when the call is repeated. *)
Theorem replay_changed_refuted : exists fresh body r ps,
  counterexample fresh (Done 1) body = (r, ps) /\ with_patch (fun _ => 0%Z) body ps <> Value r.
Proof.
  exists digits, (Call 0 (fun a => Get a (fun x => Put a (x + 1)%Z (Done x)))), 1%Z, (Some [(0, [2%Z])]).
  split; [reflexivity|discriminate].
Qed.
(** The calls made by the preconditions are in the patch as well, but are not made again: the body
    gets their values. *)
Theorem replay_precondition_refuted : exists fresh pre body r ps, changes_nothing fresh body [] /\
  counterexample fresh pre body = (r, ps) /\ with_patch (fun _ => 0%Z) body ps <> Value r.
Proof.
  exists digits, (Call 0 (fun a => Done 1)), (Call 0 (fun a => Get a (fun x => Done x))), 2%Z, (Some [(0, [1%Z; 2%Z])]).
  split; [exact I|]. split; [reflexivity|discriminate].
Qed.
Print Assumptions replay_changed_refuted.
Print Assumptions replay_precondition_refuted.
