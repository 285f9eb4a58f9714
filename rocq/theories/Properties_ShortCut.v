(* C121: calls that are skipped. *)
From Coq Require Import ZArith List Bool Lia.
From Verif Require Import ShortCut_Model.
Import ListNotations.

(** Nothing in the value can be changed: there are only atoms and tuples in it. *)
Fixpoint plain (v : value) : bool :=
  match v with Atom _ => true | Tup l => forallb plain l | Ref _ => false end.

Lemma view_plain : forall d h h' v, plain v = true -> view d h v = view d h' v.
Proof.
  induction d as [|d IH]; intros h h' v P; [reflexivity|]. destruct v as [z|l|n]; [reflexivity| |easy].
  cbn [view plain] in *. f_equal. apply map_ext_in. intros v I. apply IH. rewrite forallb_forall in P. auto.
Qed.

(** C121.  The full claim: on a path that is not dropped, what a skipped call returned is what the
    function returns for the arguments as they were when it was called ([h0]), whatever has
    been changed since ([h1]):

      forall d f h0 h1 args retval,
        reconciled d f h1 retval (map (keep d h0) args) -> view d h0 retval = f (map (view d h0) args)

    Proved if nothing in the returned value can be changed, nor in the arguments that count as
    immutable.  Refuted for the rest below. *)
Theorem skipped_call_partial : forall d f h0 h1 args retval,
  plain retval = true -> (forall v, In v args -> is_deeply_immutable d h0 v = true -> plain v = true) ->
  reconciled d f h1 retval (map (keep d h0) args) -> view d h0 retval = f (map (view d h0) args).
Proof.
  intros d f h0 h1 args retval P A R. unfold reconciled in R. rewrite (view_plain d h0 h1 retval P), R. f_equal.
  rewrite map_map. apply map_ext_in. intros v I. unfold keep. destruct (is_deeply_immutable d h0 v) eqn:E; [|reflexivity].
  cbn [look]. apply view_plain. auto.
Qed.
(** In the other direction, a path on which the call returned what the function returns is not
    dropped, under the same conditions. *)
Theorem skipped_call_kept_partial : forall d f h0 h1 args retval,
  plain retval = true -> (forall v, In v args -> is_deeply_immutable d h0 v = true -> plain v = true) ->
  view d h0 retval = f (map (view d h0) args) -> reconciled d f h1 retval (map (keep d h0) args).
Proof.
  intros d f h0 h1 args retval P A R. unfold reconciled. rewrite (view_plain d h1 h0 retval P), R. f_equal.
  rewrite map_map. apply map_ext_in. intros v I. unfold keep. destruct (is_deeply_immutable d h0 v) eqn:E; [|reflexivity].
  cbn [look]. apply view_plain. auto.
Qed.
(** Lists, objects with object's hash and whatever has a list in it, however deep in tuples, are
    never taken for immutable. *)
Inductive has_list (h : heap) : value -> Prop :=
  | hl_list : forall n, o_hash (h n) = HNone -> has_list h (Ref n)
  | hl_tup : forall l v, In v l -> has_list h v -> has_list h (Tup l).
Theorem lists_are_copied : forall d h v, has_list h v -> is_deeply_immutable d h v = false.
Proof.
  intros d h v H. unfold is_deeply_immutable. generalize true as b. revert d.
  induction H as [n E|l v I H IH]; intros [|d] b; try reflexivity; cbn [hashes].
  - now rewrite E.
  - apply not_true_iff_false. rewrite forallb_forall. intros A. specialize (A v I). now rewrite IH in A.
Qed.
Theorem objects_are_copied : forall d h n, o_hash (h n) = HObject -> is_deeply_immutable d h (Ref n) = false.
Proof. intros [|d] h n E; [reflexivity|]. unfold is_deeply_immutable. cbn. now rewrite E. Qed.

(** A call is skipped only if the contract says that it changes nothing, or if its body is never
    to be run; and then never if type variables cannot be deduced from symbolic arguments. *)
Theorem skipped_only_if : forall mutable_args generic args fork,
  consider true mutable_args generic args fork = Some true <->
  mutable_args = Some [] /\ fork = true /\ (generic = true -> Forall (fun a => a = (true, true)) args).
Proof.
  assert (D : forall args, deduce true args = Some true <-> Forall (fun a => a = (true, true)) args).
  { induction args as [|[s u] args IH]; [split; auto|]. cbn [deduce]. destruct s, u; cbn; rewrite ?IH;
      (split; [intros H; try discriminate; constructor; auto|intros H; inversion H; subst; auto; discriminate]). }
  intros m g args fork. unfold consider. cbn [andb]. destruct m as [[|x m]|]; [|split; [easy|intros ([=] & _)]..].
  destruct g.
  - destruct (deduce true args) as [[]|] eqn:E.
    + apply D in E. split; [intros [= ->]; auto|intros (_ & -> & _); auto].
    + split; [easy|]. intros (_ & _ & F). apply D in F; auto. congruence.
    + split; [easy|]. intros (_ & _ & F). apply D in F; auto. congruence.
  - split; [intros [= ->]; repeat split; auto; easy|intros (_ & -> & _); auto].
Qed.

(** a list or object at 0; the function counts its items or fields *)
Definition at0 (l : list value) : heap := fun _ => Obj HNone l.
Definition at0_obj (k : hashing) (l : list value) : heap := fun _ => Obj k l.
Definition size (l : list tree) : tree :=
  match l with [TObj _ l] | [TTup [TObj _ l]] => TAtom (Z.of_nat (length l)) | _ => TAtom 0 end.
Example skipped_call_example :
  (forall v, In v [Ref 0; Tup [Atom 1; Atom 2]] -> is_deeply_immutable 5 (at0 [Atom 7]) v = true -> plain v = true) /\
  reconciled 5 size (at0 []) (Atom 1) (map (keep 5 (at0 [Atom 7])) [Ref 0]) /\
  consider true (Some []) true [(true, true)] true = Some true.
Proof. split; [|split; reflexivity]. intros v [<-|[<-|[]]]; cbn; easy. Qed.

(** A returned list is compared after the caller has changed it: the call returned [], the caller
    made it [1], and f returns [1]. *)
Theorem skipped_call_result_refuted : exists d f h0 h1 args retval,
  reconciled d f h1 retval (map (keep d h0) args) /\ view d h0 retval <> f (map (view d h0) args).
Proof.
  exists 5%nat, (fun _ => TObj HNone [TAtom 1]), (at0 []), (at0 [Atom 1]), [Atom 3], (Ref 0). split; [reflexivity|discriminate].
Qed.
(** A tuple with an ordinary object in it counts as immutable; so does an object with a hash of
    its own. *)
Theorem skipped_call_tuple_refuted : exists d f h0 h1 args retval, plain retval = true /\
  reconciled d f h1 retval (map (keep d h0) args) /\ view d h0 retval <> f (map (view d h0) args).
Proof.
  exists 5%nat, size, (at0_obj HObject [Atom 7; Atom 8]), (at0_obj HObject [Atom 7]), [Tup [Ref 0]], (Atom 1).
  split; [reflexivity|]. split; [reflexivity|discriminate].
Qed.
Theorem skipped_call_hash_refuted : exists d f h0 h1 args retval, plain retval = true /\
  reconciled d f h1 retval (map (keep d h0) args) /\ view d h0 retval <> f (map (view d h0) args).
Proof.
  exists 5%nat, size, (at0_obj HOwn [Atom 7; Atom 8]), (at0_obj HOwn [Atom 7]), [Ref 0], (Atom 1).
  split; [reflexivity|]. split; [reflexivity|discriminate].
Qed.

Print Assumptions skipped_call_partial.
Print Assumptions skipped_call_kept_partial.
Print Assumptions lists_are_copied.
Print Assumptions objects_are_copied.
(** A call of a function whose body is never run is always skipped; it is an error of the analysis
    if the type of the result depends on an argument that does not fit, and only then. *)
Theorem always_skipped : forall mutable_args generic args fork,
  consider false mutable_args generic args fork =
    if generic && existsb (fun a => negb (snd a)) args then None else Some true.
Proof.
  assert (D : forall args, deduce false args = if existsb (fun a => negb (snd a)) args then None else Some true).
  { induction args as [|[s u] args IH]; [reflexivity|]. cbn. destruct u; cbn; [exact IH|reflexivity]. }
  intros m g args fork. unfold consider. cbn [andb]. destruct g; cbn; [rewrite D; now destruct (existsb _ args)|reflexivity].
Qed.
Example always_skipped_case :
  consider false None true [(false, true); (true, true)] false = Some true /\ consider false None true [(true, false)] true = None.
Proof. split; reflexivity. Qed.
(** Otherwise skipping is never an error. *)
Theorem skipping_no_error : forall mutable_args generic args fork, consider true mutable_args generic args fork <> None.
Proof.
  assert (D : forall args, deduce true args <> None).
  { induction args as [|[s u] args IH]; [discriminate|]. cbn. destruct s, u; cbn; auto; discriminate. }
  intros m g args fork. unfold consider. destruct m as [[|]|]; cbn; try discriminate. destruct g; [|discriminate].
  specialize (D args). destruct (deduce true args) as [[]|]; congruence.
Qed.
Print Assumptions always_skipped.
Print Assumptions skipping_no_error.
Print Assumptions skipped_only_if.
Print Assumptions skipped_call_result_refuted.
Print Assumptions skipped_call_tuple_refuted.
Print Assumptions skipped_call_hash_refuted.
