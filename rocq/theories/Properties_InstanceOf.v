(* C129: isinstance answers as it does outside the analysis. *)
From Coq Require Import String.
From Coq Require Import List Bool Arith.
From Verif Require Import Py InstanceOf_Model InstanceOf_Spec.
Import ListNotations.

Section Types.
  Variable P : types -> Prop.
  Hypothesis one : forall c, P (One c).
  Hypothesis many : forall l, Forall P l -> P (Many l).
  Fixpoint types_ind' (t : types) : P t :=
    match t with
    | One c => one c
    | Many l => many l ((fix go l : Forall P l := match l with [] => Forall_nil _ | t :: l => Forall_cons _ (types_ind' t) (go l) end) l)
    end.
End Types.
Lemma inherits_base mro d c : inherits mro d c = is_base_b mro c d.
Proof.
  unfold inherits, is_base_b. destruct (in_dec Nat.eq_dec c (mro d)) as [I|I].
  - apply existsb_exists. exists c. split; [exact I|apply Nat.eqb_refl].
  - destruct (existsb (Nat.eqb c) (mro d)) eqn:E; [|reflexivity]. apply existsb_exists in E. destruct E as (x & X & Q). apply Nat.eqb_eq in Q. now subst.
Qed.

(** For an object that does not claim to have another class, and classes without hooks and
    abstract base classes, in nested tuples, the answer is CPython's.  Missing: objects that claim
    another class, protocols with data members and metaclasses with hooks, refuted below. *)
Theorem isinstance_partial mro metaclass o t : (forall c, In c (mro c)) -> o_class o = o_type o -> ordinary metaclass t ->
  isinstance mro metaclass o t = Ok (instance_of_any mro metaclass o t).
Proof.
  intros REFL CL. unfold isinstance. induction t as [c|l IH] using types_ind'; intro O; cbn [issubclass instance_of_any ordinary] in *.
  - unfold builtin_issubclass, instance_of, by_type. rewrite CL. destruct (Nat.eqb_spec (o_type o) c) as [E|E].
    + subst c. destruct (metaclass (o_type o)) as [|check|ms|i s]; try contradiction; [|now rewrite O].
      rewrite inherits_base. unfold is_base_b. destruct (in_dec Nat.eq_dec (o_type o) (mro (o_type o))) as [I|I]; [reflexivity|]. exfalso. now apply I.
    + destruct (metaclass c) as [|check|ms|i s]; try contradiction.
      * rewrite inherits_base. now rewrite orb_diag.
      * now rewrite orb_diag.
  - induction IH as [|t l IT IH IHl]; [reflexivity|]. destruct O as [O1 O2]. rewrite (IT O1). destruct (instance_of_any mro metaclass o t); cbn [orb]; [reflexivity|].
    exact (IHl O2).
Qed.
Print Assumptions isinstance_partial.

(** issubclass with nested tuples is CPython's for all classes: also with hooks and with classes that raise. *)
Theorem issubclass_as_python mro metaclass d t : issubclass mro metaclass d t = subclass_answer mro metaclass d t.
Proof.
  assert (A : forall c, builtin_issubclass mro metaclass d c = asks mro metaclass d c).
  { intros c. unfold builtin_issubclass, asks. destruct (metaclass c) as [|ck|ms|i [sc|]]; try reflexivity; now rewrite inherits_base. }
  assert (FA : forall (p : nat -> bool) l m, find p (l ++ m) = match find p l with Some c => Some c | None => find p m end).
  { intros p l m. induction l as [|c l IH]; [reflexivity|]. cbn. now destruct (p c). }
  assert (D : forall l, match find (decides mro metaclass d) l with Some c => asks mro metaclass d c <> Ok false | None => True end).
  { intros l. destruct (find _ l) as [c|] eqn:E; [|exact I]. apply find_some in E as [_ E]. unfold decides in E.
    destruct (asks mro metaclass d c) as [[|]|]; congruence. }
  unfold subclass_answer. induction t as [c|l IH] using types_ind'; cbn [issubclass leaves].
  - cbn [find]. rewrite A. unfold decides. destruct (asks mro metaclass d c) as [[|]|] eqn:X; rewrite ?X; reflexivity.
  - induction IH as [|t l IT IH IHl]; [reflexivity|]. cbn [flat_map]. rewrite FA, IT, IHl. specialize (D (leaves t)).
    destruct (find (decides mro metaclass d) (leaves t)) as [c|]; [|reflexivity].
    destruct (asks mro metaclass d c) as [[|]|]; congruence.
Qed.
Print Assumptions issubclass_as_python.
Example issubclass_example :
  let m c := match c with 4 => Protocol ["x"%string] | 5 => Hooks None (Some (fun _ => true)) | _ => Plain end in
  let mro c := match c with 2 => [2; 1; 0] | c => [c; 0] end in
  issubclass mro m 2 (Many [One 3; Many [One 4; One 5]]) = Err TypeError /\ issubclass mro m 2 (Many [Many [One 3; One 1]; One 4]) = Ok true.
Proof. split; reflexivity. Qed.

(** Classes: 0 object, 1, 2 a subclass of 1, 3 another class *)
Definition mro4 (c : nat) : list nat := match c with 0 => [0] | 2 => [2; 1; 0] | c => [c; 0] end.
Definition plain (c : nat) : meta := match c with 5 => Abc (fun d => Nat.eqb d 5 || Nat.eqb d 2) | _ => Plain end.
Example isinstance_example : ordinary plain (Many [One 3; Many [One 5; One 4]]) /\
  isinstance mro4 plain (Obj 2 2 []) (Many [One 3; Many [One 5; One 4]]) = Ok true /\
  isinstance mro4 plain (Obj 2 2 []) (One 1) = Ok true /\ isinstance mro4 plain (Obj 1 1 []) (Many [One 3; One 2]) = Ok false.
Proof. repeat split. Qed.

(** An object with a __class__ of its own, as mocks have *)
Theorem isinstance_class_attribute_refuted : exists o t,
  isinstance mro4 plain o t = Ok false /\ instance_of_any mro4 plain o t = true.
Proof. now exists (Obj 3 1 []), (One 1). Qed.
Print Assumptions isinstance_class_attribute_refuted.
(** A protocol with data members: isinstance raises TypeError *)
Theorem isinstance_protocol_refuted : exists metaclass o t, (forall c, In c (mro4 c)) /\ o_class o = o_type o /\
  isinstance mro4 metaclass o t = Err TypeError /\ instance_of_any mro4 metaclass o t = true.
Proof.
  exists (fun c => if Nat.eqb c 4 then Protocol ["x"%string] else Plain), (Obj 3 3 ["x"%string]), (One 4).
  split; [|now split]. intros [|[|[|c]]]; cbn; auto.
Qed.
Print Assumptions isinstance_protocol_refuted.
(** A metaclass with __instancecheck__ is not asked; one with only __subclasscheck__ is, and
    should not be *)
Theorem isinstance_hook_refuted : exists metaclass o t, o_class o = o_type o /\
  isinstance mro4 metaclass o t = Ok false /\ instance_of_any mro4 metaclass o t = true.
Proof. now exists (fun c => if Nat.eqb c 4 then Hooks (Some (fun _ => true)) None else Plain), (Obj 3 3 []), (One 4). Qed.
Theorem isinstance_subclass_hook_refuted : exists metaclass o t, o_class o = o_type o /\
  isinstance mro4 metaclass o t = Ok true /\ instance_of_any mro4 metaclass o t = false.
Proof. now exists (fun c => if Nat.eqb c 4 then Hooks None (Some (fun _ => true)) else Plain), (Obj 3 3 []), (One 4). Qed.
Print Assumptions isinstance_hook_refuted.
Print Assumptions isinstance_subclass_hook_refuted.
