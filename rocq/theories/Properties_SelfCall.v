(** C176: methods called through their class, or with symbolic arguments. *)
From Coq Require Import List Bool ZArith.
From Verif Require Import Py SelfCall_Model SelfCall_Spec.
Import ListNotations.

Section Calls.
Variables cls name payload : Type.
Variable cls_eqb : cls -> cls -> bool.
Variable sub : cls -> cls -> bool.
Variable meth : cls -> name -> payload -> list (pure payload) -> res payload.
Variable on_none : res payload.
Hypothesis eqb_ok : forall a b, cls_eqb a b = true <-> a = b.
Hypothesis sub_refl : forall a, sub a a = true.

Lemma stands_seen : forall a, stands payload a = seen payload a.
Proof.
  reflexivity.
Qed.
Lemma stands_all : forall args, map (stands payload) args = map (seen payload) args.
Proof. intro args. apply map_ext. exact stands_seen. Qed.
Lemma stands_realize : forall args, map (stands payload) (map (realize payload) args) = map (seen payload) args.
Proof. intro args. rewrite map_map, <- stands_all. apply map_ext. intros []; reflexivity. Qed.

(** No tuple among the arguments has symbolic items *)
Definition flat (args : list (arg payload)) : Prop :=
  forall l, In (ATuple _ l) args -> forallb (no_proxy payload) l = true.
Lemma flat_realized : forall args, flat args -> forallb (no_proxy payload) (map (realize payload) args) = true.
Proof.
  intros args F. apply forallb_forall. intros a I. apply in_map_iff in I as (b & <- & I).
  destruct b as [v|v|l]; [reflexivity|reflexivity|]. exact (F l I).
Qed.

(** Realizing the object and the arguments *)
Theorem C176_realized_partial : forall c n self args, flat args ->
  with_realized_args cls name payload sub meth c n self args = p_call cls name payload sub meth c n self args.
Proof.
  intros c n self args F. unfold with_realized_args, p_call. destruct self as [d v|d v]; cbn [realize_self native_method class_of value_of];
    (destruct (sub d c); [|reflexivity]); rewrite (flat_realized args F), stands_realize; reflexivity.
Qed.
(** Methods without arguments, on native objects and on symbolic ones of just that class *)
Theorem C176_checked_partial : forall c n self,
  (forall d v, self = Proxy _ _ d v -> sub d c = true -> d = c) ->
  with_checked_self cls name payload cls_eqb sub meth c n self [] = p_call cls name payload sub meth c n self [].
Proof.
  intros c n self H. unfold with_checked_self, p_call. destruct self as [d v|d v]; cbn [class_of value_of].
  - reflexivity.
  - destruct (cls_eqb d c) eqn:E.
    + apply eqb_ok in E as ->. rewrite sub_refl. reflexivity.
    + destruct (sub d c) eqn:S; [|reflexivity]. pose proof (H d v eq_refl S) as X. apply eqb_ok in X. congruence.
Qed.
(** Methods of strings and ranges, with arguments *)
Theorem C176_symbolic_partial : forall c n self args, flat args ->
  (forall d v, self = Proxy _ _ d v -> d = c) -> sub (class_of _ _ self) c = true ->
  with_symbolic_self cls name payload cls_eqb sub meth on_none c n self args = p_call cls name payload sub meth c n self args.
Proof.
  intros c n self args F H S. unfold with_symbolic_self, p_call. rewrite S. destruct self as [d v|d v]; cbn [class_of value_of] in *.
  - rewrite S. destruct (existsb (is_proxy payload) args); [rewrite stands_all; reflexivity|].
    cbn [native_method]. rewrite S, (flat_realized args F), stands_realize. reflexivity.
  - rewrite (H d v eq_refl). rewrite (proj2 (eqb_ok c c) eq_refl), stands_all. reflexivity.
Qed.
End Calls.
Print Assumptions C176_realized_partial.
Print Assumptions C176_checked_partial.
Print Assumptions C176_symbolic_partial.

(** int and its subclass bool, and strings, with methods that count what they are given *)
Inductive kind := KInt | KBool | KStr.
Definition kind_eqb (a b : kind) : bool :=
  match a, b with KInt, KInt | KBool, KBool | KStr, KStr => true | _, _ => false end.
Definition kind_sub (a b : kind) : bool := kind_eqb a b || match a, b with KBool, KInt => true | _, _ => false end.
Definition sample (c : kind) (n : unit) (v : Z) (args : list (pure Z)) : res Z := Ok (v + Z.of_nat (length args))%Z.
Example C176_example :
  (forall a b, kind_eqb a b = true <-> a = b) /\ (forall a, kind_sub a a = true) /\
  with_checked_self kind unit Z kind_eqb kind_sub sample KInt tt (Proxy _ _ KInt 5%Z) [] = Ok 5%Z /\
  with_checked_self kind unit Z kind_eqb kind_sub sample KInt tt (Native _ _ KBool 1%Z) [] = Ok 1%Z /\
  flat Z [AProxy _ 1%Z; ATuple _ [ANative _ 2%Z]] /\
  with_symbolic_self kind unit Z kind_eqb kind_sub sample (Err TypeError) KStr tt (Native _ _ KStr 3%Z) [AProxy _ 1%Z; ATuple _ [ANative _ 2%Z]] = Ok 5%Z /\
  with_realized_args kind unit Z kind_sub sample KStr tt (Proxy _ _ KStr 3%Z) [AProxy _ 1%Z] = Ok 4%Z.
Proof.
  split; [intros [] []; split; (reflexivity || discriminate)|]. split; [intros []; reflexivity|]. split; [reflexivity|].
  split; [reflexivity|]. split; [|split; reflexivity].
  intros l [E|[E|[]]]; [discriminate|]. injection E as <-. reflexivity.
Qed.

(** Refuted: int.bit_length of a symbolic bool is a TypeError, *)
Theorem C176_subclass_refuted : exists c n self,
  with_checked_self kind unit Z kind_eqb kind_sub sample c n self [] = Err TypeError /\
  p_call kind unit Z kind_sub sample c n self [] = Ok 1%Z.
Proof. exists KInt, tt, (Proxy _ _ KBool 1%Z). split; reflexivity. Qed.
Print Assumptions C176_subclass_refuted.
(** and so is "...".endswith((x,)) with a symbolic x. *)
Theorem C176_tuple_refuted : exists n self args,
  with_symbolic_self kind unit Z kind_eqb kind_sub sample (Err TypeError) KStr n self args = Err TypeError /\
  with_realized_args kind unit Z kind_sub sample KStr n self args = Err TypeError /\
  p_call kind unit Z kind_sub sample KStr n self args = Ok 4%Z.
Proof. exists tt, (Native _ _ KStr 3%Z), [ATuple _ [AProxy _ 1%Z]]. repeat split. Qed.
Print Assumptions C176_tuple_refuted.
