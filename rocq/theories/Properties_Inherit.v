(** Contracts and inheritance (C75).

    Full property: each implementation of a method is verified against every contract
    stated for it in its class and superclasses: all the postconditions are checked,
    whenever the preconditions stated there hold; and the invariants of the class and
    its superclasses are assumed before and checked after every public method.

    [class_conditions] is what is verified of a class, by method name. *)
From Coq Require Import String List Bool.
From Verif Require Import Inherit_Model Inherit_Spec Inherit_Proofs.
Import ListNotations.
Open Scope string_scope.
Open Scope list_scope.

Section T.
Variable cond : Type.
Variable any_class : list bool.
Notation conditions c n := (lookup n (snd (class_conditions cond any_class c))).
Notation invs_of c := (fst (class_conditions cond any_class c)).

(** For every hierarchy: what is assumed and verified of a method has been stated in the
    class or in a superclass. *)
Theorem contract_sources c n k : conditions c n = Some k ->
  (forall x, In x (pre _ k) -> exists a, within cond c a /\ (states_pre cond a n x \/ invariant cond a x)) /\
  (forall x, In x (post _ k) -> exists a, within cond c a /\ (states_post cond a n x \/ invariant cond a x)) /\
  (forall x, In x (raises _ k) -> exists a, within cond c a /\ states_raises cond a n x).
Proof. apply sources. Qed.

(** With single inheritance: a stated postcondition is verified in all subclasses, and
    stated exceptions are expected there.  Missing: multiple inheritance. *)
Theorem contract_inherited_partial n c a p : any_class <> [] -> plain cond n c -> within cond c a ->
  contract cond a n = Some p -> post _ p <> [] ->
  exists k, conditions c n = Some k /\ incl (post _ p) (post _ k) /\ incl (raises _ p) (raises _ k).
Proof.
  intros NE P W C N.
  assert (PA : plain cond n a).
  { clear - P W. revert P. induction W as [|python bases members invs b a I W IH]; [auto|]. intro P. apply IH.
    inversion P; subst. rewrite Forall_forall in *. auto. }
  destruct (stated cond any_class n a p NE PA C) as (ka & E & IP & IR & _).
  { unfold has_any. destruct (post _ p); [congruence|]. cbn. now rewrite orb_true_r. }
  destruct (inherited cond any_class n c a ka NE P W E) as (k & EK & IP' & IR' & _).
  { right. destruct (post _ p) as [|x q]; [congruence|]. intro X. rewrite X in IP. destruct (IP x (or_introl eq_refl)). }
  exists k. split; [exact EK|]. split; [exact (incl_tran IP IP')|exact (incl_tran IR IR')].
Qed.

(** With one base: the arguments that may be mutated are those the class states, or
    otherwise those of its base. *)
Theorem mutable_arguments_inherited_partial b members invs n k : conditions (Cls true [b] members invs) n = Some k ->
  let above := match conditions b n with Some kb => mutable _ kb | None => None end in
  (forall p, contract cond (Cls true [b] members invs) n = Some p ->
     mutable _ k = match mutable _ p with Some m => Some m | None => above end) /\
  (lookup n members = None -> conditions b n <> None -> mutable _ k = above).
Proof.
  intros E above. pose proof (mutable_one_base cond any_class b members invs n k E) as M. unfold base in M.
  assert (L : lookup n (merge_methods cond (map (class_conditions cond any_class) [b])) = conditions b n).
  { rewrite merge_lookup. cbn. now destruct (conditions b n). }
  rewrite L in M. unfold above. clear E L above. split.
  - intros p C. cbn in C. destruct (lookup n members) as [l|]; [|discriminate]. rewrite C in M.
    destruct (conditions b n) as [kb|]; rewrite (M _ eq_refl); cbn; now destruct (mutable _ p).
  - intros N ND. rewrite N in M. destruct (conditions b n) as [kb|]; [apply M; reflexivity|congruence].
Qed.

(** With single inheritance, when no subclass states a precondition of its own: a
    verified implementation does what a superclass asks, in every call that meets the
    superclass's preconditions and the invariants of the classes in between. *)
Theorem implementation_verified_partial {call result} (pre_holds : cond -> call -> Prop)
    (post_holds : cond -> call -> result -> Prop) run n c a ka :
  any_class <> [] -> keeps cond n a c -> conditions a n = Some ka -> pre _ ka <> [] \/ post _ ka <> [] ->
  exists k, conditions c n = Some k /\
    (verified cond pre_holds post_holds run k ->
     forall x, Forall (fun q => pre_holds q x) (pre _ ka) ->
       (forall b q, within cond c b -> within cond b a -> In q (invs_of b) -> pre_holds q x) ->
       Forall (fun q => post_holds q x (run x)) (post _ ka)).
Proof.
  intros NE K E N. destruct (keeps_pre cond any_class n c a ka NE K E N) as (k & EK & IP & _ & H).
  exists k. split; [exact EK|]. intros V x PX IX. rewrite Forall_forall in PX.
  assert (A : Forall (fun q => post_holds q x (run x)) (post _ k)).
  { apply V. rewrite Forall_forall. intros q Q. destruct (H q Q) as [Q'|(b & W1 & W2 & Q')]; auto. eapply IX; eauto. }
  rewrite Forall_forall in *. intros q Q. apply A, IP, Q.
Qed.

(** The invariants of a class are assumed and verified in every public method with
    conditions, and verified of __init__; with single inheritance, those of a
    superclass are verified in every method that had conditions there.  Missing:
    methods that are new in a subclass, or had no conditions in the superclass. *)
Theorem invariants_checked_partial c :
  (forall n k, conditions c n = Some k ->
     (in_post n = true -> incl (invs_of c) (post _ k)) /\ (in_pre n = true -> incl (invs_of c) (pre _ k))) /\
  (invs_of c <> [] -> exists k, conditions c "__init__" = Some k /\ incl (invs_of c) (post _ k)) /\
  (forall n a ka, any_class <> [] -> plain cond n c -> within cond c a -> conditions a n = Some ka ->
     in_post n = true -> invs_of a <> [] ->
     exists k, conditions c n = Some k /\ incl (invs_of a) (post _ k)).
Proof.
  split; [intros n k; apply own_invariants|]. split; [apply init_has_invariants|].
  intros n a ka NE P W E IN NI. destruct (own_invariants cond any_class a n ka E) as [O _]. specialize (O IN).
  destruct (inherited cond any_class n c a ka NE P W E) as (k & EK & IP & _).
  { right. destruct (invs_of a) as [|x q]; [congruence|]. intro X. rewrite X in O. destruct (O x (or_introl eq_refl)). }
  exists k. split; [exact EK|exact (incl_tran O IP)].
Qed.
End T.
Print Assumptions contract_sources.
Print Assumptions contract_inherited_partial.
Print Assumptions mutable_arguments_inherited_partial.
Print Assumptions implementation_verified_partial.
Print Assumptions invariants_checked_partial.

(** Which methods the invariants are added to *)
Theorem invariants_public n :
  (in_post n = true <-> ~ In n ["__new__"; "__repr__"; "__setattr__"; "__delattr__"; "__replace__"; "__annotate__"; "__annotate_func__"; "__del__"]
                        /\ (String.prefix "_" n = false \/ special n)) /\
  (in_pre n = true <-> ~ In n ["__new__"; "__repr__"; "__setattr__"; "__delattr__"; "__replace__"; "__annotate__"; "__annotate_func__"; "__init__"]
                        /\ (String.prefix "_" n = false \/ special n)).
Proof.
  assert (X : exempt n = true <-> In n ["__new__"; "__repr__"; "__setattr__"; "__delattr__"; "__replace__"; "__annotate__"; "__annotate_func__"]).
  { unfold exempt. rewrite existsb_exists. split.
    - intros (x & I & E). apply String.eqb_eq in E. now subst.
    - intro I. exists n. split; [auto|apply String.eqb_refl]. }
  assert (A : forall x l, In n (l ++ [x]) <-> In n l \/ n = x).
  { intros. rewrite in_app_iff. cbn. split; intros [H|H]; auto. destruct H as [<-|[]]; auto. }
  change ["__new__"; "__repr__"; "__setattr__"; "__delattr__"; "__replace__"; "__annotate__"; "__annotate_func__"; "__del__"]
    with (["__new__"; "__repr__"; "__setattr__"; "__delattr__"; "__replace__"; "__annotate__"; "__annotate_func__"] ++ ["__del__"]).
  change ["__new__"; "__repr__"; "__setattr__"; "__delattr__"; "__replace__"; "__annotate__"; "__annotate_func__"; "__init__"]
    with (["__new__"; "__repr__"; "__setattr__"; "__delattr__"; "__replace__"; "__annotate__"; "__annotate_func__"] ++ ["__init__"]).
  rewrite !A, <- X, <- dunder_special. unfold in_post, in_pre.
  destruct (exempt n); [split; split; intros; try discriminate; tauto|].
  destruct (String.eqb_spec n "__del__") as [->|ND]; [split; split; try discriminate; try tauto; intros _; split; [intros [|]; discriminate|auto]|].
  destruct (String.eqb_spec n "__init__") as [->|NI]; [split; split; try discriminate; try tauto; intros _; split; [intros [|]; discriminate|auto]|].
  destruct (dunder n); [split; split; try tauto; intros _; (split; [intros [|]; congruence|auto])|].
  destruct (String.prefix "_" n); split; split; try discriminate; try tauto.
  - intros [_ [|]]; discriminate.
  - intros [_ [|]]; discriminate.
  - intros _. split; [intros [|]; congruence|auto].
  - intros _. split; [intros [|]; congruence|auto].
Qed.
Print Assumptions invariants_public.

(** ** Examples
    Conditions are numbers; there are two kinds of contracts, and registered ones. *)
Definition kinds : list bool := [false; false; true].
Definition fun_ (i : nat) (p q : list nat) : list (option (conds nat)) :=
  [Some (mkConds (Some i) p q [] None []); Some (mkConds (Some i) [] [] [] None []); None].
Notation of c n := (lookup n (snd (class_conditions nat kinds c))).

(** A: invariant 1, foo with precondition 2 and postcondition 3.
    B(A): invariant 4, foo with postcondition 5; C(B) inherits it. *)
Definition exA := Cls true [] [("foo", fun_ 0 [2] [3])] [[1]; []; []].
Definition exB := Cls true [exA] [("foo", fun_ 1 [] [5])] [[4]; []; []].
Definition exC := Cls true [exB] [] [[]; []; []].
Example inherit_example :
  plain nat "foo" exC /\ within nat exC exA /\ keeps nat "foo" exA exC /\
  of exC "foo" = Some (mkConds (Some 1) [2; 1; 4] [3; 1; 5; 4] [] None []) /\
  of exC "__init__" = Some (mkConds None [] [1; 4] [] None []).
Proof.
  split; [|split; [|split; [|vm_compute; auto]]].
  - repeat (constructor; cbn; auto); intros l H; try discriminate; injection H as <-; discriminate.
  - apply w_base with (b := exB); [now left|]. apply w_base with (b := exA); [now left|constructor].
  - apply keeps_step; [|exact I]. apply keeps_step; [constructor|]. reflexivity.
Qed.

(** foo may mutate argument 7, unless a subclass says otherwise *)
Definition exM := Cls true [] [("foo", [Some (mkConds (Some 0) [] [1] [] (Some [7]) [])])] [[]; []; []].
Definition exN := Cls true [exM] [("foo", fun_ 1 [] [2])] [[]; []; []].
Definition exO := Cls true [exN] [("foo", [Some (mkConds (Some 2) [] [3] [] (Some []) [])])] [[]; []; []].
Example mutable_example :
  of exN "foo" = Some (mkConds (Some 1) [] [1; 2] [] (Some [7]) []) /\
  of exO "foo" = Some (mkConds (Some 2) [] [1; 2; 3] [] (Some []) []).
Proof. vm_compute. auto. Qed.

(** ** Refutations *)
(** With class C(A, B), only the contract of A's foo is verified: B's is not. *)
Theorem multiple_inheritance_refuted : exists c b x,
  within nat c b /\ states_post nat b "foo" x /\ (exists k, of c "foo" = Some k /\ ~ In x (post _ k)).
Proof.
  set (b := Cls true [] [("foo", fun_ 1 [] [2])] [[]; []; []]).
  exists (Cls true [Cls true [] [("foo", fun_ 0 [] [1])] [[]; []; []]; b] [("foo", fun_ 2 [] [])] [[]; []; []]), b, 2.
  split; [|split].
  - apply w_base with (b := b); [right; now left|constructor].
  - eexists. split; [reflexivity|now left].
  - eexists. split; [vm_compute; reflexivity|]. cbn. intuition discriminate.
Qed.
Print Assumptions multiple_inheritance_refuted.

(** The invariants of a superclass are neither assumed nor verified in a new method. *)
Theorem new_method_refuted : exists c a x,
  plain nat "bar" c /\ within nat c a /\ invariant nat a x /\
  (exists k, of c "bar" = Some k /\ ~ In x (pre _ k) /\ ~ In x (post _ k)).
Proof.
  exists (Cls true [exA] [("bar", fun_ 1 [] [5])] [[]; []; []]), exA, 1. split; [|split; [|split]].
  - repeat (constructor; cbn; auto); intros l H; try discriminate; injection H as <-; discriminate.
  - apply w_base with (b := exA); [now left|constructor].
  - exists [1]. cbn. auto.
  - eexists. split; [vm_compute; reflexivity|]. cbn. intuition discriminate.
Qed.
Print Assumptions new_method_refuted.

(** The invariants of a class are not verified in a method inherited from a superclass
    that states no conditions. *)
Theorem inherited_method_refuted : exists c a x,
  plain nat "foo" c /\ within nat c a /\ contract nat a "foo" <> None /\ invariant nat c x /\ of c "foo" = None.
Proof.
  set (a := Cls true [] [("foo", fun_ 0 [] [])] [[]; []; []]).
  exists (Cls true [a] [] [[1]; []; []]), a, 1. split; [|split; [|split; [|split]]].
  - repeat (constructor; cbn; auto); intros l H; try discriminate; injection H as <-; discriminate.
  - apply w_base with (b := a); [now left|constructor].
  - discriminate.
  - exists [1]. cbn. auto.
  - vm_compute. reflexivity.
Qed.
Print Assumptions inherited_method_refuted.

(** A precondition in a subclass displaces the invariants of the superclass. *)
Theorem displaced_invariant_refuted : exists c a x,
  plain nat "foo" c /\ within nat c a /\ invariant nat a x /\
  (exists ka, of a "foo" = Some ka /\ In x (pre _ ka)) /\ (exists k, of c "foo" = Some k /\ ~ In x (pre _ k)).
Proof.
  exists (Cls true [exA] [("foo", fun_ 1 [6] [])] [[]; []; []]), exA, 1. split; [|split; [|split; [|split]]].
  - repeat (constructor; cbn; auto); intros l H; try discriminate; injection H as <-; discriminate.
  - apply w_base with (b := exA); [now left|constructor].
  - exists [1]. cbn. auto.
  - eexists. split; [vm_compute; reflexivity|]. cbn. auto.
  - eexists. split; [vm_compute; reflexivity|]. cbn. intuition discriminate.
Qed.
Print Assumptions displaced_invariant_refuted.

(** An implementation with a stronger precondition is verified though it does not do
    what the superclass asks. *)
Theorem stronger_precondition_refuted :
  exists c a k ka (pre_holds : nat -> nat -> Prop) (post_holds : nat -> nat -> nat -> Prop) run x,
    plain nat "foo" c /\ within nat c a /\ of c "foo" = Some k /\ of a "foo" = Some ka /\
    verified nat pre_holds post_holds run k /\
    Forall (fun q => pre_holds q x) (pre _ ka) /\ ~ Forall (fun q => post_holds q x (run x)) (post _ ka).
Proof.
  (* precondition i: the argument is i or more; postcondition: the result is 1 or more *)
  set (a := Cls true [] [("foo", fun_ 0 [0] [1])] [[]; []; []]).
  exists (Cls true [a] [("foo", fun_ 1 [1] [])] [[]; []; []]), a, (mkConds (Some 1) [1] [1] [] None []), (mkConds (Some 0) [0] [1] [] None []),
    (fun i x => i <= x), (fun i _ r => i <= r), (fun x => x), 0.
  split; [|split; [|split; [|split; [|split; [|split]]]]].
  - repeat (constructor; cbn; auto); intros l H; try discriminate; injection H as <-; discriminate.
  - apply w_base with (b := a); [now left|constructor].
  - vm_compute. reflexivity.
  - vm_compute. reflexivity.
  - intros x H. exact H.
  - repeat constructor.
  - intro H. inversion H as [|? ? H1]; subst. inversion H1.
Qed.
Print Assumptions stronger_precondition_refuted.

(** When a class has conditions of one kind, its invariants of another are ignored. *)
Theorem second_kind_refuted : exists c x,
  invariant nat c x /\ (exists k, of c "foo" = Some k /\ ~ In x (post _ k)).
Proof.
  exists (Cls true [] [("foo", fun_ 0 [] [3])] [[]; [1]; []]), 1. split.
  - exists [1]. cbn. auto.
  - eexists. split; [vm_compute; reflexivity|]. cbn. intuition discriminate.
Qed.
Print Assumptions second_kind_refuted.
