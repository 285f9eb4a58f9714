(** C145: what is called when calls are intercepted.  Model: [CallTarget_Model]; spec: [CallTarget_Spec]. *)
From Coq Require Import List Bool Arith.
Import ListNotations.
From Verif Require Import CallTarget_Model CallTarget_Spec.

Section Classes.
Variable class_attr : nat -> name -> option attr.
Variable class_of : obj -> nat.
Variable descr_name : nat -> name.
Notation calls := (calls class_attr).
Notation normalize := (normalize class_attr class_of descr_name).
Notation regular := (regular class_attr class_of descr_name).
Notation generic_getattr := (generic_getattr class_attr descr_name).

Lemma name_eqb_ok a b : name_eqb a b = true -> a = b.
Proof. destruct a, b; cbn; try discriminate; try reflexivity. intros H. apply Nat.eqb_eq in H. now subst. Qed.
Lemma not_own l n : (forall m o, In (m, o) l -> m <> n) -> own_attr l n = None.
Proof.
  induction l as [|[m o] l IH]; intros H; [reflexivity|]. cbn. destruct (name_eqb m n) eqn:E.
  - apply name_eqb_ok in E. destruct (H m o); [now left|exact E].
  - apply IH. intros m' o' I. apply (H m' o'). now right.
Qed.
Lemma undisguised c own : no_disguise class_attr c own ->
  generic_getattr (Instance c own) Self = None /\ generic_getattr (Instance c own) Func = None /\
  generic_getattr (Instance c own) Call_ = match class_attr c Call_ with Some a => Some (bind_attr (Instance c own) c a) | None => None end.
Proof.
  intros (H & A & B). cbn. rewrite !not_own, A, B; [repeat split| | |]; intros m o I; now apply (H m o I).
Qed.
Lemma calls_method s fn args r : calls (Method s fn) args r <-> calls fn (s :: args) r.
Proof. split; [intros H; now inversion H|now constructor]. Qed.
Lemma calls_builtin s d args r : calls (Builtin s d) args r <-> calls (Descr d) (s :: args) r.
Proof. split; intros H; inversion H; subst; constructor. Qed.
Lemma calls_instance c own args r : calls (Instance c own) args r <->
  exists a, class_attr c Call_ = Some a /\ calls (bind_attr (Instance c own) c a) args r.
Proof.
  split.
  - intros H. inversion H as [| | | | |? ? f ? ? E D|? ? d ? ? E D|? ? o ? ? E N1 N2 D|? ? o ? ? E D|? ? o ? ? E D]; subst; eexists; (split; [exact E|]); cbn.
    + now apply calls_method.
    + now apply calls_builtin.
    + destruct o; try exact D; [now destruct (N1 f)|now destruct (N2 d)].
    + exact D.
    + now apply calls_method.
  - intros (a & E & D). destruct a as [o|o|o].
    + destruct o; cbn in D;
        try (apply call_instance_other with (1 := E); [intros ? Q; discriminate Q|intros ? Q; discriminate Q|exact D]).
      * apply calls_method in D. now apply call_instance_function with (1 := E).
      * apply calls_builtin in D. now apply call_instance_descr with (1 := E).
    + now apply call_instance_static with (1 := E).
    + apply calls_method in D. now apply call_instance_classmethod with (1 := E).
Qed.

Definition after (b : option obj) (args : list obj) : list obj := match b with Some s => s :: args | None => args end.
(** the second half: the target with its self *)
Definition finish (target : obj) : option (obj * option obj) :=
  match generic_getattr target Self with
  | None => Some (target, None)
  | Some s =>
      match generic_getattr target Func with
      | Some func => Some (func, Some s)
      | None =>
          match generic_getattr target Name_ with
          | Some (Str n) =>
              match type_getattr class_attr (class_of s) n with
              | None => Some (target, None)
              | Some typelevel => Some (typelevel, Some s)
              end
          | _ => None
          end
      end
  end.
Definition kept (o : obj) (r : option (obj * option obj)) : Prop :=
  exists t b, r = Some (t, b) /\ forall args x, calls o args x <-> calls t (after b args) x.
Lemma finish_builtin s d : not_redefined class_attr class_of descr_name s d -> kept (Builtin s d) (finish (Builtin s d)).
Proof.
  intros H. unfold finish, type_getattr. cbn. destruct H as [-> | ->].
  - exists (Builtin s d), None. split; [reflexivity|]. reflexivity.
  - exists (Descr d), (Some s). split; [reflexivity|]. intros. apply calls_builtin.
Qed.
Lemma finish_method s fn : kept (Method s fn) (finish (Method s fn)).
Proof. exists fn, (Some s). split; [reflexivity|]. intros. apply calls_method. Qed.
Lemma finish_none o : generic_getattr o Self = None -> kept o (finish o).
Proof. intros E. exists o, None. unfold finish. rewrite E. split; [reflexivity|]. reflexivity. Qed.

Lemma normalize_kept (o : obj) : regular o -> kept o (normalize o).
Proof.
  intros R. destruct o as [f|d|c|m|s fn|s d|c own|n]; cbn in R.
  - now apply finish_none.
  - now apply finish_none.
  - now apply finish_none.
  - now apply finish_none.
  - apply finish_method.
  - now apply finish_builtin.
  - destruct R as [D R]. destruct (undisguised c own D) as (A & B & C). unfold CallTarget_Model.normalize. cbn [is_selfless is_normal].
    rewrite A, C. destruct (class_attr c Call_) as [a|] eqn:E.
    + set (ct := bind_attr (Instance c own) c a).
      assert (K : kept ct (finish ct)).
      { unfold ct. destruct a as [o|o|o]; [destruct o|destruct o|]; cbn [bind_attr]; cbn in R;
          try (apply finish_none; reflexivity); try apply finish_method; try (now apply finish_builtin);
          apply finish_none; now apply undisguised. }
      destruct K as (t & b & F & K). exists t, b. split.
      * unfold finish in F. destruct (generic_getattr ct Self); exact F.
      * intros args x. rewrite <- K, calls_instance. split.
        -- intros (a' & E' & H). rewrite E in E'. injection E' as <-. exact H.
        -- intros H. exists a. now split.
    + exists (Instance c own), None. split; [reflexivity|]. reflexivity.
  - now apply finish_none.
Qed.

(** C145, partial.  If each replacement does the same as what it replaces, the call that is made in the end does the
    same as the call in the program: the same code runs with the same arguments, or none in both cases.
    Missing: built-in methods that the object's class redefines, and objects with attributes __self__, __func__ or
    __call__ of their own; refuted below. *)
Theorem C145_same_call_partial (replacement : obj -> option nat) (o : obj) :
  (forall t r args x, replacement t = Some r -> (calls (Function r) args x <-> calls t args x)) -> regular o ->
  exists o', trace_op class_attr class_of descr_name replacement o = Some o' /\ forall args x, calls o' args x <-> calls o args x.
Proof.
  intros P R. destruct (normalize_kept o R) as (t & b & N & K). unfold trace_op. rewrite N.
  destruct (replacement t) as [r|] eqn:E.
  - destruct b as [s|]; (eexists; split; [reflexivity|]); intros args x; rewrite (K args x); cbn [after].
    + rewrite calls_method. now apply P.
    + now apply P.
  - exists o. split; [reflexivity|]. reflexivity.
Qed.
(** C145.  However the program refers to a function, a built-in method or a class (by itself, as a method of an object, by
    calling an object), its replacement is called in its place, with the same arguments. *)
Theorem C145_replaced (replacement : obj -> option nat) (o t : obj) (r : nat) : refers class_attr class_of descr_name o t ->
  replacement t = Some r ->
  exists o', trace_op class_attr class_of descr_name replacement o = Some o' /\
  forall args code args', calls o args (code, args') -> calls o' args (CFunction r, args').
Proof.
  intros H E. unfold trace_op. destruct H as [f|d|c|s f|s d|s d A|c own f A D|c own f A D].
  - cbn. rewrite E. eexists. split; [reflexivity|]. intros args code args' H. inversion H; subst. constructor.
  - cbn. rewrite E. eexists. split; [reflexivity|]. intros args code args' H. inversion H; subst. constructor.
  - cbn. rewrite E. eexists. split; [reflexivity|]. intros args code args' H. inversion H; subst. constructor.
  - cbn. rewrite E. eexists. split; [reflexivity|]. intros args code args' H. apply calls_method in H. apply calls_method. inversion H; subst. constructor.
  - cbn. rewrite E. eexists. split; [reflexivity|]. intros args code args' H. apply calls_method in H. apply calls_method. inversion H; subst. constructor.
  - unfold CallTarget_Model.normalize, type_getattr. cbn. rewrite A, E. eexists. split; [reflexivity|].
    intros args code args' H. inversion H; subst. apply calls_method. constructor.
  - destruct (undisguised c own D) as (S1 & _ & S2). unfold CallTarget_Model.normalize. cbn [is_selfless is_normal]. rewrite S1, S2, A. cbn. rewrite E.
    eexists. split; [reflexivity|]. intros args code args' H. apply calls_instance in H as (a & A' & H).
    rewrite A in A'. injection A' as <-. cbn in H. apply calls_method in H. apply calls_method. inversion H; subst. constructor.
  - destruct (undisguised c own D) as (S1 & _ & S2). unfold CallTarget_Model.normalize. cbn [is_selfless is_normal]. rewrite S1, S2, A. cbn. rewrite E.
    eexists. split; [reflexivity|]. intros args code args' H. apply calls_instance in H as (a & A' & H).
    rewrite A in A'. injection A' as <-. cbn in H. inversion H; subst. constructor.
Qed.
(** C145.  A built-in function of a module (its __self__ is the module, which is not an argument) is replaced as such. *)
Theorem C145_module_function (replacement : obj -> option nat) (m d r : nat) :
  class_attr (class_of (Module m)) (descr_name d) = None -> replacement (Builtin (Module m) d) = Some r ->
  trace_op class_attr class_of descr_name replacement (Builtin (Module m) d) = Some (Function r).
Proof. intros A E. unfold trace_op, CallTarget_Model.normalize, type_getattr. cbn. now rewrite A, E. Qed.
End Classes.
Print Assumptions C145_same_call_partial.
Print Assumptions C145_replaced.
Print Assumptions C145_module_function.

(** class 1 is list, with append (built-in 10); class 2 is a subclass that redefines append (function 20); class 3 has a
    method __call__ (function 30) *)
Definition some_classes (c : nat) (n : name) : option attr :=
  match c, n with
  | 1, Other 0 => Some (Plain (Descr 10))
  | 2, Other 0 => Some (Plain (Function 20))
  | 3, Call_ => Some (Plain (Function 30))
  | _, _ => None
  end.
Definition class_of_obj (o : obj) : nat := match o with Instance c _ => c | _ => 0 end.
Definition some_name (d : nat) : name := Other 0.
Definition a_list := Instance 1 [].
Definition my_list := Instance 2 [].
Example C145_same_call_partial_witness :
  regular some_classes class_of_obj some_name (Builtin a_list 10) /\ regular some_classes class_of_obj some_name (Instance 3 []) /\
  calls some_classes (Builtin a_list 10) [Str (Other 5)] (CBuiltin 10, [a_list; Str (Other 5)]).
Proof.
  split; [right; reflexivity|]. split; [|constructor]. cbn. repeat split; destruct H.
Qed.
Example C145_replaced_witness :
  refers some_classes class_of_obj some_name (Builtin a_list 10) (Descr 10) /\
  trace_op some_classes class_of_obj some_name (fun t => match t with Descr 10 => Some 100 | _ => None end) (Builtin a_list 10)
  = Some (Method a_list (Function 100)).
Proof. split; [now constructor|reflexivity]. Qed.

Example C145_module_function_witness : some_classes (class_of_obj (Module 4)) (some_name 50) = None.
Proof. reflexivity. Qed.

(** C145, violated.  A class derived from list redefines append and calls super().append in it.  While contracts are
    enforced, the call goes to the wrapper of the redefinition, that is, to the function itself: a wrapper (function 21)
    that does the same as function 20 is called in place of the built-in method, and the recursion does not end. *)
Theorem C145_super_refuted : exists (o : obj) (replacement : obj -> option nat),
  (forall args, calls some_classes o args (CBuiltin 10, my_list :: args)) /\
  replacement (Descr 10) = None /\ replacement o = None /\
  trace_op some_classes class_of_obj some_name replacement o = Some (Method my_list (Function 21)).
Proof.
  exists (Builtin my_list 10), (fun t => match t with Function 20 => Some 21 | _ => None end).
  repeat split. intros args. constructor.
Qed.
Print Assumptions C145_super_refuted.
(** C145, violated.  An object has an attribute __call__ besides the method __call__ of its class: Python calls the
    method, and the patch for the attribute's function is called. *)
Theorem C145_own_call_refuted : exists (o : obj) (replacement : obj -> option nat),
  (forall args, calls some_classes o args (CFunction 30, o :: args)) /\ replacement (Function 30) = None /\
  trace_op some_classes class_of_obj some_name replacement o = Some (Function 41).
Proof.
  exists (Instance 3 [(Call_, Function 40)]), (fun t => match t with Function 40 => Some 41 | _ => None end).
  repeat split. intros args. eapply call_instance_function; [reflexivity|constructor].
Qed.
Print Assumptions C145_own_call_refuted.
(** C145, violated.  An object with an attribute __self__ and no __name__ cannot be called: an exception is raised. *)
Theorem C145_own_self_refuted : exists o : obj,
  (forall args, calls some_classes o args (CFunction 30, o :: args)) /\
  trace_op some_classes class_of_obj some_name (fun _ => None) o = None.
Proof.
  exists (Instance 3 [(Self, a_list)]). split; [|reflexivity]. intros args. eapply call_instance_function; [reflexivity|constructor].
Qed.
Print Assumptions C145_own_self_refuted.
