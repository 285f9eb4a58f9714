From Coq Require Import List Bool Arith.
From Verif Require Import Py EnfCall_Model EnfCall_Spec.
Import ListNotations.

(** C154, partial.  While contracts are enforced, a class is called as Python calls it, if its metaclass does not define
    __call__, the new object has no attribute __init__ of its own, and __init__ returns None or fails.  Missing: the
    others; refuted below. *)
Theorem C154_construct_partial : forall V event (is_none : V -> bool) own_init (c : class V event) args,
  meta_call c = None ->
  (forall obj l, new c args = (l, Ok obj) -> own_init obj = None /\
     match init c obj args with (_, Ok r) => is_none r = true | _ => True end) ->
  manually_construct V event own_init c args = py_construct V event is_none c args.
Proof.
  intros V event is_none own_init c args M H. unfold py_construct, manually_construct, then_, type_call. rewrite M.
  destruct (new c args) as [l [obj|e]] eqn:N; [|reflexivity].
  destruct (H obj l eq_refl) as [O I]. destruct (instance_of c obj); [|rewrite app_nil_r; reflexivity].
  rewrite O. destruct (init c obj args) as [m [r|e]]; [|reflexivity]. rewrite I, app_nil_r. reflexivity.
Qed.
Print Assumptions C154_construct_partial.

(** Objects are numbers: 0 is None *)
Definition plain : class nat nat :=
  Class None (fun a => ([1], Ok 7)) (fun _ => true) (fun o a => match a with [] => ([2], Ok 0) | _ => ([], Err TypeError) end).
Definition other : class nat nat := Class None (fun a => ([1], Ok 8)) (fun _ => false) (fun o a => ([2], Ok 0)).
Example C154_witness :
  manually_construct nat nat (fun _ => None) plain [] = ([1; 2], Ok 7) /\
  manually_construct nat nat (fun _ => None) plain [3] = ([1], Err TypeError) /\
  manually_construct nat nat (fun _ => None) other [] = ([1], Ok 8).
Proof. repeat split. Qed.
(** C154, violated.  A metaclass that keeps one instance per class (a singleton): each call makes a new object, and __init__
    runs again.  An Enum is such a class. *)
Theorem C154_metaclass_refuted : exists c : class nat nat,
  py_construct nat nat (Nat.eqb 0) c [] = ([], Ok 5) /\ manually_construct nat nat (fun _ => None) c [] = ([1; 2], Ok 7).
Proof.
  exists (Class (Some (fun _ _ => ([], Ok 5))) (fun a => ([1], Ok 7)) (fun _ => true) (fun o a => ([2], Ok 0))). split; reflexivity.
Qed.
Print Assumptions C154_metaclass_refuted.
(** C154, violated.  An __init__ that returns something is a TypeError in Python; here the object is made.  An attribute
    __init__ that __new__ gave to the object is called instead of the one of its class. *)
Theorem C154_init_refuted : exists (c : class nat nat) own_init,
  (manually_construct nat nat (fun _ => None) c [] = ([], Ok 7) /\ py_construct nat nat (Nat.eqb 0) c [] = ([], Err TypeError)) /\
  (manually_construct nat nat own_init plain [] = ([1; 9], Ok 7) /\ py_construct nat nat (Nat.eqb 0) plain [] = ([1; 2], Ok 7)).
Proof.
  exists (Class None (fun a => ([], Ok 7)) (fun _ => true) (fun o a => ([], Ok 3))), (fun _ => Some (fun _ => ([9], Ok 0))). repeat split.
Qed.
Print Assumptions C154_init_refuted.

Section Lookup.
Variables cls fn name contract : Type.
Variables (fn_name : fn -> option name) (skipped_name : name -> bool) (is_super_or_type : cls -> bool) (has_any : contract -> bool).
Variables (class_methods : cls -> name -> option contract) (fn_contract : fn -> option contract) (metaclass : cls -> cls).
Notation trace := (trace_call cls fn name contract fn_name skipped_name is_super_or_type has_any class_methods fn_contract metaclass).
Definition nonempty (k : option contract) : option contract := match k with Some k => if has_any k then Some k else None | None => None end.
(** the contract that a call is checked against, and whether the function itself still runs *)
Definition checked_with (a : action cls fn contract) : option (fn * contract) := match a with Check _ _ _ f k => Some (f, k) | _ => None end.

(** C155, partial.  A function called directly is checked with its own contract; a method called on an object, with the
    contract that the object's class has under the function's name; a method of a class, with the contract of that class or
    else of its metaclass; other functions, callers in exempted files and functions with special names are left alone.
    For method calls this is the function's own contract when the class finds that function under that name: the
    hypothesis of [C155_method_partial].  Missing: super(); refuted below. *)
Theorem C155_function : forall f,
  match fn_name f with Some n => skipped_name n = false | None => True end ->
  checked_with (trace true (AFunction _ _ f) None) = match nonempty (fn_contract f) with Some k => Some (f, k) | None => None end.
Proof.
  intros f H. unfold trace_call. cbn [negb]. unfold nonempty.
  destruct (fn_name f) as [n|]; [rewrite H|]; destruct (fn_contract f) as [k|]; try reflexivity; destruct (has_any k); reflexivity.
Qed.
Theorem C155_method_partial : forall (own : fn -> option contract) (finds : cls -> name -> option fn) f n c,
  (* the parser gives for each method that a class finds the contract of the function found *)
  (forall c n, class_methods c n = match finds c n with Some g => own g | None => None end) ->
  fn_name f = Some n -> skipped_name n = false ->
  (finds c n = Some f -> (* called on an instance of c *)
    checked_with (trace true (AFunction _ _ f) (Some (AnObject _ c))) = match nonempty (own f) with Some k => Some (f, k) | None => None end) /\
  (finds c n = Some f -> finds (metaclass c) n = None -> (* called on the class c *)
    checked_with (trace true (AFunction _ _ f) (Some (AClass _ c))) = match nonempty (own f) with Some k => Some (f, k) | None => None end).
Proof.
  intros own finds f n c P N S. unfold trace_call, nonempty, type_of. cbn [negb]. rewrite N, S, !P. split.
  - intros ->. destruct (own f) as [k|]; [|reflexivity]. destruct (has_any k); reflexivity.
  - intros -> ->. destruct (own f) as [k|]; [|reflexivity]. destruct (has_any k) eqn:E; [rewrite E|]; reflexivity.
Qed.
(** what is left alone, what is unwrapped, what is constructed *)
Theorem C155_others : forall t b,
  trace false t b = Unchanged _ _ _ /\
  (forall f n, t = AFunction _ _ f -> fn_name f = Some n -> skipped_name n = true -> trace true t b = Unchanged _ _ _) /\
  (forall f, t = NoEnforced _ _ f -> trace true t b = Plain _ _ _ f) /\
  (forall c, t = AType _ _ c -> trace true t b = if is_super_or_type c then Unchanged _ _ _ else Construct _ _ _ c).
Proof.
  intros t b. split; [reflexivity|]. split; [|split].
  - intros f n -> N S. unfold trace_call. cbn [negb]. rewrite N, S. reflexivity.
  - intros f ->. reflexivity.
  - intros c ->. reflexivity.
Qed.
End Lookup.
Print Assumptions C155_function.
Print Assumptions C155_method_partial.
Print Assumptions C155_others.

(** Classes: 0 is the base, 1 the derived class; both define method 0, as functions 10 and 11, with contracts 100 and 101 *)
Definition finds (c n : nat) : option nat := match n, c with 0, 0 => Some 10 | 0, 1 => Some 11 | _, _ => None end.
Definition own (f : nat) : option nat := match f with 10 => Some 100 | 11 => Some 101 | _ => None end.
Definition methods (c n : nat) : option nat := match finds c n with Some f => own f | None => None end.
Definition tr := trace_call nat nat nat nat (fun _ => Some 0) (fun _ => false) (fun c => Nat.eqb c 9) (fun _ => true) methods (fun _ => None) (fun _ => 9).
Example C155_witness : tr true (AFunction _ _ 11) (Some (AnObject _ 1)) = Check _ _ _ 11 101 /\
  tr true (AFunction _ _ 10) (Some (AnObject _ 0)) = Check _ _ _ 10 100 /\ tr true (AFunction _ _ 10) (Some (AClass _ 0)) = Check _ _ _ 10 100 /\
  tr true (AType _ _ 1) None = Construct _ _ _ 1 /\ tr true (AType _ _ 9) None = Unchanged _ _ _.
Proof. repeat split. Qed.
(** C155, violated.  super().method() on an object of the derived class runs the base's function (10) but is checked with the
    contract of the derived class (101), not with its own (100). *)
Theorem C155_super_refuted : exists f c, (forall c n, methods c n = match finds c n with Some g => own g | None => None end) /\
  finds 0 0 = Some f /\ own f = Some 100 /\ tr true (AFunction _ _ f) (Some (AnObject _ c)) = Check _ _ _ f 101.
Proof. exists 10, 1. repeat split. Qed.
Print Assumptions C155_super_refuted.
