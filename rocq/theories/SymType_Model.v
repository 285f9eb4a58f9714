(* Model of symbolic classes: crosshair/type_repo.py 82-151 (SymbolicTypeRepository) and
   libimpl/builtinslib.py 2701-2845 (SymbolicType), 5028-5056 (_issubclass), 392-404 (__eq__).

   Classes are numbers.  [sub] is issubclass, which may raise ([Exc]); it is whatever the classes
   make of it (metaclasses, registered subclasses).  [tried] is iter_types(cap,
   include_abstract=True), see C120.  The solver's view of classes is an interpretation: any set,
   an element of it for each class, any table for the subclass function and any element for the
   symbolic class.  A fork goes the way that the interpretation says, so that a path is a path of
   the code under every interpretation that satisfies its constraints. *)
From Coq Require Import List Bool Arith.
Import ListNotations.

Inductive maybe := Yes | No | Exc.
Definition cls := nat.

Record interp := Interp {
  D : Type;
  const : cls -> D;               (** typrepo_... *)
  fn : D -> D -> maybe;           (** SMT_SUBTYPE_FN *)
  var : D;
  is_const : cls -> bool;         (** var == const *)
  is_const_ok : forall t, is_const t = true <-> var = const t }.

(** The second argument of issubclass: a class, an [A | B] or typing construct made of classes, a
    tuple, something else *)
Inductive super := SClass (t : cls) | SUnion (l : list cls) | STuple (l : list super) | SOther.
Inductive answer := Bool (b : bool) | TypeErr | Raised.
Definition of_maybe (m : maybe) : answer := match m with Yes => Bool true | No => Bool false | Exc => Raised end.

(** What a program does with a class that it does not know *)
Inductive prog :=
  | Done (r : nat)
  | IsSub (s : super) (k : answer -> prog)      (** issubclass(symbolic, s) *)
  | IsSuper (u : cls) (k : answer -> prog)      (** issubclass(u, symbolic) *)
  | Equals (u : cls) (k : bool -> prog)         (** symbolic == u *)
  | Realize (k : cls -> prog).                  (** its name, an instance of it, ... *)

Section Classes.
  Variable sub : cls -> cls -> maybe.
  Variable tried : cls -> list cls.
  Variable object : cls.
  Variable eager : list cls.                    (** _EAGER_OBJECT_SUBTYPES: int and str *)

  (** type_repo.py 117-151 get_type: the constraints that are added *)
  Definition satisfies (I : interp) (known : list cls) : Prop :=
    forall t u, In t known -> In u known -> (t <> u -> const I t <> const I u) /\ fn I (const I t) (const I u) = sub t u.
  Definition get_type (known : list cls) (t : cls) : list cls :=
    if existsb (Nat.eqb t) known then known else t :: known.

  Section Run.
  Variable I : interp.
  (** The classes with constants, the cap, the realization *)
  Record state := State { known : list cls; cap : cls; realization : option cls }.

  (** builtinslib.py 2798-2829 _realized, _realize *)
  Fixpoint try_all (l : list cls) (ks : list cls) : option cls * list cls :=
    match l with
    | [] => (None, ks)
    | t :: l => let ks := get_type ks t in if is_const I t then (Some t, ks) else try_all l ks
    end.
  Definition realize (s : state) : option (cls * state) :=
    match realization s with
    | Some t => Some (t, s)
    | None =>
        let '(r, ks) := try_all (if Nat.eqb (cap s) object then eager else tried (cap s)) (known s) in
        match r with Some t => Some (t, State ks (cap s) (Some t)) | None => None end   (* CrosshairUnsupported, IgnoreAttempt *)
    end.

  (** 2760-2790 _is_subclass_of_ with a class; None: the path is given up *)
  Definition is_subclass_of (s : state) (u : cls) : option (answer * state) :=
    let s := State (get_type (known s) u) (cap s) (realization s) in
    match fn I (var I) (const I u) with
    | Exc => match realize s with Some (t, s) => Some (of_maybe (sub t u), s) | None => None end
    | ret =>
        let lower := negb (Nat.eqb u (cap s)) && match sub u (cap s) with Yes => true | _ => false end
                     && match ret with Yes => true | _ => false end in
        Some (of_maybe ret, if lower then State (known s) u (realization s) else s)
    end.
  (** 2741-2757 _is_superclass_of_ with a class *)
  Definition is_superclass_of (s : state) (u : cls) : option (answer * state) :=
    let s := State (get_type (known s) u) (cap s) (realization s) in
    match fn I (const I u) (var I) with
    | Exc => match realize s with Some (t, s) => Some (of_maybe (sub u t), s) | None => None end
    | ret => Some (of_maybe ret, s)
    end.
  (** 5028-5056 _issubclass; what is not a class cannot be coerced: 2765-2767, 358-381 *)
  Fixpoint issubclass (p : super) (s : state) : option (answer * state) :=
    match p with
    | SClass u => is_subclass_of s u
    | SUnion _ | SOther => Some (Bool false, s)
    | STuple l =>
        (fix any (l : list super) (s : state) : option (answer * state) :=
           match l with
           | [] => Some (Bool false, s)
           | p :: l =>
               match issubclass p s with
               | Some (Bool false, s) => any l s
               | r => r
               end
           end) l s
    end.

  Fixpoint run (p : prog) (s : state) : option (nat * state) :=
    match p with
    | Done r => Some (r, s)
    | IsSub q k => match issubclass q s with Some (a, s) => run (k a) s | None => None end
    | IsSuper u k => match is_superclass_of s u with Some (a, s) => run (k a) s | None => None end
    | Equals u k => run (k (is_const I u)) (State (get_type (known s) u) (cap s) (realization s))
    | Realize k => match realize s with Some (t, s) => run (k t) s | None => None end
    end.
  (** 2704-2727 __init__, the program, and the class that is reported *)
  Definition path (p : prog) (captype : cls) : option (nat * cls * list cls) :=
    match run p (State [captype] captype None) with
    | Some (r, s) => match realize s with Some (t, s) => Some (r, t, known s) | None => None end
    | None => None
    end.
  End Run.
  (** The constraints of a path: get_type's, and that of __init__ *)
  Definition allowed (I : interp) (captype : cls) (ks : list cls) : Prop :=
    satisfies I ks /\ fn I (var I) (const I captype) = Yes.
End Classes.
