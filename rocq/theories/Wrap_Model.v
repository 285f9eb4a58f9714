(* Model of crosshair/libimpl/itertoolslib.py 1-44, libimpl/functoolslib.py 1-32 and
   libimpl/builtinslib.py 4987-4994 (filter) and 5070-5073 (map): functions that call a function
   given to them.  They are replaced by ones that wrap the function in a lambda and call the real
   one; functions that are cached are called without the cache.

   A function is None or a function that may raise; iterables are lists (how far they are consumed
   is not modelled). *)
From Coq Require Import ZArith List Bool.
From Verif Require Import Py.
Import ListNotations.

Section Values.
  Context {V : Type}.
  Variables (truth : V -> res bool) (eq : V -> V -> res bool) (add : V -> V -> res V).
  (** an argument for a function: None, or something that is called *)
  Inductive fn1 := None1 | Fn1 (f : V -> res V).
  Inductive fn2 := None2 | Fn2 (f : V -> V -> res V).
  (** calling it: None is not callable *)
  Definition call1 (f : fn1) (x : V) : res V := match f with None1 => Err TypeError | Fn1 f => f x end.
  Definition call2 (f : fn2) (x y : V) : res V := match f with None2 => Err TypeError | Fn2 f => f x y end.

  (** The real functions, which the wrappers call (CPython's itertools and builtins) *)
  Section Real.
    Fixpoint accumulate_from (f : V -> V -> res V) (acc : V) (l : list V) : res (list V) :=
      match l with [] => Ok [] | x :: l => do y <- f acc x; do r <- accumulate_from f y l; Ok (y :: r) end.
    (** func None: addition *)
    Definition real_accumulate (l : list V) (f : fn2) (initial : option V) : res (list V) :=
      let f := match f with None2 => add | Fn2 f => f end in
      match initial, l with
      | Some i, l => do r <- accumulate_from f i l; Ok (i :: r)
      | None, [] => Ok []
      | None, x :: l => do r <- accumulate_from f x l; Ok (x :: r)
      end.
    Fixpoint real_dropwhile (f : fn1) (l : list V) : res (list V) :=
      match l with [] => Ok [] | x :: r => do y <- call1 f x; do b <- truth y; if b then real_dropwhile f r else Ok l end.
    Fixpoint real_takewhile (f : fn1) (l : list V) : res (list V) :=
      match l with [] => Ok [] | x :: r => do y <- call1 f x; do b <- truth y; if b then do t <- real_takewhile f r; Ok (x :: t) else Ok [] end.
    (** predicate None: the elements themselves *)
    Fixpoint real_filter (wanted : bool) (f : fn1) (l : list V) : res (list V) :=
      match l with
      | [] => Ok []
      | x :: r => do y <- match f with None1 => Ok x | Fn1 f => f x end; do b <- truth y; do t <- real_filter wanted f r;
                  Ok (if Bool.eqb b wanted then x :: t else t)
      end.
    (** key None: the elements themselves; a group has its first key *)
    Fixpoint groups_from (f : V -> res V) (k : V) (g : list V) (l : list V) : res (list (V * list V)) :=
      match l with
      | [] => Ok [(k, g)]
      | x :: r => do k' <- f x; do b <- eq k k';
                  if b then groups_from f k (g ++ [x]) r else do t <- groups_from f k' [x] r; Ok ((k, g) :: t)
      end.
    Definition groups (f : V -> res V) (l : list V) : res (list (V * list V)) :=
      match l with [] => Ok [] | x :: r => do k <- f x; groups_from f k [x] r end.
    Definition real_groupby (l : list V) (f : fn1) : res (list (V * list V)) :=
      groups (match f with None1 => fun x => Ok x | Fn1 f => f end) l.
    Fixpoint real_reduce_from (f : fn2) (acc : V) (l : list V) : res V :=
      match l with [] => Ok acc | x :: l => do y <- call2 f acc x; real_reduce_from f y l end.
    Definition real_reduce (f : fn2) (l : list V) (initial : option V) : res V :=
      match initial, l with
      | Some i, l => real_reduce_from f i l
      | None, [] => Err TypeError
      | None, x :: l => real_reduce_from f x l
      end.
    Fixpoint real_map (f : fn1) (l : list V) : res (list V) :=
      match l with [] => Ok [] | x :: l => do y <- call1 f x; do r <- real_map f l; Ok (y :: r) end.
  End Real.

  (** The wrappers: lambda x: f(x) *)
  Definition lambda1 (f : fn1) : fn1 := Fn1 (fun x => call1 f x).
  Definition lambda2 (f : fn2) : fn2 := Fn2 (fun x y => call2 f x y).
  (** an argument that may be left out *)
  Inductive arg (T : Type) := Missing | Given (f : T).
  Arguments Missing {T}. Arguments Given {T}.
  (** itertoolslib.py 11-12 *)
  Definition accumulate (l : list V) (f : arg fn2) (initial : option V) : res (list V) :=
    real_accumulate l (lambda2 (match f with Missing => Fn2 add | Given f => f end)) initial.
  (** 15-16, 35-36 *)
  Definition dropwhile (f : fn1) (l : list V) : res (list V) := real_dropwhile (lambda1 f) l.
  Definition takewhile (f : fn1) (l : list V) : res (list V) := real_takewhile (lambda1 f) l.
  (** 19-20 *)
  Definition filterfalse (f : fn1) (l : list V) : res (list V) := real_filter false (lambda1 f) l.
  (** 23-27 *)
  Definition groupby (l : list V) (f : arg fn1) : res (list (V * list V)) :=
    match f with
    | Missing => real_groupby l None1
    | Given f => real_groupby l (lambda1 f)
    end.
  (** builtinslib.py 4987-4994, 5070-5073 *)
  Definition filter_ (f : fn1) (l : list V) : res (list V) :=
    match f with None1 => real_filter true (Fn1 (fun x => Ok x)) l | f => real_filter true (lambda1 f) l end.
  Definition map_ (f : fn1) (l : list V) : res (list V) := real_map (lambda1 f) l.
  (** functoolslib.py 20-21 *)
  Definition reduce (f : fn2) (l : list V) (initial : option V) : res V := real_reduce (lambda2 f) l initial.

  (** functoolslib.py 27-32: a function with a cache is called without it.  The function may
      depend on a state and change it. *)
  Section Cached.
    Context {S : Type}.
    Variable f : S -> V -> res V * S.
    Fixpoint calls (s : S) (l : list V) : list (res V) :=
      match l with [] => [] | x :: l => let '(r, s) := f s x in r :: calls s l end.
  End Cached.
End Values.
Arguments Missing {T}. Arguments Given {T}.
