(** Model of calls of methods of built-in types through the type, as in [map(str.upper, l)] or
    [int.bit_length(x)], and of methods of native objects with symbolic arguments: core.py
    realize 283-288, with_realized_args 357-368, with_checked_self 371-390 and
    with_symbolic_self 393-412.

    What a method computes is a parameter, the same for native and symbolic objects: the
    methods themselves are properties of their own.  Keyword arguments are like others. *)
From Coq Require Import List Bool.
From Verif Require Import Py.
Import ListNotations.

Section Calls.
Variables cls name payload : Type.
Variable cls_eqb : cls -> cls -> bool.
(** issubclass *)
Variable sub : cls -> cls -> bool.

(** A native object or a symbolic one that stands for an object of a class *)
Inductive obj := Native (c : cls) (v : payload) | Proxy (c : cls) (v : payload).
(** An argument, which may be a native tuple with symbolic items *)
Inductive arg := ANative (v : payload) | AProxy (v : payload) | ATuple (l : list arg).
(** What arguments stand for *)
Inductive pure := PVal (v : payload) | PTuple (l : list pure).
Fixpoint stands (a : arg) : pure :=
  match a with ANative v | AProxy v => PVal v | ATuple l => PTuple (map stands l) end.

(** What the method of a class computes of its object and arguments *)
Variable meth : cls -> name -> payload -> list pure -> res payload.
(** What a method of a symbolic class does if its object is None *)
Variable on_none : res payload.

Fixpoint no_proxy (a : arg) : bool :=
  match a with ANative _ => true | AProxy _ => false | ATuple l => forallb no_proxy l end.
(** A method implemented in C takes native objects of the class and its subclasses, and native
    arguments, only *)
Definition native_method (c : cls) (n : name) (self : obj) (args : list arg) : res payload :=
  match self with
  | Native d v => if sub d c then if forallb no_proxy args then meth c n v (map stands args) else Err TypeError
                  else Err TypeError
  | Proxy _ _ => Err TypeError
  end.
(** core 283-288: not the items of a tuple *)
Definition realize (a : arg) : arg := match a with AProxy v => ANative v | a => a end.
Definition realize_self (o : obj) : obj := match o with Proxy c v => Native c v | o => o end.
Definition is_proxy (a : arg) : bool := match a with AProxy _ => true | _ => false end.

(** 357-368, not deep *)
Definition with_realized_args (c : cls) (n : name) (self : obj) (args : list arg) : res payload :=
  native_method c n (realize_self self) (map realize args).
(** 371-390 *)
Definition with_checked_self (c : cls) (n : name) (self : obj) (args : list arg) : res payload :=
  match self with
  | Proxy d v => if cls_eqb d c then meth c n v (map stands args) else native_method c n self args
  | Native _ _ => native_method c n self args
  end.
(** 393-412: the symbolic class stands for objects of [c] only *)
Definition with_symbolic_self (c : cls) (n : name) (self : obj) (args : list arg) : res payload :=
  let is_sym := match self with Proxy d _ => cls_eqb d c | Native _ _ => false end in
  if is_sym then match self with Proxy _ v | Native _ v => meth c n v (map stands args) end
  else if existsb is_proxy args then
    match self with
    | Native d v => if sub d c then meth c n v (map stands args) else on_none
    | Proxy _ _ => on_none
    end
  else native_method c n self (map realize args).
End Calls.
