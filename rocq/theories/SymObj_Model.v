(** Model of arguments of unknown type: crosshair/libimpl/builtinslib.py SymbolicObject 2867-2908 and its base
    crosshair/objectproxy.py ObjectProxy: a proxy whose value is made when it is first needed.

    A value is a number or a list of numbers (a mutable object).  Variables hold values or proxies.  The value that
    a proxy gets on the path at hand is given ([Initial]); if it is a list, its place in the heap is reserved from
    the start, where nothing else can reach it before the proxy is used. *)
From Coq Require Import ZArith List Bool.
Import ListNotations.
Open Scope Z_scope.

Inductive value := Num (z : Z) | Lst (l : nat) (** a place in the heap *).
Inductive ref := Direct (v : value) | Proxy (p : nat).
Inductive cmd :=
| Alias (y x : nat)             (* y = x *)
| DeepCopy (y x : nat)          (* y = deepcopy(x) *)
| Inplace (x : nat) (k : Z)     (* x += k for numbers, x += [k] for lists *)
| Plus (y x : nat) (k : Z)      (* y = x + k, y = x + [k] *)
| Append (x : nat) (k : Z)      (* x.append(k) *)
| Look (x : nat).               (* what is seen of x: printed, compared, reported *)
Inductive seen := SawNum (z : Z) | SawList (l : list Z) | SawError.

Record state := State {
  env : nat -> ref;
  inner : nat -> option value;        (* _inner of each proxy *)
  heap : list (list Z) }.

Definition upd {A} (f : nat -> A) (x : nat) (a : A) : nat -> A := fun y => if Nat.eqb y x then a else f y.
Fixpoint set_nth (h : list (list Z)) (n : nat) (l : list Z) : list (list Z) :=
  match h, n with [], _ => [] | _ :: h, O => l :: h | x :: h, S n => x :: set_nth h n l end.
Definition content (h : list (list Z)) (l : nat) : list Z := nth l h [].

Section Path.
Variable initial : nat -> value.

(** _wrapped, objectproxy.py 36-46: the value of a proxy is made once *)
Definition wrapped (s : state) (p : nat) : value * state :=
  match inner s p with
  | Some v => (v, s)
  | None => (initial p, State (env s) (upd (inner s) p (Some (initial p))) (heap s))
  end.
Definition use (s : state) (x : nat) : value * state :=
  match env s x with Direct v => (v, s) | Proxy p => wrapped s p end.
(** a new value from an old one: v + k *)
Definition plus (s : state) (v : value) (k : Z) : value * state :=
  match v with
  | Num z => (Num (z + k), s)
  | Lst l => (Lst (length (heap s)), State (env s) (inner s) (heap s ++ [content (heap s) l ++ [k]]))
  end.
Definition bind_var (s : state) (x : nat) (r : ref) : state := State (upd (env s) x r) (inner s) (heap s).
Definition step (s : state) (c : cmd) : state * list seen :=
  match c with
  | Alias y x => (bind_var s y (env s x), [])
  | DeepCopy y x =>
      let copy (v : value) (s : state) : state :=
        match v with
        | Num z => bind_var s y (Direct (Num z))
        | Lst l => bind_var (State (env s) (inner s) (heap s ++ [content (heap s) l])) y (Direct (Lst (length (heap s))))
        end in
      match env s x with
      | Direct v => (copy v s, [])
      (* SymbolicObject.__deepcopy__, builtinslib.py 2903-2918 *)
      | Proxy p => match inner s p with
                   | None => (bind_var s y (Proxy p), [])
                   | Some v => (copy v s, [])
                   end
      end
  | Inplace x k =>
      match env s x with
      | Direct (Num z) => (bind_var s x (Direct (Num (z + k))), [])
      | Direct (Lst l) => (State (env s) (inner s) (set_nth (heap s) l (content (heap s) l ++ [k])), [])
      (* proxy_inplace_op, objectproxy.py 17-25 *)
      | Proxy p =>
          let (v, s) := wrapped s p in
          match v with
          | Num z => (bind_var (State (env s) (upd (inner s) p (Some (Num (z + k)))) (heap s)) x (Direct (Num (z + k))), [])
          | Lst l => (State (env s) (inner s) (set_nth (heap s) l (content (heap s) l ++ [k])), [])
          end
      end
  | Plus y x k => let (v, s) := use s x in let (w, s) := plus s v k in (bind_var s y (Direct w), [])
  | Append x k =>
      let (v, s) := use s x in
      match v with
      | Num _ => (s, [SawError])
      | Lst l => (State (env s) (inner s) (set_nth (heap s) l (content (heap s) l ++ [k])), [])
      end
  | Look x =>
      let (v, s) := use s x in
      (s, [match v with Num z => SawNum z | Lst l => SawList (content (heap s) l) end])
  end.
Fixpoint run (s : state) (p : list cmd) : list seen :=
  match p with [] => [] | c :: p => let (s, o) := step s c in o ++ run s p end.
End Path.
