(** Model of crosshair/libimpl/collectionslib.py: ListBasedDeque (27-171) and
    PureDefaultDict (174-212).  The wrapped list is a Python list. *)
From Coq Require Import ZArith List Bool.
From Verif Require Import Py Range_Spec PySeq_Spec.
Import ListNotations.
Open Scope Z_scope.

Section Deque.
Variable A : Type.
(** [is] is object identity, [eqb] the == operator of the elements *)
Variables (is_ eqb : A -> A -> bool).
Definition len (l : list A) : Z := Z.of_nat (length l).
Record deque := mkDq { contents : list A; maxlen : option Z }.

(** list.index, list.remove: Python's list compares with [is] first *)
Fixpoint scan (l : list A) (i : Z) (x : A) (a b : Z) : res Z :=
  match l with
  | [] => Err ValueError
  | y :: r => if (a <=? i) && (i <? b) && (is_ y x || eqb y x) then Ok i else scan r (i + 1) x a b
  end.
Definition bound (n i : Z) : Z := if i <? 0 then Z.max 0 (i + n) else i.
Definition list_index (l : list A) (x : A) (a b : Z) : res Z := scan l 0 x (bound (len l) a) (bound (len l) b).
Definition list_remove (l : list A) (x : A) : res (list A) :=
  do i <- scan l 0 x 0 (len l); py_delitem l i.
Fixpoint list_eqb (a b : list A) : bool :=
  match a, b with x :: a, y :: b => (is_ x y || eqb x y) && list_eqb a b | [], [] => true | _, _ => false end.
Definition slice_ (l : list A) (a b : option Z) : list A := match py_slice l (mkSl a b None) with Ok r => r | Err _ => [] end.

(** 80-82 _has_room *)
Definition has_room (d : deque) : bool := match maxlen d with None => true | Some m => len (contents d) <? m end.
Definition with_ (d : deque) (l : list A) : deque := mkDq l (maxlen d).
(** 91-96 append, 84-89 appendleft *)
Definition append (d : deque) (x : A) : res deque :=
  if has_room d then Ok (with_ d (contents d ++ [x]))
  else do l <- py_delitem (contents d) 0; Ok (with_ d (l ++ [x])).
Definition appendleft (d : deque) (x : A) : res deque :=
  if has_room d then Ok (with_ d ([x] ++ contents d))
  else do l <- py_delitem (contents d) (-1); Ok (with_ d ([x] ++ l)).
(** 111-114 extend, 116-121 extendleft *)
Definition extend (d : deque) (items : list A) : deque := with_ d (contents d ++ items).
Definition extendleft (d : deque) (items : list A) : deque := with_ d (rev items ++ contents d).
(** 104-109 count *)
Fixpoint count_ (c : Z) (l : list A) (x : A) : Z :=
  match l with [] => c | i :: r => count_ (if eqb i x then c + 1 else c) r x end.
(** 163-169 rotate *)
Definition rotate (d : deque) (n : Z) : deque :=
  let l := contents d in
  if (len l =? 0) || (n mod len l =? 0) then d
  else with_ d (slice_ l (Some (- n mod len l)) None ++ slice_ l None (Some (- n mod len l))).
(** 60-64 __mul__ *)
Definition mul (d : deque) (count : Z) : deque :=
  fold_left (fun r _ => extend r (contents d)) (repeat tt (Z.to_nat count)) (mkDq [] (maxlen d)).

(** Calls on a deque and what they give back *)
Inductive op := Append (x : A) | AppendLeft (x : A) | Extend (l : list A) | ExtendLeft (l : list A) | Insert (i : Z) (x : A)
  | Pop | PopLeft | Remove (x : A) | Reverse | Rotate (n : Z) | Clear | Get (i : Z) | SetI (i : Z) (x : A) | Del (i : Z)
  | Count (x : A) | Index (x : A) (a b : Z) | Len | Copy | Mul (n : Z) | Add (l : list A) | EqTo (l : list A).
Inductive ret := RNone | RVal (x : A) | RInt (z : Z) | RBool (b : bool) | RDeque (l : list A) (m : option Z).
Definition upd (r : res deque) : res (ret * deque) := do d <- r; Ok (RNone, d).
Definition step (d : deque) (o : op) : res (ret * deque) :=
  let l := contents d in
  match o with
  | Append x => upd (append d x)
  | AppendLeft x => upd (appendleft d x)
  | Extend xs => Ok (RNone, extend d xs)
  | ExtendLeft xs => Ok (RNone, extendleft d xs)
  | Insert i x => Ok (RNone, with_ d (py_insert l i x))                                (* 139-140 *)
  | Pop => do x <- py_getitem l (-1); do r <- py_delitem l (-1); Ok (RVal x, with_ d r) (* 142-145 *)
  | PopLeft => do x <- py_getitem l 0; do r <- py_delitem l 0; Ok (RVal x, with_ d r)   (* 147-150 *)
  | Remove x => do r <- list_remove l x; Ok (RNone, with_ d r)                          (* 152-153 *)
  | Reverse => Ok (RNone, with_ d (rev l))                                              (* 155-156 *)
  | Rotate n => Ok (RNone, rotate d n)
  | Clear => Ok (RNone, with_ d [])                                                     (* 98-99 *)
  | Get i => do x <- py_getitem l i; Ok (RVal x, d)                                     (* 69-72 *)
  | SetI i x => do r <- py_setitem l i x; Ok (RNone, with_ d r)                         (* 74-77 *)
  | Del i => do r <- py_delitem l i; Ok (RNone, with_ d r)                              (* 79-82 *)
  | Count x => Ok (RInt (count_ 0 l x), d)
  | Index x a b => do i <- list_index l x a b; Ok (RInt i, d)                           (* 136-137 *)
  | Len => Ok (RInt (len l), d)                                                         (* 57-58 *)
  | Copy => Ok (RDeque (slice_ l None None) (maxlen d), d)                              (* 101-102 *)
  | Mul n => let r := mul d n in Ok (RDeque (contents r) (maxlen r), d)
  | Add xs => let r := extend d xs in Ok (RDeque (contents r) (maxlen r), d)            (* 40-45 *)
  | EqTo xs => Ok (RBool (list_eqb l xs), d)                                            (* 47-55 *)
  end.
(** A history of calls: what each gave back; an exception leaves the deque as it was
    (every mutation above happens after the last thing that can raise). *)
Fixpoint run (d : deque) (os : list op) : list (res ret) * deque :=
  match os with
  | [] => ([], d)
  | o :: os => match step d o with
               | Ok (r, d') => let '(rs, e) := run d' os in (Ok r :: rs, e)
               | Err x => let '(rs, e) := run d os in (Err x :: rs, e)
               end
  end.
End Deque.

(** 173-174 [maxlen] is a method, not a property: reading it gives a bound method *)
Inductive attr := BoundMethod | Value (m : option Z).
Definition read_maxlen (m : option Z) : attr := BoundMethod.

(** PureDefaultDict over a mapping with lookup and store; [factory] is the
    default_factory, None when there is none, returning the value or raising *)
Section DefaultDict.
Variables (K V : Type).
Variable keqb : K -> K -> bool.
Definition dict := list (K * V).
Fixpoint dget (d : dict) (k : K) : option V :=
  match d with [] => None | (k', v) :: r => if keqb k k' then Some v else dget r k end.
Fixpoint dset (d : dict) (k : K) (v : V) : dict :=
  match d with [] => [(k, v)] | (k', v') :: r => if keqb k k' then (k', v) :: r else (k', v') :: dset r k v end.
(** 205-210 __missing__ *)
Definition missing (factory : option (res V)) (d : dict) (k : K) : res V * dict :=
  match factory with
  | None => (Err KeyError, d)
  | Some (Err e) => (Err e, d)
  | Some (Ok v) => (Ok v, dset d k v)
  end.
(** 187-191 __getitem__ *)
Definition dd_getitem (factory : option (res V)) (d : dict) (k : K) : res V * dict :=
  match dget d k with Some v => (Ok v, d) | None => missing factory d k end.
End DefaultDict.
