(* Model of the interceptors of single opcodes that keep values symbolic:
   crosshair/opcode_intercept.py 299-305 (DeoptimizedContainer), 308-314
   (SideEffectStashingHashable), 342-359 (BoolStashingValue), 385-406
   (ContainmentInterceptor), 467-509 (MapAddInterceptor), 540-566 (NotInterceptor), 569-604
   (SetAddInterceptor) and 607-621 (IdentityInterceptor), with the interpreter's own opcodes
   between their two halves, and of crosshair/simplestructs.py 162-180 (SimpleDict) and
   985-1008, 1126-1129 (LinearSet, ShellMutableSet.add).

   The stack's top comes first. *)
From Coq Require Import ZArith List Bool Arith.
From Verif Require Import Py.
Import ListNotations.

Section Containers.
  Variables K W : Type.
  (** ==, [is], hash and hashability of keys, whether a key is of an atomic immutable type, and
      whether it is a CrossHairValue *)
  Variables eqb ident : K -> K -> bool.
  Variable hash : K -> Z.
  Variables hashable atomic symbolic : K -> bool.

  (** The interpreter's dictionaries and sets: entries in order *)
  Definition same (stored key : K) : bool := ident stored key || (Z.eqb (hash stored) (hash key) && eqb stored key).
  Fixpoint real_put (d : list (K * W)) (key : K) (value : W) : list (K * W) :=
    match d with
    | [] => [(key, value)]
    | (k, v) :: r => if same k key then (k, value) :: r else (k, v) :: real_put r key value
    end.
  Definition real_setitem (d : list (K * W)) (key : K) (value : W) : res (list (K * W)) :=
    if hashable key then Ok (real_put d key value) else Err TypeError.
  Definition real_in (l : list K) (x : K) : bool := existsb (fun k => same k x) l.
  Definition real_add (l : list K) (x : K) : res (list K) :=
    if hashable x then Ok (if real_in l x then l else l ++ [x]) else Err TypeError.

  (** simplestructs 173-180 SimpleDict.__setitem__ *)
  Fixpoint simple_put (d : list (K * W)) (key : K) (value : W) : list (K * W) :=
    match d with
    | [] => [(key, value)]
    | (k, v) :: r => if eqb k key then (k, value) :: r else (k, v) :: simple_put r key value
    end.
  Definition simple_setitem (d : list (K * W)) (key : K) (value : W) : res (list (K * W)) :=
    if hashable key then Ok (simple_put d key value) else Err TypeError.
  (** 162-171 SimpleDict.__getitem__, by which Mapping.__contains__ decides *)
  Definition simple_in (d : list (K * W)) (key : K) : res bool :=
    if hashable key then Ok (existsb (fun e => ident (fst e) key || eqb (fst e) key) d) else Err TypeError.
  (** 1002-1008 LinearSet.__contains__ *)
  Definition linear_in (l : list K) (x : K) : res bool :=
    if hashable x then Ok (existsb (fun k => eqb x k) l) else Err TypeError.
  (** 1126-1129 ShellMutableSet.add: the union with one item; items in order.  (Unions are put
      off: Set_Model.) *)
  Definition shell_add (l : list K) (x : K) : res (list K) :=
    if hashable x then Ok (if existsb (fun k => eqb x k) l then l else l ++ [x]) else Err TypeError.

  (** What is on the stack *)
  Inductive cell :=
    | Item (k : K) | Value (w : W) | Junk
    | RealDict (d : list (K * W)) | Simple (d : list (K * W))
    | RealSet (l : list K) | Shell (l : list K).

  Fixpoint set_nth (n : nat) (x : cell) (l : list cell) : list cell :=
    match n, l with
    | _, [] => []
    | O, _ :: r => x :: r
    | S n, y :: r => y :: set_nth n x r
    end.

  (** 472-509 MAP_ADD with its argument: the dictionary is argument + 2 below the end; the
      fake assignment puts an item into an empty dictionary, which is then replaced *)
  Definition map_add (arg : nat) (stack : list cell) : res (list cell) :=
    let dict_offset := arg + 2 in
    match nth_error stack (dict_offset - 1), stack with
    | Some (RealDict d), Value value :: Item key :: rest =>
        if atomic key then
          (* the interpreter's own: pops two, the dictionary is then [arg] below the end *)
          bind (real_setitem d key value) (fun d' => Ok (set_nth (arg - 1) (RealDict d') rest))
        else
          bind (simple_setitem d key value) (fun d' => Ok (set_nth (dict_offset - 2 - 1) (Simple d') rest))
    | Some (Simple d), Value value :: Item key :: rest =>
        bind (simple_setitem d key value) (fun d' => Ok (set_nth (dict_offset - 2 - 1) (Simple d') rest))
    | _, _ => Err RuntimeError
    end.

  (** 574-604 SET_ADD *)
  Definition set_add (arg : nat) (stack : list cell) : res (list cell) :=
    let set_offset := arg + 1 in
    match nth_error stack (set_offset - 1), stack with
    | Some (RealSet l), Item item :: rest =>
        if symbolic item then
          bind (shell_add l item) (fun l' => Ok (set_nth (set_offset - 1 - 1) (Shell l') rest))
        else
          bind (real_add l item) (fun l' => Ok (set_nth (arg - 1) (RealSet l') rest))
    | Some (Shell l), Item item :: rest =>
        bind (shell_add l item) (fun l' => Ok (set_nth (set_offset - 1 - 1) (Shell l') rest))
    | _, _ => Err RuntimeError
    end.

  (** A comprehension: MAP_ADD (SET_ADD) for each item, over [arg - 1] iterators *)
  Fixpoint run_map (arg : nat) (l : list (K * W)) (stack : list cell) : res (list cell) :=
    match l with
    | [] => Ok stack
    | (k, v) :: r => bind (map_add arg (Value v :: Item k :: stack)) (run_map arg r)
    end.
  Definition dict_comprehension (arg : nat) (l : list (K * W)) : res (list cell) :=
    run_map arg l (repeat Junk (arg - 1) ++ [RealDict []]).
  Fixpoint run_set (arg : nat) (l : list K) (stack : list cell) : res (list cell) :=
    match l with
    | [] => Ok stack
    | k :: r => bind (set_add arg (Item k :: stack)) (run_set arg r)
    end.
  Definition set_comprehension (arg : nat) (l : list K) : res (list cell) :=
    run_set arg l (repeat Junk (arg - 1) ++ [RealSet []]).

  (** 389-406 CONTAINS_OP on a set or dictionary of the interpreter's *)
  Definition contains_op (item : K) (container : cell) : res bool :=
    match container with
    | RealSet l =>
        if symbolic item then linear_in l item
        else if hashable item then Ok (real_in l item) else Err TypeError
    | RealDict d =>
        if symbolic item then simple_in d item
        else if hashable item then Ok (real_in (map fst d) item) else Err TypeError
    | _ => Err RuntimeError
    end.
End Containers.

(** Truth of objects: what __bool__ and __len__ give, if they are there *)
Record thing := Thing { is_symbolic : bool; bool_method : option (res bool); len_method : option (res nat) }.
(** UNARY_NOT: PyObject_IsTrue *)
Definition is_true (t : thing) : res bool :=
  match bool_method t with
  | Some r => r
  | None => match len_method t with Some (Ok n) => Ok (negb (Nat.eqb n 0)) | Some (Err e) => Err e | None => Ok true end
  end.
(** 347-359 BoolStashingValue.__bool__ with negate: True, and what is put away *)
Definition stash_not (t : thing) : res bool :=
  match bool_method t with
  | Some (Ok v) => Ok (negb v)
  | Some (Err e) => Err e
  | None => Err AttributeError
  end.
(** 545-566 (for SymbolicBool, 550-557 negates the expression itself, which is the same) *)
Definition unary_not (t : thing) : res bool :=
  if is_symbolic t then stash_not t else bind (is_true t) (fun v => Ok (negb v)).

(** Identity: objects by number *)
Inductive operand := SymBool (id : nat) (v : bool) | RealBool (v : bool) | SymType (id : nat) (t : nat) | RealType (t : nat) | Other (id : nat).
(** the interpreter's comparison of addresses *)
Definition same_object (a b : operand) : bool :=
  match a, b with
  | SymBool i _, SymBool j _ | SymType i _, SymType j _ | Other i, Other j => Nat.eqb i j
  | RealBool x, RealBool y => Bool.eqb x y
  | RealType x, RealType y => Nat.eqb x y
  | _, _ => false
  end.
Definition is_bool (o : operand) : bool := match o with SymBool _ _ | RealBool _ => true | _ => false end.
Definition realize (o : operand) : operand := match o with SymBool _ v => RealBool v | o => o end.
Definition is_sym_bool (o : operand) : bool := match o with SymBool _ _ => true | _ => false end.
(** 614-621; [arg1] is the top *)
Definition is_op (arg2 arg1 : operand) : bool :=
  let new1 := if is_sym_bool arg1 && is_bool arg2 then realize arg1 else arg1 in
  let new2 := if is_sym_bool arg2 && is_bool arg1 then realize arg2 else arg2 in
  same_object new2 new1.
