(** Model of the builtins that call special methods or use attribute names:
    libimpl/builtinslib.py invoke_dunder 243-262, _format 4893-4902, _getattr 4905-4914,
    _hasattr 4917-4922, _hash 4925-4935, _len 5061-5067, _repr 5106-5112, _setattr 5120-5127,
    _str 5280-5287, fork_on_useful_attr_names 4742-4752 and util.py is_hashable 80-81.  The
    methods are those of objects of user classes. *)
From Coq Require Import ZArith List Bool.
From Verif Require Import Py.
Import ListNotations.
Open Scope Z_scope.

Inductive special := SLen | SRepr | SStr | SHash | SFormat.
Definition special_eqb (a b : special) : bool :=
  match a, b with
  | SLen, SLen | SRepr, SRepr | SStr, SStr | SHash, SHash | SFormat, SFormat => true
  | _, _ => false
  end.
(** What a method may return *)
Inductive rv := RInt (z : Z) | RBool (b : bool) | RStr (s : list Z) | ROther (n : nat).
(** What a class or instance may have under the name of a special method.  A function is given
    the number of its arguments. *)
Inductive attr :=
| AFn (f : nat -> res rv)        (* a function *)
| AStatic (f : nat -> res rv)    (* a staticmethod *)
| AClass (f : nat -> res rv)     (* a classmethod *)
| ANone.                         (* None *)
(** An object: the dictionaries of the classes in its class's __mro__, and its own *)
Record obj := Obj { mro : list (list (special * attr)); inst : list (special * attr) }.

Fixpoint dict_get (d : list (special * attr)) (n : special) : option attr :=
  match d with [] => None | (k, a) :: d => if special_eqb k n then Some a else dict_get d n end.
(** 256-259 *)
Fixpoint mro_get (ds : list (list (special * attr))) (n : special) : option attr :=
  match ds with
  | [] => None
  | d :: ds => match dict_get d n with Some a => Some a | None => mro_get ds n end
  end.
(** 262: method(obj, *args), without binding; a staticmethod is callable since Python 3.10, a
    classmethod is not *)
Definition call_raw (a : attr) (args : nat) : res rv :=
  match a with
  | AFn f => f (S args)
  | AStatic f => f (S args)
  | AClass _ => Err TypeError
  | ANone => Err TypeError
  end.
(** 243-262; None is _MISSING *)
Definition invoke_dunder (o : obj) (n : special) (args : nat) : option (res rv) :=
  match mro_get (mro o) n with None => None | Some a => Some (call_raw a args) end.

(** [x.name()] by the usual lookup of attributes: functions and static and class methods are
    not data descriptors, so the instance is asked first, and does not bind *)
Definition call_attr (o : obj) (n : special) : option (res rv) :=
  match dict_get (inst o) n with
  | Some (AFn f) | Some (AStatic f) => Some (f 0%nat)
  | Some _ => Some (Err TypeError)
  | None =>
      match mro_get (mro o) n with
      | Some (AFn f) => Some (f 1%nat)
      | Some (AStatic f) => Some (f 0%nat)
      | Some (AClass f) => Some (f 1%nat)
      | Some ANone => Some (Err TypeError)
      | None => None
      end
  end.
(** 5061-5067 _len *)
Definition m_len (o : obj) : res rv := match call_attr o SLen with Some r => r | None => Err TypeError end.
(** 5106-5112 _repr; 5280-5287 _str with one argument; every class has both methods, so
    _MISSING is not met *)
Definition missing : res rv := Ok (ROther 0).
Definition m_repr (o : obj) : res rv := match invoke_dunder o SRepr 0 with Some r => r | None => missing end.
Definition m_str (o : obj) : res rv := match invoke_dunder o SStr 0 with Some r => r | None => missing end.
(** 4893-4902 _format, the object not a symbolic string *)
Definition m_format (o : obj) : res rv := match invoke_dunder o SFormat 1 with Some r => r | None => Err TypeError end.
(** util.py 80-81; 4925-4935 _hash *)
Definition is_hashable (o : obj) : bool :=
  match mro_get (mro o) SHash with Some ANone => false | Some _ => true | None => false end.
Definition m_hash (o : obj) : res rv :=
  if negb (is_hashable o) then Err TypeError
  else match invoke_dunder o SHash 0 with Some r => r | None => missing end.

(** *** Attributes by name *)
(** A name is a native string or a symbolic one *)
Inductive aname := Native (s : list Z) | Symbolic (s : list Z).
Definition realized (n : aname) : list Z := match n with Native s | Symbolic s => s end.
Definition attrs := list (list Z * Z).
Definition text_eqb (a b : list Z) : bool := if list_eq_dec Z.eq_dec a b then true else false.
Fixpoint attr_get (d : attrs) (s : list Z) : option Z :=
  match d with [] => None | (k, v) :: d => if text_eqb k s then Some v else attr_get d s end.
Fixpoint attr_set (d : attrs) (s : list Z) (v : Z) : attrs :=
  match d with
  | [] => [(s, v)]
  | (k, w) :: d => if text_eqb k s then (k, v) :: d else (k, w) :: attr_set d s v
  end.
(** 4742-4752: the comparisons made, the last of which may hold *)
Fixpoint fork_names (keys : list (list Z)) (s : list Z) : list (list Z * bool) :=
  match keys with
  | [] => []
  | k :: keys => if text_eqb s k then [(k, true)] else (k, false) :: fork_names keys s
  end.
(** 4905-4914; 4917-4922 *)
Definition m_getattr (d : attrs) (n : aname) (default : option Z) : res Z :=
  let s := realized n in
  match attr_get d s, default with
  | Some v, _ => Ok v
  | None, Some v => Ok v
  | None, None => Err AttributeError
  end.
Definition m_hasattr (d : attrs) (n : aname) : bool :=
  match attr_get d (realized n) with Some _ => true | None => false end.
(** 5120-5127: type(name) is AnySymbolicStr is never true, as that is only a base class; the
    native setattr takes native strings only *)
Definition m_setattr (d : attrs) (n : aname) (v : Z) : res attrs :=
  match n with Native s => Ok (attr_set d s v) | Symbolic _ => Err TypeError end.
