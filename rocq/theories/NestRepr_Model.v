(** Model of the texts CrossHair gives for containers while tracing
    (libimpl/builtinslib.py: _dict_repr 5196, _list_repr 5222, _frozenset_repr 5261,
    _set_repr 5270, _tuple_repr 5365, _repr 5106 which finds them through invoke_dunder 243).
    Containers are objects of a heap, so they may contain themselves. *)
From Coq Require Import String List Bool.
Import ListNotations.
Open Scope string_scope.
Open Scope list_scope.

(** An object: one whose text is already known, or a container of references.  Classes
    derived from set and frozenset keep their name. *)
Inductive obj :=
| Atom (text : string)
| OList (items : list nat)
| OTuple (items : list nat)
| ODict (items : list (nat * nat))
| OSet (derived : option string) (items : list nat)
| OFrozen (derived : option string) (items : list nat).
Definition heap := nat -> obj.

(** A text, or that the stack of calls is exhausted (RecursionError). *)
Inductive outcome := Text (s : string) | TooDeep.

Fixpoint all (l : list outcome) : option (list string) :=
  match l with
  | [] => Some []
  | Text s :: r => match all r with Some ss => Some (s :: ss) | None => None end
  | TooDeep :: _ => None
  end.
(** ", ".join(map(repr, self)) between two texts. *)
Definition joined (before : string) (l : list outcome) (after : string) : outcome :=
  match all l with
  | Some ss => Text (before ++ String.concat ", " ss ++ after)
  | None => TooDeep
  end.
Definition colon (k v : outcome) : outcome :=
  match k, v with Text a, Text b => Text (a ++ ": " ++ b) | _, _ => TooDeep end.

(** repr(obj) while tracing; [depth] is what is left of the stack. *)
Fixpoint traced (h : heap) (depth : nat) (i : nat) : outcome :=
  match depth with
  | O => TooDeep
  | S n =>
      match h i with
      | Atom s => Text s
      | OList l => joined "[" (map (traced h n) l) "]"
      | OTuple l => joined "(" (map (traced h n) l) ")"
      | ODict l => joined "{" (map (fun kv => colon (traced h n (fst kv)) (traced h n (snd kv))) l) "}"
      | OSet _ [] => Text "set()"
      | OSet _ l => joined "{" (map (traced h n) l) "}"
      | OFrozen _ [] => Text "frozenset()"
      | OFrozen _ l => joined "frozenset({" (map (traced h n) l) "})"
      end
  end.
