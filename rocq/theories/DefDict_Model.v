(** Model of PureDefaultDict, libimpl/collectionslib.py 174-210: the stand-in for a
    collections.defaultdict.  It defines __getitem__, __setitem__, __delitem__, __iter__,
    __len__ and __missing__; the other methods are those of collections.abc.Mapping and
    MutableMapping, written in terms of these.

    The wrapped dictionary is a Python dict: an association list in the order of
    insertion, without repeated keys.  Keys and values are numbers.  The factory is a
    function of the number of its calls so far, so it may give other values each time. *)
From Coq Require Import ZArith List Bool.
From Verif Require Import Py.
Import ListNotations.
Local Open Scope Z_scope.

Definition dict := list (Z * Z).
Fixpoint lookup (k : Z) (d : dict) : option Z :=
  match d with [] => None | (k', v) :: r => if k =? k' then Some v else lookup k r end.
Fixpoint store (k v : Z) (d : dict) : dict :=
  match d with
  | [] => [(k, v)]
  | (k', v') :: r => if k =? k' then (k', v) :: r else (k', v') :: store k v r
  end.
Fixpoint delete (k : Z) (d : dict) : dict :=
  match d with [] => [] | (k', v') :: r => if k =? k' then r else (k', v') :: delete k r end.

Record state := mkState { internal : dict; calls : nat }.

Inductive op :=
| GetItem (k : Z)                        (* d[k] *)
| SetItem (k v : Z)
| DelItem (k : Z)
| Iter                                   (* list(d) *)
| Len
| Contains (k : Z)
| Get (k default : Z)
| Pop (k : Z) (default : option Z)
| SetDefault (k default : Z)
| PopItem
| Clear
| Update (items : list (Z * Z)).

Inductive out := OVal (v : Z) | OBool (b : bool) | OKeys (ks : list Z) | OPair (k v : Z) | ONone.

Section DefaultDict.
Variable factory : option (nat -> res Z).

(** 204-210, __missing__ *)
Definition missing (k : Z) (s : state) : res Z * state :=
  match factory with
  | None => (Err KeyError, s)
  | Some f =>
      let s1 := mkState (internal s) (S (calls s)) in
      match f (calls s) with
      | Err e => (Err e, s1)
      | Ok v => (Ok v, mkState (store k v (internal s1)) (calls s1))
      end
  end.
(** 187-191, __getitem__ *)
Definition getitem (k : Z) (s : state) : res Z * state :=
  match lookup k (internal s) with
  | Some v => (Ok v, s)
  | None => missing k s
  end.
(** 193-197 *)
Definition setitem (k v : Z) (s : state) : state := mkState (store k v (internal s)) (calls s).
Definition delitem (k : Z) (s : state) : res out * state :=
  match lookup k (internal s) with
  | Some _ => (Ok ONone, mkState (delete k (internal s)) (calls s))
  | None => (Err KeyError, s)
  end.

(** MutableMapping.popitem: the first key of the iteration. *)
Definition popitem (s : state) : res out * state :=
  match internal s with
  | [] => (Err KeyError, s)
  | (k, _) :: _ =>
      match getitem k s with
      | (Ok v, s1) =>
          match delitem k s1 with
          | (Ok _, s2) => (Ok (OPair k v), s2)
          | (Err e, s2) => (Err e, s2)
          end
      | (Err e, s1) => (Err e, s1)
      end
  end.
(** MutableMapping.clear: popitem until KeyError. *)
Fixpoint clear (fuel : nat) (s : state) : res out * state :=
  match fuel with
  | O => (Err OutOfFuel, s)
  | S n =>
      match popitem s with
      | (Ok _, s1) => clear n s1
      | (Err KeyError, s1) => (Ok ONone, s1)
      | (Err e, s1) => (Err e, s1)
      end
  end.

Definition step (o : op) (s : state) : res out * state :=
  match o with
  | GetItem k => let (r, s1) := getitem k s in (map_res OVal r, s1)
  | SetItem k v => (Ok ONone, setitem k v s)
  | DelItem k => delitem k s
  | Iter => (Ok (OKeys (map fst (internal s))), s)
  | Len => (Ok (OVal (Z.of_nat (length (internal s)))), s)
  | Contains k =>                                  (* Mapping.__contains__ *)
      match getitem k s with
      | (Ok _, s1) => (Ok (OBool true), s1)
      | (Err KeyError, s1) => (Ok (OBool false), s1)
      | (Err e, s1) => (Err e, s1)
      end
  | Get k d =>                                     (* Mapping.get *)
      match getitem k s with
      | (Ok v, s1) => (Ok (OVal v), s1)
      | (Err KeyError, s1) => (Ok (OVal d), s1)
      | (Err e, s1) => (Err e, s1)
      end
  | Pop k d =>                                     (* MutableMapping.pop *)
      match getitem k s with
      | (Ok v, s1) =>
          match delitem k s1 with
          | (Ok _, s2) => (Ok (OVal v), s2)
          | (Err e, s2) => (Err e, s2)
          end
      | (Err KeyError, s1) =>
          match d with Some v => (Ok (OVal v), s1) | None => (Err KeyError, s1) end
      | (Err e, s1) => (Err e, s1)
      end
  | SetDefault k d =>                              (* MutableMapping.setdefault *)
      match getitem k s with
      | (Ok v, s1) => (Ok (OVal v), s1)
      | (Err KeyError, s1) => (Ok (OVal d), setitem k d s1)
      | (Err e, s1) => (Err e, s1)
      end
  | PopItem => popitem s
  | Clear => clear (S (length (internal s))) s
  | Update items => (Ok ONone, fold_left (fun s p => setitem (fst p) (snd p) s) items s)
  end.

Fixpoint run (os : list op) (s : state) : list (res out) * state :=
  match os with
  | [] => ([], s)
  | o :: r => let (x, s1) := step o s in let (xs, s2) := run r s1 in (x :: xs, s2)
  end.
End DefaultDict.
