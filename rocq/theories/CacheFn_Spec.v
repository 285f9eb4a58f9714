(** functools.lru_cache: results are kept, the most recently used first, and at most as many as
    maxsize (None: any number); exceptions are not kept. *)
From Coq Require Import ZArith List Bool.
From Verif Require Import Py CacheFn_Model.
Import ListNotations.
Open Scope Z_scope.

Record cache := Cache { kept : list (Z * Z); hits : Z; misses : Z }.
Definition empty : cache := Cache [] 0 0.
Fixpoint find (k : Z) (l : list (Z * Z)) : option Z :=
  match l with [] => None | (x, v) :: l => if x =? k then Some v else find k l end.
Definition without (k : Z) (l : list (Z * Z)) : list (Z * Z) := filter (fun e => negb (fst e =? k)) l.

Section Function.
Variable state : Type.
Variable f : body state.
Variable maxsize : option nat.
Definition trim (l : list (Z * Z)) : list (Z * Z) := match maxsize with None => l | Some n => firstn n l end.
Definition p_call (a : arg) (c : cache) (s : state) : res Z * cache * state :=
  match a with
  | Unhashable _ =>
      match maxsize with
      | Some O => let (r, s) := f a s in (r, Cache (kept c) (hits c) (misses c + 1), s)   (* no keys are made *)
      | _ => (Err TypeError, c, s)
      end
  | Hashable k =>
      match find k (kept c) with
      | Some v => (Ok v, Cache ((k, v) :: without k (kept c)) (hits c + 1) (misses c), s)
      | None =>
          let (r, s) := f a s in
          let kept' := match r with Ok v => trim ((k, v) :: kept c) | Err _ => kept c end in
          (r, Cache kept' (hits c) (misses c + 1), s)
      end
  end.
Definition p_step (o : op) (c : cache) (s : state) : seen * cache * state :=
  match o with
  | Call a => let '(r, c, s) := p_call a c s in (SRes r, c, s)
  | Info => (SInfo (hits c) (misses c) (Z.of_nat (length (kept c))), c, s)
  | Clear => (SNone, empty, s)
  end.
Fixpoint p_run (ops : list op) (c : cache) (s : state) : list seen * state :=
  match ops with
  | [] => ([], s)
  | o :: ops => let '(x, c, s) := p_step o c s in let (xs, s) := p_run ops c s in (x :: xs, s)
  end.
End Function.
