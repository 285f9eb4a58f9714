(** builtinslib.py 4757-4802: all() and any() *)
From Coq Require Import List Bool.
From Verif Require Import Py.
Import ListNotations.
(** What the iterable yields: a symbolic bool, a bool, another symbolic value (with its
    truth), or an object with the outcome of its __bool__; forks are read under one
    assignment. *)
Inductive item := Sym (b : bool) | Bool (b : bool) | Symbolic (b : bool) | Obj (r : res bool).
(** 4757-4778; [ends]: how the iterator ends (None: StopIteration).  Returns the result, with
    a symbolic bool read under the assignment, and the number of items taken. *)
Fixpoint m_all (smt_prefix : list bool) (n : nat) (items : list item) (ends : option exc) : res bool * nat :=
  match items with
  | [] => match ends with
          | Some e => (Err e, n)
          | None => (Ok (match smt_prefix with [] => true | _ => forallb (fun b => b) smt_prefix end), n)
          end
  | Sym b :: items => m_all (smt_prefix ++ [b]) (S n) items ends
  | Bool b :: items => if b then m_all smt_prefix (S n) items ends else (Ok false, S n)
  | Symbolic b :: items => if b then m_all smt_prefix (S n) items ends else (Ok false, S n)
  | Obj r :: items =>
    if match smt_prefix with [] => false | _ => negb (forallb (fun b => b) smt_prefix) end then (Ok false, S n) else
    match r with
    | Err e => (Err e, S n)
    | Ok b => if b then m_all [] (S n) items ends else (Ok false, S n)
    end
  end.
(** 4781-4802 *)
Fixpoint m_any (smt_prefix : list bool) (n : nat) (items : list item) (ends : option exc) : res bool * nat :=
  match items with
  | [] => match ends with
          | Some e => (Err e, n)
          | None => (Ok (match smt_prefix with [] => false | _ => existsb (fun b => b) smt_prefix end), n)
          end
  | Sym b :: items => m_any (smt_prefix ++ [b]) (S n) items ends
  | Bool b :: items => if b then (Ok true, S n) else m_any smt_prefix (S n) items ends
  | Symbolic b :: items => if b then (Ok true, S n) else m_any smt_prefix (S n) items ends
  | Obj r :: items =>
    if match smt_prefix with [] => false | _ => existsb (fun b => b) smt_prefix end then (Ok true, S n) else
    match r with
    | Err e => (Err e, S n)
    | Ok b => if b then (Ok true, S n) else m_any [] (S n) items ends
    end
  end.
