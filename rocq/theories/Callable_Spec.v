(* What the printed expression does in Python: [word s] is what evaluating the text s as an
   expression gives, None if that fails; what repr printed evaluates to the value (C109). *)
From Coq Require Import String.
From Coq Require Import ZArith List Bool Arith.
From Verif Require Import Callable_Model.
Import ListNotations.

Inductive result := Returns (v : val) | Raises.
Section Python.
  Variable word : string -> option val.
  Definition meaning (t : text) : option val := match t with Repr v => Some v | Raw s => word s end.

  (** A function made by one of the two lambdas: the second shares the list x with its calls *)
  Inductive function := Constant (t : text) | Stateful (x : list val).
  (** The expression is evaluated *)
  Definition evaluate (p : printed) : option function :=
    match p with
    | Lambda t => Some (Constant t)
    | Popping t => match meaning t with Some (VList x) => Some (Stateful x) | _ => None end
    end.
  (** A call: a function with only *a takes no arguments by name *)
  Definition apply (f : function) (a : arguments) : result * function :=
    match a_kw a with
    | _ :: _ => (Raises, f)
    | [] =>
        match f with
        | Constant t => (match meaning t with Some v => Returns v | None => Raises end, f)
        | Stateful x =>
            match x with
            | [] => (Raises, f)
            | [v] => (Returns v, f)
            | v :: x => (Returns v, Stateful x)
            end
        end
    end.
  Fixpoint applies (f : function) (l : list arguments) : list result :=
    match l with [] => [] | a :: l => let '(r, f) := apply f a in r :: applies f l end.
End Python.
