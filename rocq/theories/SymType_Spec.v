(* Python's issubclass, and what a program does with a class that is known. *)
From Coq Require Import List Bool Arith.
From Verif Require Import SymType_Model.
Import ListNotations.

Section Python.
  Variable sub : cls -> cls -> maybe.
  Fixpoint any_class (t : cls) (l : list cls) : answer :=
    match l with
    | [] => Bool false
    | u :: l => match sub t u with Yes => Bool true | No => any_class t l | Exc => Raised end
    end.
  Fixpoint py_issubclass (t : cls) (p : super) : answer :=
    match p with
    | SClass u => match sub t u with Yes => Bool true | No => Bool false | Exc => Raised end
    | SUnion l => any_class t l
    | SOther => TypeErr
    | STuple l =>
        (fix any (l : list super) : answer :=
           match l with
           | [] => Bool false
           | p :: l => match py_issubclass t p with Bool false => any l | r => r end
           end) l
    end.
  Fixpoint native (t : cls) (p : prog) : nat :=
    match p with
    | Done r => r
    | IsSub q k => native t (k (py_issubclass t q))
    | IsSuper u k => native t (k (py_issubclass u (SClass t)))
    | Equals u k => native t (k (Nat.eqb t u))
    | Realize k => native t (k t)
    end.
End Python.
