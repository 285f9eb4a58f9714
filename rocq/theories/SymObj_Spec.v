(** The same programs in Python, where the variables hold the values themselves. *)
From Coq Require Import ZArith List Bool.
From Verif Require Import SymObj_Model.
Import ListNotations.
Open Scope Z_scope.

Record pstate := PState { vars : nat -> value; objects : list (list Z) }.
Definition assign (s : pstate) (x : nat) (v : value) : pstate := PState (fun y => if Nat.eqb y x then v else vars s y) (objects s).
Definition items (s : pstate) (l : nat) : list Z := nth l (objects s) [].
Definition new_list (s : pstate) (l : list Z) : value * pstate := (Lst (length (objects s)), PState (vars s) (objects s ++ [l])).
Definition write (s : pstate) (n : nat) (l : list Z) : pstate :=
  PState (vars s) (firstn n (objects s) ++ match skipn n (objects s) with [] => [] | _ :: r => l :: r end).
Definition pstep (s : pstate) (c : cmd) : pstate * list seen :=
  match c with
  | Alias y x => (assign s y (vars s x), [])
  | DeepCopy y x => match vars s x with
                    | Num z => (assign s y (Num z), [])
                    | Lst l => let (v, s) := new_list s (items s l) in (assign s y v, [])
                    end
  | Inplace x k => match vars s x with
                   | Num z => (assign s x (Num (z + k)), [])
                   | Lst l => (write s l (items s l ++ [k]), [])
                   end
  | Plus y x k => match vars s x with
                  | Num z => (assign s y (Num (z + k)), [])
                  | Lst l => let (v, s) := new_list s (items s l ++ [k]) in (assign s y v, [])
                  end
  | Append x k => match vars s x with Num _ => (s, [SawError]) | Lst l => (write s l (items s l ++ [k]), []) end
  | Look x => (s, [match vars s x with Num z => SawNum z | Lst l => SawList (items s l) end])
  end.
Fixpoint prun (s : pstate) (p : list cmd) : list seen :=
  match p with [] => [] | c :: p => let (s, o) := pstep s c in o ++ prun s p end.

(** The uses that keep to Python: a copy is made of a proxy only after its value was needed; x += k is done on a
    number only if no other variable has the same proxy. *)
Definition fine (initial : nat -> value) (s : state) (c : cmd) : Prop :=
  match c with
  | DeepCopy _ x => match env s x with Proxy p => inner s p <> None | Direct _ => True end
  | Inplace x _ => match env s x with
                   | Direct _ => True
                   | Proxy p => (exists l, match inner s p with Some v => v | None => initial p end = Lst l) \/
                                (forall y, y <> x -> env s y <> Proxy p)
                   end
  | _ => True
  end.
Fixpoint all_fine (initial : nat -> value) (s : state) (p : list cmd) : Prop :=
  match p with [] => True | c :: p => fine initial s c /\ all_fine initial (fst (step initial s c)) p end.
