(* Model of crosshair/core.py 1057-1101 (fn_returning, patch_to_return, FunctionInterps) with the
   part of 1177-1182 and 1508-1510 that uses it: the values returned for calls of functions whose
   bodies are skipped are kept, and the counterexample says how to have the same calls return them
   again.

   A program is what it does next: it calls a skipped function, looks at an object it got from
   one, changes it, or is done.  Everything else it does is left out.  Objects are numbered in the
   order in which they are made.  What is printed is taken to denote the contents it was printed
   from (C109). *)
From Coq Require Import ZArith List Bool Arith.
Import ListNotations.

Inductive prog :=
  | Done (r : Z)
  | Call (f : nat) (k : nat -> prog)            (** the object that is returned *)
  | Get (o : nat) (k : Z -> prog)               (** its contents *)
  | Put (o : nat) (c : Z) (k : prog).

Definition heap := list Z.
Definition read (h : heap) (o : nat) : Z := nth o h 0%Z.
Fixpoint write (h : heap) (o : nat) (c : Z) : heap :=
  match h, o with
  | [], _ => []
  | _ :: r, O => c :: r
  | x :: r, S o => x :: write r o c
  end.

(** FunctionInterps._interpretations: the functions and what they returned, in order *)
Definition interps := list (nat * list nat).
(** 1091-1092 append_return *)
Fixpoint append_return (i : interps) (f o : nat) : interps :=
  match i with
  | [] => [(f, [o])]
  | (g, l) :: r => if Nat.eqb g f then (g, l ++ [o]) :: r else (g, l) :: append_return r f o
  end.

Section Path.
  (** what the path makes of the i-th object's contents *)
  Variable fresh : nat -> Z.

  (** On the path: 1177-1182 *)
  Fixpoint explore (p : prog) (h : heap) (i : interps) : Z * heap * interps :=
    match p with
    | Done r => (r, h, i)
    | Call f k => let o := length h in explore (k o) (h ++ [fresh o]) (append_return i f o)
    | Get o k => explore (k (read h o)) h i
    | Put o c k => explore k (write h o c) i
    end.
  (** 1094-1101 patch_string, when the counterexample is written; None: nothing is patched *)
  Definition patch (h : heap) (i : interps) : option (list (nat * list Z)) :=
    match i with [] => None | _ => Some (map (fun e => (fst e, map (read h) (snd e))) i) end.
  (** A path: the preconditions, which make calls too (1541-1543), then the body *)
  Definition counterexample (pre body : prog) : Z * option (list (nat * list Z)) :=
    let '(_, h, i) := explore pre [] [] in
    let '(r, h, i) := explore body h i in (r, patch h i).
End Path.

(** 1057-1082 with the patches: what is left of each function's values; None is
    NotDeterministic.  A function that is not patched is really called: [real]. *)
Inductive outcome := Value (r : Z) | NotDeterministic.
Definition patches := list (nat * list Z).
Fixpoint next (ps : patches) (f : nat) : option (option (Z * patches)) :=
  match ps with
  | [] => None
  | (g, l) :: r =>
      if Nat.eqb g f then Some (match l with [] => None | c :: l => Some (c, (g, l) :: r) end)
      else match next r f with
           | Some (Some (c, r)) => Some (Some (c, (g, l) :: r))
           | x => x
           end
  end.
Section Replay.
  Variable real : nat -> Z.
  Fixpoint replay (p : prog) (h : heap) (ps : patches) : outcome :=
    match p with
    | Done r => Value r
    | Call f k =>
        match next ps f with
        | None => replay (k (length h)) (h ++ [real f]) ps
        | Some None => NotDeterministic
        | Some (Some (c, ps)) => replay (k (length h)) (h ++ [c]) ps
        end
    | Get o k => replay (k (read h o)) h ps
    | Put o c k => replay k (write h o c) ps
    end.
End Replay.
Definition with_patch (real : nat -> Z) (body : prog) (ps : option patches) : outcome :=
  replay real body [] (match ps with Some ps => ps | None => [] end).
