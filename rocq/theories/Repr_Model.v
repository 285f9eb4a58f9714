(* Model of the texts that describe inputs: crosshair/util.py 401-424 (format_boundargs) and
   482-585 (EvalFriendlyReprContext), with the reprs of containers of
   crosshair/libimpl/builtinslib.py 5196-5276 and 5365-5369.

   Objects live in a heap; a value is an atom or a reference.  Atoms are the values of
   ATOMIC_IMMUTABLE_TYPES, enum members, and what is shown by its qualified name: their text
   is taken to denote them.  A text is modelled as the tree of its brackets, commas and
   assignments.  Simplifications: user classes are shown as C(field=value, ...), like
   dataclasses; strings with the text "_ch_efr_" in them, and user names v1, v2, ... are left
   out of account. *)
From Coq Require Import String.
From Coq Require Import ZArith List Bool Arith.
Import ListNotations.

(** what an object is apart from its items; those of a dictionary are k1, v1, k2, v2, ... *)
Inductive kind := KList | KTuple | KSet | KDict | KObject | KInst (cls : nat) (fields : list nat).
Inductive val := VAtom (a : Z) | VRef (i : nat).
Inductive obj := Obj (k : kind) (items : list val).
Definition heap := list obj.

(** [TName n] is the text _ch_efr_<n>_ (or, after cleanup, v<n>), [TAssign n t] is n:=t,
    [TNode] are brackets around items, [TBlank] is no text at all *)
Inductive text :=
| TAtom (a : Z)
| TName (n : nat)
| TAssign (n : nat) (t : text)
| TNode (k : kind) (l : list text)
| TBlank.

Definition mem (n : nat) (l : list nat) : bool := existsb (Nat.eqb n) l.

(** 524-570 _eval_friendly_repr.  [named]: the objects in instance_overrides, which stands for
    the name; an object is added once its text is complete.  No fuel: RecursionError. *)
Fixpoint efr (fuel : nat) (h : heap) (named : list nat) (v : val) : option (text * list nat) :=
  match fuel with
  | O => None
  | S fuel =>
      match v with
      | VAtom a => Some (TAtom a, named)
      | VRef i =>
          if mem i named then Some (TName i, named)
          else
            match nth_error h i with
            | None => None
            | Some (Obj k l) =>
                match
                  (fix go (named : list nat) (l : list val) : option (list text * list nat) :=
                     match l with
                     | [] => Some ([], named)
                     | v :: r =>
                         match efr fuel h named v with
                         | None => None
                         | Some (t, named) =>
                             match go named r with
                             | None => None
                             | Some (ts, named) => Some (t :: ts, named)
                             end
                         end
                     end) named l
                with
                | None => None
                | Some (ts, named) => Some (TAssign i (TNode k ts), i :: named)
                end
            end
      end
  end.
Fixpoint efr_list (fuel : nat) (h : heap) (named : list nat) (l : list val) : option (list text * list nat) :=
  match l with
  | [] => Some ([], named)
  | v :: r =>
      match efr fuel h named v with
      | None => None
      | Some (t, named) =>
          match efr_list fuel h named r with
          | None => None
          | Some (ts, named) => Some (t :: ts, named)
          end
      end
  end.

(** 573-585 cleanup: the names in the order of the text, how often each occurs *)
Fixpoint names (t : text) : list nat :=
  match t with
  | TName n => [n]
  | TAssign n t => n :: names t
  | TNode _ l => concat (map names l)
  | _ => []
  end.
Fixpoint count (n : nat) (l : list nat) : nat :=
  match l with [] => 0 | m :: r => if Nat.eqb m n then S (count n r) else count n r end.
(** the keys of the Counter, in the order of first occurrence *)
Fixpoint firsts (l : list nat) : list nat :=
  match l with [] => [] | n :: r => n :: filter (fun m => negb (Nat.eqb m n)) (firsts r) end.
Definition kept (occ : list nat) : list nat := filter (fun n => Nat.ltb 1 (count n occ)) (firsts occ).
Fixpoint position (n : nat) (l : list nat) : option nat :=
  match l with
  | [] => None
  | m :: r => if Nat.eqb m n then Some 1 else match position n r with Some i => Some (S i) | None => None end
  end.
(** assignment_remaps *)
Definition remap (occ : list nat) (n : nat) : option nat := position n (kept occ).
Fixpoint rewrite (f : nat -> option nat) (t : text) : text :=
  match t with
  | TName n => match f n with Some m => TName m | None => TBlank end
  | TAssign n t => match f n with Some m => TAssign m (rewrite f t) | None => rewrite f t end
  | TNode k l => TNode k (map (rewrite f) l)
  | t => t
  end.
Definition cleanup (ts : list text) : list text := map (rewrite (remap (concat (map names ts)))) ts.

(** repr of several values, one after the other, in one context that knows the names of
    [named] already (the instance_overrides of earlier contexts, core.py 686-695) *)
Definition show (fuel : nat) (h : heap) (named : list nat) (l : list val) : option (list text) :=
  match efr_list fuel h named l with Some (ts, _) => Some (cleanup ts) | None => None end.

(** * format_boundargs, 401-424 *)
Inductive pkind := PosOnly | PosKw | VarPos | KwOnly | VarKw.
Record param := Param { p_name : string; p_kind : pkind; p_default : bool }.
(** the value of a parameter: *args has a list and **kwargs a dictionary *)
Inductive bound {A : Type} := One (v : A) | Many (l : list A) | Named (l : list (string * A)).
Arguments bound : clear implicits.
(** an argument in the text of a call: v, or name=v *)
Inductive argument {A : Type} := Pos (v : A) | Kw (n : string) (v : A).
Arguments argument : clear implicits.

Definition format_one {A} (p : param) (b : bound A) : list (argument A) :=
  match p_kind p, b with
  | VarPos, Many l => map Pos l
  | VarKw, Named l => map (fun kv => Kw (fst kv) (snd kv)) l
  | PosOnly, One v => [Pos v]
  | KwOnly, One v => [Kw (p_name p) v]
  | PosKw, One v => if p_default p then [Kw (p_name p) v] else [Pos v]
  | _, _ => []
  end.
Fixpoint format_boundargs {A} (ps : list param) (bs : list (bound A)) : list (argument A) :=
  match ps, bs with
  | p :: ps, b :: bs => format_one p b ++ format_boundargs ps bs
  | _, _ => []
  end.
