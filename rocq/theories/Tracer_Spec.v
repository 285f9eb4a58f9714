(** A stack of tracing modules, and tracing as a property of the enclosing blocks. *)
From Coq Require Import ZArith List Bool.
Import ListNotations.
From Verif Require Import Tracer_Model.
Open Scope Z_scope.

Section S.
Variable wanted : nat -> option (list Z).
Variable tracable : Z -> bool.
(** a module wants an instruction that exists *)
Definition wants (op : Z) (m : nat) : bool :=
  (0 <=? op) && (op <? 256) && match wanted m with Some ops => existsb (Z.eqb op) ops | None => false end.
(** the modules installed, the first installed first *)
Definition spec_act (l : list nat) (a : action) : answer * list nat :=
  match a with
  | Push m => match wanted m with None => (WrongType, l) | Some _ => (Done, l ++ [m]) end
  | Pop m => if match l with [] => true | _ => false end then (NoModules, l)
             else if Nat.eqb (last l m) m then (Done, removelast l) else (OutOfOrder, l)
  end.
(** those that look at an instruction, and whether some module wants one that is not traced by default *)
Definition spec_called (l : list nat) (op : Z) : list nat := filter (wants op) l.
Definition spec_all (l : list nat) : Prop := exists op m, In m l /\ wants op m = true /\ tracable op = false.
(** modules are proper, and none is installed while it is installed *)
Fixpoint proper (l : list nat) (h : list action) : Prop :=
  match h with
  | [] => True
  | a :: h =>
      match a with Push m => (exists ops, wanted m = Some ops /\ NoDup ops) /\ ~ In m l | Pop _ => True end /\
      proper (snd (spec_act l a)) h
  end.
End S.

(** Tracing is what the innermost block says. *)
Fixpoint spec_run (p : prog) (tracing : bool) : list (nat * bool) * option exn :=
  match p with
  | Look k => ([(k, tracing)], None)
  | Seq a b => let '(l, o) := spec_run a tracing in
               match o with Some x => (l, Some x) | None => let '(l', o') := spec_run b tracing in (l ++ l', o') end
  | With disabling body => spec_run body (negb disabling)
  | Raise x => ([], Some x)
  | Try body handler => let '(l, o) := spec_run body tracing in
                        match o with
                        | None => (l, None)
                        | Some x => match handler x with
                                    | None => (l, Some x)
                                    | Some h => let '(l', o') := spec_run h tracing in (l ++ l', o')
                                    end
                        end
  end.
(** no block is left by GeneratorExit *)
Fixpoint stays (p : prog) : Prop :=
  match p with
  | Look _ => True
  | Seq a b => stays a /\ stays b
  | With d body => stays body /\ (forall t, snd (spec_run body t) <> Some GeneratorExit)
  | Raise x => True
  | Try body handler => stays body /\ forall x, match handler x with None => True | Some h => stays h end
  end.
