(** Model of callbacks after instructions: crosshair/_tracers.c CTracer_push_postop_callback 667-686 and the first part of
    CTracer_handle_opcode 449-478.  A callback finishes an instruction that a tracing module has changed: it puts
    the true result on the interpreter's stack (opcode_intercept.py).

    Frames and callbacks are numbers; the place of an instruction is its offset.  A waiting callback keeps its
    frame alive, so that the number of a frame is not used again.  The instruction that follows one at i is at
    i + 2: entries of inline caches are not modelled.  Callbacks do not fail. *)
From Coq Require Import ZArith List Bool.
Import ListNotations.
Open Scope Z_scope.

(** a frame is about to execute the instruction at a place; a module asks for a callback after it, or not *)
Record event := Event { frame : nat; place : Z; asks : option nat }.
(** what happens: callbacks, and instructions *)
Inductive item := Ran (callback : nat) | Executed (f : nat) (at_ : Z).
Record waiting := Waiting { w_frame : nat; w_place : Z; w_callback : nat }.

(** the last one pushed comes first *)
Definition handle (st : list waiting) (e : event) : list item * list waiting :=
  let '(ran, st) :=
    match st with
    | [] => ([], st)
    | top :: below =>
        if Nat.eqb (w_frame top) (frame e) then
          if negb (w_place top =? place e) then ([], st)
          else ([Ran (w_callback top)], below)
        else ([], st)
    end in
  (ran ++ [Executed (frame e) (place e)],
   match asks e with None => st | Some c => Waiting (frame e) (place e + 2) c :: st end).
Fixpoint run (st : list waiting) (l : list event) : list item * list waiting :=
  match l with
  | [] => ([], st)
  | e :: l => let '(i, st) := handle st e in let '(is, st) := run st l in (i ++ is, st)
  end.
