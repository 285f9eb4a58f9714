(** When callbacks are due, and executions as trees of calls. *)
From Coq Require Import ZArith List Bool.
Import ListNotations.
From Verif Require Import PostOp_Model.
Open Scope Z_scope.

(** A callback is due just before the frame's next instruction, if that is the following one: the instruction has
    ended normally.  If the frame goes on elsewhere, the instruction has failed, and its callback is not due. *)
Fixpoint due (pending : nat -> option (Z * nat)) (l : list event) : list item :=
  match l with
  | [] => []
  | e :: l =>
      match pending (frame e) with Some (p, c) => if place e =? p then [Ran c] else [] | None => [] end ++
      Executed (frame e) (place e) ::
      due (fun f => if Nat.eqb f (frame e) then match asks e with Some c => Some (place e + 2, c) | None => None end else pending f) l
  end.
Definition nothing_pending : nat -> option (Z * nat) := fun _ => None.

(** The instructions that a frame executes, each with the frames that run during it *)
Inductive trace := End | Step (at_ : Z) (cb : option nat) (calls : calls) (rest : trace)
with calls := NoCall | Call (f : nat) (t : trace) (more : calls).
Fixpoint events (f : nat) (t : trace) : list event :=
  match t with End => [] | Step i cb cs r => Event f i cb :: call_events cs ++ events f r end
with call_events (cs : calls) : list event :=
  match cs with NoCall => [] | Call f t more => events f t ++ call_events more end.
(** no instruction with a callback fails: the frame goes on with the following one; and a frame that waits for an
    instruction to end does not run meanwhile *)
Fixpoint orderly (busy : list nat) (f : nat) (next : option Z) (t : trace) : Prop :=
  match t with
  | End => next = None
  | Step i cb cs r =>
      match next with Some n => i = n | None => True end /\ orderly_calls (f :: busy) cs /\
      orderly busy f (match cb with Some _ => Some (i + 2) | None => None end) r
  end
with orderly_calls (busy : list nat) (cs : calls) : Prop :=
  match cs with NoCall => True | Call f t more => ~ In f busy /\ orderly busy f None t /\ orderly_calls busy more end.
