(** Model of the cache of stack layouts: crosshair/_tracers.c _ch_get_stacks 165-207.  The layout of a code object tells
    how high the interpreter's stack is at each instruction, so that interceptors find their operands.

    Code objects are numbers (their identity; the cache keeps them alive); computing a layout is a parameter; the
    random number is an argument.  Memory management is not modelled. *)
From Coq Require Import List Arith.
Import ListNotations.

Section Cache.
Variable layout : Type.
(** _ch_mark_stacks *)
Variable mark_stacks : nat -> layout.

(** _CODE_STACK_CACHE_CAPACITY 165 *)
Definition capacity : nat := 64.
Definition cache := list (nat * layout).
Definition none : nat * layout := (0, mark_stacks 0).
Definition write (l : cache) (i : nat) (x : nat * layout) : cache := firstn i l ++ x :: skipn (S i) l.
(** the loop 176-183: the position of the code object, or the size *)
Fixpoint position (code : nat) (l : cache) : nat :=
  match l with [] => 0 | e :: l => if Nat.eqb (fst e) code then 0 else S (position code l) end.
(** 185-198: a missing entry is computed and stored at the end, after the last entry was purged if there is no room *)
Definition ensure (code : nat) (l : cache) : nat * cache :=
  let pos := position code l in
  if Nat.eqb pos (length l) then
    let '(pos, l) := if Nat.eqb (length l) capacity then (capacity - 1, firstn (capacity - 1) l) else (pos, l) in
    (pos, l ++ [(code, mark_stacks code)])
  else (pos, l).
(** 200-206: the entry changes places with an earlier one *)
Definition get_stacks (rand : nat) (code : nat) (l : cache) : layout * cache :=
  let '(pos, l) := ensure code l in
  let entry := nth pos l none in
  (snd entry,
   if Nat.ltb 0 pos then let mid := Nat.modulo rand pos in write (write l pos (nth mid l none)) mid entry else l).

(** a sequence of requests, each with its random number *)
Fixpoint requests (l : cache) (rs : list (nat * nat)) : list layout * cache :=
  match rs with
  | [] => ([], l)
  | (rand, code) :: rs => let '(s, l) := get_stacks rand code l in let '(ss, l) := requests l rs in (s :: ss, l)
  end.
End Cache.
