(** Model of the tracer's C code, crosshair/_tracers.c: the installation of tracing modules (CTracer_push_module 211-298,
    CTracer_pop_module 300-347, CTracer_get_modules 350-361), the handlers called for an instruction
    (CTracer_handle_opcode 480-500), and the switching of tracing (CTracer_start 688-718, CTracer_stop 720-731,
    TraceSwap__enter__ 896-914, TraceSwap__exit__ 916-932).

    Modules (objects) are numbers.  Memory management and errors of allocation are not modelled. *)
From Coq Require Import ZArith List Bool.
Import ListNotations.
Open Scope Z_scope.

Section Modules.
(** opcodes_wanted, in the order of its iteration; None if it is not a frozenset *)
Variable wanted : nat -> option (list Z).
(** _ch_TRACABLE_INSTRUCTIONS 32-78 *)
Variable tracable : Z -> bool.

(** a HandlerTable's entries; its flags use_c_trace_op are not modelled *)
Definition table := Z -> option nat.
Record tracer := Tracer { modules : list nat; tables : list table; all_opcodes : bool }.
Inductive answer := Done | WrongType | NoModules | OutOfOrder.

Definition set (t : table) (op : Z) (v : option nat) : table := fun o => if o =? op then v else t o.
(** 275-290: the first table with no entry for the opcode *)
Fixpoint put (ts : list table) (op : Z) (m : nat) : list table :=
  match ts with
  | [] => [set (fun _ => None) op (Some m)]
  | t :: ts => match t op with None => set t op (Some m) :: ts | Some _ => t :: put ts op m end
  end.
(** 250-291 *)
Definition add_opcode (m : nat) (s : list table * bool) (op : Z) : list table * bool :=
  if (op <? 0) || (256 <=? op) then s
  else (put (fst s) op m, if tracable op then snd s else true).
(** 211-298 *)
Definition push_module (s : tracer) (m : nat) : answer * tracer :=
  let mods := modules s ++ [m] in
  match wanted m with
  | None => (WrongType, Tracer mods (tables s) (all_opcodes s))
  | Some ops =>
      let '(ts, all) := fold_left (add_opcode m) ops (tables s, all_opcodes s) in
      (Done, Tracer mods ts all)
  end.

Definition opcodes : list Z := map Z.of_nat (seq 0 256).
Definition clear (m : nat) (t : table) : table := fun o => match t o with Some k => if Nat.eqb k m then None else Some k | None => None end.
(** 333-346: the first table; without tables, its memory is zero *)
Definition still_all (ts : list table) : bool :=
  match ts with
  | [] => false
  | t :: _ => existsb (fun op => match t op with Some _ => negb (tracable op) | None => false end) opcodes
  end.
(** 300-347 *)
Definition pop_module (s : tracer) (m : nat) : answer * tracer :=
  match rev (modules s) with
  | [] => (NoModules, s)
  | top :: below =>
      if negb (Nat.eqb m top) then (OutOfOrder, s)
      else
        let ts := map (clear m) (tables s) in
        (Done, Tracer (rev below) ts (if all_opcodes s then still_all ts else false))
  end.
(** 480-500: the handlers called for an instruction, none of which fails *)
Definition called (s : tracer) (op : Z) : list nat :=
  flat_map (fun t => match t op with Some m => [m] | None => [] end) (tables s).

Inductive action := Push (m : nat) | Pop (m : nat).
Definition act (s : tracer) (a : action) : answer * tracer :=
  match a with Push m => push_module s m | Pop m => pop_module s m end.
Definition new_tracer : tracer := Tracer [] [] false.   (* 126-139 *)
End Modules.

(** Code that switches tracing off (NoTracing, disabling) and on (ResumedTracing), raises exceptions and handles
    them.  [Look] stands for code that is traced or not. *)
Inductive exn := GeneratorExit | OtherExn (n : nat).
Inductive prog :=
| Look (k : nat)
| Seq (a b : prog)
| With (disabling : bool) (body : prog)
| Raise (e : exn)
| Try (body : prog) (handler : exn -> option prog).

(** what was seen (which code ran traced), whether tracing is enabled, and the exception raised *)
Definition result := (list (nat * bool) * bool * option exn)%type.
Fixpoint run (p : prog) (enabled : bool) : result :=
  match p with
  | Look k => ([(k, enabled)], enabled, None)
  | Seq a b =>
      let '(l, e, o) := run a enabled in
      match o with
      | Some x => (l, e, Some x)
      | None => let '(l', e', o') := run b e in (l ++ l', e', o')
      end
  | With disabling body =>
      let noop := negb (Bool.eqb disabling enabled) in
      let enabled1 := if noop then enabled else negb disabling in
      let '(l, e, o) := run body enabled1 in
      let e := if negb noop && match o with Some GeneratorExit => false | _ => true end then disabling else e in
      (l, e, o)
  | Raise x => ([], enabled, Some x)
  | Try body handler =>
      let '(l, e, o) := run body enabled in
      match o with
      | None => (l, e, None)
      | Some x => match handler x with
                  | None => (l, e, Some x)
                  | Some h => let '(l', e', o') := run h e in (l ++ l', e', o')
                  end
      end
  end.
