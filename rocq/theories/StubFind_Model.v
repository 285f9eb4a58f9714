(** Model of crosshair/stubs_parser.py _sig_from_ast 72-145: the lookup of a function's signatures in the syntax tree of
    a type stub.  Not modelled: imports and type variables (87-104), which only decide whether annotations can be
    read; that is part of the [valid] of a definition here.  Functions in stubs have empty bodies. *)
From Coq Require Import List Bool Arith.
Import ListNotations.

(** names and signatures are numbers.  A function's definition: its signature if it could be built, and whether all
    its annotations could be read (_sig_from_functiondef 203-240).  An if: whether its test mentions "sys." and the
    test's truth, None if its evaluation fails. *)
Inductive stmt :=
| Def (name : nat) (sig : option nat) (valid : bool)
| Cls (name : nat) (body : list stmt)
| Cond (mentions_sys : bool) (truth : option bool) (body orelse : list stmt)
| Other.

Definition result := (list nat * bool)%type.
Definition nothing : result := ([], true).
(** sigs.extend(new_sigs); is_valid = is_valid and valid *)
Definition extend (x y : result) : result := (fst x ++ fst y, snd x && snd y).
Definition extend_all (l : list result) : result := fold_right extend nothing l.

(** One statement in the loop of 106-125 or, [second], in the loop of 127-143 *)
Fixpoint visit (second : bool) (s : stmt) (steps : list nat) {struct s} : result :=
  match steps with
  | [] => nothing
  | step :: more =>
      match s with
      | Def n sg v =>
          if second then nothing
          else match more with
               | [] => if Nat.eqb n step then (match sg with Some g => [g] | None => [] end, v) else nothing
               | _ => nothing
               end
      | Cls n b =>
          if negb second && Nat.eqb n step then
            extend (extend_all (map (fun x => visit false x more) b)) (extend_all (map (fun x => visit true x more) b))
          else nothing
      | Cond true (Some c) b e =>
          if second then
            if c then extend (extend_all (map (fun x => visit false x steps) b)) (extend_all (map (fun x => visit true x steps) b))
            else extend (extend_all (map (fun x => visit false x steps) e)) (extend_all (map (fun x => visit true x steps) e))
          else nothing
      | Cond _ _ _ _ => nothing
      | Other => nothing
      end
  end.
(** 79-80, 106-145 *)
Definition sig_from_ast (stmts : list stmt) (steps : list nat) : result :=
  match steps with
  | [] => nothing
  | _ => extend (extend_all (map (fun x => visit false x steps) stmts)) (extend_all (map (fun x => visit true x steps) stmts))
  end.
