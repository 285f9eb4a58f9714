(** Model of crosshair/register_contract.py, contracts registered for functions of other libraries, and of how
    crosshair/condition_parser.py RegisteredContractsParser 1121-1206 evaluates them.

    Functions, conditions and modules are numbered; parameter names are numbers.  Lists of signatures are objects:
    a list handed to register_contract may be used again by its owner.  What Python and the type stubs say of a
    function is given. *)
From Coq Require Import ZArith List Bool.
Import ListNotations.
From Verif Require Import Py.

Record sg := Sg { params : list (Z * bool) (** name, has a default *); annotated : bool (** return annotation present *) }.
Definition return_name : Z := (-1)%Z.   (* __return__ *)
Definition old_name : Z := (-2)%Z.      (* __old__ *)
Record contract := Contract { k_pre : option nat; k_post : option nat; k_sigs : nat; k_skip : bool }.
Inductive sigarg := NoSig | OneSig (s : sg) | SigList (l : nat).
Record registry := Registry {
  contracts : list (nat * contract);      (* REGISTERED_CONTRACTS *)
  modules : list nat;                     (* REGISTERED_MODULES *)
  lists : list (list sg) }.               (* the list objects *)

(** required_param_names, 40-41 *)
Definition required (ps : list (Z * bool)) : list Z := map fst (filter (fun p => negb (snd p)) ps).
Definition names (ps : list (Z * bool)) : list Z := map fst ps.
Definition subset (a b : list Z) : bool := forallb (fun x => existsb (Z.eqb x) b) a.
Definition the_list (st : registry) (l : nat) : list sg := nth l (lists st) [].
Fixpoint extend_list (ls : list (list sg)) (n : nat) (more : list sg) : list (list sg) :=
  match ls, n with [], _ => [] | x :: ls, O => (x ++ more) :: ls | x :: ls, S n => x :: extend_list ls n more end.
Fixpoint find (cs : list (nat * contract)) (f : nat) : option contract :=
  match cs with [] => None | (g, c) :: cs => if Nat.eqb g f then Some c else find cs f end.
Definition same_opt (a b : option nat) : bool :=
  match a, b with Some a, Some b => Nat.eqb a b | None, None => true | _, _ => false end.

Section Functions.
Variable module_of : nat -> nat.
Variable no_auto : nat -> bool.                   (* __init__, __init_subclass__, __new__ *)
Variable python_sig : nat -> option sg.           (* resolve_signature *)
Variable stub_sigs : nat -> list sg.              (* signature_from_stubs *)
Variable bound_method : nat -> bool.
Variable cond_params : nat -> list (Z * bool).    (* signature of a condition *)

(** _verify_signatures, 44-88 *)
Definition verify (pre post : option nat) (sigs : list sg) (ref : option sg) : bool :=
  let all := match ref with Some r => sigs ++ [r] | None => sigs end in
  forallb (fun s =>
    match ref with Some r => subset (required (params s)) (names (params r)) | None => true end &&
    match pre with Some p => subset (required (cond_params p)) (names (params s)) | None => true end &&
    match post with Some p => subset (required (cond_params p)) (old_name :: return_name :: names (params s)) | None => true end) all.
(** _add_contract, 91-116 *)
Definition add (st : registry) (f : nat) (c : contract) (ref : option sg) : bool * registry :=
  if verify (k_pre c) (k_post c) (the_list st (k_sigs c)) ref then
    match find (contracts st) f with
    | Some old =>
        if same_opt (k_pre old) (k_pre c) && same_opt (k_post old) (k_post c) && Bool.eqb (k_skip old) (k_skip c)
        then (true, Registry (contracts st) (modules st) (extend_list (lists st) (k_sigs old) (the_list st (k_sigs c))))
        else (false, st)
    | None => (true, Registry ((f, c) :: contracts st) (modules st) (lists st))
    end
  else (false, st).
Definition fresh (st : registry) (l : list sg) : nat * registry :=
  (length (lists st), Registry (contracts st) (modules st) (lists st ++ [l])).
(** _internal_register_contract, 119-171 *)
Definition internal_register (st : registry) (f : nat) (pre post : option nat) (sig : sigarg) (skip : bool) : bool * registry :=
  let ref := python_sig f in
  let nothing := match sig with NoSig => true | OneSig _ => false
                 | SigList l => match the_list st l with [] => true | _ => false end end in
  let incomplete := match ref with None => true | Some r => negb (annotated r) end in
  if nothing && incomplete then
    match stub_sigs f, ref with
    | [], None => (false, st)
    | sigs, _ => let (l, st) := fresh st sigs in add st f (Contract pre post l skip) ref
    end
  else
    match sig with
    | NoSig => let (l, st) := fresh st [] in add st f (Contract pre post l skip) ref
    | OneSig s => let (l, st) := fresh st [s] in add st f (Contract pre post l skip) ref
    | SigList l => add st f (Contract pre post l skip) ref
    end.
(** register_contract, 174-203 *)
Definition register (st : registry) (f : nat) (pre post : option nat) (sig : sigarg) (skip : bool) : bool * registry :=
  if bound_method f then (false, st) else internal_register st f pre post sig skip.
(** get_contract, 213-254: plain functions; class methods and descriptors, whose module is found in other ways, are
    functions with another [module_of] *)
Definition get_contract (st : registry) (f : nat) : option contract * registry :=
  match find (contracts st) f with
  | Some c => (Some c, st)
  | None =>
      if no_auto f then (None, st)
      else if existsb (Nat.eqb (module_of f)) (modules st)
      then let st := snd (internal_register st f None None NoSig true) in (find (contracts st) f, st)
      else (None, st)
  end.

(** RegisteredContractsParser.get_fn_conditions: the signature used, and the evaluation of conditions on the
    arguments of a call *)
Definition used_sig (st : registry) (f : nat) (c : contract) : option sg :=
  match the_list st (k_sigs c) with s :: _ => Some s | [] => python_sig f end.
Definition evaluate (cond : nat) (given : list Z) : res unit :=
  if subset (names (cond_params cond)) given then Ok tt else Err KeyError.
Definition eval_pre (st : registry) (f : nat) (c : contract) : res unit :=
  match k_pre c, used_sig st f c with Some p, Some s => evaluate p (names (params s)) | _, _ => Ok tt end.
Definition eval_post (st : registry) (f : nat) (c : contract) : res unit :=
  match k_post c, used_sig st f c with
  | Some p, Some s => evaluate p (names (params s) ++ [return_name; old_name])
  | _, _ => Ok tt
  end.

(** Histories of calls and what they return *)
Inductive call :=
| NewList (l : list sg)                                     (* the user makes a list of signatures *)
| Register (f : nat) (pre post : option nat) (sig : sigarg) (skip : bool)
| RegisterModule (m : nat)
| Lookup (f : nat).
Inductive answer :=
| Done
| Accepted (b : bool)
| Found (c : option (option nat * option nat * list sg * bool)).
Definition do_call (st : registry) (c : call) : answer * registry :=
  match c with
  | NewList l => (Done, snd (fresh st l))
  | Register f pre post sig skip => let (b, st) := register st f pre post sig skip in (Accepted b, st)
  | RegisterModule m => (Done, Registry (contracts st) (m :: modules st) (lists st))
  | Lookup f => let (c, st) := get_contract st f in
      (Found (option_map (fun c => (k_pre c, k_post c, the_list st (k_sigs c), k_skip c)) c), st)
  end.
Fixpoint run (st : registry) (h : list call) : list answer * registry :=
  match h with
  | [] => ([], st)
  | c :: h => let (a, st) := do_call st c in let (l, st) := run st h in (a :: l, st)
  end.
Definition empty : registry := Registry [] [] [].
End Functions.
