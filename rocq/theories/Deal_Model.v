(* Model of contracts written with the deal library: crosshair/condition_parser.py 880-1013
   (DealParser).  deal itself is outside: a contract is a kind and a validator, which is called
   with positional and keyword arguments and either accepts, rejects (raises its exception
   type) or raises something else.

   Simplifications.  Parameter names, markers and exceptions are integers; a value is an
   integer, a tuple or a dictionary of values. *)
From Coq Require Import ZArith List Bool.
From Verif Require Import Sig_Model.
Import ListNotations.
Local Open Scope Z_scope.

Inductive val :=
| VInt (n : Z)
| VTuple (l : list val)
| VDict (l : list (Z * val)).

Record parameter := Param { p_name : Z; p_kind : pkind; p_default : bool }.
Definition bindings := list (Z * val).

(** bindings[name]; gen_args and BoundArguments give every parameter a value *)
Fixpoint lookup (b : bindings) (n : Z) : option val :=
  match b with
  | [] => None
  | (k, v) :: r => if k =? n then Some v else lookup r n
  end.

(** keyword_args[name] = value *)
Fixpoint assign (b : bindings) (n : Z) (v : val) : bindings :=
  match b with
  | [] => [(n, v)]
  | (k, w) :: r => if k =? n then (k, v) :: r else (k, w) :: assign r n v
  end.

(** condition_parser.py 919-928, _extract_a_and_kw; None stands for KeyError *)
Fixpoint extract (sig : list parameter) (b : bindings) (pos : list val) (kw : bindings)
  : option (list val * bindings) :=
  match sig with
  | [] => Some (pos, kw)
  | p :: r =>
      match lookup b (p_name p) with
      | None => None
      | Some v =>
          let kw := match p_kind p with KwOnly => assign kw (p_name p) v | _ => kw end in
          extract r b (pos ++ [v]) kw
      end
  end.

(** what a validator does with its arguments *)
Inductive answer := Accepts | Rejects | Throws (e : Z).
Definition validator := list val -> bindings -> answer.

(** the name "result" of deal.ensure, and KeyError *)
Definition result_name : Z := -1.
Definition key_error : Z := -2.

Inductive contract :=
| Pre (id : Z) (v : validator)
| Post (id : Z) (v : validator)
| Ensure (id : Z) (v : validator)
| Invariantish (id : Z) (v : validator)  (** any other ValidatedContract *)
| RaisesC (excs : list Z)
| Has (markers : list Z)
| OtherC.                                 (** anything else deal may list *)

(** the outcome of evaluating a condition: a bool, or an exception *)
Inductive evaluated := EBool (b : bool) | EExc (e : Z).

(** condition_parser.py 907-917, _contract_validates *)
Definition contract_validates (v : validator) (pos : list val) (kw : bindings) : evaluated :=
  match v pos kw with Accepts => EBool true | Rejects => EBool false | Throws e => EExc e end.

(** 930-937, _make_pre_expr *)
Definition eval_pre (v : validator) (sig : list parameter) (b : bindings) : evaluated :=
  match extract sig b [] [] with
  | None => EExc key_error
  | Some (pos, kw) => contract_validates v pos kw
  end.

(** 939-942, _make_post_expr *)
Definition eval_post (v : validator) (ret : val) : evaluated :=
  contract_validates v [ret] [].

(** 944-952, _make_ensure_expr *)
Definition eval_ensure (v : validator) (sig : list parameter) (b : bindings) (ret : val) : evaluated :=
  match extract sig b [] [] with
  | None => EExc key_error
  | Some (pos, kw) => contract_validates v pos (assign kw result_name ret)
  end.

(** a condition, by where it came from; CTrue is the condition "lambda vars: True" *)
Inductive cond := CPre (id : Z) (v : validator) | CPost (id : Z) (v : validator)
                | CEnsure (id : Z) (v : validator) | CTrue.

Record conditions := Conditions { c_pre : list cond; c_post : list cond; c_raises : list Z }.

(** 967-995, the loop over the contracts; None: the function is skipped.
    [skip] is _DEALL_MARKERS_TO_SKIP. *)
Fixpoint gather (skip : list Z) (l : list contract) (pre post : list cond) (excs : list Z)
  : option (list cond * list cond * list Z) :=
  match l with
  | [] => Some (pre, post, excs)
  | RaisesC es :: r => gather skip r pre post (excs ++ es)
  | Has ms :: r =>
      if existsb (fun m => existsb (Z.eqb m) skip) ms then None
      else gather skip r pre post excs
  | OtherC :: r => gather skip r pre post excs
  | Pre id v :: r => gather skip r (pre ++ [CPre id v]) post excs
  | Post id v :: r => gather skip r pre (post ++ [CPost id v]) excs
  | Ensure id v :: r => gather skip r pre (post ++ [CEnsure id v]) excs
  | Invariantish _ _ :: r => gather skip r pre post excs
  end.

(** 954-1010, get_fn_conditions *)
Definition get_fn_conditions (skip : list Z) (l : list contract) : option conditions :=
  match l with
  | [] => None
  | _ =>
      match gather skip l [] [] [] with
      | None => None
      | Some (pre, post, excs) =>
          let post := match pre, post with _ :: _, [] => [CTrue] | _, _ => post end in
          Some (Conditions pre post excs)
      end
  end.
