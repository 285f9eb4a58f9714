(* How Python passes arguments, and what a deal contract should be asked. *)
From Coq Require Import ZArith List Bool.
From Verif Require Import Sig_Model Deal_Model.
Import ListNotations.
Local Open Scope Z_scope.

(** inspect.BoundArguments.args and .kwargs: how a call is made from the values of the
    parameters.  Parameters come in the order positional, "*args", keyword-only, "**kwargs". *)
Definition call_args (sig : list parameter) (value : Z -> val) : list val :=
  flat_map (fun p => match p_kind p, value (p_name p) with
                     | PosOnly, v | PosKw, v => [v]
                     | VarPos, VTuple l => l
                     | _, _ => []
                     end) sig.
Definition call_kwargs (sig : list parameter) (value : Z -> val) : list (Z * val) :=
  flat_map (fun p => match p_kind p, value (p_name p) with
                     | KwOnly, v => [(p_name p, v)]
                     | VarKw, VDict l => l
                     | _, _ => []
                     end) sig.

Definition only_positional (sig : list parameter) : Prop :=
  forall p, In p sig -> p_kind p = PosOnly \/ p_kind p = PosKw.

(** A validator written like the function itself: calling it with more positional arguments
    than it has positional parameters, when it has no "*args", is a TypeError. *)
Definition type_error : Z := -3.
Definition positionals (sig : list parameter) : list parameter :=
  filter (fun p => match p_kind p with PosOnly | PosKw => true | _ => false end) sig.
Definition has_star (sig : list parameter) : bool :=
  existsb (fun p => match p_kind p with VarPos => true | _ => false end) sig.
Definition like_function (sig : list parameter) (v : validator) : Prop :=
  forall pos kw, has_star sig = false -> (length (positionals sig) < length pos)%nat ->
    v pos kw = Throws type_error.

(** what deal's own decorators do with a call: ask the validator about the arguments passed *)
Definition asked_pre (v : validator) (sig : list parameter) (value : Z -> val) : answer :=
  v (call_args sig value) (call_kwargs sig value).

Definition as_evaluated (a : answer) : evaluated :=
  match a with Accepts => EBool true | Rejects => EBool false | Throws e => EExc e end.

(** the values of the parameters as a dictionary *)
Definition bound (sig : list parameter) (value : Z -> val) (b : bindings) : Prop :=
  forall p, In p sig -> lookup b (p_name p) = Some (value (p_name p)).

(** ** the contracts of a function *)
Definition marked (skip : list Z) (l : list contract) : Prop :=
  exists ms m, In (Has ms) l /\ In m ms /\ In m skip.
Definition pres_of (l : list contract) : list cond :=
  flat_map (fun c => match c with Pre i v => [CPre i v] | _ => [] end) l.
Definition posts_of (l : list contract) : list cond :=
  flat_map (fun c => match c with Post i v => [CPost i v] | Ensure i v => [CEnsure i v] | _ => [] end) l.
Definition raises_of (l : list contract) : list Z :=
  flat_map (fun c => match c with RaisesC es => es | _ => [] end) l.
