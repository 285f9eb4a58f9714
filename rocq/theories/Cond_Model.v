(** What a condition written in a docstring means: crosshair/condition_parser.py 141-164 (implies, compile_expr),
    603-620 (condition_from_source_text), crosshair/fnutil.py 50-59 (fn_globals) and crosshair/core.py 1531-1535,
    1574-1580 (the names that conditions can use).

    Expressions keep what matters here: names, constants, calls with positional and keyword arguments,
    conditional expressions, lazy "and" and "or", one-variable comprehensions, and [Op] for every operator that
    evaluates its operands from left to right.  Lambdas are left out.  Calling, truth, iteration and the
    operators themselves are parameters; they may change the state and raise. *)
From Coq Require Import String List Bool.
Import ListNotations.
Open Scope string_scope.

Section Cond.
  Variables (Val St Exc : Type).

  Inductive expr :=
  | Name (x : string)
  | Const (v : Val)
  | Call (f : expr) (args : list expr) (kw : list (string * expr))
  | IfExp (c t e : expr)
  | And (a b : expr)
  | Or (a b : expr)
  | Each (x : string) (over body : expr)
  | Op (o : string) (args : list expr).

  Variable true_val : Val.

  (** * 141-158 ImpliesTransformer; [None]: SyntaxError *)
  Fixpoint all_some {A} (l : list (option A)) : option (list A) :=
    match l with
    | [] => Some []
    | None :: _ => None
    | Some x :: l => match all_some l with Some r => Some (x :: r) | None => None end
    end.
  Fixpoint transform (e : expr) : option expr :=
    match e with
    | Name _ | Const _ => Some e
    | Call f args kw =>
        (* 151 generic_visit *)
        match transform f, all_some (map transform args), all_some (map (fun p => match transform (snd p) with Some e => Some (fst p, e) | None => None end) kw) with
        | Some f, Some args, Some kw =>
            match f with
            | Name x =>
                if String.eqb x "implies" then
                  match args with
                  | [condition; implication] => Some (IfExp condition implication (Const true_val))
                  | _ => None
                  end
                else Some (Call f args kw)
            | _ => Some (Call f args kw)
            end
        | _, _, _ => None
        end
    | IfExp c t e => match transform c, transform t, transform e with Some c, Some t, Some e => Some (IfExp c t e) | _, _, _ => None end
    | And a b => match transform a, transform b with Some a, Some b => Some (And a b) | _, _ => None end
    | Or a b => match transform a, transform b with Some a, Some b => Some (Or a b) | _, _ => None end
    | Each x o b => match transform o, transform b with Some o, Some b => Some (Each x o b) | _, _ => None end
    | Op o args => match all_some (map transform args) with Some args => Some (Op o args) | None => None end
    end.

  (** * Python's own evaluation of an expression (the built-in eval) *)
  Definition names := string -> option Val.
  Definition merge (a b : names) : names := fun x => match b x with Some v => Some v | None => a x end.  (* {**a, **b} *)
  Definition only (x : string) (v : Val) : names := fun y => if String.eqb y x then Some v else None.

  Definition M (A : Type) := St -> (A + Exc) * St.
  Definition ret {A} (a : A) : M A := fun s => (inl a, s).
  Definition raise {A} (e : Exc) : M A := fun s => (inr e, s).
  Definition bindM {A B} (m : M A) (k : A -> M B) : M B := fun s => match m s with (inl a, s) => k a s | (inr e, s) => (inr e, s) end.
  Fixpoint seq {A} (l : list (M A)) : M (list A) :=
    match l with [] => ret [] | m :: l => bindM m (fun a => bindM (seq l) (fun r => ret (a :: r))) end.

  Variable name_error : string -> Exc.
  Variable call : Val -> list Val -> list (string * Val) -> M Val.
  Variable truth : Val -> M bool.
  Variable items : Val -> M (list Val).
  Variable pack : list Val -> Val.
  Variable oper : string -> list Val -> M Val.

  Fixpoint eval (env : names) (e : expr) : M Val :=
    match e with
    | Name x => match env x with Some v => ret v | None => raise (name_error x) end
    | Const v => ret v
    | Call f args kw =>
        bindM (eval env f) (fun f =>
        bindM (seq (map (eval env) args)) (fun args =>
        bindM (seq (map (fun p => bindM (eval env (snd p)) (fun v => ret (fst p, v))) kw)) (fun kw =>
        call f args kw)))
    | IfExp c t e => bindM (eval env c) (fun c => bindM (truth c) (fun c => if c : bool then eval env t else eval env e))
    | And a b => bindM (eval env a) (fun a => bindM (truth a) (fun t => if t : bool then eval env b else ret a))
    | Or a b => bindM (eval env a) (fun a => bindM (truth a) (fun t => if t : bool then ret a else eval env b))
    | Each x over body =>
        bindM (eval env over) (fun o => bindM (items o) (fun l =>
        bindM (seq (map (fun v => eval (merge env (only x v)) body) l)) (fun r => ret (pack r))))
    | Op o args => bindM (seq (map (eval env) args)) (oper o)
    end.

  (** * fnutil.py 50-59 fn_globals: for a function with variables of an enclosing function, those variables are
      taken when the contract is read and the globals are laid over them *)
  Record func := mkFunc { fname : string; self_val : Val; nonlocals : list (string * Val); globals : names; builtins : names }.
  Definition of_list (l : list (string * Val)) : names :=
    fun x => match find (fun p => String.eqb (fst p) x) l with Some (_, v) => Some v | None => None end.
  Definition fn_globals (f : func) : names :=
    match nonlocals f with
    | [] => globals f
    | l => merge (of_list l) (globals f)
    end.
  (** eval adds the built-in names *)
  Definition evaluate (f : func) (bindings : names) (compiled : expr) : M Val :=
    eval (merge (builtins f) (merge (fn_globals f) bindings)) compiled.

  Variable holder : names -> Val.  (* AttributeHolder *)
  (** core.py 1531-1535 *)
  Definition pre_names (args : names) : names := merge (only "__old__" (holder args)) args.
  (** core.py 1574-1580 *)
  Definition post_names (f : func) (args original : names) (result : Val) : names :=
    merge (merge (merge (merge args (only "__return__" result)) (only "_" result)) (only "__old__" (holder original))) (only (fname f) (self_val f)).

  (** A condition: the parsed source is transformed and compiled once (None: a syntax error is reported),
      and evaluated with the names of its place *)
  Definition precondition (f : func) (args : names) (src : expr) : option (M Val) :=
    option_map (evaluate f (pre_names args)) (transform src).
  Definition postcondition (f : func) (args original : names) (result : Val) (src : expr) : option (M Val) :=
    option_map (evaluate f (post_names f args original result)) (transform src).
End Cond.
