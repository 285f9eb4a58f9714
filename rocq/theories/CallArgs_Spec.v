(** What a call does in Python ("Calls" in the language reference): positional arguments fill the positional
    parameters in order, the rest goes to "*args"; keywords name parameters that are not positional-only, the rest
    goes to "**kwargs"; each parameter gets one value or its default. *)
From Coq Require Import ZArith List Bool.
Import ListNotations.
From Verif Require Import Py CallArgs_Model.

Section Values.
Variable V : Type.
Inductive binding := Given (a : aval V) | Default.

Definition is_positional (p : param) : bool := match kind p with PosOnly | PosKw => true | _ => false end.
Definition by_keyword (p : param) : bool := match kind p with PosKw | KwOnly => true | _ => false end.
Definition positionals (sig : list param) : list Z := map pname (filter is_positional sig).
Definition keywords (sig : list param) : list Z := map pname (filter by_keyword sig).
Definition takes_more (k : pkind) (sig : list param) : bool := existsb (fun p => match k, kind p with VarPos, VarPos => true | VarKw, VarKw => true | _, _ => false end) sig.
Fixpoint assoc (d : list (Z * V)) (k : Z) : option V :=
  match d with [] => None | (k', v) :: d => if Z.eqb k' k then Some v else assoc d k end.
Definition mem (k : Z) (l : list Z) : bool := existsb (Z.eqb k) l.

(** all results, or an error *)
Fixpoint all_ok {A B} (f : A -> res B) (l : list A) : res (list B) :=
  match l with
  | [] => Ok []
  | x :: l => match f x, all_ok f l with Ok y, Ok ys => Ok (y :: ys) | Err e, _ => Err e | _, Err e => Err e end
  end.
Definition call (sig : list param) (pos : list V) (kw : list (Z * V)) : res (list (Z * binding)) :=
  let filled := combine (positionals sig) pos in
  let rest := skipn (length (positionals sig)) pos in
  let extra := filter (fun p => negb (mem (fst p) (keywords sig))) kw in
  if negb (takes_more VarPos sig) && negb (match rest with [] => true | _ => false end) then Err TypeError     (* too many arguments *)
  else if negb (takes_more VarKw sig) && negb (match extra with [] => true | _ => false end) then Err TypeError (* unexpected keyword *)
  else if existsb (fun p => mem (fst p) (keywords sig) && mem (fst p) (map fst filled)) kw then Err TypeError   (* multiple values *)
  else
    all_ok (fun p =>
      match kind p with
      | VarPos => Ok (pname p, Given (Many rest))
      | VarKw => Ok (pname p, Given (Dict extra))
      | _ =>
          match (if is_positional p then assoc filled (pname p) else None), (if by_keyword p then assoc kw (pname p) else None) with
          | Some v, _ => Ok (pname p, Given (One v))
          | None, Some v => Ok (pname p, Given (One v))
          | None, None => if has_default p then Ok (pname p, Default) else Err TypeError                         (* missing *)
          end
      end) sig.

(** Signatures as written: def f(a, b, /, c, *args, d, **kwargs) *)
Definition signature (pos var kwo dic : list param) : Prop :=
  Forall (fun p => kind p = PosOnly \/ kind p = PosKw) pos /\
  (var = [] \/ exists p, var = [p] /\ kind p = VarPos) /\
  Forall (fun p => kind p = KwOnly) kwo /\
  (dic = [] \/ exists p, dic = [p] /\ kind p = VarKw) /\
  NoDup (map pname (pos ++ var ++ kwo ++ dic)).
(** values as they are made: a dictionary has each key once *)
Definition proper (p : param) (a : aval V) : Prop :=
  match kind p, a with
  | VarPos, Many _ => True
  | VarKw, Dict d => NoDup (map fst d)
  | (PosOnly | PosKw | KwOnly), One _ => True
  | _, _ => False
  end.
End Values.
Arguments Given {V}. Arguments Default {V}.

(** What the function sees of a parameter *)
Definition function_sees {V} (a : aval V) : pyval V :=
  match a with One v => PyOne v | Many l => PyTuple l | Dict d => PyDict d end.
(** ==, for the values that matter here *)
Definition same_list (a b : list Z) : bool := if list_eq_dec Z.eq_dec a b then true else false.
Definition py_eq (a b : pyval Z) : bool :=
  match a, b with
  | PyOne a, PyOne b => Z.eqb a b
  | PyList a, PyList b => same_list a b
  | PyTuple a, PyTuple b => same_list a b
  | _, _ => false
  end.
