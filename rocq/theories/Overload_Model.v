(* Model of crosshair/core.py 1716-1736 (find_best_sig) and 1137-1170 (the wrapper that skips the
   bodies of functions with registered contracts): which of several signatures a call is taken
   to be for.

   inspect.Signature.bind is Python's, [take_args] of Repr_Spec.  Of a value only its class
   counts, so a value is its class's number.  The match of types is Unify_Model's. *)
From Coq Require Import String.
From Coq Require Import List Bool Arith.
From Verif Require Import Py Unify_Model Repr_Model Repr_Spec.
Import ListNotations.

Definition cdict := 9.
Definition cstr := 6.
(** inspect.Parameter.empty: the annotation of a parameter that has none *)
Definition cempty := 10.

(** a parameter with its annotation and its default *)
Record oparam := OParam { o_param : param; o_ann : option ty; o_default : nat }.

Section Choose.
  Variable issub : nat -> nat -> bool.
  Variable fuel : nat.

  (** param.annotation *)
  Definition annotation (p : oparam) : ty := match o_ann p with Some t => t | None => App cempty [] end.
  (** 1725, 1729-1730: apply_defaults, then python_type of the parameter's value *)
  Definition value_type (p : oparam) (b : option (bound nat)) : ty :=
    match b with
    | Some (One v) => App v []
    | Some (Many _) => RawTup
    | Some (Named _) => App cdict []
    | None => App (o_default p) []
    end.
  Fixpoint value_types (ps : list oparam) (bs : list (option (bound nat))) : list ty :=
    match ps, bs with p :: ps, b :: bs => value_type p b :: value_types ps bs | _, _ => [] end.
  (** 1716-1736 find_best_sig; a signature is its place in the list *)
  Fixpoint find_from (i : nat) (sigs : list (list oparam)) (args : list nat) (kwargs : list (string * nat)) : res (option nat) :=
    match sigs with
    | [] => Ok None
    | ps :: sigs =>
        match take_args (map o_param ps) args kwargs with
        | None => Err TypeError
        | Some bs =>
            bind (unify_list (unify issub fuel) [] (value_types ps bs) (map annotation ps)) (fun o =>
              match o with Some _ => Ok (Some i) | None => find_from (S i) sigs args kwargs end)
        end
    end.
  Definition find_best_sig := find_from 0.

  (** 1152-1170: the signature's place and whether one was found, after the call is bound to it.
      [*kw] in 1158 passes the keywords' names as more positional arguments. *)
  Definition choose (sigs : list (list oparam)) (a : list nat) (kw : list (string * nat)) : res (nat * bool) :=
    bind (if Nat.ltb 1 (length sigs)
          then bind (find_best_sig sigs (a ++ map (fun _ => cstr) kw) []) (fun o =>
                 Ok (match o with Some i => (i, true) | None => (0, false) end))
          else Ok (0, true)) (fun '(i, found) =>
      match take_args (map o_param (nth i sigs [])) a kw with
      | None => Err TypeError
      | Some _ => Ok (i, found)
      end).
End Choose.
