(** Model of how contracts are collected for classes: crosshair/condition_parser.py
    207-350, 451-600.  Conditions are opaque.  A signature is not modelled: re-typing the
    receiver (488-503) changes nothing else.  Classes of the typing module (593) are
    taken as classes without contracts. *)
From Coq Require Import String.
From Coq Require Import List Bool.
Import ListNotations.
Open Scope string_scope.
Open Scope list_scope.

Section I.
Variable cond : Type.

(** 207-268 Conditions: the function body to run (None: the __init__ found by getattr),
    preconditions, postconditions, expected exceptions, mutable arguments, problems *)
Record conds := mkConds { fn : option nat; pre : list cond; post : list cond; raises : list nat;
                          mutable : option (list nat); messages : list nat }.
Definition nonempty {A} (l : list A) : bool := match l with [] => false | _ => true end.
Definition has_any (c : conds) : bool := nonempty (pre c) || nonempty (post c) || nonempty (messages c).   (* 267-268 *)

(** 310-340 merge_fn_conditions *)
Definition merge_fn (sub super : conds) : conds :=
  mkConds (fn sub)
          (if nonempty (pre sub) then pre sub else pre super)
          (post super ++ post sub)
          (raises sub ++ raises super)
          (match mutable sub with Some m => Some m | None => mutable super end)
          (messages sub).

(** A dictionary: the first entry for a key counts, and updating puts entries in front. *)
Definition dict (A : Type) := list (string * A).
Fixpoint lookup {A} (k : string) (d : dict A) : option A :=
  match d with [] => None | (k', a) :: d => if String.eqb k k' then Some a else lookup k d end.
Definition update {A} (d e : dict A) : dict A := e ++ d.

(** 343-350 merge_method_conditions, of the bases *)
Definition merge_methods (l : list (list cond * dict conds)) : dict conds :=
  fold_left (fun methods c => update methods (snd c)) (rev l) [].

(** A class: whether it is written in Python; its bases; for each name in its __dict__,
    what each parser's get_fn_conditions gives; each parser's get_class_invariants. *)
Inductive cls := Cls (python : bool) (bases : list cls) (members : dict (list (option conds))) (invs : list (list cond)).

(** 576-584 CompositeConditionParser.get_fn_conditions *)
Fixpoint first_conds (ret : option conds) (l : list (option conds)) : option conds :=
  match l with
  | [] => ret
  | None :: l => first_conds ret l
  | Some c :: l => if has_any c then Some c else first_conds (Some c) l
  end.
Definition get_fn (l : list (option conds)) : option conds := first_conds None l.

(** 523-548: what the invariants add to *)
Definition exempt (n : string) : bool :=
  existsb (String.eqb n) ["__new__"; "__repr__"; "__setattr__"; "__delattr__"; "__replace__"; "__annotate__"; "__annotate_func__"].
Definition ends (suffix s : string) : bool :=
  String.eqb (String.substring (String.length s - String.length suffix) (String.length suffix) s) suffix.
Definition dunder (n : string) : bool := String.prefix "__" n && ends "__" n.
Definition in_pre (n : string) : bool :=
  if exempt n then false else if String.eqb n "__del__" then true else if String.eqb n "__init__" then false
  else if dunder n then true else if String.prefix "_" n then false else true.
Definition in_post (n : string) : bool :=
  if exempt n then false else if String.eqb n "__del__" then false else if String.eqb n "__init__" then true
  else if dunder n then true else if String.prefix "_" n then false else true.

(** 485-550: the conditions of one method, if it is considered *)
Definition method (members : dict (list (option conds))) (supers : dict conds) (inv : list cond) (n : string) : option conds :=
  let base := match lookup n members with
              | None => lookup n supers
              | Some l => match get_fn l with
                          | None => None
                          | Some parsed => match lookup n supers with
                                           | None => Some parsed
                                           | Some super => Some (merge_fn parsed super)
                                           end
                          end
              end in
  match base with
  | None => None
  | Some c => let c := mkConds (fn c) (if in_pre n then pre c ++ inv else pre c)
                               (if in_post n then post c ++ inv else post c) (raises c) (mutable c) (messages c) in
              if has_any c then Some c else None
  end.
(** 472-565 ConcreteConditionParser.get_class_conditions, given those of the bases.
    The order of the names, that of a set in Python, does not matter. *)
Definition concrete (can : bool) (supers : list (list cond * dict conds)) (members : dict (list (option conds)))
    (inv : list cond) : list cond * dict conds :=
  if negb can then ([], [])
  else
    let supers := merge_methods supers in
    let methods := flat_map (fun n => match method members supers inv n with Some c => [(n, c)] | None => [] end)
                            (nodup string_dec (map fst members ++ map fst supers)) in
    let methods := if nonempty inv && negb (existsb (fun e => String.eqb "__init__" (fst e)) methods)
                   then update methods [("__init__", mkConds None [] inv [] None [])] else methods in
    (inv, methods).

(** 306-307 *)
Definition class_has_any (r : list cond * dict conds) : bool := nonempty (fst r) || existsb (fun e => has_any (snd e)) (snd r).
(** 586-600 CompositeConditionParser.get_class_conditions; the cache (587-589, 599) does
    not show.  [any_class]: which parsers take classes not written in Python (468-470,
    1208-1211). *)
Variable any_class : list bool.
Fixpoint first_class (supers : list (list cond * dict conds)) (python : bool) (members : dict (list (option conds)))
    (parsers : list bool) (invs : list (list cond)) : list cond * dict conds :=
  match parsers with
  | [] => ([], [])
  | p :: parsers =>
      let r := concrete (python || p) supers members (hd [] invs) in
      if class_has_any r then r else first_class supers python members parsers (tl invs)
  end.
Fixpoint class_conditions (c : cls) : list cond * dict conds :=
  match c with
  | Cls python bases members invs => first_class (map class_conditions bases) python members any_class invs
  end.
End I.
Arguments mkConds {cond}.
Arguments Cls {cond}.
