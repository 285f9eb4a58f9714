(* Model of crosshair/core.py 937-1056 and fnutil.py 380-391: which checks are made of a module, a
   class and a function.

   A condition is its number, whether it is an invariant, and whether it compiles (only then can
   it be evaluated).  What the parsers find (condition_parser.py) depends on the kinds of analysis
   that are selected, and is given; Inherit_Model has how it comes about.  Of the options, only
   the two that matter here are kept: enabled and analysis_kind. *)
From Coq Require Import String.
From Coq Require Import List Bool.
Import ListNotations.

Record cond := Cond { c_id : nat; c_invariant : bool; c_compiles : bool }.
(** condition_parser.py 207-268; [c_messages] is fn_syntax_messages *)
Record conds := Conds { c_pre : list cond; c_post : list cond; c_messages : list nat }.
Definition nonempty {A} (l : list A) : bool := match l with [] => false | _ => true end.
(** 267-268 *)
Definition has_any (c : conds) : bool := nonempty (c_pre c) || nonempty (c_post c) || nonempty (c_messages c).
(** 270-274 *)
Definition syntax_messages (c : conds) : list nat :=
  map c_id (filter (fun q => negb (c_compiles q)) (c_pre c ++ c_post c)) ++ c_messages c.

Definition kinds := list nat.
Record opts := Opts { o_enabled : option bool; o_kinds : option kinds }.
(** options.py 61-92, 179-188; [full] are options with every field set *)
Record full := Full { f_enabled : bool; f_kinds : kinds }.
Definition overlay (base : full) (over : opts) : full :=
  Full (match o_enabled over with Some b => b | None => f_enabled base end)
       (match o_kinds over with Some k => k | None => f_kinds base end).
(** options.py 190-204 DEFAULT_OPTIONS: enabled; the kinds are given *)
Section Defaults.
Variable default_kinds : kinds.
Definition default_options : full := Full true default_kinds.

(** A function or method: what kind of descriptor, __isabstractmethod__, what collect_options gives
    and whether get_callable finds a callable *)
Inductive descriptor := DFunction | DStatic | DClass | DOther.
Record member := Member { m_desc : descriptor; m_abstract : bool; m_callable : bool; m_opts : opts }.
(** A class: isabstract, its members, the methods' conditions, classes defined in its body *)
Inductive cls := Cls (abstract : bool) (members : string -> member) (methods : kinds -> list (string * conds)) (nested : list (string * cls)).
Fixpoint get (n : string) (l : list (string * conds)) : option conds :=
  match l with [] => None | (k, c) :: r => if String.eqb n k then Some c else get n r end.

(** What is checked: one postcondition under the preconditions, or that there are problems *)
Inductive check := Check (q : cond) (assumed : list cond) | Problems (l : list nat).

(** 1006-1056 analyze_function; [found] are the conditions by kinds *)
Definition analyze_function (m : member) (found : kinds -> option conds) (options : opts) : list check :=
  let fn_options := if m_callable m then m_opts m else Opts None None in
  let full_options := overlay (overlay default_options fn_options) options in
  if negb (f_enabled full_options) then []
  else
    match found (f_kinds full_options) with
    | None => []
    | Some c =>
        match syntax_messages c with
        | [] => map (fun q => Check q (c_pre c)) (filter c_compiles (c_post c))
        | l => [Problems l]
        end
    end.

(** 960-1004 analyze_class: checks with the method's name.  ClampedCheckable only moves
    messages. *)
Definition without_invariants (c : conds) : conds := Conds (c_pre c) (filter (fun q => negb (c_invariant q)) (c_post c)) (c_messages c).
Definition analyze_method (abstract : bool) (members : string -> member) (methods : kinds -> list (string * conds)) (options : opts) (nc : string * conds) : list (string * check) :=
  let '(n, c) := nc in
  let m := members n in
  if m_abstract m then []
  else if abstract && match m_desc m with DStatic | DClass => false | _ => true end then []
  else
    let c := if String.eqb n "__init__" then without_invariants c else c in
    if has_any c then map (fun k => (n, k)) (analyze_function m (fun ks => get n (methods ks)) options) else [].
Definition analyze_class (options : opts) (k : cls) : list (string * check) :=
  match k with
  | Cls abstract members methods nested =>
      flat_map (analyze_method abstract members methods options) (methods (f_kinds (overlay default_options options)))
  end.

(** fnutil.py 380-391: the members of a module, in getmembers' order.  [EFun]: isfunction or
    ismethod; [EOther]: anything else, perhaps a callable such as functools.lru_cache makes. *)
Inductive entry := EFun (m : member) (found : kinds -> option conds) | EClass (k : cls) | EOther (callable : option (member * (kinds -> option conds))).
Record named := Named { e_name : string; e_module : option string; e_what : entry }.
Definition top_level (module_name : string) (l : list named) : list named :=
  filter (fun e => match e_module e with Some m => String.eqb m module_name | None => false end
                   && match e_what e with EOther _ => false | _ => true end) l.
(** 948-957 analyze_module: checks with the names of the member and, in a class, of the method *)
Definition analyze_entry (options : opts) (e : named) : list (string * option string * check) :=
  match e_what e with
  | EClass k => map (fun nk => (e_name e, Some (fst nk), snd nk)) (analyze_class options k)
  | EFun m found => map (fun k => (e_name e, None, k)) (analyze_function m found options)
  | EOther _ => []
  end.
Definition analyze_module (module_name : string) (options : opts) (l : list named) : list (string * option string * check) :=
  flat_map (analyze_entry options) (top_level module_name l).
End Defaults.
