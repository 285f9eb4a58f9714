(** Model of how the signature of a class's constructor is found: crosshair/core.py
    454-487 (get_constructor_signature) and crosshair/dynamic_typing.py 263-346
    (isolate_var_params, intersect_signatures).  Return annotations do not matter here. *)
From Coq Require Import String.
From Coq Require Import List Bool Arith.
From Verif Require Import Py.
Import ListNotations.

(** inspect.Parameter: in the order of the kinds *)
Inductive pkind := PosOnly | PosKw | VarPos | KwOnly | VarKw.
Definition rank (k : pkind) : nat := match k with PosOnly => 0 | PosKw => 1 | VarPos => 2 | KwOnly => 3 | VarKw => 4 end.

Section S.
Variable ann : Type.
(** dynamic_typing.unify: whether the first type fits the second *)
Variable unify : ann -> ann -> bool.
Record param := mkParam { name : string; kind : pkind; default : bool; annot : ann }.
Notation signature := (list param).

(** inspect.Signature(parameters): the order of the kinds, defaults, and names are checked *)
Fixpoint valid_from (top : nat) (seen_default : bool) (seen : list string) (l : signature) : bool :=
  match l with
  | [] => true
  | p :: l =>
      let k := rank (kind p) in
      if k <? top then false
      else
        let positional := match kind p with PosOnly | PosKw => true | _ => false end in
        if positional && negb (default p) && seen_default then false
        else if existsb (String.eqb (name p)) seen then false
        else valid_from k (seen_default || positional && default p) (name p :: seen) l
  end.
Definition make (l : signature) : res signature := if valid_from 0 false [] l then Ok l else Err ValueError.

(** dynamic_typing.py 263-282 isolate_var_params *)
Definition pos_only (s : signature) : signature := filter (fun p => match kind p with PosOnly => true | _ => false end) s.
Definition keywords (s : signature) : signature := filter (fun p => match kind p with PosKw | KwOnly => true | _ => false end) s.
Definition var_pos (s : signature) : option param := hd_error (rev (filter (fun p => match kind p with VarPos => true | _ => false end) s)).
Definition var_kw (s : signature) : option param := hd_error (rev (filter (fun p => match kind p with VarKw => true | _ => false end) s)).
Definition is_some {A} (o : option A) : bool := match o with Some _ => true | None => false end.

(** out_params[p.name] = p *)
Fixpoint set (d : signature) (p : param) : signature :=
  match d with [] => [p] | q :: d => if String.eqb (name q) (name p) then p :: d else q :: set d p end.
Definition get (k : string) (d : signature) : option param := find (fun p => String.eqb (name p) k) d.
Definition keyword_only (p : param) : param := mkParam (name p) KwOnly (default p) (annot p).
Fixpoint zip_longest {A B} (a : list A) (b : list B) : list (option A * option B) :=
  match a with
  | [] => map (fun y => (None, Some y)) b
  | x :: a => match b with [] => (Some x, None) :: zip_longest a [] | y :: b => (Some x, Some y) :: zip_longest a b end
  end.
Definition some_list {A} (o : option A) : list A := match o with Some a => [a] | None => [] end.

(** 304-316: what becomes of a pair of positional-only parameters *)
Definition choose_pos (squishy1 squishy2 : bool) (pair : option param * option param) : option param :=
  match pair with
  | (None, Some p2) => if squishy1 then Some p2 else None
  | (Some p1, None) => if squishy2 then Some p1 else None
  | (Some p1, Some p2) => Some (if unify (annot p1) (annot p2) then p1 else p2)
  | (None, None) => None
  end.
(** 317-334: what becomes of a keyword *)
Definition choose_key (squishy1 squishy2 : bool) (key1 key2 : signature) (k : string) : option param :=
  match get k key1, get k key2 with
  | Some p1, None => if squishy2 then Some (keyword_only p1) else None
  | None, Some p2 => if squishy1 then Some (keyword_only p2) else None
  | Some p1, Some p2 => Some (keyword_only (if unify (annot p1) (annot p2) then p1 else p2))
  | None, None => None
  end.
(** 285-346 intersect_signatures *)
Definition put (out : signature) (o : option param) : signature := match o with Some p => set out p | None => out end.
Definition squishy (s : signature) : bool := is_some (var_pos s) || is_some (var_kw s).
Definition out_params (s1 s2 : signature) : signature :=
  let key1 := keywords s1 in
  let key2 := keywords s2 in
  let out := fold_left put (map (choose_pos (squishy s1) (squishy s2)) (zip_longest (pos_only s1) (pos_only s2))) [] in
  let keys := flat_map (fun pair => some_list (fst pair) ++ some_list (snd pair)) (zip_longest (map name key1) (map name key2)) in
  let out := fold_left put (map (choose_key (squishy s1) (squishy s2) key1 key2) keys) out in
  let out := match var_pos s1, var_pos s2 with Some p, Some _ => set out p | _, _ => out end in
  match var_kw s1, var_kw s2 with Some p, Some _ => set out p | _, _ => out end.
Definition intersect (s1 s2 : signature) : res signature := make (out_params s1 s2).

(** core.py 454-487 get_constructor_signature, without __signature__; a signature is
    None when the method is that of object or cannot be resolved *)
Definition constructor (new init : option signature) : res signature :=
  match new, init with
  | None, None => Ok []
  | Some s, None | None, Some s => make (tl s)
  | Some s1, Some s2 => do s <- intersect s1 s2; make (tl s)
  end.
End S.
Arguments mkParam {ann}.
