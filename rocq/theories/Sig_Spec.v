(** Which calls a signature accepts, by the rules of the language. *)
From Coq Require Import String.
From Coq Require Import List Bool Arith.
From Verif Require Import Sig_Model.
Import ListNotations.

Section S.
Variable ann value : Type.
(** whether a value is of the type of an annotation *)
Variable has : value -> ann -> Prop.
Notation param := (param ann).
Notation signature := (list param).
Notation name := (name ann).
Notation kind := (kind ann).
Notation default := (default ann).
Notation annot := (annot ann).

Definition by_position (k : pkind) : bool := match k with PosOnly | PosKw => true | _ => false end.
Definition by_keyword (k : pkind) : bool := match k with PosKw | KwOnly => true | _ => false end.
Definition positional (s : signature) : signature := filter (fun p => by_position (kind p)) s.

(** A call with positional arguments [pos] and keyword arguments [kw] *)
Definition accepts (s : signature) (pos : list value) (kw : string -> option value) : Prop :=
  (forall i p, nth_error (positional s) i = Some p ->
     match nth_error pos i with
     | Some v => has v (annot p) /\ (kind p = PosKw -> kw (name p) = None)
     | None => match (if by_keyword (kind p) then kw (name p) else None) with
               | Some v => has v (annot p)
               | None => default p = true
               end
     end) /\
  (forall p, In p s -> kind p = KwOnly -> match kw (name p) with Some v => has v (annot p) | None => default p = true end) /\
  (forall i v, length (positional s) <= i -> nth_error pos i = Some v -> exists p, In p s /\ kind p = VarPos /\ has v (annot p)) /\
  (forall k v, kw k = Some v -> (forall p, In p s -> name p = k -> by_keyword (kind p) = false) ->
     exists p, In p s /\ kind p = VarKw /\ has v (annot p)).

(** A signature that a function can have *)
Definition well_formed (s : signature) : Prop :=
  NoDup (map name s) /\
  (forall i j p q, i < j -> nth_error s i = Some p -> nth_error s j = Some q -> rank (kind p) <= rank (kind q)) /\
  (forall p q, In p s -> In q s -> kind p = kind q -> kind p = VarPos \/ kind p = VarKw -> p = q).
(** Arguments that can be passed by keyword are. *)
Definition keyword_style (s : signature) (pos : list value) : Prop :=
  forall i p, nth_error (positional s) i = Some p -> i < length pos -> kind p = PosOnly.
(** Parameters of two signatures with the same name are of the same sort, and if
    positional-only, at the same position. *)
Definition sort_of (k : pkind) : nat := match k with PosOnly => 0 | PosKw | KwOnly => 1 | VarPos => 2 | VarKw => 3 end.
Definition agree (s1 s2 : signature) : Prop :=
  (forall p q, In p s1 -> In q s2 -> name p = name q -> sort_of (kind p) = sort_of (kind q)) /\
  (forall i j p q, nth_error (positional s1) i = Some p -> nth_error (positional s2) j = Some q ->
     kind p = PosOnly -> name p = name q -> i = j).
(** It takes any further arguments of some sort. *)
Definition variadic (s : signature) : Prop := exists p, In p s /\ (kind p = VarPos \/ kind p = VarKw).

(** A class is called: __new__ gets the class and __init__ the new object as the first
    argument. *)
Definition class_accepts (new init : option signature) (c o : value) (pos : list value) (kw : string -> option value) : Prop :=
  match new with Some s => accepts s (c :: pos) kw | None => True end /\
  match init with Some s => accepts s (o :: pos) kw | None => True end /\
  (new = None -> init = None -> pos = [] /\ forall k, kw k = None).
End S.
