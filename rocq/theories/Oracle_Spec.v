(** What the search heuristics are to do, independently of how they keep track.

    A path is a list of branches; [decides x t v] says that at branch [x] the condition
    [t] turned out to have the truth value [v] (a branch may ask for the negation of
    [t]); [first_at pre loc] that no branch of [pre] is at the code location [loc]. *)
From Coq Require Import ZArith QArith List Bool.
From Verif Require Import Oracle_Model.
Import ListNotations.
Open Scope Z_scope.

Definition decides (x : step) (t : Z) (v : bool) : Prop :=
  exists loc mv pos a,
    (x = SNode loc mv pos (a, t) NPos /\ v = pos) \/
    (x = SNode loc mv pos (a, t) NNeg /\ v = negb pos).

Definition located (x : step) (l : Z) : Prop :=
  exists mv pos o n, x = SNode l mv pos o n.

Definition detached (x : step) : Prop :=
  exists l mv pos o, x = SNode l mv pos o NDetached.

(** On path [p], location [l] was first reached after [t] had turned out to be [v].
    What happens after a path was detached is not looked at. *)
Definition led_path (p : list step) (l t : Z) (v : bool) : Prop :=
  exists pre s post pos o n,
    p = pre ++ s :: post /\ s = SNode l false pos o n /\
    (forall x, In x pre -> ~ located x l) /\
    (forall x, In x pre -> ~ detached x) /\
    exists x, In x pre /\ decides x t v.

Definition led (hist : list (list step)) (l t : Z) (v : bool) : Prop :=
  exists p, In p hist /\ led_path p l t v.

(** The probability for [t] being true when aiming at [l]. *)
Definition bias (hist : list (list step)) (l t : Z) (q : option Q) : Prop :=
  (led hist l t true /\ ~ led hist l t false /\ q = Some (9 # 10)) \/
  (~ led hist l t true /\ led hist l t false /\ q = Some (1 # 10)) \/
  (led hist l t true /\ led hist l t false /\ q = Some (1 # 4)) \/
  (~ led hist l t true /\ ~ led hist l t false /\ q = None).

(** A path as the search produces it: each branch is followed by one of its ways, and
    objects have positive addresses. *)
Definition proper_step (x : step) : Prop :=
  match x with
  | SOther => True
  | SNode _ _ _ o n => 0 < fst o /\ n <> NNeither
  end.

Definition probability (q : Q) : Prop := (0 <= q /\ q <= 1)%Q.

(** Objects that hold conditions; no address was used for two different conditions. *)
Definition unshared (objs : list object) : Prop :=
  forall a t t', In (a, t) objs -> In (a, t') objs -> t = t'.
Definition objects_of (p : list step) : list object :=
  flat_map (fun x => match x with SNode _ _ _ o _ => [o] | SOther => [] end) p.

(** The locations that a path is counted for: up to its detachment. *)
Fixpoint seen (p : list step) : list Z :=
  match p with
  | [] => []
  | SOther :: r => seen r
  | SNode l _ _ _ NDetached :: _ => [l]
  | SNode l _ _ _ _ :: r => l :: seen r
  end.


(** How often the paths passed a location. *)
Definition times (hist : list (list step)) (l : Z) : nat :=
  count_occ Z.eq_dec (flat_map seen hist) l.

(** A run of the search as the heuristic sees it: paths begin (with the random numbers
    drawn), ask for decisions, and end. *)
Inductive event (cond : Type) :=
| EPre (r1 r2 : Q)
| EDecide (b : branch cond) (p : option Q)
| EPost (path : list step).
Arguments EPre {cond}.
Arguments EDecide {cond}.
Arguments EPost {cond}.

Definition proper_event {cond} (e : event cond) : Prop :=
  match e with
  | EPre _ r2 => (0 <= r2 /\ r2 < 1)%Q
  | EDecide b _ => 0 < fst (b_obj cond b)
  | EPost p => Forall proper_step p
  end.

(** The latest path is the first one. *)
Fixpoint paths_of {cond} (es : list (event cond)) : list (list step) :=
  match es with
  | [] => []
  | EPost p :: r => paths_of r ++ [p]
  | _ :: r => paths_of r
  end.
Fixpoint objects_in {cond} (es : list (event cond)) : list object :=
  match es with
  | [] => []
  | EPost p :: r => objects_in r ++ objects_of p
  | EDecide b _ :: r => objects_in r ++ [b_obj cond b]
  | EPre _ _ :: r => objects_in r
  end.
