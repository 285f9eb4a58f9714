(* What Python makes of such a text, and what it should be. *)
From Coq Require Import Ascii String.
From Coq Require Import ZArith List Bool Arith.
From Verif Require Import Repr_Model.
Import ListNotations.

(** * Evaluation of an expression, left to right *)
Definition env := list (nat * val).
Fixpoint get (e : env) (n : nat) : option val :=
  match e with [] => None | (m, v) :: r => if Nat.eqb m n then Some v else get r n end.
(** A new object; but brackets around one item are not a tuple. *)
Definition build (k : kind) (vs : list val) (h : heap) : val * heap :=
  match k, vs with
  | KTuple, [v] => (v, h)
  | _, _ => (VRef (length h), h ++ [Obj k vs])
  end.
Fixpoint eval (t : text) (h : heap) (e : env) : option (val * heap * env) :=
  match t with
  | TAtom a => Some (VAtom a, h, e)
  | TName n => match get e n with Some v => Some (v, h, e) | None => None end
  | TAssign n t =>
      match eval t h e with Some (v, h, e) => Some (v, h, (n, v) :: e) | None => None end
  | TNode k l =>
      match
        (fix go (l : list text) (h : heap) (e : env) : option (list val * heap * env) :=
           match l with
           | [] => Some ([], h, e)
           | t :: r =>
               match eval t h e with
               | None => None
               | Some (v, h, e) =>
                   match go r h e with
                   | None => None
                   | Some (vs, h, e) => Some (v :: vs, h, e)
                   end
               end
           end) l h e
      with
      | None => None
      | Some (vs, h, e) => let '(v, h) := build k vs h in Some (v, h, e)
      end
  | TBlank => None
  end.
Fixpoint eval_list (l : list text) (h : heap) (e : env) : option (list val * heap * env) :=
  match l with
  | [] => Some ([], h, e)
  | t :: r =>
      match eval t h e with
      | None => None
      | Some (v, h, e) =>
          match eval_list r h e with
          | None => None
          | Some (vs, h, e) => Some (v :: vs, h, e)
          end
      end
  end.

(** The grammar: n:=t may be an item of a list, tuple or set, or a positional argument; it may
    not be a key or value of a dictionary display, nor the value of a keyword argument. *)
Definition is_assign (t : text) : bool := match t with TAssign _ _ => true | _ => false end.
Definition walrus_ok (k : kind) : bool :=
  match k with KList | KTuple | KSet => true | _ => false end.
Fixpoint grammatical (t : text) : bool :=
  match t with
  | TAtom _ | TName _ => true
  | TAssign _ t => grammatical t
  | TNode k l => forallb grammatical l && (walrus_ok k || negb (existsb is_assign l))
  | TBlank => false
  end.
(** What Python gets from several expressions in a row. *)
Definition python (ts : list text) : option (list val * heap) :=
  if forallb grammatical ts then
    match eval_list ts [] [] with Some (vs, h, _) => Some (vs, h) | None => None end
  else None.

(** * Two lists of values, each in its heap, are alike, aliases included: there is a one-to-one
    correspondence of objects under which kinds and items agree. *)
Definition matches (r : list (nat * nat)) (v w : val) : Prop :=
  match v, w with
  | VAtom a, VAtom b => a = b
  | VRef i, VRef j => In (i, j) r
  | _, _ => False
  end.
Definition alike (h1 : heap) (l1 : list val) (h2 : heap) (l2 : list val) : Prop :=
  exists r, NoDup (map fst r) /\ NoDup (map snd r) /\ Forall2 (matches r) l1 l2 /\
    forall i j, In (i, j) r -> exists k items1 items2,
      nth_error h1 i = Some (Obj k items1) /\ nth_error h2 j = Some (Obj k items2) /\
      Forall2 (matches r) items1 items2.

(** * Heaps *)
(** Every reference leads to an object that is further from containing others: no cycles. *)
Definition acyclic (h : heap) (rank : nat -> nat) : Prop :=
  forall i k l j, nth_error h i = Some (Obj k l) -> In (VRef j) l -> (rank j < rank i)%nat /\ (j < length h)%nat.
Definition in_heap (h : heap) (v : val) : Prop := match v with VRef i => (i < length h)%nat | _ => True end.
Definition no_single_tuples (h : heap) : Prop :=
  forall i v, nth_error h i <> Some (Obj KTuple [v]).
Definition only_sequences (h : heap) : Prop :=
  forall i k l, nth_error h i = Some (Obj k l) -> walrus_ok k = true \/ l = [].
(** No object is referenced twice: not from the values nor from other objects. *)
Fixpoint refs (l : list val) : list nat :=
  match l with [] => [] | VRef i :: r => i :: refs r | _ :: r => refs r end.
Definition unshared (h : heap) (l : list val) : Prop :=
  NoDup (refs (l ++ concat (map (fun o => match o with Obj _ items => items end) h))).

(** * Calls *)
(** ASCII identifiers that are not keywords of the language *)
Definition between (a b c : Ascii.ascii) : bool :=
  (Ascii.nat_of_ascii a <=? Ascii.nat_of_ascii c) && (Ascii.nat_of_ascii c <=? Ascii.nat_of_ascii b).
Definition letter (c : Ascii.ascii) : bool := between "a" "z" c || between "A" "Z" c || Ascii.eqb c "_".
Fixpoint all_chars (p : Ascii.ascii -> bool) (s : string) : bool :=
  match s with EmptyString => true | String c s => p c && all_chars p s end.
Definition keywords : list string :=
  ["False"; "None"; "True"; "and"; "as"; "assert"; "async"; "await"; "break"; "class"; "continue"; "def"; "del";
   "elif"; "else"; "except"; "finally"; "for"; "from"; "global"; "if"; "import"; "in"; "is"; "lambda"; "nonlocal";
   "not"; "or"; "pass"; "raise"; "return"; "try"; "while"; "with"; "yield"]%string.
Definition is_name (s : string) : bool :=
  match s with
  | EmptyString => false
  | String c r => letter c && all_chars (fun c => letter c || between "0" "9" c) r && negb (existsb (String.eqb s) keywords)
  end.
(** An argument list of the language: no positional argument after a keyword argument, no
    keyword twice. *)
Fixpoint split_args {A} (l : list (argument A)) : option (list A * list (string * A)) :=
  match l with
  | [] => Some ([], [])
  | Pos v :: r => match split_args r with Some (p, k) => Some (v :: p, k) | None => None end
  | Kw n v :: r =>
      match split_args r with
      | Some ([], k) => if existsb (fun kv => String.eqb (fst kv) n) k || negb (is_name n) then None else Some ([], (n, v) :: k)
      | _ => None
      end
  end.
Fixpoint kget {A} (l : list (string * A)) (n : string) : option A :=
  match l with [] => None | (m, v) :: r => if String.eqb m n then Some v else kget r n end.
Definition kdel {A} (l : list (string * A)) (n : string) : list (string * A) :=
  filter (fun kv => negb (String.eqb (fst kv) n)) l.
(** How a call's arguments become the parameters' values; None is TypeError.  A parameter
    that gets nothing has its default, which is not looked into here: it is left out. *)
Fixpoint take_args {A} (ps : list param) (pos : list A) (kw : list (string * A)) : option (list (option (bound A))) :=
  match ps with
  | [] => match pos, kw with [], [] => Some [] | _, _ => None end
  | p :: ps =>
      let rest b pos kw := match take_args ps pos kw with Some l => Some (b :: l) | None => None end in
      match p_kind p with
      | PosOnly => match pos with
                   | v :: pos => rest (Some (One v)) pos kw
                   | [] => if p_default p then rest None [] kw else None
                   end
      | PosKw => match pos, kget kw (p_name p) with
                 | _ :: _, Some _ => None
                 | v :: pos, None => rest (Some (One v)) pos kw
                 | [], Some v => rest (Some (One v)) [] (kdel kw (p_name p))
                 | [], None => if p_default p then rest None [] kw else None
                 end
      | VarPos => rest (Some (Many pos)) [] kw
      | KwOnly => match kget kw (p_name p) with
                  | Some v => rest (Some (One v)) pos (kdel kw (p_name p))
                  | None => if p_default p then rest None pos kw else None
                  end
      | VarKw => rest (Some (Named kw)) pos []
      end
  end.
Definition call {A} (ps : list param) (args : list (argument A)) : option (list (option (bound A))) :=
  match split_args args with Some (pos, kw) => take_args ps pos kw | None => None end.

(** the values a signature's parameters can have *)
Definition fits {A} (p : param) (b : bound A) : Prop :=
  match p_kind p, b with
  | VarPos, Many _ => True
  | VarKw, Named _ => True
  | (PosOnly | PosKw | KwOnly), One _ => True
  | _, _ => False
  end.
Definition order (k : pkind) : nat := match k with PosOnly => 0 | PosKw => 1 | VarPos => 2 | KwOnly => 3 | VarKw => 4 end.
(** A signature: parameters in their order, with different names, at most one of each variadic
    sort; among the positional ones, those with a default come last. *)
Fixpoint sorted_by {A} (le : A -> A -> Prop) (l : list A) : Prop :=
  match l with [] => True | x :: r => Forall (le x) r /\ sorted_by le r end.
Definition signature (ps : list param) : Prop :=
  NoDup (map p_name ps) /\ Forall (fun p => is_name (p_name p) = true) ps /\
  sorted_by (fun p q => (order (p_kind p) <= order (p_kind q))%nat /\
                        (p_kind p = p_kind q -> p_kind p <> VarPos /\ p_kind p <> VarKw) /\
                        ((order (p_kind q) <= 1)%nat -> p_default p = true -> p_default q = true)) ps.

(** The keys of **kwargs in a call: different identifiers, and not the name of a parameter
    that can be passed by keyword. *)
Definition plain_keys {A} (ps : list param) (bs : list (bound A)) : Prop :=
  forall l, In (Named l) bs -> NoDup (map fst l) /\
    forall n, In n (map fst l) -> is_name n = true /\
      forall p, In p ps -> p_name p = n -> p_kind p <> PosKw /\ p_kind p <> KwOnly.
(** A parameter that may be passed by position has a default, and *args are given. *)
Definition default_and_more {A} (ps : list param) (bs : list (bound A)) : Prop :=
  (exists p, In p ps /\ p_kind p = PosKw /\ p_default p = true) /\ exists v l, In (Many (v :: l)) bs.
