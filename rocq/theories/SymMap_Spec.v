(* Python dictionaries and frozensets that do not change, as a program sees them: a list of
   items with distinct keys, and iterators that are positions in it.  A set is a dictionary
   whose values carry nothing. *)
From Coq Require Import ZArith List Bool.
From Verif Require Import SymMap_Model.
Import ListNotations.
Local Open Scope Z_scope.

Section Spec.
  Variables (K V : Type).
  Variable keqb : K -> K -> bool.
  Variable veqb : V -> V -> bool.
  Notation answer := (answer K V).
  Notation op := (op K V).

  Fixpoint lookup (l : list (K * V)) (k : K) : option V :=
    match l with
    | [] => None
    | (j, v) :: r => if keqb j k then Some v else lookup r k
    end.

  Definition sub_dict (a b : list (K * V)) : bool :=
    forallb (fun kv => match lookup b (fst kv) with Some w => veqb (snd kv) w | None => false end) a.
  (** the same items, whatever the order *)
  Definition same_dict (a b : list (K * V)) : bool := sub_dict a b && sub_dict b a.

  Definition py_common (l : list (K * V)) (o : op) (its : list nat) : answer * list nat :=
    match o with
    | ONew => (ANone, its ++ [0%nat])
    | ONext i =>
        match nth_error its i with
        | None => (ANone, its)
        | Some pos =>
            match nth_error l pos with
            | Some kv => (AKey (fst kv), firstn i its ++ [S pos] ++ skipn (S i) its)
            | None => (AStop, its)
            end
        end
    | OLen => (ALen (Z.of_nat (length l)), its)
    | OBool => (ABool (match l with [] => false | _ => true end), its)
    | OEq o => (ABool (same_dict l o), its)
    | _ => (ANone, its)
    end.

  Definition py_dict (l : list (K * V)) (o : op) (its : list nat) : answer * list nat :=
    match o with
    | OGet k => (match lookup l k with Some v => AVal v | None => AKeyError end, its)
    | OFind p => (match find (fun kv => p (fst kv)) l with
                  | Some kv => AVal (snd kv) | None => AKeyError end, its)
    | _ => py_common l o its
    end.

  Definition py_set (l : list (K * V)) (o : op) (its : list nat) : answer * list nat :=
    match o with
    | OGet k => (ABool (existsb (fun kv => keqb (fst kv) k) l), its)
    | OFind p => (ABool (existsb (fun kv => p (fst kv)) l), its)
    | _ => py_common l o its
    end.

  Fixpoint py_run (step : op -> list nat -> answer * list nat) (p : list op) (its : list nat) : list answer :=
    match p with
    | [] => []
    | o :: p => let '(a, its) := step o its in a :: py_run step p its
    end.

  (** the dictionaries programs compare with are dictionaries *)
  Definition proper_op (o : op) : Prop :=
    match o with OEq o => NoDup (map fst o) | _ => True end.

  (** the solver's array and length stand for this dictionary *)
  Definition represents (arr : array K V) (len : Z) (l : list (K * V)) : Prop :=
    NoDup (map fst l) /\ Z.of_nat (length l) = len /\
    forall k, lookup l k = select K V keqb arr k.

  (** what is assumed of keys, values and the key sort *)
  Definition proper_sorts (covered : list K -> bool) : Prop :=
    (forall a b, keqb a b = true <-> a = b) /\
    (forall a b, veqb a b = true <-> a = b) /\
    (forall l, if covered l then forall k, In k l else exists k, ~ In k l).
End Spec.
