(* Model of crosshair/type_repo.py 42-80 (the map from classes to their direct subclasses),
   core.py 415-457 (the choice of a class for an argument of some class) and 726-733 (the choice
   of a member of an enumeration).

   A fork on a new Boolean is the next of the path's decisions.  Probabilities are rational
   numbers.  That one of the forks' sides has been exhausted is left out. *)
From Coq Require Import Ascii String.
From Coq Require Import QArith List Bool Arith.
From Verif Require Import Py.
Import ListNotations.

(** What is looked at of a class: its direct bases, the names it defines itself, whether it is
    abstract, whether its type has a hash, and the modules it is a member of. *)
Record cls := Cls { c_bases : list nat; c_names : list string; c_abstract : bool; c_hashable : bool; c_modules : list string }.
Definition classes := nat -> cls.

(** 14-27 _IGNORED_MODULE_ROOTS *)
Definition ignored_roots : list string := ["crosshair"; "z3"; "hypothesis"; "pdb"; "pkg_resources"; "pytest"; "py"; "numpy"]%string.
(** module_name.split(".", 1)[0] *)
Fixpoint root (s : string) : string :=
  match s with
  | EmptyString => EmptyString
  | String c r => if Ascii.eqb c "."%char then EmptyString else String c (root r)
  end.
Definition mem (s : string) (l : list string) : bool := existsb (String.eqb s) l.
(** 42-50; "__copy___" is spelt like that *)
Definition unsafe_members : list string := ["__copy___"; "__deepcopy__"; "__reduce_ex__"; "__reduce__"]%string.
Definition known_to_be_copyable (c : cls) : bool := negb (existsb (fun n => mem n unsafe_members) (c_names c)).

(** 62-74 whether a class is collected; [all] are the classes in memory *)
Definition collected (c : cls) : bool :=
  existsb (fun m => negb (mem (root m) ignored_roots)) (c_modules c) && known_to_be_copyable c && c_hashable c.
(** 74-79 the map: the collected classes that have [base] as a base, in the set's order *)
Definition memn (n : nat) (l : list nat) : bool := existsb (Nat.eqb n) l.
Definition subclass_map (cs : classes) (all : list nat) (base : nat) : list nat :=
  let found := filter (fun c => collected (cs c)) all in
  if memn base found then flat_map (fun c => map (fun _ => c) (filter (Nat.eqb base) (c_bases (cs c)))) found else [].

(** 415-419 with_uniform_probabilities; [n] is count - idx *)
Fixpoint uniform_from {T} (n : nat) (l : list T) : list (T * Q) :=
  match l with [] => [] | x :: r => (x, 1 / inject_Z (Z.of_nat n))%Q :: uniform_from (n - 1) r end.
Definition with_uniform_probabilities {T} (l : list T) : list (T * Q) := uniform_from (length l) l.

(** 423-430 the queue *)
Fixpoint crawl (fuel : nat) (submap : nat -> list nat) (queue : list nat) : res (list nat) :=
  match fuel with
  | O => Err OutOfFuel
  | S f => match queue with
           | [] => Ok []
           | cur :: queue => bind (crawl f submap (queue ++ submap cur)) (fun l => Ok (cur :: l))
           end
  end.
(** 422-437 iter_types *)
Definition iter_types (fuel : nat) (submap : nat -> list nat) (abstract : nat -> bool) (from : nat) (include_abstract : bool) : res (list (nat * Q)) :=
  bind (crawl fuel submap [from]) (fun l =>
    let ret := with_uniform_probabilities (filter (fun c => include_abstract || negb (abstract c)) l) in
    Ok (match ret with
        | (t, p) :: r => if Nat.eqb t from then (from, (p + 3) / 4)%Q :: r else ret
        | [] => []
        end)).
(** 440-455 the loop of choose_type *)
Fixpoint pick (pairs : list (nat * Q)) (decisions : nat -> bool) : res nat :=
  match pairs with
  | [] => Err RuntimeError
  | (t, p) :: r => if Qeq_bool p 1 then Ok t else if decisions O then Ok t else pick r (fun i => decisions (S i))
  end.
(** 440-455 choose_type *)
Definition choose_type (fuel : nat) (submap : nat -> list nat) (abstract : nat -> bool) (from : nat) (decisions : nat -> bool) : res (option nat) :=
  bind (iter_types fuel submap abstract from false) (fun pairs =>
    match pairs with [] => Ok None | _ => bind (pick pairs decisions) (fun t => Ok (Some t)) end).

(** 726-733 an enumeration's member: the loop over enum_values[:-1] *)
Fixpoint pick_member {T} (l : list T) (decisions : nat -> bool) : option T :=
  match l with
  | [] => None
  | [x] => Some x
  | x :: r => if decisions O then Some x else pick_member r (fun i => decisions (S i))
  end.
