(* Model of symbolic dictionaries and frozensets: crosshair/libimpl/builtinslib.py 1760-2178
   (SymbolicDictOrSet, SymbolicDict, SymbolicFrozenSet), which are a solver array and, apart
   from it, a solver integer for the length.

   What is modelled is one path under one assignment of the solver's variables that satisfies
   the path's constraints: an array, a length, and a value for every constant created on the
   way.  [Excluded] says that the assignment violates a constraint the code has just added
   (space.add), so that it is not one of the path's assignments; [Ignored] is IgnoreAttempt.

   Simplifications.  Keys (and values) have a solver sort of their own, not the heap's.  An
   array is a default and finitely many exceptions, as in a solver's model. *)
From Coq Require Import ZArith List Bool.
Import ListNotations.
Local Open Scope Z_scope.

Section SymMap.
  Variables (K V : Type).
  Variable keqb : K -> K -> bool.
  Variable veqb : V -> V -> bool.
  (** whether the list has every key there is (the key sort may be finite, as for bool) *)
  Variable covered : list K -> bool.

  Definition oeqb (a b : option V) : bool :=
    match a, b with
    | Some x, Some y => veqb x y
    | None, None => true
    | _, _ => false
    end.

  (** z3 arrays from keys to possibly_missing values (1812-1818) *)
  Record array := Arr { dflt : option V; exc : list (K * option V) }.
  Fixpoint assoc (l : list (K * option V)) (k : K) : option (option V) :=
    match l with
    | [] => None
    | (j, x) :: r => if keqb j k then Some x else assoc r k
    end.
  Definition select (a : array) (k : K) : option V :=
    match assoc (exc a) k with Some x => x | None => dflt a end.
  Definition store (a : array) (k : K) (x : option V) : array := Arr (dflt a) ((k, x) :: exc a).
  (** self.empty, 1818 and 1968 *)
  Definition empty : array := Arr None [].
  (** == on arrays *)
  Definition arr_eqb (a b : array) : bool :=
    let ks := map fst (exc a ++ exc b) in
    forallb (fun k => oeqb (select a k) (select b k)) ks && (oeqb (dflt a) (dflt b) || covered ks).

  Variable arr : array.       (** self._arr() *)
  Variable len : Z.           (** self._len() *)
  (** the value of the constant "k<idx><uniq>": the first argument is space.uniq() *)
  Variable fresh : nat -> nat -> K.

  (** 1776, 1820 and 1970: what creating the object requires *)
  Definition admissible : bool :=
    (0 <=? len) && Bool.eqb (arr_eqb arr empty) (len =? 0).

  (** what iterations share: _iter_cache and the counter of constants *)
  Record shared := Shared { cache : list K; uniq : nat }.
  (** a generator: idx and arr_var *)
  Record iter := Iter { i_idx : nat; i_arr : array; i_done : bool }.
  Definition new_iter : iter := Iter 0 arr false.

  Inductive ran (A : Type) := Ran (r : A) (s : shared) | Ignored | Excluded.
  Arguments Ran {A}. Arguments Ignored {A}. Arguments Excluded {A}.

  (** The constraints on the next key and the rest: arr_var == Store(remaining, k, ...) and k
      is missing in remaining.  They determine remaining. *)
  Definition take (it : iter) (k : K) (s : shared) : ran (option K * iter) :=
    match select (i_arr it) k with
    | None => Excluded
    | Some _ => Ran (Some k, Iter (S (i_idx it)) (store (i_arr it) k None) false) s
    end.

  (** the end of both loops: 1953-1956, 2126-2129 *)
  Definition finish (it : iter) (s : shared) : ran (option K * iter) :=
    if arr_eqb (i_arr it) empty then Ran (None, Iter (i_idx it) (i_arr it) true) s else Ignored.

  (** SymbolicDict.__iter__ 1922-1956: from one yield to the next; None: the generator ends *)
  Definition dict_next (it : iter) (s : shared) : ran (option K * iter) :=
    if i_done it then Ran (None, it) s
    else if Z.of_nat (i_idx it) <? len then
      if arr_eqb (i_arr it) empty then Ignored
      else
        let k := fresh (uniq s) (i_idx it) in
        match nth_error (cache s) (i_idx it) with
        | Some c => if keqb k c then take it k (Shared (cache s) (S (uniq s))) else Excluded
        | None => take it k (Shared (cache s ++ [k]) (S (uniq s)))
        end
    else finish it s.

  (** SymbolicFrozenSet.__iter__ 2084-2129: a key known from an earlier iteration is used
      before looking at the length *)
  Definition set_next (it : iter) (s : shared) : ran (option K * iter) :=
    if i_done it then Ran (None, it) s
    else
      match nth_error (cache s) (i_idx it) with
      | Some k => take it k (Shared (cache s) (S (uniq s)))
      | None =>
          if Z.of_nat (i_idx it) <? len then
            if arr_eqb (i_arr it) empty then Ignored
            else
              let k := fresh (uniq s) (i_idx it) in
              take it k (Shared (cache s ++ [k]) (S (uniq s)))
          else finish it s
      end.

  Section Scan.
    Variable next : iter -> shared -> ran (option K * iter).
    (** a for loop over the object that stops at the first key with a property *)
    Fixpoint scan (fuel : nat) (p : K -> bool) (it : iter) (s : shared) : ran (option K) :=
      match fuel with
      | O => Excluded
      | S fuel =>
          match next it s with
          | Ran (None, _) s => Ran None s
          | Ran (Some k, it) s => if p k then Ran (Some k) s else scan fuel p it s
          | Ignored => Ignored
          | Excluded => Excluded
          end
      end.
    (** list(self) *)
    Definition iterate_all (s : shared) : ran (option K) :=
      scan (S (S (Z.to_nat len + length (cache s)))) (fun _ => false) new_iter s.
    Definition find_key (p : K -> bool) (s : shared) : ran (option K) :=
      scan (S (S (Z.to_nat len + length (cache s)))) p new_iter s.
  End Scan.

  Inductive answer :=
  | AKey (k : K) | AStop | AVal (v : V) | AKeyError | ALen (n : Z) | ABool (b : bool) | ANone.

  (** SymbolicDict.__getitem__ 1892-1917 with a key of the dictionary's own sort *)
  Definition dict_get (k : K) (s : shared) : ran answer :=
    match select arr k with
    | None => Ran AKeyError s
    | Some v => if len =? 0 then Ignored else Ran (AVal v) s
    end.

  (** 1897-1905, with a key of another type: compare with each key in turn *)
  Definition dict_get_other (p : K -> bool) (s : shared) : ran answer :=
    match find_key dict_next p s with
    | Ran None s => Ran AKeyError s
    | Ran (Some k) s => dict_get k s
    | Ignored => Ignored
    | Excluded => Excluded
    end.

  (** SymbolicDict.__eq__ 1873-1882, with another mapping *)
  Fixpoint eq_items (o : list (K * V)) (s : shared) : ran answer :=
    match o with
    | [] => Ran (ABool true) s
    | (k, v) :: r =>
        match dict_get k s with
        | Ran (AVal w) s => if veqb w v then eq_items r s else Ran (ABool false) s
        | Ran _ s => Ran (ABool false) s
        | Ignored => Ignored
        | Excluded => Excluded
        end
    end.
  Definition dict_eq (o : list (K * V)) (s : shared) : ran answer :=
    if len =? Z.of_nat (length o) then eq_items o s else Ran (ABool false) s.

  (** SymbolicFrozenSet.__contains__ 2067-2082 *)
  Definition set_contains (k : K) (s : shared) : ran answer :=
    Ran (ABool (match select arr k with Some _ => true | None => false end)) s.
  Definition set_contains_other (p : K -> bool) (s : shared) : ran answer :=
    match find_key set_next p s with
    | Ran None s => Ran (ABool false) s
    | Ran (Some _) s => Ran (ABool true) s
    | Ignored => Ignored
    | Excluded => Excluded
    end.

  (** SymbolicFrozenSet.__eq__ 2036-2055, with another set *)
  Definition set_eq (o : list K) (s : shared) : ran answer :=
    if len =? Z.of_nat (length o) then
      match find_key set_next (fun k => negb (existsb (keqb k) o)) s with
      | Ran None s => Ran (ABool true) s
      | Ran (Some _) s => Ran (ABool false) s
      | Ignored => Ignored
      | Excluded => Excluded
      end
    else Ran (ABool false) s.

  (** A program: the operations it does on the object, in order.  Iterators may be used in
      any interleaving. *)
  Inductive op :=
  | ONew                     (** iter(d) *)
  | ONext (i : nat)          (** next() on the i-th iterator *)
  | OGet (k : K)             (** d[k]; for sets, k in d *)
  | OFind (p : K -> bool)    (** the same with a key of another type, equal to the keys in p *)
  | OLen                     (** 1788 *)
  | OBool                    (** 1792 *)
  | OEq (o : list (K * V)).  (** == a dictionary (for sets, a set) of another kind *)

  Record state := State { sh : shared; its : list iter }.
  Fixpoint set_nth (n : nat) (x : iter) (l : list iter) : list iter :=
    match l, n with
    | [], _ => []
    | _ :: r, O => x :: r
    | y :: r, S n => y :: set_nth n x r
    end.

  Inductive stepped := Did (a : answer) (st : state) | SIgnored | SExcluded.
  Definition keep (its : list iter) (r : ran answer) : stepped :=
    match r with Ran a s => Did a (State s its) | Ignored => SIgnored | Excluded => SExcluded end.

  Definition advance (next : iter -> shared -> ran (option K * iter)) (i : nat) (st : state) : stepped :=
    match nth_error (its st) i with
    | None => Did ANone st
    | Some it =>
        match next it (sh st) with
        | Ran (k, it) s => Did (match k with Some k => AKey k | None => AStop end)
                               (State s (set_nth i it (its st)))
        | Ignored => SIgnored
        | Excluded => SExcluded
        end
    end.

  Definition dict_step (o : op) (st : state) : stepped :=
    match o with
    | ONew => Did ANone (State (sh st) (its st ++ [new_iter]))
    | ONext i => advance dict_next i st
    | OGet k => keep (its st) (dict_get k (sh st))
    | OFind p => keep (its st) (dict_get_other p (sh st))
    | OLen => Did (ALen len) st
    | OBool => Did (ABool (negb (len =? 0))) st
    | OEq o => keep (its st) (dict_eq o (sh st))
    end.

  Definition set_step (o : op) (st : state) : stepped :=
    match o with
    | ONew => Did ANone (State (sh st) (its st ++ [new_iter]))
    | ONext i => advance set_next i st
    | OGet k => keep (its st) (set_contains k (sh st))
    | OFind p => keep (its st) (set_contains_other p (sh st))
    | OLen => Did (ALen len) st
    | OBool => Did (ABool (negb (len =? 0))) st
    | OEq o => keep (its st) (set_eq (map fst o) (sh st))
    end.

  Inductive outcome := Finished (l : list answer) (st : state) | RIgnored | RExcluded.
  Fixpoint run (step : op -> state -> stepped) (p : list op) (st : state) : outcome :=
    match p with
    | [] => Finished [] st
    | o :: p =>
        match step o st with
        | Did a st => match run step p st with
                      | Finished l st => Finished (a :: l) st
                      | x => x
                      end
        | SIgnored => RIgnored
        | SExcluded => RExcluded
        end
    end.

  Definition start : state := State (Shared [] 0) [].

  (** The assumption deferred to the end of the path: 1822-1828, the dictionary can be
      iterated. *)
  Definition dict_consistent (st : state) : bool :=
    match iterate_all dict_next (sh st) with Ran _ _ => true | _ => false end.

  (** 1974-1997 _is_consistent; [item] gives the constants "set_<i>_<uniq>" *)
  Variable item : nat -> K.
  Fixpoint distinct (l : list K) : bool :=
    match l with [] => true | x :: r => negb (existsb (keqb x) r) && distinct r end.
  Definition items : list K := map item (seq 0 (Z.to_nat len)).
  Definition set_consistent (present : V) : bool :=
    distinct items && arr_eqb (fold_left (fun a k => store a k (Some present)) items empty) arr.

  (** 1861-1871 and 2027-2035: == between two of them, on arrays and lengths *)
  Definition both_eq (a2 : array) (len2 : Z) : bool := (len =? len2) && arr_eqb arr a2.

  (** 1842-1859, 2005-2017 _smt_for_unification with a concrete dictionary or set *)
  Definition unifies (o : list (K * V)) : bool :=
    (len =? Z.of_nat (length o)) &&
    arr_eqb (fold_left (fun a kv => store a (fst kv) (Some (snd kv))) o empty) arr.
End SymMap.

Arguments Arr {K V}. Arguments dflt {K V}. Arguments exc {K V}.
Arguments empty {K V}.
Arguments Shared {K}. Arguments cache {K}. Arguments uniq {K}.
Arguments Iter {K V}. Arguments i_idx {K V}. Arguments i_arr {K V}. Arguments i_done {K V}.
Arguments Ran {K A}. Arguments Ignored {K A}. Arguments Excluded {K A}.
Arguments AKey {K V}. Arguments AStop {K V}. Arguments AVal {K V}. Arguments AKeyError {K V}.
Arguments ALen {K V}. Arguments ABool {K V}. Arguments ANone {K V}.
Arguments ONew {K V}. Arguments ONext {K V}. Arguments OGet {K V}. Arguments OFind {K V}.
Arguments OLen {K V}. Arguments OBool {K V}. Arguments OEq {K V}.
Arguments State {K V}. Arguments sh {K V}. Arguments its {K V}.
Arguments Did {K V}. Arguments SIgnored {K V}. Arguments SExcluded {K V}.
Arguments Finished {K V}. Arguments RIgnored {K V}. Arguments RExcluded {K V}.
