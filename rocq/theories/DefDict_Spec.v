(** collections.defaultdict: a dict in which d[k], and nothing else, calls the factory
    for a key that is not there and stores what it gives.

    A dictionary is an ordered list of pairs; the new ones come last. *)
From Coq Require Import ZArith List Bool.
From Verif Require Import Py DefDict_Model.
Import ListNotations.
Local Open Scope Z_scope.

Definition value (k : Z) (d : list (Z * Z)) : option Z :=
  option_map snd (find (fun p => fst p =? k) d).
Definition has (k : Z) (d : list (Z * Z)) : bool := existsb (fun p => fst p =? k) d.
Definition assign (k v : Z) (d : list (Z * Z)) : list (Z * Z) :=
  if has k d then map (fun p => if fst p =? k then (k, v) else p) d else d ++ [(k, v)].
Definition without (k : Z) (d : list (Z * Z)) : list (Z * Z) :=
  filter (fun p => negb (fst p =? k)) d.

Definition reference (factory : option (nat -> res Z)) (o : op) (d : list (Z * Z)) (n : nat)
  : res out * (list (Z * Z) * nat) :=
  match o with
  | GetItem k =>
      match value k d, factory with
      | Some v, _ => (Ok (OVal v), (d, n))
      | None, None => (Err KeyError, (d, n))
      | None, Some f =>
          match f n with
          | Ok v => (Ok (OVal v), (assign k v d, S n))
          | Err e => (Err e, (d, S n))
          end
      end
  | SetItem k v => (Ok ONone, (assign k v d, n))
  | DelItem k => if has k d then (Ok ONone, (without k d, n)) else (Err KeyError, (d, n))
  | Iter => (Ok (OKeys (map fst d)), (d, n))
  | Len => (Ok (OVal (Z.of_nat (length d))), (d, n))
  | Contains k => (Ok (OBool (has k d)), (d, n))
  | Get k default => (Ok (OVal (match value k d with Some v => v | None => default end)), (d, n))
  | Pop k default =>
      match value k d, default with
      | Some v, _ => (Ok (OVal v), (without k d, n))
      | None, Some v => (Ok (OVal v), (d, n))
      | None, None => (Err KeyError, (d, n))
      end
  | SetDefault k default =>
      match value k d with
      | Some v => (Ok (OVal v), (d, n))
      | None => (Ok (OVal default), (assign k default d, n))
      end
  | PopItem =>                                     (* the last one *)
      match rev d with
      | [] => (Err KeyError, (d, n))
      | (k, v) :: r => (Ok (OPair k v), (rev r, n))
      end
  | Clear => (Ok ONone, ([], n))
  | Update items => (Ok ONone, (fold_left (fun d p => assign (fst p) (snd p) d) items d, n))
  end.

Fixpoint reference_run (factory : option (nat -> res Z)) (os : list op) (d : list (Z * Z)) (n : nat)
  : list (res out) * (list (Z * Z) * nat) :=
  match os with
  | [] => ([], (d, n))
  | o :: r =>
      let '(x, (d1, n1)) := reference factory o d n in
      let '(xs, s) := reference_run factory r d1 n1 in
      (x :: xs, s)
  end.

(** Uses for which the stand-in is right: those that look a key up without d[k] find it,
    unless there is no factory; items are popped from dictionaries with at most one. *)
Definition tame (factory : option (nat -> res Z)) (o : op) (d : list (Z * Z)) : Prop :=
  match o with
  | Contains k | Get k _ | Pop k _ | SetDefault k _ => factory = None \/ has k d = true
  | PopItem => (length d <= 1)%nat
  | _ => True
  end.
Fixpoint tame_run (factory : option (nat -> res Z)) (os : list op) (d : list (Z * Z)) (n : nat) : Prop :=
  match os with
  | [] => True
  | o :: r =>
      tame factory o d /\
      tame_run factory r (fst (snd (reference factory o d n))) (snd (snd (reference factory o d n)))
  end.
