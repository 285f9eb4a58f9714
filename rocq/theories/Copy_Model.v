(** Model of how arguments are copied: crosshair/copyext.py 57-155 (deepcopyext,
    _deepconstruct), and the functions of CPython's copy module it calls
    (_deepcopy_list, _deepcopy_dict, _deepcopy_tuple, _reconstruct). *)
From Coq Require Import List Bool Arith ZArith.
Import ListNotations.

(** Objects are numbered; an object has a kind and refers to others.  The kinds: atoms
    (numbers, strings, None, functions, classes); objects that cannot be copied, where
    copying raises TypeError; lists; dictionaries (values and keys in turn); tuples;
    instances, made by calling a function with the first [nargs] references and then
    given the others as attributes (what __reduce_ex__ returns; sets are made from their
    elements); symbolic numbers and strings; symbolic lists; symbolic dictionaries. *)
Inductive kind :=
| KAtom (v : Z) | KStuck (v : Z) | KLst | KDct | KTup | KInst (cls : Z) (nargs : nat) (names : list Z)
| KSAtom (v : Z) | KSLst | KSDct.
Notation node := (kind * list nat)%type.
Notation heap := (list node).
Record st := mkSt { objects : heap; memo : list (nat * nat) }.
Inductive mode := Regular | BestEffort | Realize.
Inductive failure := CannotCopy | TooDeep | NoObject.
Inductive result (A : Type) := Done (a : A) | Fail (e : failure).
Arguments Done {A}. Arguments Fail {A}.
Definition bind {A B} (a : result A) (f : A -> result B) : result B :=
  match a with Done a => f a | Fail e => Fail e end.

Fixpoint find (o : nat) (m : list (nat * nat)) : option nat :=
  match m with [] => None | (a, c) :: m => if o =? a then Some c else find o m end.
Definition remember (s : st) (o c : nat) : st := mkSt (objects s) ((o, c) :: memo s).
Definition alloc (s : st) (n : node) : st * nat := (mkSt (objects s ++ [n]) (memo s), length (objects s)).
Fixpoint change (h : heap) (y : nat) (f : node -> node) : heap :=
  match h, y with [], _ => [] | n :: h, O => f n :: h | n :: h, S y => n :: change h y f end.
(** y.append(c), y[k] = v, y.__dict__.update *)
Definition push (s : st) (y c : nat) : st :=
  mkSt (change (objects s) y (fun n => (fst n, snd n ++ [c]))) (memo s).
Fixpoint same (a b : list nat) : bool :=
  match a, b with [], [] => true | x :: a, y :: b => (x =? y) && same a b | _, _ => false end.

Section C.
Variable cp : st -> nat -> result (st * nat).
Fixpoint copy_all (s : st) (cs : list nat) : result (st * list nat) :=
  match cs with
  | [] => Done (s, [])
  | a :: cs => bind (cp s a) (fun r => bind (copy_all (fst r) cs) (fun q => Done (fst q, snd r :: snd q)))
  end.
(** The elements of a list, items of a dictionary and attributes of an instance are
    copied and added one after the other.  Whether a key is copied before its value does
    not show. *)
Fixpoint fill (s : st) (y : nat) (cs : list nat) : result st :=
  match cs with
  | [] => Done s
  | a :: cs => bind (cp s a) (fun r => fill (push (fst r) y (snd r)) y cs)
  end.
End C.

(** 57-101 deepcopyext, 115-155 _deepconstruct.  [fuel] bounds the depth of the Python
    stack.  What realizing a symbolic container makes for a moment (76-79) is left out. *)
Fixpoint copy (fuel : nat) (md : mode) (s : st) (o : nat) : result (st * nat) :=
  match fuel with
  | O => Fail TooDeep
  | S fuel =>
      match find o (memo s) with
      | Some c => Done (s, c)
      | None =>
          let cp := copy fuel md in
          let made_first (s : st) (k : kind) (args rest : list nat) :=
            let (s1, y) := alloc s (k, args) in
            bind (fill cp (remember s1 o y) y rest) (fun s => Done (s, y)) in
          let made_last (k : kind) (cs : list nat) :=
            bind (copy_all cp s cs) (fun r => Done (alloc (fst r) (k, snd r))) in
          match nth_error (objects s) o with
          | None => Fail NoObject
          | Some (k, cs) =>
              bind (match k with
                    | KAtom _ => Done (s, o)
                    | KStuck _ => match md with Regular => Fail CannotCopy | _ => Done (s, o) end
                    | KLst | KDct => made_first s k [] cs
                    | KTup =>
                        bind (copy_all cp s cs) (fun r =>
                        match find o (memo (fst r)) with
                        | Some c => Done (fst r, c)
                        | None => if same cs (snd r) then Done (fst r, o) else Done (alloc (fst r) (KTup, snd r))
                        end)
                    | KInst _ n _ =>
                        bind (copy_all cp s (firstn n cs)) (fun r => made_first (fst r) k (snd r) (skipn n cs))
                    | KSAtom v => Done (alloc s (match md with Realize => KAtom v | _ => k end, []))
                    | KSLst => match md with Realize => made_last KLst cs | _ => made_first s k [] cs end
                    | KSDct => match md with Realize => made_last KDct cs | _ => made_first s k [] cs end
                    end)
                   (fun r => Done (remember (fst r) o (snd r), snd r))                              (* 100 *)
          end
      end
  end.
(** deepcopyext(obj, mode, {}) *)
Definition deepcopy (fuel : nat) (md : mode) (h : heap) (o : nat) : result (heap * nat) :=
  bind (copy fuel md (mkSt h []) o) (fun r => Done (objects (fst r), snd r)).
