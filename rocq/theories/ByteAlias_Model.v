(** Model of what bytes, bytearrays and memoryviews share: libimpl/builtinslib.py
    buffer_to_byte_seq 4001-4020, SymbolicBytes.__init__ 4249-4252, SymbolicByteArray.__init__
    4403-4408 and __setitem__ 4472-4478, SymbolicMemoryView.__init__ 4498-4508, __getitem__
    4553-4565 and tobytes 4578-4580, _bytearray 4808-4819, _bytes 4822-4835, _memoryview
    5076-5080; simplestructs.py SliceView 616-663, ShellMutableSequence.__setitem__ (integer
    keys) 714-750.

    Not modelled: a memoryview of real bytes is a real one (it shows the same, as bytes do not
    change); writes through a memoryview (C46); slices with a step; the check of the items of
    a list given to bytearray (C28).

    A program is a list of operations; every object stays in a variable, numbered from 0. *)
From Coq Require Import ZArith List Bool.
From Verif Require Import Py PySeq_Spec.
Import ListNotations.
Open Scope Z_scope.

(** The [inner] sequence of bytes or of a bytearray: a sequence of its own, a list that
    someone else has too, or a SliceView of an object *)
Inductive src := SOwn (l : list Z) | SList (x : nat) | SView (x : nat) (start stop : Z).
Inductive cell := CList (l : list Z) | CArr (s : src) | CBytes (s : src) | CView (x : nat) (start stop : Z).
Inductive op :=
| NewList (l : list Z)              (* [...] *)
| ListAppend (x : nat) (v : Z)      (* x.append(v), x a list *)
| NewBytes (l : list Z)             (* b"..." *)
| ArrOf (x : nat)                   (* bytearray(x) *)
| BytesOf (x : nat)                 (* bytes(x) *)
| ViewOf (x : nat) (a b : Z)        (* memoryview(x)[a:b], 0 <= a <= b <= len(x) *)
| ToBytes (x : nat)                 (* x.tobytes(), x a memoryview *)
| ArrSet (x : nat) (k v : Z).       (* x[k] = v, x a bytearray *)

(** simplestructs 660-662 SliceView.__iter__ *)
Definition cut (l : list Z) (a b : Z) : list Z := firstn (Z.to_nat (b - a)) (skipn (Z.to_nat a) l).
Fixpoint set_at (h : list cell) (x : nat) (c : cell) : list cell :=
  match h, x with
  | [], _ => []
  | _ :: h, O => c :: h
  | d :: h, S x => d :: set_at h x c
  end.
(** What is in a sequence at the moment; an object refers to older ones only, so [fuel] as
    much as there are objects is enough *)
Fixpoint contents (fuel : nat) (h : list cell) (s : src) : res (list Z) :=
  match fuel with
  | O => Err RuntimeError
  | S fuel =>
      match s with
      | SOwn l => Ok l
      | SList x => match nth_error h x with Some (CList l) => Ok l | _ => Err TypeError end
      | SView x a b =>
          match nth_error h x with
          | Some (CArr t) | Some (CBytes t) => do l <- contents fuel h t; Ok (cut l a b)
          | _ => Err TypeError
          end
      end
  end.
Definition read (h : list cell) (s : src) : res (list Z) := contents (S (length h)) h s.

(** 4001-4020 buffer_to_byte_seq: a list is taken as it is *)
Definition to_byte_seq (c : cell) (x : nat) : src :=
  match c with
  | CList _ => SList x
  | CArr s => s
  | CBytes s => s
  | CView y a b => SView y a b
  end.
(** 4808-4819, 4822-4835, 5076-5080 with 4553-4565, 4578-4580, 4472-4478 *)
Definition step (h : list cell) (o : op) : res (list cell) :=
  match o with
  | NewList l => Ok (h ++ [CList l])
  | NewBytes l => Ok (h ++ [CBytes (SOwn l)])
  | ListAppend x v =>
      match nth_error h x with Some (CList l) => Ok (set_at h x (CList (l ++ [v]))) | _ => Err TypeError end
  | ArrOf x =>
      match nth_error h x with Some c => Ok (h ++ [CArr (to_byte_seq c x)]) | None => Err TypeError end
  | BytesOf x =>
      match nth_error h x with
      | Some (CArr s) | Some (CBytes s) => Ok (h ++ [CBytes s])           (* 4827-4830 *)
      | Some (CList l) =>                                                 (* 4831-4835: a copy *)
          if forallb (fun v => (0 <=? v) && (v <? 256)) l then Ok (h ++ [CBytes (SOwn l)]) else Err ValueError
      | Some (CView y a b) => do l <- read h (SView y a b); Ok (h ++ [CBytes (SOwn l)])
      | None => Err TypeError
      end
  | ViewOf x a b =>
      match nth_error h x with
      | Some (CArr s) | Some (CBytes s) =>
          do l <- read h s;
          if (0 <=? a) && (a <=? b) && (b <=? Z.of_nat (length l)) then Ok (h ++ [CView x a b]) else Err ValueError
      | _ => Err TypeError
      end
  | ToBytes x =>
      match nth_error h x with Some (CView y a b) => Ok (h ++ [CBytes (SView y a b)]) | _ => Err TypeError end
  | ArrSet x k v =>
      match nth_error h x with
      | Some (CArr s) =>
          if (0 <=? v) && (v <? 256) then
            do l <- read h s;
            do l' <- py_setitem l k v;
            Ok (set_at h x (CArr (SOwn l')))     (* in the code, untouched parts of a view stay one *)
          else Err ValueError
      | _ => Err TypeError
      end
  end.
Fixpoint run (h : list cell) (ops : list op) : res (list cell) :=
  match ops with [] => Ok h | o :: ops => do h' <- step h o; run h' ops end.
(** What list(x) gives *)
Definition observe (h : list cell) (x : nat) : res (list Z) :=
  match nth_error h x with
  | Some (CList l) => Ok l
  | Some (CArr s) | Some (CBytes s) => read h s
  | Some (CView y a b) => read h (SView y a b)
  | None => Err TypeError
  end.
