(** Python: every list, bytes and bytearray has contents of its own; only memoryviews show
    those of another object. *)
From Coq Require Import ZArith List Bool.
From Verif Require Import Py PySeq_Spec ByteAlias_Model.
Import ListNotations.
Open Scope Z_scope.

Inductive thing := AList | AnArr | ABytes.
Inductive pcell := Has (t : thing) (l : list Z) | Shows (x : nat) (start stop : nat).
Definition part (l : list Z) (a b : nat) : list Z := skipn a (firstn b l).
Definition p_observe (h : list pcell) (x : nat) : res (list Z) :=
  match nth_error h x with
  | Some (Has _ l) => Ok l
  | Some (Shows y a b) => match nth_error h y with Some (Has _ l) => Ok (part l a b) | _ => Err TypeError end
  | None => Err TypeError
  end.
(** Copying the items of a list into bytes: each must be a byte *)
Definition p_copied (h : list pcell) (x : nat) : res (list Z) :=
  do l <- p_observe h x;
  match nth_error h x with
  | Some (Has AList _) => if existsb (fun v => (v <? 0) || (255 <? v)) l then Err ValueError else Ok l
  | _ => Ok l
  end.
Definition p_set (h : list pcell) (x : nat) (c : pcell) : list pcell := firstn x h ++ c :: skipn (S x) h.
Definition p_step (h : list pcell) (o : op) : res (list pcell) :=
  match o with
  | NewList l => Ok (h ++ [Has AList l])
  | NewBytes l => Ok (h ++ [Has ABytes l])
  | ListAppend x v =>
      match nth_error h x with Some (Has AList l) => Ok (p_set h x (Has AList (l ++ [v]))) | _ => Err TypeError end
  | ArrOf x => do l <- p_copied h x; Ok (h ++ [Has AnArr l])
  | BytesOf x => do l <- p_copied h x; Ok (h ++ [Has ABytes l])
  | ViewOf x a b =>
      match nth_error h x with
      | Some (Has AList _) => Err TypeError
      | Some (Has _ l) =>
          if (0 <=? a) && (a <=? b) && (b <=? Z.of_nat (length l))
          then Ok (h ++ [Shows x (Z.to_nat a) (Z.to_nat b)]) else Err ValueError
      | _ => Err TypeError
      end
  | ToBytes x =>
      match nth_error h x with
      | Some (Shows _ _ _) => do l <- p_observe h x; Ok (h ++ [Has ABytes l])
      | _ => Err TypeError
      end
  | ArrSet x k v =>
      match nth_error h x with
      | Some (Has AnArr l) =>
          if (0 <=? v) && (v <? 256) then do l' <- py_setitem l k v; Ok (p_set h x (Has AnArr l'))
          else Err ValueError
      | _ => Err TypeError
      end
  end.
Fixpoint p_run (h : list pcell) (ops : list op) : res (list pcell) :=
  match ops with [] => Ok h | o :: ops => do h' <- p_step h o; p_run h' ops end.
