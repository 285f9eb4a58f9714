(** collections.deque, as the library reference describes it *)
From Coq Require Import ZArith List Bool.
From Verif Require Import Py Range_Spec PySeq_Spec Deque_Model.
Import ListNotations.
Open Scope Z_scope.

Section Deque.
Variable A : Type.
Variables (is_ eqb : A -> A -> bool).
(** With a bound, items fall off the other end. *)
Definition keep_last (m : option Z) (l : list A) : list A :=
  match m with None => l | Some m => skipn (length l - Z.to_nat m) l end.
Definition keep_first (m : option Z) (l : list A) : list A :=
  match m with None => l | Some m => firstn (Z.to_nat m) l end.
Definition full (m : option Z) (l : list A) : bool := match m with None => false | Some m => m <=? len A l end.
(** rotate n steps to the right: what was at position j is at (j + n) mod len *)
Definition rotated (l l' : list A) (n : Z) : Prop :=
  length l' = length l /\ forall j, 0 <= j < len A l -> nth_error l' (Z.to_nat ((j + n) mod len A l)) = nth_error l (Z.to_nat j).
Definition matches (x y : A) : bool := is_ y x || eqb y x.
Definition at_ (l : list A) (i : Z) : option A := if i <? 0 then (if 0 <=? i + len A l then nth_error l (Z.to_nat (i + len A l)) else None) else nth_error l (Z.to_nat i).
(** [i] is where the first item from [a] to [b] matching [x] is *)
Definition first_at (l : list A) (x : A) (a b i : Z) : Prop :=
  let lo := if a <? 0 then Z.max 0 (a + len A l) else a in
  let hi := if b <? 0 then Z.max 0 (b + len A l) else b in
  lo <= i < hi /\ 0 <= i /\ (exists y, nth_error l (Z.to_nat i) = Some y /\ matches x y = true) /\
  forall j y, lo <= j < i -> 0 <= j -> nth_error l (Z.to_nat j) = Some y -> matches x y = false.
Definition none_at (l : list A) (x : A) (a b : Z) : Prop :=
  let lo := if a <? 0 then Z.max 0 (a + len A l) else a in
  let hi := if b <? 0 then Z.max 0 (b + len A l) else b in
  forall j y, lo <= j < hi -> 0 <= j -> nth_error l (Z.to_nat j) = Some y -> matches x y = false.

(** [does l m o r l']: on items [l] with bound [m], call [o] gives [r] and leaves [l'] *)
Inductive does (l : list A) (m : option Z) : op A -> res (ret A) -> list A -> Prop :=
| does_append : forall x, does l m (Append A x) (Ok (RNone A)) (keep_last m (l ++ [x]))
| does_appendleft : forall x, does l m (AppendLeft A x) (Ok (RNone A)) (keep_first m (x :: l))
| does_extend : forall xs, does l m (Extend A xs) (Ok (RNone A)) (keep_last m (l ++ xs))
| does_extendleft : forall xs, does l m (ExtendLeft A xs) (Ok (RNone A)) (keep_first m (rev xs ++ l))
| does_insert : forall i x a b, full m l = false -> l = a ++ b ->
    (len A a = if i <? 0 then Z.max 0 (i + len A l) else Z.min i (len A l)) ->
    does l m (Insert A i x) (Ok (RNone A)) (a ++ x :: b)
| does_insert_full : forall i x, full m l = true -> does l m (Insert A i x) (Err IndexError) l
| does_pop : forall a x, l = a ++ [x] -> does l m (Pop A) (Ok (RVal A x)) a
| does_pop_empty : l = [] -> does l m (Pop A) (Err IndexError) l
| does_popleft : forall a x, l = x :: a -> does l m (PopLeft A) (Ok (RVal A x)) a
| does_popleft_empty : l = [] -> does l m (PopLeft A) (Err IndexError) l
| does_remove : forall x a y b, l = a ++ y :: b -> Forall (fun z => matches x z = false) a -> matches x y = true ->
    does l m (Remove A x) (Ok (RNone A)) (a ++ b)
| does_remove_none : forall x, Forall (fun z => matches x z = false) l -> does l m (Remove A x) (Err ValueError) l
| does_reverse : does l m (Reverse A) (Ok (RNone A)) (rev l)
| does_rotate : forall n l', rotated l l' n -> does l m (Rotate A n) (Ok (RNone A)) l'
| does_clear : does l m (Clear A) (Ok (RNone A)) []
| does_get : forall i x, at_ l i = Some x -> does l m (Get A i) (Ok (RVal A x)) l
| does_get_err : forall i, at_ l i = None -> does l m (Get A i) (Err IndexError) l
| does_set : forall i x a y b, l = a ++ y :: b -> (i = len A a \/ i = len A a - len A l) -> does l m (SetI A i x) (Ok (RNone A)) (a ++ x :: b)
| does_set_err : forall i x, at_ l i = None -> does l m (SetI A i x) (Err IndexError) l
| does_del : forall i a y b, l = a ++ y :: b -> (i = len A a \/ i = len A a - len A l) -> does l m (Del A i) (Ok (RNone A)) (a ++ b)
| does_del_err : forall i, at_ l i = None -> does l m (Del A i) (Err IndexError) l
| does_count : forall x, does l m (Count A x) (Ok (RInt A (len A (filter (matches x) l)))) l
| does_index : forall x a b i, first_at l x a b i -> does l m (Index A x a b) (Ok (RInt A i)) l
| does_index_err : forall x a b, none_at l x a b -> does l m (Index A x a b) (Err ValueError) l
| does_len : does l m (Len A) (Ok (RInt A (len A l))) l
| does_copy : does l m (Copy A) (Ok (RDeque A l m)) l
| does_mul : forall n, does l m (Mul A n) (Ok (RDeque A (keep_last m (concat (repeat l (Z.to_nat n)))) m)) l
| does_add : forall xs, does l m (Add A xs) (Ok (RDeque A (keep_last m (l ++ xs)) m)) l
| does_eq : forall xs, does l m (EqTo A xs) (Ok (RBool A (match Nat.eqb (length l) (length xs) with
     true => forallb (fun p => is_ (fst p) (snd p) || eqb (fst p) (snd p)) (combine l xs) | false => false end))) l.
(** A history *)
Inductive history (m : option Z) : list A -> list (op A) -> list (res (ret A)) -> list A -> Prop :=
| history_nil : forall l, history m l [] [] l
| history_cons : forall l o os r l' rs e, does l m o r l' -> history m l' os rs e -> history m l (o :: os) (r :: rs) e.

(** The calls for which a bound has been implemented *)
Definition within (m : option Z) (l : list A) (o : op A) : Prop :=
  match m with
  | None => True
  | Some m => 1 <= m /\ len A l <= m /\
    match o with
    | Extend _ xs | Add _ xs => len A l + len A xs <= m
    | ExtendLeft _ xs => len A l + len A xs <= m
    | Insert _ _ _ => len A l < m
    | Mul _ n => n * len A l <= m
    | _ => True
    end
  end.
End Deque.
