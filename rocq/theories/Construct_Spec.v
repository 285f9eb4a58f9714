(** Evaluating a constructor call in Python, and the values of an enum class. *)
From Coq Require Import ZArith List Bool.
From Verif Require Import Construct_Model.
Import ListNotations.
Open Scope Z_scope.

Section Classes.
Variable ctor : nat -> list val -> ran.
Inductive outcome := Value (v : val) | Raises (p : problem).
(** Arguments are evaluated from left to right, then the constructor is called. *)
Fixpoint eval (e : expr) : outcome :=
  match e with
  | EInt z => Value (VInt z)
  | EList l => Value (VList l)
  | ECall c args =>
      let r := (fix go (es : list expr) : list val + problem :=
                  match es with
                  | [] => inl []
                  | e :: es => match eval e with
                               | Raises p => inr p
                               | Value v => match go es with inl vs => inl (v :: vs) | inr p => inr p end
                               end
                  end) args in
      match r with
      | inr p => Raises p
      | inl vs => match ctor c vs with Made st after => Value (VObj c st after) | Raised p => Raises p end
      end
  end.
(** A constructor that does not change its arguments *)
Definition quiet := forall c vs st after, ctor c vs = Made st after -> after = vs.
End Classes.

(** The call that an input stands for *)
Fixpoint call_of (i : input) : expr :=
  match i with IInt z => EInt z | IList l => EList l | IObj c args => ECall c (map call_of args) end.

(** The values that an enum class has: the members' values; of a Flag, all that can be made of
    them with |, and 0. *)
Inductive is_value (e : enum) : Z -> Prop :=
| IsMember z : In z (written e) -> is_value e z
| IsNone : is_flag e = true -> is_value e 0
| IsOr a b : is_flag e = true -> is_value e a -> is_value e b -> is_value e (Z.lor a b).
