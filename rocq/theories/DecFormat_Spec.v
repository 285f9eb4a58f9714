(** The format specification mini-language: where the parts of a formatted number are. *)
From Coq Require Import ZArith List Bool.
From Verif Require Import Thousands_Model DecFormat_Model.
Import ListNotations.
Open Scope Z_scope.

Inductive sign_shown (o : sign_option) : bool -> text -> Prop :=
| Negative : sign_shown o true [45]
| Plus : o = SPlus -> sign_shown o false [43]
| Space : o = SSpace -> sign_shown o false [32]
| NoSign : o = SMinus -> sign_shown o false [].
(** The point and the fraction, if there is one or # is given; an exponent for the types e and E and
    when it is not zero; the per cent sign *)
Inductive point_shown (point : text) (alt : bool) : text -> text -> Prop :=
| NoPoint : alt = false -> point_shown point alt [] []
| Point : forall frac, frac <> [] \/ alt = true -> point_shown point alt frac (point ++ frac).
Definition scientific (k : kind) (letter : Z) : Prop :=
  ((k = K_e \/ k = K_g) /\ letter = 101) \/ ((k = K_E \/ k = K_G) /\ letter = 69).
Inductive exponent_shown (show : Z -> text) (k : kind) (exp : Z) : text -> Prop :=
| NoExponent : exp = 0 -> k <> K_e -> k <> K_E -> exponent_shown show k exp []
| Exponent : forall c, (exp <> 0 \/ k = K_e \/ k = K_E) -> scientific k c -> exponent_shown show k exp (c :: show exp).
Inductive percent_shown (k : kind) : text -> Prop :=
| Percent : k = K_percent -> percent_shown k [37]
| NoPercent : k <> K_percent -> percent_shown k [].
(** Filling goes to the right, to the left, after the sign, or to both sides with at most one more
    on the right *)
Definition filled (c : Z) (n : nat) (t : text) : Prop := length t = n /\ forall x, In x t -> x = c.
Inductive placed (c : Z) (n : nat) (sign body : text) : align -> text -> Prop :=
| PLeft : forall p, filled c n p -> placed c n sign body Left (sign ++ body ++ p)
| PRight : forall p, filled c n p -> placed c n sign body Right (p ++ sign ++ body)
| PSign : forall p, filled c n p -> placed c n sign body AfterSign (sign ++ p ++ body)
| PCenter : forall a b p q, filled c a p -> filled c b q -> (a + b = n)%nat -> (a <= b <= a + 1)%nat ->
    placed c n sign body Center (p ++ sign ++ body ++ q).
