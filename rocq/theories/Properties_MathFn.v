(** C42: math.gcd, math.copysign and the float predicates *)
From Coq Require Import ZArith List Bool Lia ZifyBool.
From Verif Require Import Py IntOps_Model MathFn_Model MathFn_Proofs.
Import ListNotations.
Open Scope Z_scope.

(** The greatest common divisor: not negative, divides every argument, and is a multiple of
    every common divisor. *)
Definition is_gcd (args : list Z) (g : Z) : Prop :=
  0 <= g /\ (forall a, In a args -> (g | a)) /\ (forall d, (forall a, In a args -> (d | a)) -> (d | g)).
(** Full statement: math.gcd of any number of integers is their greatest common divisor.
    Proved for at most two; the loop always ends. *)
Theorem C42_gcd_partial : forall args, (length args <= 2)%nat ->
  exists g fuel0, is_gcd args g /\ forall fuel, (fuel0 <= fuel)%nat -> gcd fuel args = Ok g.
Proof.
  assert (TWO : forall a b args, (forall x, In x args -> x = a \/ x = b) -> (a = 0 \/ In a args) -> (b = 0 \/ In b args) -> is_gcd args (Z.gcd a b)).
  { intros a b args S A B. split; [apply Z.gcd_nonneg|]. split.
    - intros x X. destruct (S x X) as [->| ->]; [apply Z.gcd_divide_l|apply Z.gcd_divide_r].
    - intros d D. apply Z.gcd_greatest; [destruct A as [->|A]|destruct B as [->|B]]; auto using Z.divide_0_r. }
  intros args L. destruct args as [|a [|b [|c r]]].
  - exists (Z.gcd 0 0), 1%nat. split; [apply TWO; cbn; tauto|]. intros f F. cbn [gcd]. apply gcd_loop_ok. lia.
  - exists (Z.gcd a 0), 1%nat. split; [apply TWO; cbn; intuition|]. intros f F. cbn [gcd]. apply gcd_loop_ok. lia.
  - exists (Z.gcd a b), (Z.to_nat (Z.abs b + 1)). split; [apply TWO; cbn; intuition|]. intros f F. cbn [gcd]. apply gcd_loop_ok. lia.
  - cbn in L. lia.
Qed.
(** gcd(12, 18, 8) raises *)
Theorem C42_gcd_refuted : exists args g, is_gcd args g /\ forall fuel, gcd fuel args = Err TypeError.
Proof.
  exists [12; 18; 8], 2. split; [|reflexivity]. split; [lia|]. split.
  - intros a [<-|[<-|[<-|[]]]]; [exists 6|exists 9|exists 4]; reflexivity.
  - intros d D. change 2 with (18 - 8 - 8). repeat apply Z.divide_sub_r; apply D; cbn; auto.
Qed.

(** What copysign(x, y) is for CPython: a float with x's magnitude and y's sign bit *)
Definition magnitude (x : number) : mag := match x with NInt z => Finite (Z.abs z) | NReal r => Finite (Z.abs r) | NFloat _ m => m end.
Definition sign_bit (x : number) : bool := match x with NInt z => z <? 0 | NReal r => r <? 0 | NFloat neg _ => neg end.
(** Full statement: the result is the float with x's magnitude and y's sign.  Proved: the
    magnitude, and the sign unless x is an int or a symbolic real equal to zero; an int x gives
    an int. *)
Theorem C42_copysign_partial : forall x y, magnitude (copysign x y) = magnitude x /\
  (sign_bit (copysign x y) = sign_bit y \/ (magnitude x = Finite 0 /\ forall s m, x <> NFloat s m)).
Proof.
  intros x y. unfold copysign. assert (P : forall z, is_positive z = negb (sign_bit z)) by (intros [z|z|s m]; cbn; lia || reflexivity).
  rewrite !P. destruct x as [z|z|s m]; cbn [sign_bit magnitude negate].
  - split; [destruct (xorb _ _); cbn [magnitude negate]; f_equal; lia|]. destruct (Z.eq_dec z 0) as [->|N]; [right; split; [reflexivity|discriminate]|left].
    destruct (sign_bit y), (z <? 0) eqn:E; cbn; lia.
  - split; [destruct (xorb _ _); cbn [magnitude negate]; f_equal; lia|]. destruct (Z.eq_dec z 0) as [->|N]; [right; split; [reflexivity|discriminate]|left].
    destruct (sign_bit y), (z <? 0) eqn:E; cbn; lia.
  - split; [now destruct (xorb _ _)|]. left. now destruct (sign_bit y), s.
Qed.
(** copysign(3, -1.0) is an int, and a zero that is not a float does not get the sign. *)
Theorem C42_copysign_refuted :
  (exists x y, forall s m, copysign x y <> NFloat s m) /\
  (exists x y, sign_bit (copysign x y) <> sign_bit y).
Proof.
  split; [exists (NInt 3), (NFloat true (Finite 1)); discriminate|].
  exists (NReal 0), (NFloat true (Finite 1)). discriminate.
Qed.
(** The predicates: exactly one of finite, infinite and NaN, and ints and reals are finite. *)
Theorem C42_predicates : forall x,
  (isfinite x = true <-> exists m, magnitude x = Finite m) /\ (isinf x = true <-> magnitude x = Infinite) /\ (isnan x = true <-> magnitude x = NotANumber).
Proof.
  assert (F : forall (b : bool) (P : Prop), (b = true -> P) -> (P -> b = true) -> (b = true <-> P)) by tauto.
  intros [z|z|s [m| |]]; cbn; repeat split; try discriminate; try congruence; eauto; intros [m H]; discriminate.
Qed.

Example C42_gcd_case : gcd 20 [12; -18] = Ok 6 /\ gcd 5 [-7] = Ok 7 /\ gcd 5 [] = Ok 0. Proof. repeat split; reflexivity. Qed.
Example C42_copysign_case : copysign (NFloat false (Finite 3)) (NInt (-2)) = NFloat true (Finite 3) /\ copysign (NReal (-4)) (NFloat false NotANumber) = NReal 4. Proof. split; reflexivity. Qed.
Example C42_predicates_case : isfinite (NFloat true Infinite) = false /\ isinf (NFloat true Infinite) = true /\ isnan (NInt 4) = false. Proof. repeat split; reflexivity. Qed.

Print Assumptions C42_gcd_partial.
Print Assumptions C42_gcd_refuted.
Print Assumptions C42_copysign_partial.
Print Assumptions C42_copysign_refuted.
Print Assumptions C42_predicates.
