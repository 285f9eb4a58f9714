(** Decimal comparisons, the total order, and rounding to a fixed place. *)
From Coq Require Import ZArith QArith Qabs Lqa List Bool Lia.
From Verif Require Import Dec_Model Dec_Spec Dec_OrderSpec Dec_Digits Dec_Fix Dec_Ops Dec_Special Dec_Cmp Dec_Order Dec_Quant Dec_Integral Properties_DecArith.
Import ListNotations.
Open Scope Z_scope.

(** * C89: the comparison operators *)
Theorem dec_compare : forall c x y f, canonical x -> canonical y -> ~ is_nan x -> ~ is_nan y ->
  (exists b : bool, lt c x y f = (Ret b, f) /\ (b = true <-> less x y)) /\
  (exists b : bool, le c x y f = (Ret b, f) /\ (b = true <-> less x y \/ same x y)) /\
  (exists b : bool, gt c x y f = (Ret b, f) /\ (b = true <-> less y x)) /\
  (exists b : bool, ge c x y f = (Ret b, f) /\ (b = true <-> less y x \/ same x y)) /\
  (exists b : bool, eq c x y f = (Ret b, f) /\ (b = true <-> same x y)).
Proof.
  intros c x y f Cx Cy Nx Ny. destruct (compare_none c x y Nx Ny) as (E1 & E2). unfold lt, le, gt, ge, ordering, eq. rewrite E1, E2. cbn [bind ret]. unfold bind, ret.
  destruct (cmp_order x y Cx Cy Nx Ny) as [(-> & A)|[(-> & A)|(-> & A)]]; (repeat split; eexists; (split; [reflexivity|]); cbn; intuition congruence).
Qed.
(** Exactly one of the three holds. *)
Theorem dec_trichotomy : forall x y, canonical x -> canonical y -> ~ is_nan x -> ~ is_nan y ->
  (less x y /\ ~ same x y /\ ~ less y x) \/ (same x y /\ ~ less x y /\ ~ less y x) \/ (less y x /\ ~ same x y /\ ~ less x y).
Proof. intros x y Cx Cy Nx Ny. destruct (cmp_order x y Cx Cy Nx Ny) as [(_ & A)|[(_ & A)|(_ & A)]]; tauto. Qed.
Theorem dec_compare_nan : forall c x y f, is_nan x \/ is_nan y ->
  let signaled := (if traps c InvalidOperation then Raise InvalidOperation else Ret false, InvalidOperation :: f) in
  lt c x y f = signaled /\ le c x y f = signaled /\ gt c x y f = signaled /\ ge c x y f = signaled /\
  (is_signaling x \/ is_signaling y -> eq c x y f = signaled) /\ (~ (is_signaling x \/ is_signaling y) -> eq c x y f = (Ret false, f)).
Proof. intros c x y f H. cbv zeta. pose proof (eq_nan c x y f H) as (A & B). unfold lt, le, gt, ge. rewrite !compare_nan by exact H. auto 10. Qed.
Example ex_compare : let a := Fin false [1;0;0] (-2) in let b := Fin false [1] 0 in let d := Fin true [9;9] 1 in
  canonical a /\ canonical b /\ canonical d /\ eq small a b [] = (Ret true, []) /\ lt small d a [] = (Ret true, []) /\
  lt small a (Inf false) [] = (Ret true, []) /\ eq small (NaN false false []) (NaN false false []) [] = (Ret false, []) /\
  le small (NaN false false []) a [] = (Ret false, [InvalidOperation]).
Proof. cbv zeta. split; [apply digits3; lia|]. split; [split; [repeat constructor; unfold is_digit; lia|split; [discriminate|cbn; lia]]|]. split; [split; [repeat constructor; unfold is_digit; lia|split; [discriminate|cbn; lia]]|]. repeat split. Qed.

(** * C90: compare_total is a total order; max and min pick its last and first *)
Theorem dec_compare_total : forall x y, canonical x -> canonical y ->
  (compare_total x y = -1 /\ precedes x y) \/ (compare_total x y = 0 /\ x = y) \/ (compare_total x y = 1 /\ precedes y x).
Proof. exact total_cases. Qed.
Theorem dec_total_order :
  (forall x, ~ precedes x x) /\ (forall x y z, precedes x y -> precedes y z -> precedes x z) /\
  (forall x y, canonical x -> canonical y -> ~ is_nan x -> ~ is_nan y -> less x y -> precedes x y).
Proof. split; [exact precedes_irrefl|]. split; [exact precedes_trans|exact less_precedes]. Qed.
Theorem dec_max : forall c x y, valid c -> canonical x -> canonical y -> ~ is_nan x -> ~ is_nan y ->
  exists z, (z = x \/ z = y) /\ ~ precedes z x /\ ~ precedes z y /\ delivered c z (max_ c x y).
Proof. exact max_ok. Qed.
Theorem dec_min : forall c x y, valid c -> canonical x -> canonical y -> ~ is_nan x -> ~ is_nan y ->
  exists z, (z = x \/ z = y) /\ ~ precedes x z /\ ~ precedes y z /\ delivered c z (min_ c x y).
Proof. exact min_ok. Qed.
Theorem dec_max_min_one_nan : forall c x y, valid c -> canonical x -> canonical y ->
  (is_nan x /\ ~ is_signaling x /\ ~ is_nan y -> delivered c y (max_ c x y) /\ delivered c y (min_ c x y)) /\
  (is_nan y /\ ~ is_signaling y /\ ~ is_nan x -> delivered c x (max_ c x y) /\ delivered c x (min_ c x y)).
Proof. exact one_nan. Qed.
Theorem dec_max_min_nans : forall c x y z b f, valid c -> canonical x -> canonical y -> passed_on x y z b ->
  is_signaling x \/ is_signaling y \/ (is_nan x /\ is_nan y) ->
  (exists r, quieted c z r /\ max_ c x y f = report c (if b then [InvalidOperation] else []) r f) /\
  (exists r, quieted c z r /\ min_ c x y f = report c (if b then [InvalidOperation] else []) r f).
Proof. exact max_nans. Qed.
Example ex_total : compare_total (Fin false [1;0] (-1)) (Fin false [1] 0) = -1 /\ compare_total (Fin true [0] 0) (Fin false [0] 0) = -1 /\
  compare_total (NaN true true [7]) (Inf true) = -1 /\ compare_total (NaN false false [1;2]) (NaN false false [9]) = 1 /\
  max_ small (Fin false [1;0] (-1)) (Fin false [1] 0) [] = (Ret (Fin false [1] 0), []) /\
  min_ small (Fin true [0] 0) (NaN false false []) [] = (Ret (Fin true [0] 0), []) /\
  max_ small (NaN true false [5]) (Fin true [0] 0) [] = (Ret (NaN false false [5]), [InvalidOperation]) /\
  passed_on (NaN true false [5]) (Fin true [0] 0) (NaN true false [5]) true /\ canonical (NaN true false [5]).
Proof. repeat split; try discriminate. repeat constructor; unfold is_digit; lia. Qed.

(** * C91: quantize *)
Theorem dec_quantize : forall c m s i e s' i' exp, valid c -> coefficient i ->
  exists n, rounds m (value s i e * ten (- exp)) n /\
  let y := (inject_Z n * ten exp)%Q in
  let top := Emax c - prec c + 1 in
  let possible := Emin c - prec c + 1 <= exp <= Emax c /\ Z.abs n < 10 ^ prec c /\ (Qabs y < ten (Emax c + 1))%Q in
  (possible -> exists r sigs, (forall f, quantize c m (Fin s i e) (Fin s' i' exp) f = report c sigs r f) /\
     (exists i2 e2, r = Fin s i2 e2 /\ coefficient i2 /\ (value s i2 e2 == y)%Q /\ e2 = if clamp c then Z.min exp top else exp) /\
     (In Inexact sigs <-> (~ value s i e == y)%Q) /\
     (In Rounded sigs <-> e < exp /\ (~ value s i e == 0)%Q) /\
     (In Subnormal sigs <-> (~ y == 0)%Q /\ (Qabs y < ten (Emin c))%Q) /\
     (In Clamped sigs <-> clamp c = true /\ top < exp) /\
     incl sigs [Subnormal; Inexact; Rounded; Clamped]) /\
  (~ possible -> forall f, quantize c m (Fin s i e) (Fin s' i' exp) f = report c [InvalidOperation] (NaN false false []) f).
Proof. exact quantize_ok. Qed.
Theorem dec_quantize_special : forall c m x y f, valid c -> canonical x -> canonical y ->
  (forall s s', x = Inf s -> y = Inf s' -> quantize c m x y f = (Ret x, f)) /\
  (~ is_nan x -> ~ is_nan y -> (exists s, x = Inf s) /\ (forall s, y <> Inf s) \/ (exists s, y = Inf s) /\ (forall s, x <> Inf s) ->
     quantize c m x y f = report c [InvalidOperation] (NaN false false []) f) /\
  (forall z b, passed_on x y z b -> exists r, quieted c z r /\ quantize c m x y f = report c (if b then [InvalidOperation] else []) r f).
Proof.
  intros c m x y f V Cx Cy. split; [|split].
  - intros s s' -> ->. reflexivity.
  - intros Nx Ny H. destruct x as [s i e|s|g s p]; [| |cbn in Nx; tauto]; (destruct y as [s' i' e'|s'|g' s' p']; [| |cbn in Ny; tauto]).
    + destruct H as [((? & A) & _)|((? & A) & _)]; discriminate.
    + unfold quantize. rewrite no_nans by reflexivity. apply raise_report.
    + unfold quantize. rewrite no_nans by reflexivity. apply raise_report.
    + exfalso. destruct H as [(_ & A)|(_ & A)]; eapply A; reflexivity.
  - intros z b P. unfold quantize. apply nans_passed; auto using canonical_good.
Qed.
(** round(x, k) rounds to k places with the context's mode. *)
Theorem dec_round_places : forall c s i e k, valid c -> coefficient i ->
  exists n, rounds (rounding c) (value s i e * ten k) n /\
  let y := (inject_Z n * ten (- k))%Q in
  let possible := Emin c - prec c + 1 <= - k <= Emax c /\ Z.abs n < 10 ^ prec c /\ (Qabs y < ten (Emax c + 1))%Q in
  (possible -> exists i2 e2 sigs, (forall f, round2 c (Fin s i e) k f = report c sigs (Fin s i2 e2) f) /\ (value s i2 e2 == y)%Q /\
     (In Inexact sigs <-> (~ value s i e == y)%Q)) /\
  (~ possible -> forall f, round2 c (Fin s i e) k f = report c [InvalidOperation] (NaN false false []) f).
Proof.
  intros c s i e k V C. destruct (quantize_ok c (rounding c) s i e false [1] (- k) V C) as (n & R & A & B). rewrite Z.opp_involutive in R. exists n. split; [exact R|]. cbv zeta. split; [|exact B].
  intro P. destruct (A P) as (r & sigs & F & (i2 & e2 & -> & _ & Y & _) & I & _). exists i2, e2, sigs. auto.
Qed.
Example ex_quantize : quantize small HALF_EVEN (Fin true [1;2;5] (-2)) (Fin false [1] (-1)) [] = (Ret (Fin true [1;2] (-1)), [Rounded; Inexact]) /\
  quantize small UP (Fin false [9;9;9;1] (-1)) (Fin false [1] 0) [] = (Ret (NaN false false []), [InvalidOperation]) /\
  quantize small DOWN (Fin false [9;9;9;1] (-1)) (Fin false [1] 0) [] = (Ret (Fin false [9;9;9] 0), [Rounded; Inexact]) /\
  round2 small (Fin false [1] 0) 2 [] = (Ret (Fin false [1;0;0] (-2)), []).
Proof. repeat split. Qed.

(** * C92: conversions to integers, to_integral and normalize *)
Theorem dec_int : forall s i e, coefficient i -> exists n, to_integer (Fin s i e) = Ret n /\ toward_zero (value s i e) n.
Proof. exact to_integer_ok. Qed.
Theorem dec_round_floor_ceil : forall s i e, coefficient i ->
  (exists n, round1 (Fin s i e) = Ret n /\ rounds HALF_EVEN (value s i e) n) /\
  (exists n, floor (Fin s i e) = Ret n /\ rounds FLOOR (value s i e) n) /\
  (exists n, ceil (Fin s i e) = Ret n /\ rounds CEILING (value s i e) n).
Proof. intros s i e C. split; [|split]; now apply to_integer_by_ok. Qed.
Theorem dec_int_special : forall x, (is_nan x -> to_integer x = ValError /\ round1 x = ValError /\ floor x = ValError /\ ceil x = ValError) /\
  (forall s, x = Inf s -> to_integer x = OverError /\ round1 x = OverError /\ floor x = OverError /\ ceil x = OverError).
Proof. intros x. split; [intro H; destruct x; cbn in H; try tauto; repeat split|intros s ->; repeat split]. Qed.
Theorem dec_to_integral : forall c m s i e, coefficient i -> exists i' n sigs,
  let r := Fin s i' (Z.max e 0) in
  coefficient i' /\ rounds m (value s i e) n /\ (value s i' (Z.max e 0) == inject_Z n)%Q /\
  (forall f, to_integral_value c m (Fin s i e) f = (Ret r, f)) /\
  (forall f, to_integral_exact c m (Fin s i e) f = report c sigs r f) /\
  (In Inexact sigs <-> (~ value s i e == inject_Z n)%Q) /\
  (In Rounded sigs <-> e < 0 /\ (~ value s i e == 0)%Q) /\ incl sigs [Inexact; Rounded] /\ NoDup sigs.
Proof. exact to_integral_ok. Qed.
Theorem dec_normalize : forall c s i e, valid c -> coefficient i ->
  ((value s i e == 0)%Q -> exists sigs, (forall f, normalize c (Fin s i e) f = report c sigs (Fin s [0] 0) f) /\ incl sigs [Clamped]) /\
  ((~ value s i e == 0)%Q -> exists r0 r sigs, (forall f, normalize c (Fin s i e) f = report c sigs r f) /\ rounded c (value s i e) r0 sigs /\ in_order sigs /\ reduced c r0 r).
Proof. exact normalize_ok. Qed.
Theorem dec_unary_special : forall c m x f, valid c -> canonical x ->
  (forall s, x = Inf s -> to_integral_value c m x f = (Ret x, f) /\ to_integral_exact c m x f = (Ret x, f) /\ normalize c x f = (Ret x, f)) /\
  (forall g s p, x = NaN g s p ->
    let passes o := exists r, quieted c x r /\ o = report c (if g then [InvalidOperation] else []) r f in
    passes (to_integral_value c m x f) /\ passes (to_integral_exact c m x f) /\ passes (normalize c x f)).
Proof. intros c m x f V C. split; [intros s ->; repeat split|]. intros g s p ->. cbv zeta. split; [|split]; now apply unary_nan. Qed.
Example ex_int : to_integer (Fin true [2;5] (-1)) = Ret (-2) /\ round1 (Fin true [2;5] (-1)) = Ret (-2) /\ floor (Fin true [2;5] (-1)) = Ret (-3) /\
  ceil (Fin false [2;1] (-1)) = Ret 3 /\ to_integer (Fin false [7] (-5)) = Ret 0 /\
  to_integral_exact small UP (Fin false [2;1] (-1)) [] = (Ret (Fin false [3] 0), [Rounded; Inexact]) /\
  normalize small (Fin false [1;2;0;0] (-1)) [] = (Ret (Fin false [1;2] 1), [Rounded]) /\ normalize small (Fin true [0] 3) [] = (Ret (Fin true [0] 0), []).
Proof. repeat split. Qed.

Print Assumptions dec_compare.
Print Assumptions dec_trichotomy.
Print Assumptions dec_compare_nan.
Print Assumptions dec_compare_total.
Print Assumptions dec_total_order.
Print Assumptions dec_max.
Print Assumptions dec_min.
Print Assumptions dec_max_min_one_nan.
Print Assumptions dec_max_min_nans.
Print Assumptions dec_quantize.
Print Assumptions dec_quantize_special.
Print Assumptions dec_round_places.
Print Assumptions dec_int.
Print Assumptions dec_round_floor_ceil.
Print Assumptions dec_int_special.
Print Assumptions dec_to_integral.
Print Assumptions dec_normalize.
Print Assumptions dec_unary_special.
