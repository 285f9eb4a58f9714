(** Decimal arithmetic: every operation delivers the exact result, rounded once into the context. *)
From Coq Require Import ZArith QArith Qabs Lqa List Bool Lia.
From Verif Require Import Dec_Model Dec_Spec Dec_Digits Dec_Arith Dec_Ops Dec_Div Dec_Rem Dec_Nearest Dec_Special.
Import ListNotations.
Open Scope Z_scope.

(** A context with three digits, exponents from -5 to 5, rounding half to even. *)
Definition small : ctx := Ctx 3 HALF_EVEN (-5) 5 false (fun _ => false) false.
Definition down : ctx := Ctx 3 FLOOR (-5) 5 false (fun s => match s with Inexact => true | _ => false end) false.
Lemma small_valid : valid small. Proof. unfold valid; cbn; lia. Qed.
Lemma digits3 : forall a b d, 1 <= a <= 9 -> 0 <= b <= 9 -> 0 <= d <= 9 -> coefficient [a; b; d].
Proof. intros. split; [repeat constructor; unfold is_digit; lia|]. split; [discriminate|]. cbn. lia. Qed.

(** * C83: unary operations round into the context *)
Theorem dec_plus : forall c s i e, valid c -> coefficient i ->
  delivers c (value s i e) (match rounding c with FLOOR => s | _ => false end) e (pos c (Fin s i e)).
Proof. exact pos_delivers. Qed.
Theorem dec_minus : forall c s i e, valid c -> coefficient i ->
  delivers c (- value s i e) (match rounding c with FLOOR => negb s | _ => false end) e (neg c (Fin s i e)).
Proof. exact neg_delivers. Qed.
Theorem dec_abs : forall c s i e, valid c -> coefficient i -> delivers c (Qabs (value s i e)) false e (abs_ c (Fin s i e)).
Proof. exact abs_delivers. Qed.
(** What [rounded] means for the numbers that the context can hold. *)
Theorem dec_rounded_floor : forall c x s i e sigs, valid c -> rounded c x (Fin s i e) sigs -> ~ In Overflow sigs -> rounding c = FLOOR ->
  holds c (value s i e) /\ (value s i e <= x)%Q /\ (forall v, holds c v -> v <= x -> v <= value s i e)%Q.
Proof. intros c x s i e sigs V R N M. split; [exact (rounded_holds c x s i e sigs V R N)|exact (floor_greatest c x s i e sigs V R N M)]. Qed.
Theorem dec_rounded_ceiling : forall c x s i e sigs, valid c -> rounded c x (Fin s i e) sigs -> ~ In Overflow sigs -> rounding c = CEILING ->
  holds c (value s i e) /\ (x <= value s i e)%Q /\ (forall v, holds c v -> x <= v -> value s i e <= v)%Q.
Proof. intros c x s i e sigs V R N M. split; [exact (rounded_holds c x s i e sigs V R N)|exact (ceiling_least c x s i e sigs V R N M)]. Qed.
Theorem dec_rounded_nearest : forall c x s i e sigs, valid c -> rounded c x (Fin s i e) sigs -> ~ In Overflow sigs ->
  rounding c = HALF_EVEN \/ rounding c = HALF_UP \/ rounding c = HALF_DOWN ->
  holds c (value s i e) /\ forall v, holds c v -> (Qabs (x - value s i e) <= Qabs (x - v))%Q.
Proof. intros c x s i e sigs V R N M. split; [exact (rounded_holds c x s i e sigs V R N)|exact (half_nearest c x s i e sigs V R N M)]. Qed.
Theorem dec_rounded_exact : forall c x s i e sigs, valid c -> rounded c x (Fin s i e) sigs -> ~ In Overflow sigs -> holds c x ->
  (value s i e == x)%Q /\ ~ In Inexact sigs.
Proof. intros c x s i e sigs V R N H. exact (held_exact c x s i e sigs V R N H). Qed.
Theorem dec_rounds_unique : forall m x n k, rounds m x n -> rounds m x k -> n = k.
Proof. exact rounds_unique. Qed.
Example ex_plus : pos small (Fin true [1;2;3;4;5] (-2)) [] = (Ret (Fin true [1;2;3] 0), [Rounded; Inexact])
  /\ pos small (Fin false [9;9;9;6] 2) [] = (Ret (Inf false), [Rounded; Inexact; Overflow])
  /\ neg down (Fin false [1;2;3;4;5] (-2)) [] = (Raise Inexact, [Inexact])
  /\ abs_ small (Fin true [1] (-8)) [] = (Ret (Fin false [0] (-7)), [Clamped; Rounded; Inexact; Subnormal; Underflow])
  /\ coefficient [1;2;3].
Proof. repeat split; try reflexivity; try (repeat constructor; unfold is_digit; lia); try discriminate; cbn; lia. Qed.
Lemma report_small : forall sigs r f, report small sigs r f = (Ret r, rev sigs ++ f).
Proof. induction sigs as [|a l IH]; intros r f; [reflexivity|]. cbn [report small traps rev]. rewrite IH, <- app_assoc. reflexivity. Qed.
Example ex_rounded : rounded small (value true [1;2;3;4;5] (-2)) (Fin true [1;2;3] 0) [Inexact; Rounded].
Proof.
  destruct (fix_correct small true [1;2;3;4;5] (-2) small_valid) as (r & sigs & F & R & _); [|reflexivity|].
  - split; [repeat constructor; unfold is_digit; lia|]. split; [discriminate|]. cbn. lia.
  - specialize (F []). rewrite report_small, app_nil_r in F. change (fix_ small (Fin true [1; 2; 3; 4; 5] (-2)) []) with (@Ret dec (Fin true [1; 2; 3] 0), [Rounded; Inexact]) in F.
    injection F as <- H. rewrite <- (rev_involutive sigs), <- H in R. exact R.
Qed.

(** * C84: addition and subtraction *)
Theorem dec_add : forall c s1 i1 e1 s2 i2 e2, valid c -> coefficient i1 -> coefficient i2 ->
  delivers c (value s1 i1 e1 + value s2 i2 e2) (zero_sign c s1 s2) (Z.min e1 e2) (add c (Fin s1 i1 e1) (Fin s2 i2 e2)).
Proof. exact add_delivers. Qed.
Theorem dec_sub : forall c s1 i1 e1 s2 i2 e2, valid c -> coefficient i1 -> coefficient i2 ->
  delivers c (value s1 i1 e1 - value s2 i2 e2) (zero_sign c s1 (negb s2)) (Z.min e1 e2) (sub c (Fin s1 i1 e1) (Fin s2 i2 e2)).
Proof. exact sub_delivers. Qed.
Example ex_add : valid small /\ coefficient [9;9;9]
  /\ add small (Fin false [9;9;9] (-2)) (Fin false [6] (-3)) [] = (Ret (Fin false [1;0;0] (-1)), [Rounded; Inexact])
  /\ add small (Fin false [1;0;0] 3) (Fin true [1] (-7)) [] = (Ret (Fin false [1;0;0] 3), [Rounded; Inexact])
  /\ sub down (Fin false [1;0;0] 0) (Fin false [1;0;0] 0) [] = (Ret (Fin true [0] 0), []).
Proof. split; [exact small_valid|]. split; [apply digits3; lia|]. repeat split; reflexivity. Qed.

(** * C85: multiplication and fused multiply-add *)
Theorem dec_mul : forall c s1 i1 e1 s2 i2 e2, valid c -> coefficient i1 -> coefficient i2 ->
  delivers c (value s1 i1 e1 * value s2 i2 e2) (xorb s1 s2) (e1 + e2) (mul c (Fin s1 i1 e1) (Fin s2 i2 e2)).
Proof. exact mul_delivers. Qed.
Theorem dec_fma : forall c s1 i1 e1 s2 i2 e2 s3 i3 e3, valid c -> coefficient i1 -> coefficient i2 -> coefficient i3 ->
  delivers c (value s1 i1 e1 * value s2 i2 e2 + value s3 i3 e3) (zero_sign c (xorb s1 s2) s3) (Z.min (e1 + e2) e3)
    (fma c (Fin s1 i1 e1) (Fin s2 i2 e2) (Fin s3 i3 e3)).
Proof. exact fma_delivers. Qed.
Example ex_mul : valid small /\ coefficient [9;9;9]
  /\ mul small (Fin true [9;9;9] (-2)) (Fin false [9;9;9] 0) [] = (Ret (Fin true [9;9;8] 1), [Rounded; Inexact])
  /\ fma small (Fin false [9;9;9] 0) (Fin false [9;9;9] 0) (Fin true [9;9;8] 3) [] = (Ret (Fin false [1] 0), []).
Proof. split; [exact small_valid|]. split; [apply digits3; lia|]. repeat split; reflexivity. Qed.

(** * C86: division *)
Theorem dec_div : forall c s1 i1 e1 s2 i2 e2, valid c -> coefficient i1 -> coefficient i2 -> 0 < number i2 ->
  let x := (value s1 i1 e1 / value s2 i2 e2)%Q in
  (forall e, finest x (e1 - e2) e -> delivers c x (xorb s1 s2) e (truediv c (Fin s1 i1 e1) (Fin s2 i2 e2))) /\
  ((forall e, ~ finest x (e1 - e2) e) ->
    exists r sigs, (forall f, truediv c (Fin s1 i1 e1) (Fin s2 i2 e2) f = report c sigs r f) /\ rounded c x r sigs /\ in_order sigs /\
      In Inexact sigs /\ (In Clamped sigs <-> exists s e, r = Fin s [0] e)).
Proof. exact truediv_delivers. Qed.
Theorem dec_div_zero : forall c s1 i1 e1 s2 e2 f, valid c -> coefficient i1 ->
  truediv c (Fin s1 i1 e1) (Fin s2 [0] e2) f =
  if number i1 =? 0 then report c [InvalidOperation] (NaN false false []) f else report c [DivisionByZero] (Inf (xorb s1 s2)) f.
Proof. exact truediv_zero. Qed.
Example ex_div : finest (value false [1] 0 / value false [8] 0) 0 (-3)
  /\ truediv small (Fin false [1] 0) (Fin false [8] 0) [] = (Ret (Fin false [1;2;5] (-3)), [])
  /\ truediv small (Fin false [2] 0) (Fin true [3] 0) [] = (Ret (Fin true [6;6;7] (-3)), [Rounded; Inexact])
  /\ truediv small (Fin false [2;0;0] 0) (Fin false [2] (-2)) [] = (Ret (Fin false [1;0;0] 2), []).
Proof.
  split; [|repeat split; reflexivity]. split; [lia|]. split; [exists 125; reflexivity|]. right. intros (n & H). unfold Qeq in H. cbn in H. lia.
Qed.

(** * C87: integer division and remainders *)
Theorem dec_divmod : forall c s1 i1 e1 s2 i2 e2, valid c -> coefficient i1 -> coefficient i2 -> 0 < number i2 ->
  exists n : Z, toward_zero (value s1 i1 e1 / value s2 i2 e2) n /\
  (Z.abs n < 10 ^ prec c ->
     (exists i, coefficient i /\ number i = Z.abs n /\ (forall f, floordiv c (Fin s1 i1 e1) (Fin s2 i2 e2) f = (Ret (Fin (xorb s1 s2) i 0), f))) /\
     delivers c (value s1 i1 e1 - inject_Z n * value s2 i2 e2) s1 (Z.min e1 e2) (mod_ c (Fin s1 i1 e1) (Fin s2 i2 e2)) /\
     (forall f, divmod c (Fin s1 i1 e1) (Fin s2 i2 e2) f = (let* q := floordiv c (Fin s1 i1 e1) (Fin s2 i2 e2) in let* r := mod_ c (Fin s1 i1 e1) (Fin s2 i2 e2) in ret (q, r)) f)) /\
  (10 ^ prec c <= Z.abs n -> forall f,
     floordiv c (Fin s1 i1 e1) (Fin s2 i2 e2) f = report c [InvalidOperation] (NaN false false []) f /\
     mod_ c (Fin s1 i1 e1) (Fin s2 i2 e2) f = report c [InvalidOperation] (NaN false false []) f /\
     divmod c (Fin s1 i1 e1) (Fin s2 i2 e2) f = (let* r := raise_in c InvalidOperation (NaN false false []) in ret (r, r)) f).
Proof. exact divmod_delivers. Qed.
Theorem dec_remainder_near : forall c s1 i1 e1 s2 i2 e2, valid c -> coefficient i1 -> coefficient i2 -> 0 < number i2 ->
  exists n : Z, rounds HALF_EVEN (value s1 i1 e1 / value s2 i2 e2) n /\
  (Z.abs n < 10 ^ prec c -> delivers c (value s1 i1 e1 - inject_Z n * value s2 i2 e2) s1 (Z.min e1 e2) (remainder_near c (Fin s1 i1 e1) (Fin s2 i2 e2))) /\
  (10 ^ prec c <= Z.abs n -> forall f, remainder_near c (Fin s1 i1 e1) (Fin s2 i2 e2) f = report c [InvalidOperation] (NaN false false []) f).
Proof. exact near_delivers. Qed.
Example ex_divmod : divmod small (Fin true [7;5] (-1)) (Fin false [2] 0) [] = (Ret (Fin true [3] 0, Fin true [1;5] (-1)), [])
  /\ divmod small (Fin false [1;0;0] 3) (Fin false [3] 0) [] = (Ret (NaN false false [], NaN false false []), [InvalidOperation])
  /\ remainder_near small (Fin false [7;5] (-1)) (Fin false [2] 0) [] = (Ret (Fin true [5] (-1)), []).
Proof. repeat split; reflexivity. Qed.

(** * C88: infinities and NaNs *)
Theorem dec_nan_operands : forall op c x y z b f,
  In op [add; sub; mul; truediv; mod_; floordiv; remainder_near] -> valid c -> good x -> good y -> passed_on x y z b ->
  exists r, quieted c z r /\ op c x y f = report c (if b then [InvalidOperation] else []) r f.
Proof.
  intros op c x y z b f I V Gx Gy P. repeat destruct I as [<-|I]; [..|contradiction];
  unfold add, sub, mul, truediv, mod_, floordiv, remainder_near; now apply nans_passed.
Qed.
Theorem dec_infinities : forall c s t i e f, valid c -> coefficient i ->
  let invalid := report c [InvalidOperation] (NaN false false []) f in
  let give x := report c [] x f in
  let zero := number i =? 0 in
  add c (Inf s) (Inf t) f = (if Bool.eqb s t then give (Inf s) else invalid) /\
  add c (Inf s) (Fin t i e) f = give (Inf s) /\ add c (Fin t i e) (Inf s) f = give (Inf s) /\
  sub c (Inf s) (Inf t) f = (if Bool.eqb s t then invalid else give (Inf s)) /\
  sub c (Inf s) (Fin t i e) f = give (Inf s) /\ sub c (Fin t i e) (Inf s) f = give (Inf (negb s)) /\
  mul c (Inf s) (Inf t) f = give (Inf (xorb s t)) /\
  mul c (Inf s) (Fin t i e) f = (if zero then invalid else give (Inf (xorb s t))) /\
  mul c (Fin t i e) (Inf s) f = (if zero then invalid else give (Inf (xorb s t))) /\
  truediv c (Inf s) (Inf t) f = invalid /\ truediv c (Inf s) (Fin t i e) f = give (Inf (xorb s t)) /\
  truediv c (Fin t i e) (Inf s) f = report c [Clamped] (Fin (xorb s t) [0] (Emin c - prec c + 1)) f /\
  mod_ c (Inf s) (Inf t) f = invalid /\ mod_ c (Inf s) (Fin t i e) f = invalid /\
  floordiv c (Inf s) (Inf t) f = invalid /\ floordiv c (Inf s) (Fin t i e) f = give (Inf (xorb s t)) /\
  floordiv c (Fin t i e) (Inf s) f = give (Fin (xorb s t) [0] 0) /\
  remainder_near c (Inf s) (Fin t i e) f = invalid.
Proof.
  intros c s t i e f V C invalid give zero. pose proof (is0_iff i C) as I0. assert (Z0 : zero = is0 i).
  { unfold zero. destruct (is0 i); destruct (number i =? 0) eqn:E; try reflexivity; [apply Z.eqb_neq in E; exfalso; apply E; now apply I0|apply Z.eqb_eq, I0 in E; discriminate]. }
  assert (N : forall x y k, isnan x = 0 -> isnan y = 0 -> after_nans c x (Some y) k f = k f) by (intros; now rewrite no_nans).
  rewrite Z0. unfold invalid, give. clear I0 Z0 zero invalid give. cbn [report].
  split; [unfold add; rewrite N by reflexivity; destruct (Bool.eqb s t); reflexivity|].
  split; [unfold add; rewrite N by reflexivity; reflexivity|].
  split; [unfold add; rewrite N by reflexivity; reflexivity|].
  split; [unfold sub, add; rewrite N by reflexivity; cbn [copy_negate with_sign sign_of]; rewrite N by reflexivity; destruct s, t; reflexivity|].
  split; [unfold sub, add; rewrite N by reflexivity; cbn [copy_negate with_sign sign_of]; rewrite N by reflexivity; reflexivity|].
  split; [unfold sub, add; rewrite N by reflexivity; cbn [copy_negate with_sign sign_of]; rewrite N by reflexivity; reflexivity|].
  split; [unfold mul; rewrite N by reflexivity; reflexivity|].
  split; [unfold mul; rewrite N by reflexivity; cbn [truth sign_of]; destruct (is0 i); reflexivity|].
  split; [unfold mul; rewrite N by reflexivity; cbn [truth sign_of]; rewrite (xorb_comm t s); destruct (is0 i); reflexivity|].
  split; [unfold truediv; rewrite N by reflexivity; reflexivity|].
  split; [unfold truediv; rewrite N by reflexivity; reflexivity|].
  split; [unfold truediv; rewrite N by reflexivity; cbn [sign_of]; rewrite (xorb_comm t s); unfold bind, sig, raise_in; destruct (traps c Clamped); reflexivity|].
  split; [unfold mod_; rewrite N by reflexivity; reflexivity|].
  split; [unfold mod_; rewrite N by reflexivity; reflexivity|].
  split; [unfold floordiv; rewrite N by reflexivity; reflexivity|].
  split; [unfold floordiv; rewrite N by reflexivity; reflexivity|].
  split; [unfold floordiv; rewrite N by reflexivity; cbn [sign_of truth negb]; rewrite (xorb_comm s t); reflexivity|].
  unfold remainder_near; rewrite N by reflexivity; reflexivity.
Qed.
(** x * y + z: zero times infinity is invalid whatever z is; else NaNs are passed on; else the
    infinities are added. *)
Theorem dec_fma_special : forall c x y z f, valid c -> good x -> good y -> good z ->
  let invalid := report c [InvalidOperation] (NaN false false []) f in
  (zero_times_infinity x y -> fma c x y z f = invalid) /\
  (forall w b, ~ zero_times_infinity x y -> passed_on3 x y z w b ->
     exists r, quieted c w r /\ fma c x y z f = report c (if b then [InvalidOperation] else []) r f) /\
  (forall s t, ~ zero_times_infinity x y -> (x = Inf s /\ (y = Inf t \/ exists i e, y = Fin t i e) \/ y = Inf s /\ exists i e, x = Fin t i e) ->
     (forall u i e, z = Fin u i e -> fma c x y z f = report c [] (Inf (xorb s t)) f) /\
     (forall u, z = Inf u -> fma c x y z f = if Bool.eqb u (xorb s t) then report c [] (Inf u) f else invalid)) /\
  (forall s i e t j k u, x = Fin s i e -> y = Fin t j k -> z = Inf u -> fma c x y z f = report c [] (Inf u) f).
Proof.
  intros c x y z f V Gx Gy Gz invalid.
  assert (N : forall a b k, isnan a = 0 -> isnan b = 0 -> after_nans c a (Some b) k f = k f) by (intros; now rewrite no_nans).
  assert (T0 : forall s i e, coefficient i -> truth (Fin s i e) = negb (number i =? 0)).
  { intros s i e C. cbn [truth]. pose proof (is0_iff i C) as I0. destruct (is0 i); destruct (number i =? 0) eqn:E; try reflexivity;
    [apply Z.eqb_neq in E; exfalso; apply E; now apply I0|apply Z.eqb_eq, I0 in E; discriminate]. }
  assert (AN : forall a w b, good a -> passed_on a z w b -> exists r, quieted c w r /\ add c a z f = report c (if b then [InvalidOperation] else []) r f).
  { intros a w b Ga P. unfold add. now apply nans_passed. }
  assert (RI : forall g s p, report c [InvalidOperation] (quiet c (NaN g s p)) f = raise_in c InvalidOperation (quiet c (NaN g s p)) f).
  { intros. cbn [report]. unfold bind, raise_in, ret. destruct (traps c InvalidOperation); reflexivity. }
  assert (GP : forall s i j e, coefficient i -> coefficient j -> good (Fin s (to_str (to_int i * to_int j)) e)).
  { intros. cbn [good]. apply coefficient_to_str. rewrite !to_int_number.
    apply Z.mul_nonneg_nonneg; apply number_bound; match goal with H : coefficient _ |- _ => apply H end. }
  split; [|split; [|split]].
  - destruct x as [s i e|s|[|] s p], y as [t j k|t|[|] t q]; cbn [zero_times_infinity]; try contradiction; intros Z0; unfold fma.
    + rewrite T0 by exact Gx. rewrite Z0. reflexivity.
    + rewrite T0 by exact Gy. rewrite Z0. reflexivity.
  - intros w b NZ P. destruct x as [s i e|s|[|] s p], y as [t j k|t|[|] t q]; unfold fma; cbn [sign_of];
      try (rewrite T0 by assumption; destruct (number _ =? 0) eqn:E0; [apply Z.eqb_eq in E0; elim NZ; exact E0|cbn [negb]]);
      try (destruct P as (-> & ->); eexists; split; [apply quiet_quieted; assumption|rewrite RI; reflexivity]).
    all: apply AN; [first [exact I | apply GP; assumption | assumption] | destruct z as [u h v|u|[|] u r]; cbn [passed_on3 passed_on] in *; assumption].
  - intros s t NZ [(-> & [->|(j & k & ->)])|(-> & i & e & ->)]; unfold fma; cbn [sign_of truth];
      try (fold (truth (Fin t j k)); rewrite T0 by assumption; destruct (number j =? 0) eqn:E0; [apply Z.eqb_eq in E0; elim NZ; exact E0|]; cbn [negb]);
      try (fold (truth (Fin t i e)); rewrite T0 by assumption; destruct (number i =? 0) eqn:E0; [apply Z.eqb_eq in E0; elim NZ; exact E0|]; cbn [negb]);
      rewrite ?(xorb_comm t s);
      (split; [intros u h v ->; unfold add; rewrite N by reflexivity; reflexivity|]);
      intros u ->; unfold add; rewrite N by reflexivity; destruct (xorb s t), u; reflexivity.
  - intros s i e t j k u -> -> ->. unfold fma, add. cbn [sign_of]. rewrite N by reflexivity. reflexivity.
Qed.
Example ex_fma_special : fma small (Fin false [0] 0) (Inf false) (NaN true false [1]) [] = (Ret (NaN false false []), [InvalidOperation])
  /\ zero_times_infinity (Fin false [0] 0) (Inf false)
  /\ passed_on3 (NaN false false [7]) (Inf true) (NaN true true [5]) (NaN true true [5]) true
  /\ fma small (NaN false false [7]) (Inf true) (NaN true true [5]) [] = (Ret (NaN false true [5]), [InvalidOperation])
  /\ fma small (Inf true) (Fin false [2] 0) (Inf true) [] = (Ret (Inf true), []).
Proof. repeat split; reflexivity. Qed.
Example ex_nans : passed_on (NaN false false [1]) (NaN true true [1;2;3;4]) (NaN true true [1;2;3;4]) true
  /\ add small (NaN false false [1]) (NaN true true [1;2;0;4]) [] = (Ret (NaN false true [2;0;4]), [InvalidOperation])
  /\ mul small (Fin false [0] 3) (Inf true) [] = (Ret (NaN false false []), [InvalidOperation]).
Proof. repeat split; reflexivity. Qed.

Print Assumptions dec_plus. Print Assumptions dec_minus. Print Assumptions dec_abs. Print Assumptions dec_rounded_floor. Print Assumptions dec_rounded_ceiling.
Print Assumptions dec_rounded_nearest. Print Assumptions dec_rounded_exact. Print Assumptions dec_rounds_unique. Print Assumptions dec_add. Print Assumptions dec_sub.
Print Assumptions dec_mul. Print Assumptions dec_fma. Print Assumptions dec_div. Print Assumptions dec_div_zero. Print Assumptions dec_divmod.
Print Assumptions dec_remainder_near. Print Assumptions dec_nan_operands. Print Assumptions dec_infinities. Print Assumptions dec_fma_special.
