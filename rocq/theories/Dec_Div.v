(** Unary operations, multiplication, fused multiply-add and division. *)
From Coq Require Import ZArith QArith Qabs Lqa List Bool Lia ZifyBool ZifyNat.
From Verif Require Import Dec_Model Dec_Spec Dec_Digits Dec_Round Dec_Fix Dec_Arith Dec_Ops.
Import ListNotations.
Open Scope Z_scope.

Theorem pos_delivers : forall c s i e, valid c -> coefficient i ->
  delivers c (value s i e) (match rounding c with FLOOR => s | _ => false end) e (pos c (Fin s i e)).
Proof.
  intros c s i e V C. unfold pos. apply (delivers_ext _ _ _ _ (fix_ c (if negb (truth (Fin s i e)) && negb (is_floor c) then copy_abs (Fin s i e) else Fin s i e))); [intro f; now rewrite no_nans|].
  cbn [truth]. destruct (is0 i) eqn:Z0; cbn [negb andb].
  - apply is0_iff in Z0; [|assumption]. unfold is_floor. assert (VZ : forall s', (value s' i e == 0)%Q) by (intro; now apply value_zero).
    destruct (rounding c); cbn [negb copy_abs with_sign]; apply fix_delivers; auto; now rewrite !VZ.
  - apply (delivers_sign _ _ s); [|apply fix_delivers; [assumption|assumption|reflexivity]]. intro X. rewrite value_zero in X by assumption. apply is0_false in Z0; [lia|assumption].
Qed.
Theorem neg_delivers : forall c s i e, valid c -> coefficient i ->
  delivers c (- value s i e) (match rounding c with FLOOR => negb s | _ => false end) e (neg c (Fin s i e)).
Proof.
  intros c s i e V C. unfold neg. apply (delivers_ext _ _ _ _ (fix_ c (if negb (truth (Fin s i e)) && negb (is_floor c) then copy_abs (Fin s i e) else copy_negate (Fin s i e)))); [intro f; now rewrite no_nans|].
  cbn [truth]. destruct (is0 i) eqn:Z0; cbn [negb andb].
  - apply is0_iff in Z0; [|assumption]. unfold is_floor. assert (VZ : forall s', (value s' i e == 0)%Q) by (intro; now apply value_zero).
    destruct (rounding c); cbn [negb copy_abs copy_negate with_sign sign_of]; apply fix_delivers; auto; now rewrite !VZ.
  - apply (delivers_sign _ _ (negb s)); [|apply fix_delivers; [assumption|assumption|symmetry; apply value_negate]].
    intro X. assert (Y : (value s i e == 0)%Q) by lra. rewrite value_zero in Y by assumption. apply is0_false in Z0; [lia|assumption].
Qed.
Theorem abs_delivers : forall c s i e, valid c -> coefficient i -> delivers c (Qabs (value s i e)) false e (abs_ c (Fin s i e)).
Proof.
  intros c s i e V C. unfold abs_. cbn [sign_of].
  assert (A : (Qabs (value s i e) == if s then - value s i e else value s i e)%Q) by (rewrite value_abs by assumption; destruct s; rewrite value_sgn; cbn [sgn]; ring).
  destruct s.
  - apply (delivers_ext _ _ _ _ (neg c (Fin true i e))); [intro f; now rewrite no_nans|].
    pose proof (neg_delivers c true i e V C) as D. apply (delivers_eq c (- value true i e)); [now symmetry|]. destruct (rounding c); exact D.
  - apply (delivers_ext _ _ _ _ (pos c (Fin false i e))); [intro f; now rewrite no_nans|].
    pose proof (pos_delivers c false i e V C) as D. apply (delivers_eq c (value false i e)); [now symmetry|]. destruct (rounding c); exact D.
Qed.

Lemma value_product : forall s1 n1 e1 s2 n2 e2, 0 <= n1 -> 0 <= n2 ->
  (value (xorb s1 s2) (to_str (n1 * n2)) (e1 + e2) == (inject_Z (signed s1 n1) * ten e1) * (inject_Z (signed s2 n2) * ten e2))%Q.
Proof.
  intros. unfold value. rewrite number_to_str by nia. replace (signed (xorb s1 s2) (n1 * n2)) with (signed s1 n1 * signed s2 n2) by (destruct s1, s2; cbn [signed xorb]; ring).
  rewrite inject_Z_mult, ten_add. ring.
Qed.
Lemma is1_number : forall i, coefficient i -> is1 i = true -> i = [1].
Proof. intros i C. destruct i as [|d [|]]; cbn [is1]; try discriminate. intro. f_equal. lia. Qed.
Theorem mul_exact : forall c s1 i1 e1 s2 i2 e2 f, coefficient i1 -> coefficient i2 ->
  mul c (Fin s1 i1 e1) (Fin s2 i2 e2) f = fix_ c (Fin (xorb s1 s2) (to_str (number i1 * number i2)) (e1 + e2)) f.
Proof.
  intros c s1 i1 e1 s2 i2 e2 f C1 C2. unfold mul. rewrite no_nans by reflexivity. cbn [sign_of].
  destruct (is0 i1) eqn:Z1; cbn [orb].
  { apply is0_iff in Z1; [|assumption]. rewrite Z1. reflexivity. }
  destruct (is0 i2) eqn:Z2.
  { apply is0_iff in Z2; [|assumption]. rewrite Z2, Z.mul_0_r. reflexivity. }
  destruct (is1 i1) eqn:O1.
  { apply is1_number in O1; [|assumption]. subst i1. change (number [1]) with 1. now rewrite Z.mul_1_l, to_str_number. }
  destruct (is1 i2) eqn:O2.
  { apply is1_number in O2; [|assumption]. subst i2. change (number [1]) with 1. now rewrite Z.mul_1_r, to_str_number. }
  now rewrite !to_int_number.
Qed.
Theorem mul_delivers : forall c s1 i1 e1 s2 i2 e2, valid c -> coefficient i1 -> coefficient i2 ->
  delivers c (value s1 i1 e1 * value s2 i2 e2) (xorb s1 s2) (e1 + e2) (mul c (Fin s1 i1 e1) (Fin s2 i2 e2)).
Proof.
  intros c s1 i1 e1 s2 i2 e2 V C1 C2. pose proof C1 as (F1 & _). pose proof C2 as (F2 & _). pose proof (number_bound i1 F1). pose proof (number_bound i2 F2).
  apply (delivers_ext _ _ _ _ (fix_ c (Fin (xorb s1 s2) (to_str (number i1 * number i2)) (e1 + e2)))); [intro f; now rewrite mul_exact|].
  apply fix_delivers; [assumption|apply coefficient_to_str; nia|]. symmetry. apply value_product; lia.
Qed.
Theorem fma_delivers : forall c s1 i1 e1 s2 i2 e2 s3 i3 e3, valid c -> coefficient i1 -> coefficient i2 -> coefficient i3 ->
  delivers c (value s1 i1 e1 * value s2 i2 e2 + value s3 i3 e3) (zero_sign c (xorb s1 s2) s3) (Z.min (e1 + e2) e3)
    (fma c (Fin s1 i1 e1) (Fin s2 i2 e2) (Fin s3 i3 e3)).
Proof.
  intros c s1 i1 e1 s2 i2 e2 s3 i3 e3 V C1 C2 C3. pose proof C1 as (F1 & _). pose proof C2 as (F2 & _). pose proof (number_bound i1 F1). pose proof (number_bound i2 F2).
  unfold fma. cbn [sign_of]. rewrite !to_int_number.
  apply (delivers_eq c (value (xorb s1 s2) (to_str (number i1 * number i2)) (e1 + e2) + value s3 i3 e3)).
  - rewrite value_product by lia. reflexivity.
  - apply add_delivers; [assumption|apply coefficient_to_str; nia|assumption].
Qed.

(** * Division *)
Lemma strip_exact_ok : forall fuel coeff exp ideal, 0 < coeff -> exp <= ideal -> ideal - exp <= Z.of_nat fuel ->
  let '(k, e) := strip_exact fuel coeff exp ideal in
  0 < k /\ exp <= e <= ideal /\ coeff = k * 10 ^ (e - exp) /\ (e = ideal \/ k mod 10 <> 0).
Proof.
  induction fuel as [|fuel IH]; intros coeff exp ideal K E F; cbn [strip_exact].
  - rewrite Z.sub_diag. change (10 ^ 0) with 1. lia.
  - destruct ((exp <? ideal) && (coeff mod 10 =? 0)) eqn:B.
    + pose proof (Z_div_mod_eq_full coeff 10). assert (0 < coeff / 10) by lia. specialize (IH (coeff / 10) (exp + 1) ideal ltac:(assumption) ltac:(lia) ltac:(lia)).
      destruct (strip_exact fuel (coeff / 10) (exp + 1) ideal) as [k e]. destruct IH as (A1 & A2 & A3 & A4). split; [assumption|]. split; [lia|]. split; [|assumption].
      replace (e - exp) with (e - (exp + 1) + 1) by lia. rewrite pow10_S by lia. lia.
    + rewrite Z.sub_diag. change (10 ^ 0) with 1. split; [assumption|]. split; [lia|]. split; [lia|]. lia.
Qed.
(** The quotient computed before rounding. *)
Record quotient (p : Z) (n1 e1 n2 e2 : Z) (l1 l2 n d exp : Z) : Prop := {
  q_d : 0 < d; q_n : 0 < n; q_exp : exp = e1 - e2 - (l2 - l1 + p + 1);
  q_big : 10 ^ p <= n / d;
  q_val : (inject_Z n1 * ten e1 / (inject_Z n2 * ten e2) == inject_Z n / inject_Z d * ten exp)%Q }.
Lemma quotient_ok : forall p n1 e1 n2 e2 l1 l2, 0 < n1 -> 0 < n2 -> 1 <= p -> 1 <= l1 -> 1 <= l2 ->
  10 ^ (l1 - 1) <= n1 -> n2 < 10 ^ l2 ->
  let shift := l2 - l1 + p + 1 in
  let '(n, d) := if shift >=? 0 then (n1 * 10 ^ shift, n2) else (n1, n2 * 10 ^ (- shift)) in
  quotient p n1 e1 n2 e2 l1 l2 n d (e1 - e2 - shift).
Proof.
  intros p n1 e1 n2 e2 l1 l2 N1 N2 P L1 L2 B1 B2 shift. pose proof (pow10_pos p ltac:(lia)) as Pp.
  assert (Nz : ~ (inject_Z n2 == 0)%Q) by (intro X; change 0%Q with (inject_Z 0) in X; apply (proj1 (inject_Z_injective _ _)) in X; lia).
  assert (T2 : ~ (ten e2 == 0)%Q) by (pose proof (ten_pos e2); lra).
  assert (Ti : (ten e1 == ten e2 * ten (shift) * ten (e1 - e2 - shift))%Q) by (rewrite <- !ten_add; replace (e2 + shift + (e1 - e2 - shift)) with e1 by lia; reflexivity).
  destruct (shift >=? 0) eqn:S0.
  - pose proof (pow10_pos shift ltac:(lia)). split; [assumption|nia|reflexivity| |].
    + apply Z.div_le_lower_bound; [assumption|]. assert (10 ^ (l1 - 1) * 10 ^ shift = 10 ^ l2 * 10 ^ p) by (rewrite <- !Z.pow_add_r by lia; f_equal; lia). nia.
    + rewrite inject_Z_mult, <- (ten_Z shift) by lia. rewrite Ti. field. split; assumption.
  - pose proof (pow10_pos (- shift) ltac:(lia)). split; [nia|assumption|reflexivity| |].
    + apply Z.div_le_lower_bound; [nia|]. assert (10 ^ (l1 - 1) = 10 ^ l2 * 10 ^ p * 10 ^ (- shift)) by (rewrite <- !Z.pow_add_r by lia; f_equal; lia). nia.
    + rewrite inject_Z_mult, <- (ten_Z (- shift)) by lia. rewrite Ti. pose proof (ten_inv shift) as TI. pose proof (ten_pos (- shift)).
      assert (TS : (ten shift == / ten (- shift))%Q) by (apply (Qmult_inj_r _ _ (ten (- shift))); [lra|rewrite TI, Qmult_comm, Qmult_inv_r by lra; reflexivity]).
      rewrite TS. field. repeat split; try assumption; lra.
Qed.
Lemma value_quotient : forall s1 i1 e1 s2 i2 e2, 0 < number i2 ->
  (value s1 i1 e1 / value s2 i2 e2 == sgn (xorb s1 s2) (inject_Z (number i1) * ten e1 / (inject_Z (number i2) * ten e2)))%Q.
Proof.
  intros s1 i1 e1 s2 i2 e2 N. rewrite !value_sgn. pose proof (scaled_pos (number i2) e2 N) as P. revert P.
  generalize (inject_Z (number i2) * ten e2)%Q. intros q P. destruct s1, s2; cbn [sgn xorb]; field; lra.
Qed.
Lemma sgn_multiple : forall s y e, (exists n, (sgn s y == inject_Z n * ten e)%Q) <-> (exists n, (y == inject_Z n * ten e)%Q).
Proof.
  intros s y e. destruct s; cbn [sgn]; [|reflexivity]. split; intros (n & H); exists (- n); rewrite inject_Z_opp; [lra|rewrite H; ring].
Qed.

Theorem truediv_delivers : forall c s1 i1 e1 s2 i2 e2, valid c -> coefficient i1 -> coefficient i2 -> 0 < number i2 ->
  let x := (value s1 i1 e1 / value s2 i2 e2)%Q in
  (forall e, finest x (e1 - e2) e -> delivers c x (xorb s1 s2) e (truediv c (Fin s1 i1 e1) (Fin s2 i2 e2))) /\
  ((forall e, ~ finest x (e1 - e2) e) ->
    exists r sigs, (forall f, truediv c (Fin s1 i1 e1) (Fin s2 i2 e2) f = report c sigs r f) /\ rounded c x r sigs /\ in_order sigs /\
      In Inexact sigs /\ (In Clamped sigs <-> exists s e, r = Fin s [0] e)).
Proof.
  intros c s1 i1 e1 s2 i2 e2 V C1 C2 N2 x. pose proof V as (P1 & Em & EM). pose proof C1 as (F1 & _). pose proof (number_bound i1 F1) as B1.
  assert (Nz2 : is0 i2 = false) by (now apply is0_false).
  pose proof (value_quotient s1 i1 e1 s2 i2 e2 N2) as VQ. fold x in VQ.
  destruct (is0 i1) eqn:Z1.
  { (* a zero dividend *)
    assert (E : forall f, truediv c (Fin s1 i1 e1) (Fin s2 i2 e2) f = fix_ c (Fin (xorb s1 s2) [0] (e1 - e2)) f) by (intro f; unfold truediv; rewrite no_nans by reflexivity; now rewrite Nz2, Z1).
    apply is0_iff in Z1; [|assumption].
    assert (X : (x == 0)%Q). { rewrite VQ, Z1. pose proof (scaled_pos (number i2) e2 N2) as P. revert P. generalize (inject_Z (number i2) * ten e2)%Q. intros q P. destruct (xorb s1 s2); cbn [sgn]; field; lra. }
    assert (M0 : forall e, exists n, (x == inject_Z n * ten e)%Q) by (intro e; exists 0; rewrite X; ring).
    split.
    - intros e (_ & _ & [->|H]); [|exfalso; apply H, M0].
      apply (delivers_ext _ _ _ _ (fix_ c (Fin (xorb s1 s2) [0] (e1 - e2)))); [intro f; now rewrite E|]. apply fix_delivers; [assumption|apply coefficient0|].
      rewrite X. symmetry. apply value_zero; [apply coefficient0|reflexivity].
    - intro H. exfalso. apply (H (e1 - e2)). split; [lia|]. split; [apply M0|now left]. }
  pose proof Z1 as Nz1. apply is0_false in Z1; [|assumption].
  destruct (digits_of_number i1 C1 Z1) as (L1 & D1). destruct (digits_of_number i2 C2 N2) as (L2 & D2).
  pose proof (quotient_ok (prec c) (number i1) e1 (number i2) e2 (len i1) (len i2) Z1 N2 P1 L1 L2 ltac:(lia) ltac:(lia)) as Q. cbv zeta in Q.
  assert (E : forall f, truediv c (Fin s1 i1 e1) (Fin s2 i2 e2) f =
    let '(n, d) := if len i2 - len i1 + prec c + 1 >=? 0 then (number i1 * 10 ^ (len i2 - len i1 + prec c + 1), number i2) else (number i1, number i2 * 10 ^ (- (len i2 - len i1 + prec c + 1))) in
    let exp := e1 - e2 - (len i2 - len i1 + prec c + 1) in
    let '(k, e) := if negb (n mod d =? 0) then (if n / d mod 5 =? 0 then n / d + 1 else n / d, exp) else strip_exact (Z.to_nat (e1 - e2 - exp)) (n / d) exp (e1 - e2) in
    fix_ c (Fin (xorb s1 s2) (to_str k) e) f).
  { intro f. unfold truediv. rewrite no_nans by reflexivity. rewrite Nz1, Nz2, !to_int_number. cbv zeta. cbn [sign_of].
    destruct (len i2 - len i1 + prec c + 1 >=? 0); destruct (negb _); try reflexivity; destruct (strip_exact _ _ _ _); reflexivity. }
  remember (e1 - e2 - (len i2 - len i1 + prec c + 1)) as exp eqn:Eexp.
  destruct (if len i2 - len i1 + prec c + 1 >=? 0 then _ else _) as [n d]. destruct Q as [Qd Qn _ Qb Qv]. cbv zeta in E.
  remember (xorb s1 s2) as s eqn:Es. remember (inject_Z (number i1) * ten e1 / (inject_Z (number i2) * ten e2))%Q as y eqn:Ey. clear Ey.
  assert (Yp : (0 < y)%Q). { rewrite Qv. pose proof (ten_pos exp). assert (0 < inject_Z n / inject_Z d)%Q; [|nra]. apply Qlt_shift_div_l; [change 0%Q with (inject_Z 0); rewrite <- Zlt_Qlt; lia|]. rewrite Qmult_0_l. change 0%Q with (inject_Z 0). rewrite <- Zlt_Qlt. lia. }
  assert (Xn : ~ (x == 0)%Q) by (intro X; rewrite X in VQ; destruct s; cbn [sgn] in VQ; lra).
  pose proof (Z_div_mod_eq_full n d) as DM. pose proof (Z.mod_pos_bound n d Qd) as MB. pose proof (pow10_pos (prec c) ltac:(lia)) as Pp.
  assert (Dn : ~ (inject_Z d == 0)%Q) by (intro X; change 0%Q with (inject_Z 0) in X; apply (proj1 (inject_Z_injective _ _)) in X; lia).
  assert (Mul : forall e, (exists n, (x == inject_Z n * ten e)%Q) <-> (exists n, (y == inject_Z n * ten e)%Q)).
  { intro e. rewrite <- (sgn_multiple s y e). split; intros (k & K); exists k; [rewrite <- VQ|rewrite VQ]; exact K. }
  destruct (n mod d =? 0) eqn:R0; cbn [negb] in E.
  - (* exact quotient *)
    assert (Yk : (y == inject_Z (n / d) * ten exp)%Q). { rewrite Qv. replace n with (n / d * d) at 1 by lia. rewrite inject_Z_mult. field. exact Dn. }
    destruct (Z.le_gt_cases exp (e1 - e2)) as [Ge|Ge].
    + pose proof (strip_exact_ok (Z.to_nat (e1 - e2 - exp)) (n / d) exp (e1 - e2) ltac:(lia) Ge ltac:(lia)) as St. destruct (strip_exact _ _ _ _) as [k e]. destruct St as (K & Ee & Ek & Last).
      assert (Ye : (y == inject_Z k * ten e)%Q) by (rewrite Yk, Ek; symmetry; apply rescaled; lia).
      assert (Fe : finest x (e1 - e2) e).
      { split; [lia|]. rewrite !Mul. split; [now exists k|]. destruct Last as [->|Last]; [now left|right]. intros (m & Hm). rewrite Ye, (rescaled m (e + 1) e) in Hm by lia. apply scaled_eq in Hm.
        replace (e + 1 - e) with 1 in Hm by lia. change (10 ^ 1) with 10 in Hm. apply Last. rewrite Hm. apply Z.mod_mul. lia. }
      split.
      * intros e' Fe'. assert (e' = e).
        { destruct Fe as (A1 & A2 & A3), Fe' as (A1' & A2' & A3'). destruct (Z.lt_trichotomy e' e) as [H|[H|H]]; [|assumption|].
          - destruct A3' as [->|A3']; [lia|]. exfalso. apply A3'. destruct A2 as (m & Hm). exists (m * 10 ^ (e - (e' + 1))). rewrite Hm. apply rescaled. lia.
          - destruct A3 as [->|A3]; [lia|]. exfalso. apply A3. destruct A2' as (m & Hm). exists (m * 10 ^ (e' - (e + 1))). rewrite Hm. apply rescaled. lia. }
        subst e'. apply (delivers_ext _ _ _ _ (fix_ c (Fin s (to_str k) e))); [intro f; now rewrite E|].
        apply fix_delivers; [assumption|apply coefficient_to_str; lia|]. rewrite VQ, value_sgn, number_to_str by lia. now apply sgn_inj.
      * intro H. exfalso. now apply (H e).
    + assert (St : strip_exact (Z.to_nat (e1 - e2 - exp)) (n / d) exp (e1 - e2) = (n / d, exp)) by (replace (Z.to_nat (e1 - e2 - exp)) with O by lia; reflexivity). rewrite St in E.
      assert (Fe : finest x (e1 - e2) (e1 - e2)).
      { split; [lia|]. split; [|now left]. rewrite Mul. exists (n / d * 10 ^ (exp - (e1 - e2))). rewrite Yk. apply rescaled. lia. }
      split; [|intro H; exfalso; now apply (H (e1 - e2))].
      intros e' (A1' & A2' & A3'). assert (e' = e1 - e2).
      { destruct A3' as [->|A3']; [reflexivity|]. destruct (Z.eq_dec e' (e1 - e2)) as [|Ne]; [assumption|]. exfalso. apply A3'. destruct Fe as (_ & (m & Hm) & _).
        exists (m * 10 ^ (e1 - e2 - (e' + 1))). rewrite Hm. apply rescaled. lia. }
      subst e'. pose proof (pow10_pos (exp - (e1 - e2)) ltac:(lia)) as Pe.
      pose proof (digits_of (n / d) ltac:(lia)) as (Lk & Dk).
      assert (LP : prec c < len (to_str (n / d))). { destruct (Z.le_gt_cases (len (to_str (n / d))) (prec c)) as [G|G]; [|exact G]. pose proof (pow10_le (len (to_str (n / d))) (prec c) ltac:(lia)). lia. }
      assert (Lz : len (to_str (n / d * 10 ^ (exp - (e1 - e2)))) = len (to_str (n / d)) + (exp - (e1 - e2))).
      { pose proof (to_str_pad (to_str (n / d)) (exp - (e1 - e2)) (coefficient_to_str (n / d) ltac:(lia)) ltac:(rewrite number_to_str; lia) ltac:(lia)) as TP. rewrite number_to_str in TP by lia. rewrite <- TP. apply len_zeros. lia. }
      apply (delivers_ext _ _ _ _ (fix_ c (Fin s (to_str (n / d * 10 ^ (exp - (e1 - e2)))) (e1 - e2)))).
      * intro f. rewrite E. apply fix_pad; try (apply coefficient_to_str; nia); try (rewrite number_to_str; nia); [assumption| | |].
        -- rewrite !number_to_str by nia. symmetry. apply rescaled. lia.
        -- left. rewrite Lz. unfold unit_exp. lia.
        -- left. unfold unit_exp. lia.
      * apply fix_delivers; [assumption|apply coefficient_to_str; nia|]. rewrite VQ, value_sgn, number_to_str by nia. apply sgn_inj. rewrite Yk. apply rescaled. lia.
  - (* inexact quotient *)
    remember (if n / d mod 5 =? 0 then n / d + 1 else n / d) as k eqn:Ek. pose proof (Z_div_mod_eq_full (n / d) 5) as D5. pose proof (Z.mod_pos_bound (n / d) 5 ltac:(lia)) as M5.
    assert (Kb : n / d <= k <= n / d + 1 /\ 5 * (n / d / 5) < k < 5 * (n / d / 5 + 1)) by (destruct (n / d mod 5 =? 0) eqn:?; lia).
    assert (Yb : (inject_Z (n / d) * ten exp < y /\ y < inject_Z (n / d + 1) * ten exp)%Q).
    { rewrite Qv. pose proof (ten_pos exp) as Te. assert (Dp : (0 < inject_Z d)%Q) by (change 0%Q with (inject_Z 0); rewrite <- Zlt_Qlt; lia).
      assert (A1 : (inject_Z (n / d) < inject_Z n / inject_Z d)%Q) by (apply Qlt_shift_div_l; [exact Dp|]; rewrite <- inject_Z_mult, <- Zlt_Qlt; lia).
      assert (A2 : (inject_Z n / inject_Z d < inject_Z (n / d + 1))%Q) by (apply Qlt_shift_div_r; [exact Dp|]; rewrite <- inject_Z_mult, <- Zlt_Qlt; lia).
      split; nra. }
    assert (Sl : slot exp (inject_Z (number (to_str k)) * ten exp) y).
    { rewrite number_to_str by lia. exists (n / d / 5). rewrite !scaled_lt. split; [lia|].
      assert (A1 : (inject_Z (5 * (n / d / 5)) * ten exp <= inject_Z (n / d) * ten exp)%Q) by (rewrite scaled_le; lia).
      assert (A2 : (inject_Z (n / d + 1) * ten exp <= inject_Z (5 * (n / d / 5 + 1)) * ten exp)%Q) by (rewrite scaled_le; lia). lra. }
    destruct (fix_sticky c s (to_str k) exp y V (coefficient_to_str k ltac:(lia)) ltac:(rewrite number_to_str; lia) Yp Sl) as (r & sigs & R1 & R2 & R3 & R4 & R5).
    apply (rounded_eq c _ x) in R2; [|now symmetry].
    assert (Big : forall e, (exists m, (y == inject_Z m * ten e)%Q) -> e < exp).
    { intros e (m & Hm). destruct (Z.le_gt_cases exp e) as [G|G]; [|exact G]. exfalso. rewrite Hm, (rescaled m e exp) in Yb by exact G. rewrite !scaled_lt in Yb. lia. }
    (* the leading digit is more than a precision above the last computed place *)
    assert (Lead : exists E0, (ten E0 <= Qabs x /\ Qabs x < ten (E0 + 1))%Q /\ exp <= E0 - prec c).
    { destruct R2 as (E0 & n0 & A1 & _). exists E0. split; [exact A1|]. destruct (Z.le_gt_cases exp (E0 - prec c)) as [G|G]; [exact G|]. exfalso.
      assert (Ax : (Qabs x == y)%Q) by (rewrite VQ, abs_sgn; apply Qabs_pos; lra). rewrite Ax in A1.
      assert (T1 : (ten (E0 + 1) <= ten (exp + prec c))%Q) by (apply (proj1 (ten_le _ _)); lia).
      assert (T2 : (ten (exp + prec c) <= inject_Z (n / d) * ten exp)%Q) by (rewrite (ten_as (exp + prec c) exp) by lia; rewrite scaled_le; replace (exp + prec c - exp) with (prec c) by lia; lia). lra. }
    split.
    + intros e (A1 & A2 & A3). rewrite Mul in A2. apply Big in A2. split; [intro X; contradiction|]. intros _. exists r, sigs.
      split; [intro f; rewrite E; apply R1|]. split; [exact R2|]. split; [exact R5|]. split.
      { split; [|intros _; exact R3]. intros _. destruct Lead as (E0 & G1 & G2). exists E0. split; [exact G1|]. lia. }
      split; [intro; contradiction|]. rewrite R4. split; [now left|]. intros [H|[H _]]; [exact H|contradiction].
    + intro H. exists r, sigs. split; [intro f; rewrite E; apply R1|]. split; [exact R2|]. split; [exact R5|]. split; [|exact R4].
      destruct R2 as (E0 & n0 & A1 & A2 & _ & A4 & _). cbv zeta in *. apply A4. left. intro X.
      (* a terminating quotient has a finest exponent *)
      assert (Ter : forall j e, e + Z.of_nat j = e1 - e2 -> (exists m, (x == inject_Z m * ten e)%Q) -> exists e', finest x (e1 - e2) e').
      { induction j as [|j IH]; intros e Ej Hm; [exists e; split; [lia|split; [exact Hm|left; lia]]|].
        destruct (Z.eq_dec 0 0) as [_|]; [|lia]. destruct Hm as (m & Hm). pose proof (Z_div_mod_eq_full m 10) as D10. pose proof (Z.mod_pos_bound m 10 ltac:(lia)).
        destruct (Z.eq_dec (m mod 10) 0) as [M0|M0].
        - apply (IH (e + 1) ltac:(lia)). exists (m / 10). rewrite Hm. rewrite (rescaled (m / 10) (e + 1) e) by lia. apply scaled_eq. replace (e + 1 - e) with 1 by lia. change (10 ^ 1) with 10. lia.
        - exists e. split; [lia|]. split; [now exists m|]. right. intros (m' & Hm'). rewrite Hm, (rescaled m' (e + 1) e) in Hm' by lia. apply scaled_eq in Hm'. replace (e + 1 - e) with 1 in Hm' by lia. change (10 ^ 1) with 10 in Hm'. lia. }
      remember (Z.max (E0 - prec c + 1) (Emin c - prec c + 1)) as q eqn:Eq.
      destruct (Ter (Z.to_nat (e1 - e2 - Z.min q (e1 - e2))) (Z.min q (e1 - e2)) ltac:(lia)) as (e' & Fe'); [|now apply (H e')].
      exists (n0 * 10 ^ (q - Z.min q (e1 - e2))). rewrite X. apply rescaled. lia.
Qed.
(** Dividing by zero. *)
Theorem truediv_zero : forall c s1 i1 e1 s2 e2 f, valid c -> coefficient i1 ->
  truediv c (Fin s1 i1 e1) (Fin s2 [0] e2) f =
  if number i1 =? 0 then report c [InvalidOperation] (NaN false false []) f else report c [DivisionByZero] (Inf (xorb s1 s2)) f.
Proof.
  intros c s1 i1 e1 s2 e2 f V C. unfold truediv. rewrite no_nans by reflexivity. change (is0 [0]) with true. cbn iota. rewrite <- !raise_report.
  pose proof (is0_iff i1 C) as I. destruct (is0 i1); [rewrite (proj2 (Z.eqb_eq _ _) (proj1 I eq_refl)); reflexivity|].
  destruct (number i1 =? 0) eqn:Z0; [|reflexivity]. apply Z.eqb_eq, I in Z0. discriminate Z0.
Qed.
