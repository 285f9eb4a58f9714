(** C183: decimals made of floats are exact. *)
From Coq Require Import ZArith Znumtheory Lia.
From Verif Require Import DecFloat_Model DecFloat_Spec.
Open Scope Z_scope.

Lemma power_divisor : forall j, 0 <= j -> forall d, 0 < d -> (d | 2 ^ j) -> exists i, 0 <= i /\ d = 2 ^ i.
Proof.
  intros j J. pattern j. apply natlike_ind; [| |exact J]; clear j J.
  - intros d P D. exists 0. split; [lia|]. apply Z.divide_1_r_nonneg; [lia|exact D].
  - intros j J IH d P D. rewrite Z.pow_succ_r in D by exact J.
    destruct (Zeven_odd_dec d) as [E|O].
    + apply Zeven_ex in E. destruct E as [x ->]. destruct D as [q D].
      destruct (IH x) as [i [I ->]]; [lia|exists q; lia|]. exists (i + 1). split; [lia|]. rewrite Z.pow_add_r by lia. lia.
    + apply IH; [exact P|]. apply (Z.gauss d 2); [exact D|].
      apply Zodd_ex in O. destruct O as [x ->]. rewrite Z.gcd_comm. rewrite Z.add_comm, (Z.mul_comm 2 x), Z.gcd_add_mult_diag_r. reflexivity.
Qed.
Lemma lowest_power : forall m e n d, lowest m e n d -> exists k, 0 <= k /\ d = 2 ^ k.
Proof.
  intros m e n d [P [G E]]. destruct (Z.leb_spec 0 e) as [L|L].
  - exists 0. split; [lia|]. cbn [Z.pow Z.pow_pos]. apply Z.divide_1_r_nonneg; [lia|]. rewrite <- G. apply Z.gcd_greatest; [exists (m * 2 ^ e); exact E|apply Z.divide_refl].
  - apply (power_divisor (- e)); [lia|exact P|]. apply (Z.gauss d n); [|rewrite Z.gcd_comm; exact G].
    exists m. exact E.
Qed.
Lemma bits_power : forall k, 0 <= k -> bit_length (2 ^ k) - 1 = k.
Proof.
  intros k K. unfold bit_length. assert (0 < 2 ^ k) by (apply Z.pow_pos_nonneg; lia).
  destruct (Z.eqb_spec (2 ^ k) 0); [lia|]. rewrite Z.abs_eq by lia. rewrite Z.log2_pow2 by exact K. lia.
Qed.
Lemma ten : forall k, 0 <= k -> 10 ^ k = 2 ^ k * 5 ^ k.
Proof. intros k K. rewrite <- Z.pow_mul_l. reflexivity. Qed.
Lemma five_odd : forall j, 0 <= j -> ~ (2 | 5 ^ j).
Proof.
  intros j J [x D]. assert (O : Z.odd (5 ^ j) = true).
  { destruct (Z.eq_dec j 0) as [->|N]; [reflexivity|]. rewrite Z.odd_pow by lia. reflexivity. }
  rewrite D, Z.odd_mul, Bool.andb_false_r in O. discriminate.
Qed.

Section Ratio.
Variable ratio : Z -> Z -> Z * Z.
Hypothesis ratio_lowest : forall m e, 0 <= m -> lowest m e (fst (ratio m e)) (snd (ratio m e)).

(** A finite float gives exactly its value, with its sign (also that of zero) and the largest
    exponent that can do so. *)
Theorem C183_exact : forall negative m e, 0 <= m -> exists c k,
  from_float ratio (Float negative m e) = Triple (if negative then 1 else 0) c (- k) /\
  0 <= k /\ 0 <= c /\ equals c k m e /\ forall c' j, 0 <= j < k -> ~ equals c' j m e.
Proof.
  intros negative m e M. pose proof (ratio_lowest m e M) as L. unfold from_float.
  destruct (ratio m e) as [n d]. cbn [fst snd] in L.
  destruct (lowest_power _ _ _ _ L) as [k [K ->]]. rewrite (bits_power k K). destruct L as [P [G E]].
  assert (P5 : 0 < 5 ^ k) by (apply Z.pow_pos_nonneg; lia).
  exists (n * 5 ^ k), k. split; [reflexivity|]. split; [exact K|].
  unfold equals. destruct (Z.leb_spec 0 e) as [Le|Le].
  - assert (P2 : 0 < 2 ^ e) by (apply Z.pow_pos_nonneg; lia).
    assert (K0 : 2 ^ k = 1).
    { apply Z.divide_1_r_nonneg; [lia|]. rewrite <- G. apply Z.gcd_greatest; [exists (m * 2 ^ e); exact E|apply Z.divide_refl]. }
    assert (k = 0) as ->.
    { destruct (Z.eq_dec k 0) as [H|H]; [exact H|]. assert (2 ^ 1 <= 2 ^ k) by (apply Z.pow_le_mono_r; lia). lia. }
    split; [rewrite E; nia|]. split; [rewrite E; cbn; lia|]. intros c' j J. lia.
  - assert (P2 : 0 < 2 ^ (- e)) by (apply Z.pow_pos_nonneg; lia).
    split; [assert (0 <= n * 2 ^ (- e)) by (rewrite E; apply Z.mul_nonneg_nonneg; lia); assert (0 <= n) by nia; apply Z.mul_nonneg_nonneg; lia|].
    split; [rewrite (ten k K); replace (n * 5 ^ k * 2 ^ (- e)) with (n * 2 ^ (- e) * 5 ^ k) by ring; rewrite E; ring|].
    intros c' j J Eq. assert (F : c' * 2 ^ k = n * 10 ^ j).
    { apply (Z.mul_reg_r _ _ (2 ^ (- e))); [lia|].
      replace (c' * 2 ^ k * 2 ^ (- e)) with (c' * 2 ^ (- e) * 2 ^ k) by ring. rewrite Eq.
      replace (n * 10 ^ j * 2 ^ (- e)) with (n * 2 ^ (- e) * 10 ^ j) by ring. rewrite E. ring. }
    assert (D : (2 ^ k | 10 ^ j)).
    { apply (Z.gauss (2 ^ k) n); [exists c'; symmetry; exact F|rewrite Z.gcd_comm; exact G]. }
    rewrite (ten j) in D by lia. replace k with (j + (k - j)) in D by lia. rewrite Z.pow_add_r in D by lia.
    apply Z.mul_divide_cancel_l in D; [|apply Z.pow_nonzero; lia].
    apply (five_odd j); [lia|]. apply (Z.divide_trans _ (2 ^ (k - j))); [|exact D].
    exists (2 ^ (k - j - 1)). replace (k - j) with ((k - j - 1) + 1) at 1 by lia. rewrite Z.pow_add_r by lia. reflexivity.
Qed.
(** Integers are kept, and so are infinities and NaN *)
Theorem C183_others : (forall i, exists s c, from_float ratio (Int i) = Triple s c 0 /\ 0 <= c /\
    (s = 0 /\ i = c \/ s = 1 /\ i = - c /\ i <> 0)) /\
  (forall negative, from_float ratio (FInf negative) = Infinity negative) /\ from_float ratio FNaN = NaN.
Proof.
  split; [|split; reflexivity]. intro i. cbn [from_float]. destruct (Z.leb_spec 0 i).
  - exists 0, (Z.abs i). split; [reflexivity|]. split; [lia|]. left. lia.
  - exists 1, (Z.abs i). split; [reflexivity|]. split; [lia|]. right. lia.
Qed.
End Ratio.
Print Assumptions C183_exact.
Print Assumptions C183_others.

(** A ratio as asked for exists, and 3 * 2^-3 is 0.375 *)
Definition reduced (m e : Z) : Z * Z :=
  if 0 <=? e then (m * 2 ^ e, 1) else (m / Z.gcd m (2 ^ (- e)), 2 ^ (- e) / Z.gcd m (2 ^ (- e))).
Example C183_example : (forall m e, 0 <= m -> lowest m e (fst (reduced m e)) (snd (reduced m e))) /\
  from_float reduced (Float true 3 (-3)) = Triple 1 375 (-3) /\ from_float reduced (Float true 0 (-3)) = Triple 1 0 0 /\
  from_float reduced (Float false 12 (-3)) = Triple 0 15 (-1).
Proof.
  split; [|split; [reflexivity|split; reflexivity]]. intros m e M. unfold lowest, reduced. destruct (Z.leb_spec 0 e) as [L|L]; cbn [fst snd].
  - split; [lia|]. split; [apply Z.gcd_1_r|lia].
  - assert (P : 0 < 2 ^ (- e)) by (apply Z.pow_pos_nonneg; lia). set (b := 2 ^ (- e)) in *.
    assert (G0 : Z.gcd m b <> 0) by (intro X; apply Z.gcd_eq_0_r in X; lia).
    pose proof (Z.gcd_nonneg m b) as Gp.
    destruct (Z.gcd_divide_l m b) as [x X]. destruct (Z.gcd_divide_r m b) as [y Y].
    assert (X' : m / Z.gcd m b = x) by (rewrite X at 1; apply Z.div_mul; exact G0).
    assert (Y' : b / Z.gcd m b = y) by (rewrite Y at 1; apply Z.div_mul; exact G0).
    split; [rewrite Y'; nia|]. split; [apply Z.gcd_div_gcd; [exact G0|reflexivity]|].
    rewrite X', Y'. rewrite Y at 1. rewrite X at 2. ring.
Qed.
