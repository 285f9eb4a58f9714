(** Comparison of decimals. *)
From Coq Require Import ZArith QArith Qabs Lqa List Bool Lia ZifyBool ZifyNat.
From Verif Require Import Dec_Model Dec_Spec Dec_Digits Dec_Round Dec_Fix Dec_Arith Dec_Ops Dec_Div Dec_Rem.
Import ListNotations.
Open Scope Z_scope.

Lemma str_eq_number : forall a b, Forall is_digit a -> Forall is_digit b -> length a = length b -> str_eq a b = (number a =? number b).
Proof.
  induction a as [|x a IH]; intros [|y b] A B L; cbn [length] in L; try lia; [reflexivity|]. inversion A; inversion B; subst. cbn [str_eq number].
  rewrite IH by (auto; lia). assert (La : length a = length b) by lia. rewrite La.
  pose proof (number_bound a ltac:(assumption)) as Na. rewrite La in Na. pose proof (number_bound b ltac:(assumption)). pose proof (pow10_nat (length b)). unfold is_digit in *.
  destruct (x =? y) eqn:E; cbn [andb].
  - assert (x = y) by lia. subst y. destruct (number a =? number b) eqn:N; symmetry; [apply Z.eqb_eq|apply Z.eqb_neq]; lia.
  - symmetry. apply Z.eqb_neq. assert (x <> y) by lia. intro Q. assert (x < y \/ y < x) as [L1|L1] by lia; nia.
Qed.
Lemma str_lt_number : forall a b, Forall is_digit a -> Forall is_digit b -> length a = length b -> str_lt a b = (number a <? number b).
Proof.
  induction a as [|x a IH]; intros [|y b] A B L; cbn [length] in L; try lia; [reflexivity|]. inversion A; inversion B; subst. cbn [str_lt number].
  assert (La : length a = length b) by lia. rewrite La.
  pose proof (number_bound a ltac:(assumption)) as Na. rewrite La in Na. pose proof (number_bound b ltac:(assumption)). pose proof (pow10_nat (length b)). unfold is_digit in *.
  destruct (x <? y) eqn:E; [symmetry; apply Z.ltb_lt; nia|]. destruct (y <? x) eqn:E'; [symmetry; apply Z.ltb_ge; nia|].
  rewrite IH by (auto; lia). assert (x = y) by lia. subst y. destruct (number a <? number b) eqn:N; symmetry; [apply Z.ltb_lt|apply Z.ltb_ge]; lia.
Qed.
(** The sign of a comparison of rationals. *)
Definition sign3 (k : comparison) : Z := match k with Lt => -1 | Datatypes.Eq => 0 | Gt => 1 end.
Lemma Qcompare_lt : forall a b, (a < b)%Q -> (a ?= b)%Q = Lt.
Proof. intros. now apply Qlt_alt. Qed.
Lemma Qcompare_gt : forall a b, (b < a)%Q -> (a ?= b)%Q = Gt.
Proof. intros. now apply Qgt_alt. Qed.
Lemma Qcompare_eq : forall a b, (a == b)%Q -> (a ?= b)%Q = Datatypes.Eq.
Proof. intros. now apply Qeq_alt. Qed.
(** Two positive numbers of different leading exponents. *)
Lemma leading_lt : forall i1 e1 i2 e2, coefficient i1 -> coefficient i2 -> 0 < number i1 -> 0 < number i2 ->
  e1 + len i1 - 1 < e2 + len i2 - 1 -> (inject_Z (number i1) * ten e1 < inject_Z (number i2) * ten e2)%Q.
Proof.
  intros i1 e1 i2 e2 C1 C2 N1 N2 L. pose proof (leading i1 e1 C1 N1) as (_ & A). pose proof (leading i2 e2 C2 N2) as (B & _).
  apply (Qlt_le_trans _ _ _ A). apply (Qle_trans _ (ten (e2 + len i2 - 1))); [apply (proj1 (ten_le _ _)); lia|exact B].
Qed.
Lemma padded : forall i e m, coefficient i -> 0 < number i -> Forall is_digit (i ++ zeros (e - m)) /\ (m <= e -> number (i ++ zeros (e - m)) = units i e m).
Proof.
  intros i e m C N. split; [exact (proj1 (coefficient_zeros i (e - m) C N))|]. intro H. rewrite number_zeros. unfold units. f_equal. f_equal. lia.
Qed.
Theorem cmp_exact : forall s1 i1 e1 s2 i2 e2, coefficient i1 -> coefficient i2 ->
  cmp (Fin s1 i1 e1) (Fin s2 i2 e2) = sign3 (value s1 i1 e1 ?= value s2 i2 e2)%Q.
Proof.
  intros s1 i1 e1 s2 i2 e2 C1 C2. cbn [cmp].
  assert (VZ : forall s i e, coefficient i -> is0 i = true -> (value s i e == 0)%Q) by (intros s i e C Z0; apply value_zero; [assumption|now apply is0_iff]).
  assert (VP : forall (s : bool) i e, coefficient i -> is0 i = false -> (if s then value s i e < 0 else 0 < value s i e)%Q).
  { intros s i e C Z0. apply is0_false in Z0; [|assumption]. pose proof (scaled_pos (number i) e Z0). pose proof (value_sgn s i e) as V. destruct s; cbn [sgn] in V; lra. }
  destruct (is0 i1) eqn:Z1; destruct (is0 i2) eqn:Z2.
  - rewrite Qcompare_eq; [reflexivity|]. now rewrite !VZ.
  - specialize (VP s2 i2 e2 C2 Z2). specialize (VZ s1 i1 e1 C1 Z1). destruct s2; cbn [pm]; [rewrite Qcompare_gt by lra|rewrite Qcompare_lt by lra]; reflexivity.
  - specialize (VP s1 i1 e1 C1 Z1). specialize (VZ s2 i2 e2 C2 Z2). destruct s1; cbn [pm]; [rewrite Qcompare_lt by lra|rewrite Qcompare_gt by lra]; reflexivity.
  - pose proof (VP s1 i1 e1 C1 Z1) as P1. pose proof (VP s2 i2 e2 C2 Z2) as P2. destruct (s1 && negb s2) eqn:S1.
    { destruct s1, s2; try discriminate. rewrite Qcompare_lt by lra. reflexivity. }
    destruct (negb s1 && s2) eqn:S2.
    { destruct s1, s2; try discriminate. rewrite Qcompare_gt by lra. reflexivity. }
    assert (s2 = s1) by (destruct s1, s2; auto; discriminate). subst s2. clear S1 S2 VZ VP P1 P2.
    apply is0_false in Z1, Z2; try assumption. pose proof (value_sgn s1 i1 e1) as V1. pose proof (value_sgn s1 i2 e2) as V2.
    assert (Key : forall y1 y2 : Q, (value s1 i1 e1 == sgn s1 y1)%Q -> (value s1 i2 e2 == sgn s1 y2)%Q ->
      ((y1 < y2)%Q -> sign3 (value s1 i1 e1 ?= value s1 i2 e2)%Q = - pm s1) /\ ((y2 < y1)%Q -> sign3 (value s1 i1 e1 ?= value s1 i2 e2)%Q = pm s1) /\ ((y1 == y2)%Q -> sign3 (value s1 i1 e1 ?= value s1 i2 e2)%Q = 0)).
    { intros y1 y2 E1 E2. destruct s1; cbn [sgn pm] in *; (split; [|split]); intro H; (rewrite Qcompare_lt by lra; reflexivity) || (rewrite Qcompare_gt by lra; reflexivity) || (rewrite Qcompare_eq by lra; reflexivity). }
    destruct (Key _ _ V1 V2) as (K1 & K2 & K3). clear Key.
    destruct (e1 + len i1 - 1 =? e2 + len i2 - 1) eqn:A.
    + remember (Z.min e1 e2) as m eqn:Em.
      assert (L : length (i1 ++ zeros (e1 - e2)) = length (i2 ++ zeros (e2 - e1))) by (rewrite !app_length; unfold zeros; rewrite !repeat_length; unfold len in *; lia).
      destruct (padded i1 e1 e2 C1 Z1) as (D1 & U1). destruct (padded i2 e2 e1 C2 Z2) as (D2 & U2).
      rewrite str_eq_number, str_lt_number by assumption.
      assert (Q1 : number (i1 ++ zeros (e1 - e2)) = units i1 e1 m).
      { destruct (Z.le_gt_cases e2 e1) as [G|G]; [rewrite U1 by exact G; f_equal; lia|]. rewrite number_zeros. unfold units. replace m with e1 by lia. rewrite Z.sub_diag. f_equal. f_equal. lia. }
      assert (Q2 : number (i2 ++ zeros (e2 - e1)) = units i2 e2 m).
      { destruct (Z.le_gt_cases e1 e2) as [G|G]; [rewrite U2 by exact G; f_equal; lia|]. rewrite number_zeros. unfold units. replace m with e2 by lia. rewrite Z.sub_diag. f_equal. f_equal. lia. }
      rewrite Q1, Q2. pose proof (rescaled (number i1) e1 m ltac:(lia)) as R1. pose proof (rescaled (number i2) e2 m ltac:(lia)) as R2. fold (units i1 e1 m) in R1. fold (units i2 e2 m) in R2.
      destruct (units i1 e1 m =? units i2 e2 m) eqn:Eq; [symmetry; apply K3; rewrite R1, R2, scaled_eq; lia|].
      destruct (units i1 e1 m <? units i2 e2 m) eqn:Lt; symmetry; [apply K1|apply K2]; rewrite R1, R2, scaled_lt; lia.
    + destruct (e1 + len i1 - 1 >? e2 + len i2 - 1) eqn:G; symmetry; [apply K2|apply K1]; apply leading_lt; auto; lia.
Qed.
Lemma cmp_zero : forall s1 i1 e1 s2 i2 e2, coefficient i1 -> coefficient i2 ->
  (cmp (Fin s1 i1 e1) (Fin s2 i2 e2) =? 0) = true <-> (value s1 i1 e1 == value s2 i2 e2)%Q.
Proof. intros. rewrite cmp_exact by assumption. rewrite Qeq_alt. destruct (_ ?= _)%Q; cbn; split; intro; congruence. Qed.
