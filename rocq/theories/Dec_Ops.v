(** Addition, subtraction, multiplication, fused multiply-add and division. *)
From Coq Require Import ZArith QArith Qabs Lqa List Bool Lia ZifyBool ZifyNat.
From Verif Require Import Dec_Model Dec_Spec Dec_Digits Dec_Round Dec_Fix Dec_Arith.
Import ListNotations.
Open Scope Z_scope.

Lemma no_nans : forall c x y k, isnan x = 0 -> match y with Some y => isnan y = 0 | None => True end -> after_nans c x y k = k.
Proof.
  intros c x y k X Y. unfold after_nans, check_nans. rewrite X. destruct y as [y|]; [rewrite Y|]; reflexivity.
Qed.
Lemma to_str_pad : forall i k, coefficient i -> 0 < number i -> 0 <= k -> i ++ zeros k = to_str (number i * 10 ^ k).
Proof.
  intros i k C N K. pose proof (pow10_pos k K). apply coefficient_inj; [now apply coefficient_zeros|apply coefficient_to_str; nia|].
  rewrite number_zeros, number_to_str by nia. f_equal. f_equal. lia.
Qed.

(** The exact sum, as a decimal with the smaller of the two exponents. *)
Definition exact_sum (c : ctx) (s1 : bool) (n1 e1 : Z) (s2 : bool) (n2 e2 : Z) : dec :=
  let e := Z.min e1 e2 in
  let n := signed s1 n1 * 10 ^ (e1 - e) + signed s2 n2 * 10 ^ (e2 - e) in
  Fin (if n =? 0 then zero_sign c s1 s2 else n <? 0) (to_str (Z.abs n)) e.

(** The replacement of a negligible operand. *)
Lemma add_negligible : forall c st so ti te oi oe f, valid c -> 0 < ti -> 0 < oi ->
  let exp := te + Z.min (-1) (len (to_str ti) - prec c - 2) in
  len (to_str oi) + oe - 1 < exp ->
  let T := ti * 10 ^ (te - exp) in
  let X := ti * 10 ^ (te - oe) in
  10 <= T /\ oe < te /\ oi < X /\
  fix_ c (Fin st (to_str (if Bool.eqb st so then T + 1 else T - 1)) exp) f = fix_ c (Fin st (to_str (if Bool.eqb st so then X + oi else X - oi)) oe) f.
Proof.
  intros c st so ti te oi oe f V Nt No exp H T X. pose proof V as (P1 & Em & EM).
  destruct (digits_of ti Nt) as (Lt & Bt). destruct (digits_of oi No) as (Lo & Bo).
  assert (G : exp <= te - 1 /\ exp + prec c <= te + len (to_str ti) - 2) by (unfold exp; lia).
  pose proof (pow10_pos (te - exp - 1) ltac:(lia)) as Pw.
  assert (Tw : T = 5 * (2 * (ti * 10 ^ (te - exp - 1)))) by (unfold T; rewrite pow_five by lia; ring).
  remember (ti * 10 ^ (te - exp - 1)) as t eqn:Et. assert (Tp : 1 <= t) by nia.
  (* both sums in units of 10^exp *)
  assert (Ov : (0 < inject_Z oi * ten oe /\ inject_Z oi * ten oe < ten exp)%Q).
  { split; [now apply scaled_pos|]. apply (Qlt_le_trans _ (ten (oe + len (to_str oi)))); [|apply (proj1 (ten_le _ _)); lia].
    rewrite (ten_as (oe + len (to_str oi)) oe) by lia. rewrite scaled_lt. replace (oe + len (to_str oi) - oe) with (len (to_str oi)) by lia. lia. }
  assert (Xv : (inject_Z X * ten oe == inject_Z (5 * (2 * t)) * ten exp)%Q).
  { rewrite <- Tw. unfold X, T. rewrite <- (rescaled ti te oe), <- (rescaled ti te exp) by lia. reflexivity. }
  assert (OX : oi < X).
  { rewrite <- (scaled_lt oi X oe). rewrite Xv. apply (Qlt_trans _ (ten exp)); [tauto|]. rewrite <- (Qmult_1_l (ten exp)) at 1. change 1%Q with (inject_Z 1). rewrite scaled_lt. lia. }
  split; [lia|]. split; [lia|]. split; [exact OX|].
  assert (one : forall n, (inject_Z n * ten exp + ten exp == inject_Z (n + 1) * ten exp)%Q) by (intro n; rewrite inject_Z_plus; change (inject_Z 1) with 1%Q; ring).
  assert (one' : forall n, (inject_Z n * ten exp - ten exp == inject_Z (n - 1) * ten exp)%Q) by (intro n; unfold Z.sub; rewrite inject_Z_plus; change (inject_Z (- (1))) with (- (1))%Q; ring).
  assert (Lead : forall n, 0 < n -> 10 ^ (te - exp + len (to_str ti) - 2) <= n -> exp + prec c <= exp + len (to_str n) - 1).
  { intros n Nn Hn. destruct (digits_of n Nn) as (Ln & Bn).
    destruct (Z.le_gt_cases (te - exp + len (to_str ti) - 1) (len (to_str n))) as [A|A]; [lia|].
    pose proof (pow10_le (len (to_str n)) (te - exp + len (to_str ti) - 2) ltac:(lia)). lia. }
  assert (T1 : 10 ^ (te - exp + len (to_str ti) - 2) * 10 <= T).
  { unfold T. replace (te - exp + len (to_str ti) - 2) with ((te - exp) + (len (to_str ti) - 1) - 1) by lia.
    replace (10 ^ (te - exp + (len (to_str ti) - 1) - 1) * 10) with (10 ^ (te - exp + (len (to_str ti) - 1))).
    - rewrite Z.pow_add_r by lia. pose proof (pow10_pos (te - exp) ltac:(lia)). nia.
    - rewrite <- (Z.pow_1_r 10) at 3. rewrite <- Z.pow_add_r by lia. f_equal. lia. }
  pose proof (pow10_pos (te - exp + len (to_str ti) - 2) ltac:(lia)).
  destruct (Bool.eqb st so).
  - apply (fix_slot c st _ exp _ oe exp f V); try (apply coefficient_to_str; lia); try (rewrite number_to_str; lia); try lia.
    + rewrite !number_to_str by lia. exists (2 * t). rewrite !scaled_lt. split; [lia|].
      rewrite (inject_Z_plus X oi), Qmult_plus_distr_l, Xv. pose proof (one (5 * (2 * t))) as O1.
      assert (O2 : (inject_Z (5 * (2 * t) + 1) * ten exp < inject_Z (5 * (2 * t + 1)) * ten exp)%Q) by (rewrite scaled_lt; lia). split; lra.
    + apply Lead; lia.
  - apply (fix_slot c st _ exp _ oe exp f V); try (apply coefficient_to_str; lia); try (rewrite number_to_str; lia); try lia.
    + rewrite !number_to_str by lia. exists (2 * t - 1). rewrite !scaled_lt. split; [lia|].
      assert (Xo : (inject_Z (X - oi) * ten oe == inject_Z (5 * (2 * t)) * ten exp - inject_Z oi * ten oe)%Q) by (rewrite <- Xv; unfold Z.sub; rewrite inject_Z_plus, inject_Z_opp; ring).
      rewrite Xo. pose proof (one' (5 * (2 * t))) as O1.
      assert (O2 : (inject_Z (5 * (2 * t - 1)) * ten exp < inject_Z (5 * (2 * t) - 1) * ten exp)%Q) by (rewrite scaled_lt; lia).
      replace (2 * t - 1 + 1) with (2 * t) by lia. split; lra.
    + apply Lead; lia.
Qed.

Lemma zero_sum : forall c s1 s2 e1 e2, exact_sum c s1 0 e1 s2 0 e2 = Fin (zero_sign c s1 s2) [0] (Z.min e1 e2).
Proof. intros. unfold exact_sum. destruct s1, s2; reflexivity. Qed.
Lemma signed_zero : forall s n, signed s n = 0 <-> n = 0.
Proof. intros [|] n; cbn [signed]; lia. Qed.

(** Addition is: the exact sum, then rounded into the context. *)
Theorem add_exact : forall c s1 i1 e1 s2 i2 e2 f, valid c -> coefficient i1 -> coefficient i2 ->
  add c (Fin s1 i1 e1) (Fin s2 i2 e2) f = fix_ c (exact_sum c s1 (number i1) e1 s2 (number i2) e2) f.
Proof.
  intros c s1 i1 e1 s2 i2 e2 f V C1 C2. pose proof V as (P1 & Em & EM). unfold add. rewrite no_nans by reflexivity.
  pose proof C1 as (F1 & _). pose proof C2 as (F2 & _). pose proof (number_bound i1 F1) as B1. pose proof (number_bound i2 F2) as B2.
  destruct (is0 i1) eqn:Z1; destruct (is0 i2) eqn:Z2; cbn [andb].
  - apply is0_iff in Z1, Z2; try assumption. rewrite Z1, Z2, zero_sum. f_equal. f_equal. unfold zero_sign, is_floor. destruct s1, s2, (rounding c); reflexivity.
  - apply is0_iff in Z1; [|assumption]. apply is0_false in Z2; [|assumption]. rewrite Z1. cbn [rescale]. replace (is0 i2) with false by (symmetry; now apply is0_false).
    replace (e2 >=? Z.max (Z.min e1 e2) (e2 - prec c - 1)) with true by lia.
    assert (ES : exact_sum c s1 0 e1 s2 (number i2) e2 = Fin s2 (to_str (number i2 * 10 ^ (e2 - Z.min e1 e2))) (Z.min e1 e2)).
    { unfold exact_sum. cbv zeta. pose proof (pow10_pos (e2 - Z.min e1 e2) ltac:(lia)).
      replace (signed s1 0) with 0 by (destruct s1; reflexivity). rewrite Z.mul_0_l, Z.add_0_l.
      replace (signed s2 (number i2) * 10 ^ (e2 - Z.min e1 e2) =? 0) with false by (symmetry; apply Z.eqb_neq; destruct s2; cbn [signed]; nia).
      f_equal; [destruct s2; cbn [signed]; nia|]. f_equal. destruct s2; cbn [signed]; nia. }
    rewrite ES. destruct (Z.le_gt_cases (e2 - prec c - 1) (Z.min e1 e2)) as [A|A].
    + replace (Z.max (Z.min e1 e2) (e2 - prec c - 1)) with (Z.min e1 e2) by lia. now rewrite to_str_pad by (auto; lia).
    + replace (Z.max (Z.min e1 e2) (e2 - prec c - 1)) with (e2 - prec c - 1) by lia. rewrite to_str_pad by (auto; lia).
      pose proof (pow10_pos (e2 - (e2 - prec c - 1)) ltac:(lia)). pose proof (pow10_pos (e2 - Z.min e1 e2) ltac:(lia)).
      destruct (digits_of_number i2 C2 Z2) as (L2 & _).
      assert (Ln : forall k, 0 <= k -> len (to_str (number i2 * 10 ^ k)) = len i2 + k) by (intros k K; rewrite <- to_str_pad by auto; now apply len_zeros).
      apply fix_pad; try (apply coefficient_to_str; nia); try (rewrite number_to_str; nia); [assumption| | |].
      * rewrite !number_to_str by nia. rewrite <- !rescaled by lia. reflexivity.
      * left. rewrite Ln by lia. unfold unit_exp. lia.
      * left. rewrite Ln by lia. unfold unit_exp. lia.
  - apply is0_iff in Z2; [|assumption]. apply is0_false in Z1; [|assumption]. rewrite Z2. cbn [rescale]. replace (is0 i1) with false by (symmetry; now apply is0_false).
    replace (e1 >=? Z.max (Z.min e1 e2) (e1 - prec c - 1)) with true by lia.
    assert (ES : exact_sum c s1 (number i1) e1 s2 0 e2 = Fin s1 (to_str (number i1 * 10 ^ (e1 - Z.min e1 e2))) (Z.min e1 e2)).
    { unfold exact_sum. cbv zeta. pose proof (pow10_pos (e1 - Z.min e1 e2) ltac:(lia)).
      replace (signed s2 0) with 0 by (destruct s2; reflexivity). rewrite Z.mul_0_l, Z.add_0_r.
      replace (signed s1 (number i1) * 10 ^ (e1 - Z.min e1 e2) =? 0) with false by (symmetry; apply Z.eqb_neq; destruct s1; cbn [signed]; nia).
      f_equal; [destruct s1; cbn [signed]; nia|]. f_equal. destruct s1; cbn [signed]; nia. }
    rewrite ES. destruct (Z.le_gt_cases (e1 - prec c - 1) (Z.min e1 e2)) as [A|A].
    + replace (Z.max (Z.min e1 e2) (e1 - prec c - 1)) with (Z.min e1 e2) by lia. now rewrite to_str_pad by (auto; lia).
    + replace (Z.max (Z.min e1 e2) (e1 - prec c - 1)) with (e1 - prec c - 1) by lia. rewrite to_str_pad by (auto; lia).
      pose proof (pow10_pos (e1 - (e1 - prec c - 1)) ltac:(lia)). pose proof (pow10_pos (e1 - Z.min e1 e2) ltac:(lia)).
      destruct (digits_of_number i1 C1 Z1) as (L1 & _).
      assert (Ln : forall k, 0 <= k -> len (to_str (number i1 * 10 ^ k)) = len i1 + k) by (intros k K; rewrite <- to_str_pad by auto; now apply len_zeros).
      apply fix_pad; try (apply coefficient_to_str; nia); try (rewrite number_to_str; nia); [assumption| | |].
      * rewrite !number_to_str by nia. rewrite <- !rescaled by lia. reflexivity.
      * left. rewrite Ln by lia. unfold unit_exp. lia.
      * left. rewrite Ln by lia. unfold unit_exp. lia.
  - apply is0_false in Z1, Z2; try assumption. rewrite !to_int_number. remember (number i1) as n1 eqn:En1. remember (number i2) as n2 eqn:En2.
    unfold normalize2. unfold exact_sum. cbv zeta. destruct (e1 <? e2) eqn:Sw.
    + (* the second operand has the larger exponent *)
      replace (Z.min e1 e2) with e1 by lia. rewrite Z.sub_diag, Z.pow_0_r, Z.mul_1_r.
      destruct (len (to_str n1) + e1 - 1 <? e2 + Z.min (-1) (len (to_str n2) - prec c - 2)) eqn:Ng.
      * pose proof (fun so => add_negligible c s2 so n2 e2 n1 e1 f V Z2 Z1 ltac:(lia)) as A. cbv zeta in A.
        destruct (Bool.eqb s1 s2) eqn:Es; cbn [negb andb].
        -- destruct (A s2) as (T10 & _ & OX & AE). rewrite Bool.eqb_reflx in AE. apply Bool.eqb_prop in Es. subst s2.
           replace (signed s1 n1 + signed s1 n2 * 10 ^ (e2 - e1) =? 0) with false by (symmetry; apply Z.eqb_neq; destruct s1; cbn [signed]; nia).
           rewrite (Z.add_comm 1), AE. f_equal. f_equal; [destruct s1; cbn [signed]; nia|]. f_equal. destruct s1; cbn [signed]; nia.
        -- destruct (A (negb s2)) as (T10 & _ & OX & AE). replace (Bool.eqb s2 (negb s2)) with false in AE by (destruct s2; reflexivity).
           assert (s1 = negb s2) by (destruct s1, s2; cbn in *; congruence). subst s1.
           replace (signed (negb s2) n1 + signed s2 n2 * 10 ^ (e2 - e1) =? 0) with false by (symmetry; apply Z.eqb_neq; destruct s2; cbn [signed negb]; nia).
           match goal with |- context [1 =? ?T] => replace (1 =? T) with false by lia; replace (1 <? T) with true by lia end.
           rewrite AE. f_equal. f_equal; [destruct s2; cbn [signed negb]; nia|]. f_equal. destruct s2; cbn [signed negb]; nia.
      * pose proof (pow10_pos (e2 - e1) ltac:(lia)). destruct (Bool.eqb s1 s2) eqn:Es; cbn [negb andb].
        -- apply Bool.eqb_prop in Es. subst s2.
           replace (signed s1 n1 + signed s1 n2 * 10 ^ (e2 - e1) =? 0) with false by (symmetry; apply Z.eqb_neq; destruct s1; cbn [signed]; nia).
           f_equal. f_equal; [destruct s1; cbn [signed]; nia|]. f_equal. destruct s1; cbn [signed]; nia.
        -- assert (s1 = negb s2) by (destruct s1, s2; cbn in *; congruence). subst s1.
           destruct (n1 =? n2 * 10 ^ (e2 - e1)) eqn:Eq.
           ++ replace (signed (negb s2) n1 + signed s2 n2 * 10 ^ (e2 - e1)) with 0 by (destruct s2; cbn [signed negb]; lia).
              change (0 =? 0) with true. cbn iota. f_equal. f_equal. unfold zero_sign. rewrite Es. now rewrite andb_true_r.
           ++ replace (signed (negb s2) n1 + signed s2 n2 * 10 ^ (e2 - e1) =? 0) with false by (symmetry; apply Z.eqb_neq; destruct s2; cbn [signed negb]; lia).
              destruct (n1 <? n2 * 10 ^ (e2 - e1)) eqn:Lt; f_equal; (f_equal; [destruct s2; cbn [signed negb]; lia|]); f_equal; destruct s2; cbn [signed negb]; lia.
    + replace (Z.min e1 e2) with e2 by lia. rewrite Z.sub_diag, Z.pow_0_r, Z.mul_1_r.
      destruct (len (to_str n2) + e2 - 1 <? e1 + Z.min (-1) (len (to_str n1) - prec c - 2)) eqn:Ng.
      * pose proof (fun so => add_negligible c s1 so n1 e1 n2 e2 f V Z1 Z2 ltac:(lia)) as A. cbv zeta in A.
        destruct (Bool.eqb s1 s2) eqn:Es; cbn [negb andb].
        -- destruct (A s1) as (T10 & _ & OX & AE). rewrite Bool.eqb_reflx in AE. apply Bool.eqb_prop in Es. subst s2.
           replace (signed s1 n1 * 10 ^ (e1 - e2) + signed s1 n2 =? 0) with false by (symmetry; apply Z.eqb_neq; destruct s1; cbn [signed]; nia).
           rewrite AE. f_equal. f_equal; [destruct s1; cbn [signed]; nia|]. f_equal. destruct s1; cbn [signed]; nia.
        -- destruct (A (negb s1)) as (T10 & _ & OX & AE). replace (Bool.eqb s1 (negb s1)) with false in AE by (destruct s1; reflexivity).
           assert (s2 = negb s1) by (destruct s1, s2; cbn in *; congruence). subst s2.
           replace (signed s1 n1 * 10 ^ (e1 - e2) + signed (negb s1) n2 =? 0) with false by (symmetry; apply Z.eqb_neq; destruct s1; cbn [signed negb]; nia).
           match goal with |- context [?T =? 1] => replace (T =? 1) with false by lia; replace (T <? 1) with false by lia end.
           rewrite AE. f_equal. f_equal; [destruct s1; cbn [signed negb]; nia|]. f_equal. destruct s1; cbn [signed negb]; nia.
      * pose proof (pow10_pos (e1 - e2) ltac:(lia)). destruct (Bool.eqb s1 s2) eqn:Es; cbn [negb andb].
        -- apply Bool.eqb_prop in Es. subst s2.
           replace (signed s1 n1 * 10 ^ (e1 - e2) + signed s1 n2 =? 0) with false by (symmetry; apply Z.eqb_neq; destruct s1; cbn [signed]; nia).
           f_equal. f_equal; [destruct s1; cbn [signed]; nia|]. f_equal. destruct s1; cbn [signed]; nia.
        -- assert (s2 = negb s1) by (destruct s1, s2; cbn in *; congruence). subst s2.
           destruct (n1 * 10 ^ (e1 - e2) =? n2) eqn:Eq.
           ++ replace (signed s1 n1 * 10 ^ (e1 - e2) + signed (negb s1) n2) with 0 by (destruct s1; cbn [signed negb]; lia).
              change (0 =? 0) with true. cbn iota. f_equal. f_equal. unfold zero_sign. rewrite Es. now rewrite andb_true_r.
           ++ replace (signed s1 n1 * 10 ^ (e1 - e2) + signed (negb s1) n2 =? 0) with false by (symmetry; apply Z.eqb_neq; destruct s1; cbn [signed negb]; lia).
              destruct (n1 * 10 ^ (e1 - e2) <? n2) eqn:Lt; f_equal; (f_equal; [destruct s1; cbn [signed negb]; lia|]); f_equal; destruct s1; cbn [signed negb]; lia.
Qed.

Lemma rounded_eq : forall c x y r sigs, (x == y)%Q -> rounded c x r sigs -> rounded c y r sigs.
Proof.
  intros c x y r sigs X (E & n & A1 & A2 & (s & A3 & A4) & A5 & A6 & A7 & A8). cbv zeta in *. exists E, n. cbv zeta.
  split; [now rewrite <- X|].
  split; [apply (rounds_eq _ (x * ten (- Z.max (E - prec c + 1) (Emin c - prec c + 1)))); [now rewrite X|exact A2]|].
  split; [exists s; split; [destruct s; now rewrite <- X|exact A4]|]. split; [now rewrite <- X|]. split; [exact A6|]. split; [now rewrite <- X|exact A8].
Qed.
(** Rounding a finite number into the context delivers its value. *)
Lemma value_zero : forall s i e, coefficient i -> (value s i e == 0)%Q <-> number i = 0.
Proof.
  intros s i e C. rewrite value_sgn. pose proof C as (F & _). pose proof (number_bound i F). split.
  - intro Z0. destruct (Z.eq_dec (number i) 0) as [|N]; [assumption|]. pose proof (scaled_pos (number i) e ltac:(lia)). destruct s; cbn [sgn] in Z0; lra.
  - intros ->. destruct s; cbn [sgn]; ring.
Qed.
Lemma value_abs : forall s i e, coefficient i -> (Qabs (value s i e) == inject_Z (number i) * ten e)%Q.
Proof.
  intros s i e (F & _). pose proof (number_bound i F) as B. rewrite value_sgn, abs_sgn. apply Qabs_pos.
  pose proof (ten_pos e). assert (0 <= inject_Z (number i))%Q by (change 0%Q with (inject_Z 0); rewrite <- Zle_Qle; lia). nra.
Qed.
Lemma bits_too_fine : forall c s i e, valid c -> coefficient i -> 0 < number i -> bits c i e <-> too_fine c (value s i e) e.
Proof.
  intros c s i e V C N. pose proof (leading i e C N) as (L1 & L2). unfold bits, too_fine, unit_exp, Etiny. split.
  - intro B. exists (e + len i - 1). rewrite value_abs by assumption. split; [split; assumption|]. lia.
  - intros (E & (A1 & A2) & B). rewrite value_abs in A1, A2 by assumption. pose proof (leading_unique _ _ _ A1 A2 L1 L2). subst E. lia.
Qed.
Theorem fix_delivers : forall c s i e x, valid c -> coefficient i -> (x == value s i e)%Q -> delivers c x s e (fix_ c (Fin s i e)).
Proof.
  intros c s i e x V C X. pose proof C as (F & _). pose proof (number_bound i F) as B. unfold delivers. cbv zeta. split.
  - intro Z0. rewrite X, value_zero in Z0 by assumption. pose proof (zero_coefficient i C Z0). subst i. eexists. split; [|reflexivity].
    intro f. rewrite fix_zero. cbv zeta. unfold Etiny, Etop. destruct (_ =? e); reflexivity.
  - intro Z0. rewrite X, value_zero in Z0 by assumption. assert (N : 0 < number i) by lia.
    destruct (fix_correct c s i e V C N) as (r & sigs & R1 & R2 & R3 & R4 & R5 & R6). exists r, sigs. split; [exact R1|].
    assert (Tf : forall y, (y == value s i e)%Q -> too_fine c y e <-> bits c i e).
    { intros y Y. rewrite (bits_too_fine c s) by assumption. unfold too_fine. split; intros (E & A & B'); exists E; (split; [|exact B']); [now rewrite <- Y|now rewrite Y]. }
    split; [|split; [exact R6|split; [rewrite (Tf x X); exact R3|split]]].
    + apply (rounded_eq c (value s i e)); [now symmetry|exact R2].
    + rewrite R3. intro NB. rewrite (R4 NB). unfold fold_down, folded, Etop. destruct (clamp c); cbn [andb].
      * destruct (e >? Emax c - prec c + 1) eqn:G; eexists _, _; f_equal; lia.
      * now exists s, i.
    + rewrite R3, R5. unfold folded, Etop. split; (intros [A|[A1 A2]]; [now left|right]); (split; [exact A1|]); lia.
Qed.
(** [delivers] does not depend on how the number or the steps are written. *)
Lemma delivers_ext : forall c x z e m m', (forall f, m f = m' f) -> delivers c x z e m -> delivers c x z e m'.
Proof.
  intros c x z e m m' H (A & B). split; [intro X; destruct (A X) as (e' & A1 & A2); exists e'; split; [intro f; now rewrite <- H|exact A2]|].
  intro X. destruct (B X) as (r & sigs & B1 & B2). exists r, sigs. split; [intro f; now rewrite <- H|exact B2].
Qed.
Lemma too_fine_eq : forall c x y e, (x == y)%Q -> too_fine c x e <-> too_fine c y e.
Proof. intros c x y e X. unfold too_fine. split; intros (E & A & B); exists E; (split; [|exact B]); [now rewrite <- X|now rewrite X]. Qed.
Lemma delivers_eq : forall c x y z e m, (x == y)%Q -> delivers c x z e m -> delivers c y z e m.
Proof.
  intros c x y z e m X (A & B). split; [intro Y; apply A; now rewrite X|]. intro Y. destruct B as (r & sigs & B1 & B2 & B3 & B4 & B5); [now rewrite X|].
  exists r, sigs. split; [exact B1|]. split; [now apply (rounded_eq c x)|]. split; [exact B3|]. split; [now rewrite <- (too_fine_eq c x y)|exact B5].
Qed.
Lemma value_sum : forall c s1 i1 e1 s2 i2 e2, coefficient i1 -> coefficient i2 ->
  exists s i, exact_sum c s1 (number i1) e1 s2 (number i2) e2 = Fin s i (Z.min e1 e2) /\ coefficient i /\
  (value s i (Z.min e1 e2) == value s1 i1 e1 + value s2 i2 e2)%Q /\ (number i = 0 -> s = zero_sign c s1 s2).
Proof.
  intros c s1 i1 e1 s2 i2 e2 C1 C2. unfold exact_sum. cbv zeta.
  remember (signed s1 (number i1) * 10 ^ (e1 - Z.min e1 e2) + signed s2 (number i2) * 10 ^ (e2 - Z.min e1 e2)) as n eqn:En.
  eexists _, _. split; [reflexivity|]. split; [apply coefficient_to_str; lia|]. split.
  - unfold value. rewrite number_to_str by lia. rewrite (rescaled (signed s1 (number i1)) e1 (Z.min e1 e2)), (rescaled (signed s2 (number i2)) e2 (Z.min e1 e2)) by lia.
    rewrite <- Qmult_plus_distr_l, <- inject_Z_plus, <- En. destruct (n =? 0) eqn:Z0.
    + replace n with 0 by lia. destruct (zero_sign c s1 s2); reflexivity.
    + replace (signed (n <? 0) (Z.abs n)) with n; [reflexivity|]. destruct (n <? 0) eqn:L; cbn [signed]; lia.
  - rewrite number_to_str by lia. intro Z0. now replace (n =? 0) with true by lia.
Qed.
Lemma delivers_sign : forall c x z z' e m, (x == 0 -> z = z')%Q -> delivers c x z e m -> delivers c x z' e m.
Proof. intros c x z z' e m H (A & B). split; [|exact B]. intro X. rewrite <- (H X). exact (A X). Qed.
Theorem add_delivers : forall c s1 i1 e1 s2 i2 e2, valid c -> coefficient i1 -> coefficient i2 ->
  delivers c (value s1 i1 e1 + value s2 i2 e2) (zero_sign c s1 s2) (Z.min e1 e2) (add c (Fin s1 i1 e1) (Fin s2 i2 e2)).
Proof.
  intros c s1 i1 e1 s2 i2 e2 V C1 C2. destruct (value_sum c s1 i1 e1 s2 i2 e2 C1 C2) as (s & i & E & C & X & Z0).
  apply (delivers_ext _ _ _ _ (fix_ c (Fin s i (Z.min e1 e2)))); [intro f; rewrite add_exact, E by assumption; reflexivity|].
  apply (delivers_sign _ _ s); [|apply fix_delivers; [assumption|assumption|now symmetry]].
  rewrite <- X. rewrite value_zero by assumption. exact Z0.
Qed.
Lemma value_negate : forall s i e, (value (negb s) i e == - value s i e)%Q.
Proof. intros. rewrite !value_sgn. destruct s; cbn [sgn negb]; ring. Qed.
Theorem sub_delivers : forall c s1 i1 e1 s2 i2 e2, valid c -> coefficient i1 -> coefficient i2 ->
  delivers c (value s1 i1 e1 - value s2 i2 e2) (zero_sign c s1 (negb s2)) (Z.min e1 e2) (sub c (Fin s1 i1 e1) (Fin s2 i2 e2)).
Proof.
  intros c s1 i1 e1 s2 i2 e2 V C1 C2. apply (delivers_ext _ _ _ _ (add c (Fin s1 i1 e1) (Fin (negb s2) i2 e2))); [intro f; unfold sub; rewrite no_nans by reflexivity; reflexivity|].
  unfold Qminus. pose proof (add_delivers c s1 i1 e1 (negb s2) i2 e2 V C1 C2) as D.
  apply (delivers_eq c (value s1 i1 e1 + value (negb s2) i2 e2)); [now rewrite value_negate|exact D].
Qed.
