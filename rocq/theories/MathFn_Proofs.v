From Coq Require Import ZArith List Bool Lia ZifyBool ZifyNat Znumtheory.
From Verif Require Import Py IntOps_Model IntOps_Proofs MathFn_Model.
Import ListNotations.
Open Scope Z_scope.
Lemma m_mod_ok a b : b <> 0 -> m_mod a b = Ok (a mod b).
Proof.
  intro N. unfold m_mod, zmod. replace (b =? 0) with false by lia. destruct (Z.lt_ge_cases b 0) as [L|G].
  - replace (0 <=? b) with false by lia. cbn [orb]. replace (Z.abs b) with (- b) by lia.
    destruct (a mod - b =? 0) eqn:E.
    + f_equal. assert (X : a mod - b = 0) by lia. rewrite X. symmetry. apply Z.mod_opp_r_z in X; [|lia]. now rewrite Z.opp_involutive in X.
    + f_equal. assert (X : a mod - b <> 0) by lia. pose proof (Z.mod_opp_r_nz a (- b) ltac:(lia) X) as Y. rewrite Z.opp_involutive in Y. lia.
  - replace (0 <=? b) with true by lia. cbn [orb]. f_equal. f_equal. lia.
Qed.
Lemma gcd_loop_ok f : forall a b, Z.abs b < Z.of_nat f -> gcd_loop f a b = Ok (Z.gcd a b).
Proof.
  induction f as [|f IH]; intros a b H; [lia|]. cbn [gcd_loop]. destruct (b =? 0) eqn:E.
  - f_equal. assert (b = 0) by lia. subst. rewrite Z.gcd_0_r. unfold m_abs. destruct (a <? 0) eqn:L; lia.
  - rewrite m_mod_ok by lia. cbn [bind]. rewrite IH.
    + f_equal. rewrite Z.gcd_comm. rewrite Z.gcd_mod by lia. apply Z.gcd_comm.
    + destruct (Z.lt_ge_cases b 0); [pose proof (Z.mod_neg_bound a b ltac:(lia))|pose proof (Z.mod_pos_bound a b ltac:(lia))]; lia.
Qed.
