From Coq Require Import QArith Qround Qabs Qpower ZArith Bool List Lia Lqa.
From Verif Require Import Py FloatReal_Model FloatReal_Spec.
Open Scope Q_scope.

Lemma Qle_bool_false : forall a b, Qle_bool a b = false <-> b < a.
Proof.
  intros a b. split; intros H.
  - apply Qnot_le_lt. intros C. apply Qle_bool_iff in C. congruence.
  - destruct (Qle_bool a b) eqn:E; [|reflexivity]. apply Qle_bool_iff in E. lra.
Qed.
Lemma Qeq_bool_false : forall a b, Qeq_bool a b = false <-> ~ a == b.
Proof.
  intros a b. split; intros H.
  - apply Qeq_bool_neq, H.
  - destruct (Qeq_bool a b) eqn:E; [|reflexivity]. apply Qeq_bool_iff in E. contradiction.
Qed.
Lemma inject_Z_lt : forall a b, inject_Z a < inject_Z b <-> (a < b)%Z.
Proof. intros. rewrite Zlt_Qlt. reflexivity. Qed.
Lemma inject_Z_le' : forall a b, inject_Z a <= inject_Z b <-> (a <= b)%Z.
Proof. intros. rewrite Zle_Qle. reflexivity. Qed.
Lemma inj_lt : forall a b, inject_Z a < inject_Z b -> (a < b)%Z.
Proof. intros a b H. rewrite Zlt_Qlt. exact H. Qed.
Lemma inject_Z_S : forall a, inject_Z (a + 1) == inject_Z a + 1.
Proof. intros a. rewrite inject_Z_plus. reflexivity. Qed.

Lemma inj_pred : forall a, inject_Z (a - 1) == inject_Z a - 1.
Proof. intros a. unfold Z.sub. rewrite inject_Z_plus. reflexivity. Qed.

Lemma floor_spec : forall q, inject_Z (Qfloor q) <= q < inject_Z (Qfloor q) + 1.
Proof.
  intros q. split; [apply Qfloor_le|]. rewrite <- inject_Z_S. apply Qlt_floor.
Qed.
Lemma floor_unique : forall q z, inject_Z z <= q < inject_Z z + 1 -> Qfloor q = z.
Proof.
  intros q z [A B]. pose proof (floor_spec q) as [C D].
  assert (inject_Z z < inject_Z (Qfloor q + 1)) by (rewrite inject_Z_S; lra).
  assert (inject_Z (Qfloor q) < inject_Z (z + 1)) by (rewrite inject_Z_S; lra).
  apply inj_lt in H, H0. lia.
Qed.

Lemma int_truncates : forall x, truncates x (m_int x).
Proof.
  intros x. unfold m_int, to_int. destruct (Qle_bool 0 x) eqn:E.
  - apply Qle_bool_iff in E. pose proof (floor_spec x) as [A B]. split; [intros _; split; assumption|].
    intros C. assert (x == 0) as D by lra. rewrite (Qfloor_comp _ _ D).
    change (Qfloor 0) with 0%Z. change (inject_Z 0) with 0. lra.
  - apply Qle_bool_false in E. pose proof (floor_spec (- x)) as [A B]. split; [intros; lra|].
    intros _. rewrite inject_Z_opp. lra.
Qed.
Lemma truncates_unique : forall x z w, truncates x z -> truncates x w -> z = w.
Proof.
  intros x z w [A B] [C D]. destruct (Qlt_le_dec x 0) as [N|P].
  - assert (H : x <= 0) by lra. specialize (B H). specialize (D H).
    assert (inject_Z z < inject_Z (w + 1)) by (rewrite inject_Z_S; lra).
    assert (inject_Z w < inject_Z (z + 1)) by (rewrite inject_Z_S; lra).
    apply inj_lt in H0, H1. lia.
  - specialize (A P). specialize (C P).
    assert (inject_Z z < inject_Z (w + 1)) by (rewrite inject_Z_S; lra).
    assert (inject_Z w < inject_Z (z + 1)) by (rewrite inject_Z_S; lra).
    apply inj_lt in H, H0. lia.
Qed.
Lemma floor_is : forall x, is_floor x (m_floor x).
Proof.
  intros x. unfold m_floor, to_int. pose proof (floor_spec x) as [A B]. split; [assumption|].
  intros w H. assert (inject_Z w < inject_Z (Qfloor x + 1)) by (rewrite inject_Z_S; lra).
  apply inj_lt in H0. lia.
Qed.
Lemma ceil_is : forall x, is_ceil x (m_ceil x).
Proof.
  intros x. unfold m_ceil, to_int. pose proof (floor_spec x) as [A B].
  destruct (Qeq_bool x (inject_Z (Qfloor x))) eqn:E.
  - apply Qeq_bool_iff in E. split; [rewrite <- E; lra|].
    intros w H. rewrite E in H. apply inject_Z_le', H.
  - apply Qeq_bool_false in E. split; [rewrite inject_Z_S; lra|].
    intros w H. assert (inject_Z (Qfloor x) < inject_Z w) by (destruct (Qeq_dec x (inject_Z (Qfloor x))); [contradiction|lra]).
    apply inj_lt in H0. lia.
Qed.

Lemma Qabs_cases : forall a, (0 <= a /\ Qabs a == a) \/ (a < 0 /\ Qabs a == - a).
Proof.
  intros a. destruct (Qlt_le_dec a 0).
  - right. split; [assumption|]. apply Qabs_neg. lra.
  - left. split; [assumption|]. apply Qabs_pos. assumption.
Qed.
Lemma int_gap : forall a b : Z, a <> b -> inject_Z a + 1 <= inject_Z b \/ inject_Z b + 1 <= inject_Z a.
Proof.
  intros a b H. destruct (Z_lt_le_dec a b).
  - left. rewrite <- inject_Z_S. apply inject_Z_le'. lia.
  - right. rewrite <- inject_Z_S. apply inject_Z_le'. lia.
Qed.
(** a whole number within a half, even when at a half, is the rounded one *)
Lemma rounds_intro : forall x z,
  inject_Z z - (1 # 2) <= x <= inject_Z z + (1 # 2) ->
  (x == inject_Z z - (1 # 2) \/ x == inject_Z z + (1 # 2) -> Z.Even z) -> rounds_to x z.
Proof.
  intros x z [A B] T. split.
  - intros w. destruct (Z.eq_dec w z) as [->|N]; [lra|].
    pose proof (int_gap _ _ N) as G.
    destruct (Qabs_cases (x - inject_Z z)) as [[? ->]|[? ->]]; destruct (Qabs_cases (x - inject_Z w)) as [[? ->]|[? ->]];
      destruct G; lra.
  - intros w N. pose proof (int_gap _ _ N) as G.
    destruct (Qabs_cases (x - inject_Z z)) as [[? ->]|[? ->]]; destruct (Qabs_cases (x - inject_Z w)) as [[? ->]|[? ->]];
      intros E; apply T; destruct G; (left; lra) || (right; lra).
Qed.
Lemma rounds_unique : forall x z w, rounds_to x z -> rounds_to x w -> z = w.
Proof.
  intros x z w [A B] [C D]. destruct (Z.eq_dec w z) as [->|N]; [reflexivity|].
  assert (E : Qabs (x - inject_Z w) == Qabs (x - inject_Z z)) by (apply Qle_antisym; auto).
  assert (Ez : Z.Even z) by (apply (B w); auto).
  assert (Ew : Z.Even w) by (apply (D z); [auto|symmetry; assumption]).
  (* both even, at the same distance: the integer between them is nearer *)
  exfalso. pose proof (A (Z.min z w + 1)%Z) as M. pose proof (C (Z.min z w + 1)%Z) as M'.
  destruct Ez as [k ->], Ew as [l ->].
  destruct (Z_lt_le_dec k l).
  - rewrite Z.min_l in M, M' by lia. assert (G : inject_Z (2 * k + 2) <= inject_Z (2 * l)) by (apply inject_Z_le'; lia).
    rewrite inject_Z_plus in G. change (inject_Z 2) with 2 in G. rewrite inject_Z_S in M, M'.
    set (a := inject_Z (2 * k)) in *. set (b := inject_Z (2 * l)) in *.
    destruct (Qabs_cases (x - a)) as [[? E1]|[? E1]]; destruct (Qabs_cases (x - b)) as [[? E2]|[? E2]];
      destruct (Qabs_cases (x - (a + 1))) as [[? E3]|[? E3]]; rewrite ?E1, ?E2, ?E3 in *; lra.
  - rewrite Z.min_r in M, M' by lia. assert (G : inject_Z (2 * l + 2) <= inject_Z (2 * k)) by (apply inject_Z_le'; lia).
    rewrite inject_Z_plus in G. change (inject_Z 2) with 2 in G. rewrite inject_Z_S in M, M'.
    set (a := inject_Z (2 * k)) in *. set (b := inject_Z (2 * l)) in *.
    destruct (Qabs_cases (x - a)) as [[? E1]|[? E1]]; destruct (Qabs_cases (x - b)) as [[? E2]|[? E2]];
      destruct (Qabs_cases (x - (b + 1))) as [[? E3]|[? E3]]; rewrite ?E1, ?E2, ?E3 in *; lra.
Qed.
Lemma round_rounds : forall x, rounds_to x (m_round x).
Proof.
  intros x. unfold m_round, to_int. pose proof (floor_spec x) as [A B].
  destruct (Qeq_bool x (inject_Z (Qfloor x) + (1 # 2))) eqn:E; cbn [negb].
  - apply Qeq_bool_iff in E. destruct (Qfloor x mod 2 =? 0)%Z eqn:M.
    + apply Z.eqb_eq in M. apply rounds_intro; [lra|].
      intros _. exists (Qfloor x / 2)%Z. pose proof (Z.div_mod (Qfloor x) 2). lia.
    + apply Z.eqb_neq in M. apply rounds_intro; [rewrite inject_Z_S; lra|].
      intros _. exists (Qfloor x / 2 + 1)%Z. pose proof (Z.div_mod (Qfloor x) 2).
      pose proof (Z.mod_pos_bound (Qfloor x) 2). lia.
  - apply Qeq_bool_false in E. pose proof (floor_spec (x + (1 # 2))) as [C D].
    set (z := Qfloor (x + (1 # 2))) in *. apply rounds_intro; [lra|].
    intros [H|H]; [|lra]. exfalso. apply E.
    assert (Qfloor x = z - 1)%Z as ->.
    { apply floor_unique. rewrite inj_pred. lra. }
    rewrite inj_pred. lra.
Qed.

Lemma power10_pos : forall n, 0 < power10 n.
Proof. intros n. unfold power10. apply Qpower_0_lt. lra. Qed.
Lemma round_to_rounds : forall x n, rounds_to_digits x n (m_round_to x n).
Proof.
  intros x n. exists (m_round (x * power10 n)). split; [|apply round_rounds].
  unfold m_round_to. pose proof (power10_pos n). unfold power10 in *. field. lra.
Qed.

(** the remainder of C: nearer to zero than the divisor *)
Definition quot_of (x y : Q) : Z := Z.quot (Qnum x * QDen y) (QDen x * Qnum y).
Lemma fmod_bound : forall x y, ~ y == 0 ->
  let m := x - y * inject_Z (quot_of x y) in (0 < y -> - y < m < y) /\ (y < 0 -> y < m < - y).
Proof.
  intros [xn xd] [yn yd] Hy. unfold quot_of. cbn [Qnum Qden].
  set (N := (xn * Zpos yd)%Z). set (D := (Zpos xd * yn)%Z).
  assert (HD : D <> 0%Z).
  { intros E. apply Hy. unfold Qeq. cbn [Qnum Qden]. subst D. nia. }
  pose proof (Z.quot_rem' N D) as QR.
  pose proof (Z.rem_bound_abs N D HD) as RB.
  assert (M : ((xn # xd) - (yn # yd) * inject_Z (N ÷ D)) == (Z.rem N D # (xd * yd))).
  { unfold Qeq, Qminus, Qplus, Qmult, Qopp, inject_Z. cbn [Qnum Qden]. rewrite !Pos2Z.inj_mul.
    assert (R : Z.rem N D = (N - D * (N ÷ D))%Z) by lia. rewrite R. subst N D. ring. }
  assert (Y : (yn # yd) == (D # (xd * yd))).
  { unfold Qeq. cbn [Qnum Qden]. rewrite Pos2Z.inj_mul. subst D. ring. }
  cbv zeta. rewrite M. rewrite Y. clear - RB. unfold Qlt, Qopp. cbn [Qnum Qden].
  assert (0 < Z.pos (xd * yd))%Z by lia. set (K := Z.pos (xd * yd)) in *. clearbody K.
  change (Z.pos 1) with 1%Z.
  split; intros P; split; apply Z.mul_lt_mono_pos_r; try assumption; lia.
Qed.
Lemma constraints_unique : forall a b m r m' r', ~ b == 0 ->
  divmod_constraints a b m r = true -> divmod_constraints a b m' r' = true -> m = m' /\ r == r'.
Proof.
  intros a b m r m' r' Hb H H'. unfold divmod_constraints in *.
  apply andb_true_iff in H as [E H], H' as [E' H']. apply Qeq_bool_iff in E, E'.
  assert (B : (0 < b /\ 0 <= r < b /\ 0 <= r' < b) \/ (b < 0 /\ b < r <= 0 /\ b < r' <= 0)).
  { destruct (Qle_bool b 0) eqn:L; cbn [negb] in H, H'; apply andb_true_iff in H as [H1 H2], H' as [H3 H4];
      apply negb_true_iff in H2, H4; apply Qle_bool_iff in H1, H3; apply Qle_bool_false in H2, H4.
    - apply Qle_bool_iff in L. right. repeat split; try assumption. destruct (Qle_lt_or_eq _ _ L); [assumption|contradiction].
    - apply Qle_bool_false in L. left. repeat split; assumption. }
  assert (m = m') as <-.
  { destruct (Z.eq_dec m m') as [|N]; [assumption|exfalso].
    destruct (int_gap _ _ N) as [G|G]; destruct B as [[P [? ?]]|[P [? ?]]]; nra. }
  split; [reflexivity|]. lra.
Qed.
Lemma constraints_ok : forall a b m r, b * inject_Z m + r == a ->
  (0 < b /\ 0 <= r < b) \/ (b < 0 /\ b < r <= 0) -> divmod_constraints a b m r = true.
Proof.
  intros a b m r E B. unfold divmod_constraints. rewrite (proj2 (Qeq_bool_iff _ _) E). cbn [andb].
  destruct B as [[P [L U]]|[P [L U]]].
  - rewrite (proj2 (Qle_bool_false b 0)) by lra. cbn [negb]. rewrite (proj2 (Qle_bool_iff _ _) L). cbn [andb].
    rewrite (proj2 (Qle_bool_false b r)) by lra. reflexivity.
  - rewrite (proj2 (Qle_bool_iff b 0)) by lra. cbn [negb]. rewrite (proj2 (Qle_bool_iff _ _) U). cbn [andb].
    rewrite (proj2 (Qle_bool_false r b)) by lra. reflexivity.
Qed.
Lemma floor_int : forall q z, q == inject_Z z -> Qfloor q = z.
Proof. intros q z E. rewrite (Qfloor_comp _ _ E). apply Qfloor_Z. Qed.
(** what C computes satisfies what the solver is told *)
Lemma py_divmod_solves : forall a b, ~ b == 0 ->
  exists d m z, py_divmod (Fin a) (Fin b) = Ok (Fin d, Fin m) /\ d == inject_Z z /\ divmod_constraints a b z m = true.
Proof.
  intros a b Hb. unfold py_divmod. cbn [zero_ext]. rewrite (proj2 (Qeq_bool_false _ _) Hb).
  cbn [e_fmod]. fold (quot_of a b). pose proof (fmod_bound a b Hb) as F. cbv zeta in F.
  set (t := quot_of a b) in *. set (m := a - b * inject_Z t) in *.
  assert (HE : b * inject_Z t + m == a) by (unfold m; ring).
  unfold e_sub. cbn [e_opp e_add e_div neg_ext zero_ext nonzero].
  assert (DV : (a + - m) / b == inject_Z t) by (unfold m; field; assumption).
  assert (FIN : forall dv md z, dv == inject_Z z -> divmod_constraints a b z md = true ->
    exists d m0 z0, Ok (if nonzero (Fin dv) then e_floor (Fin dv) else Fin 0, Fin md) = Ok (Fin d, Fin m0) /\
      d == inject_Z z0 /\ divmod_constraints a b z0 m0 = true).
  { intros dv md z E C. unfold nonzero, e_floor. cbn [zero_ext]. destruct (Qeq_bool dv 0) eqn:Z0; cbn [negb].
    - apply Qeq_bool_iff in Z0. exists 0, md, z. split; [reflexivity|]. split; [lra|assumption].
    - exists (inject_Z (Qfloor dv)), md, z. rewrite (floor_int _ _ E). split; [reflexivity|]. split; [reflexivity|assumption]. }
  unfold nonzero at 1. cbn [zero_ext].
  destruct (Qlt_le_dec 0 b) as [P|NP].
  - destruct F as [F _]. specialize (F P). rewrite (proj2 (Qle_bool_iff 0 b)) by lra. cbn [negb].
    destruct (Qeq_bool m 0) eqn:M0; cbn [negb].
    + apply Qeq_bool_iff in M0. apply (FIN _ _ t DV). apply constraints_ok; [lra|left; lra].
    + apply Qeq_bool_false in M0. destruct (Qle_bool 0 m) eqn:S; cbn [negb xorb].
      * apply Qle_bool_iff in S. apply (FIN _ _ t DV). apply constraints_ok; [lra|left; lra].
      * apply Qle_bool_false in S. cbn [e_add e_opp]. apply (FIN _ _ (t - 1)%Z).
        -- rewrite DV, inj_pred. ring.
        -- apply constraints_ok; [rewrite inj_pred; lra|left; lra].
  - assert (P : b < 0) by (destruct (Qle_lt_or_eq _ _ NP); [assumption|contradiction]).
    destruct F as [_ F]. specialize (F P). rewrite (proj2 (Qle_bool_false 0 b)) by lra. cbn [negb].
    destruct (Qeq_bool m 0) eqn:M0; cbn [negb].
    + apply Qeq_bool_iff in M0. apply (FIN _ _ t DV). apply constraints_ok; [lra|right; lra].
    + apply Qeq_bool_false in M0. destruct (Qle_bool 0 m) eqn:S; cbn [negb xorb].
      * apply Qle_bool_iff in S. cbn [e_add e_opp]. apply (FIN _ _ (t - 1)%Z).
        -- rewrite DV, inj_pred. ring.
        -- assert (0 < m) by (destruct (Qle_lt_or_eq _ _ S) as [|Z0]; [assumption|symmetry in Z0; contradiction]).
           apply constraints_ok; [rewrite inj_pred; lra|right; lra].
      * apply Qle_bool_false in S. apply (FIN _ _ t DV). apply constraints_ok; [lra|right; lra].
Qed.
