From Coq Require Import QArith Qround Qabs ZArith Bool List Lia Lqa.
From Verif Require Import Py FloatReal_Model FloatReal_Spec FloatReal_Proofs.
Open Scope Q_scope.

(** * C149 *)
(** int, math.trunc, math.floor, math.ceil, round and is_integer give what Python defines, and
    nothing else satisfies those definitions *)
Theorem C149_conversions_proved : forall x,
  (forall z, truncates x z <-> z = m_int x) /\
  (forall z, is_floor x z <-> z = m_floor x) /\
  (forall z, is_ceil x z <-> z = m_ceil x) /\
  (forall z, rounds_to x z <-> z = m_round x) /\
  (m_is_integer x = true <-> exists z, x == inject_Z z).
Proof.
  intros x. split; [|split; [|split; [|split]]].
  - intros z. split; [intros H; exact (truncates_unique _ _ _ H (int_truncates x))|intros ->; apply int_truncates].
  - intros z. split; [|intros ->; apply floor_is]. intros [A B]. destruct (floor_is x) as [C D].
    apply B in C. apply D in A. lia.
  - intros z. split; [|intros ->; apply ceil_is]. intros [A B]. destruct (ceil_is x) as [C D].
    apply B in C. apply D in A. lia.
  - intros z. split; [intros H; exact (rounds_unique _ _ _ H (round_rounds x))|intros ->; apply round_rounds].
  - unfold m_is_integer, is_int, to_int. split.
    + intros H. apply Qeq_bool_iff in H. exists (Qfloor x). symmetry. exact H.
    + intros [z H]. apply Qeq_bool_iff. rewrite (floor_int _ _ H). symmetry. exact H.
Qed.
Print Assumptions C149_conversions_proved.
Example C149_example : m_int (-7 # 2) = (-3)%Z /\ m_floor (-7 # 2) = (-4)%Z /\ m_ceil (-7 # 2) = (-3)%Z /\
  m_round (5 # 2) = 2%Z /\ m_round (7 # 2) = 4%Z /\ m_round (-5 # 2) = (-2)%Z /\ m_round (13 # 5) = 3%Z /\
  m_is_integer (6 # 3) = true /\ m_is_integer (5 # 3) = false.
Proof. repeat split. Qed.
(** round with a number of digits, in exact arithmetic *)
Theorem C149_digits_proved : forall x n,
  rounds_to_digits x n (m_round_to x n) /\
  (forall y, rounds_to_digits x n y -> y == m_round_to x n).
Proof.
  intros x n. split; [apply round_to_rounds|]. intros y [z [E R]].
  pose proof (rounds_unique _ _ _ R (round_rounds _)) as Hz. unfold m_round_to.
  pose proof (power10_pos n) as P. fold (power10 n) in E, Hz. rewrite <- Hz, <- E. field. lra.
Qed.
Print Assumptions C149_digits_proved.
Example C149_digits_example : m_round_to (1115 # 1000) 2 == (112 # 100) /\ m_round_to (1125 # 1000) 2 == (112 # 100) /\
  m_round_to (1350 # 1) (-2) == (1400 # 1) /\ m_round_to (1250 # 1) (-2) == (1200 # 1).
Proof. repeat split. Qed.
(** as_integer_ratio: after the check only the pair of CPython is left, and that one stays *)
Theorem C149_ratio_proved : forall x p,
  m_ratio_ok x (Qnum (Qred x), QDen (Qred x)) p = true <-> p = (Qnum (Qred x), QDen (Qred x)).
Proof.
  intros x [n d]. unfold m_ratio_ok. cbn [fst snd]. split.
  - intros H. apply andb_true_iff in H as [H D]. apply andb_true_iff in H as [_ N].
    apply Z.eqb_eq in N, D. congruence.
  - intros H. injection H as -> ->. rewrite !Z.eqb_refl, !andb_true_r.
    apply andb_true_iff. split; [reflexivity|]. apply Qeq_bool_iff.
    pose proof (Qred_correct x) as E. set (r := Qred x) in *. clearbody r. rewrite <- E.
    destruct r as [rn rd]. unfold Qeq, Qmult, inject_Z. cbn [Qnum Qden]. lia.
Qed.
Print Assumptions C149_ratio_proved.
Example C149_ratio_example : m_ratio_ok (3 # 2) (3, 2)%Z (3, 2)%Z = true /\ m_ratio_ok (3 # 2) (3, 2)%Z (6, 4)%Z = false.
Proof. split; reflexivity. Qed.

(** * C150 *)
(** divmod, // and %: every result the solver can choose is the one of C, and there is one *)
Theorem C150_divmod_proved : forall a b,
  (exists p, dm_gives (m_divmod a b) p) /\
  (forall p, dm_gives (m_divmod a b) p -> res_eq p (py_divmod a b)).
Proof.
  intros a b. destruct b as [y|nb|].
  - destruct (Qeq_bool y 0) eqn:Y.
    + unfold m_divmod, py_divmod. cbn [zero_ext]. rewrite Y. cbn [dm_gives]. split; [eexists; reflexivity|].
      intros p ->. reflexivity.
    + pose proof Y as Y'. apply Qeq_bool_false in Y. destruct a as [x|na|].
      * unfold m_divmod. rewrite Y'. cbn [dm_gives].
        destruct (py_divmod_solves x y Y) as [d [m [z [E [D C]]]]]. split.
        -- exists (Ok (Fin (inject_Z z), Fin m)), z, m. split; [assumption|reflexivity].
        -- intros p [m' [r' [C' ->]]]. rewrite E. cbn [res_eq ext_eq].
           destruct (constraints_unique _ _ _ _ _ _ Y C C') as [<- R]. split; symmetry; assumption.
      * unfold m_divmod. rewrite Y'. cbn [dm_gives]. split; [eexists; reflexivity|]. intros p ->.
        unfold py_divmod. cbn [zero_ext]. rewrite Y'. unfold nonzero, e_sub. cbn [e_fmod e_opp e_add e_div zero_ext neg_ext negb].
        destruct (Qle_bool 0 y); cbn; split; exact I.
      * unfold m_divmod. rewrite Y'. cbn [dm_gives]. split; [eexists; reflexivity|]. intros p ->.
        unfold py_divmod. cbn [zero_ext]. rewrite Y'. unfold nonzero, e_sub. cbn [e_fmod e_opp e_add e_div zero_ext neg_ext negb].
        destruct (Qle_bool 0 y); cbn; split; exact I.
  - destruct a as [x|na|]; cbn [m_divmod].
    + unfold py_divmod. cbn [zero_ext e_fmod].
      assert (S : x + - x == 0) by ring.
      unfold e_sub. cbn [e_opp e_add e_div neg_ext]. unfold nonzero. cbn [zero_ext].
      destruct (Qeq_bool x 0) eqn:X; cbn [negb].
      * apply Qeq_bool_iff in X. rewrite (proj2 (Qle_bool_iff 0 x)) by lra.
        destruct nb; cbn [xorb negb]; cbn [dm_gives]; (split; [eexists; reflexivity|]); intros p ->; cbn; split; lra.
      * apply Qeq_bool_false in X. destruct (Qle_bool 0 x) eqn:P, nb; cbn [xorb negb dm_gives];
          (split; [eexists; reflexivity|]); intros p ->; cbn; split; reflexivity.
    + cbn. split; [eexists; reflexivity|]. intros p ->. destruct nb; cbn; split; exact I.
    + cbn. split; [eexists; reflexivity|]. intros p ->. destruct nb; cbn; split; exact I.
  - destruct a as [x|na|]; cbn; (split; [eexists; reflexivity|]); intros p ->; cbn; split; exact I.
Qed.
Print Assumptions C150_divmod_proved.
Example C150_divmod_example :
  res_eq (py_divmod (Fin (-7 # 2)) (Fin 2)) (Ok (Fin (-2), Fin (1 # 2))) /\
  divmod_constraints (-7 # 2) 2 (-2) (1 # 2) = true /\
  m_divmod (Fin (-5)) (Inf false) = Pair (Fin (-1)) (Inf false).
Proof. repeat split. Qed.

(** a number stands for its sign in every operation with an infinity or not-a-number but power *)
Definition finite (a : ext) : bool := match a with Fin _ => true | _ => false end.
Definition opt_eq (a b : res ext) : Prop :=
  match a, b with Ok x, Ok y => ext_eq x y | Err e, Err e' => e = e' | _, _ => False end.
Lemma comparable_sign : forall a,
  Qeq_bool (comparable a) 0 = Qeq_bool a 0 /\ Qle_bool 0 (comparable a) = Qle_bool 0 a.
Proof.
  intros a. unfold comparable. destruct (Qle_bool a 0) eqn:E; cbn [negb].
  - apply Qle_bool_iff in E. destruct (Qle_bool 0 a) eqn:F; cbn [negb].
    + apply Qle_bool_iff in F. rewrite (proj2 (Qeq_bool_iff a 0)) by lra. split; reflexivity.
    + apply Qle_bool_false in F. rewrite (proj2 (Qeq_bool_false a 0)) by lra. split; reflexivity.
  - apply Qle_bool_false in E. rewrite (proj2 (Qeq_bool_false a 0)) by lra.
    rewrite (proj2 (Qle_bool_iff 0 a)) by lra. split; reflexivity.
Qed.
Theorem C150_nonfinite_partial : forall a b, finite b = false ->
  ext_eq (m_op_left e_add a b) (e_add (Fin a) b) /\ ext_eq (m_op_right e_add b a) (e_add b (Fin a)) /\
  ext_eq (m_op_left e_sub a b) (e_sub (Fin a) b) /\ ext_eq (m_op_right e_sub b a) (e_sub b (Fin a)) /\
  ext_eq (m_op_left e_mul a b) (e_mul (Fin a) b) /\ ext_eq (m_op_right e_mul b a) (e_mul b (Fin a)) /\
  opt_eq (m_op_left py_truediv a b) (py_truediv (Fin a) b) /\
  opt_eq (m_op_right py_truediv b a) (py_truediv b (Fin a)) /\
  m_op_left e_lt a b = e_lt (Fin a) b /\ m_op_right e_lt b a = e_lt b (Fin a) /\
  m_op_left e_le a b = e_le (Fin a) b /\ m_op_right e_le b a = e_le b (Fin a) /\
  m_op_left e_eqb a b = e_eqb (Fin a) b /\ m_op_right e_eqb b a = e_eqb b (Fin a).
Proof.
  intros a b Hb. destruct (comparable_sign a) as [Z0 S]. unfold m_op_left, m_op_right.
  destruct b as [q|n|]; [discriminate| |].
  - unfold py_truediv, e_sub, e_mul, e_le. cbn [e_add e_opp e_div zero_ext neg_ext e_lt e_eqb].
    rewrite Z0, S. destruct n; destruct (Qeq_bool a 0); destruct (Qle_bool 0 a); cbn; repeat split.
  - unfold py_truediv, e_sub, e_mul, e_le. cbn [e_add e_opp e_div zero_ext neg_ext e_lt e_eqb].
    rewrite Z0. destruct (Qeq_bool a 0); cbn; repeat split.
Qed.
Print Assumptions C150_nonfinite_partial.
Example C150_nonfinite_example : m_op_left e_mul (-5 # 2) (Inf true) = Inf false /\
  m_op_left e_lt (7 # 2) (Inf false) = true /\ m_op_right py_truediv (Inf false) 0 = Err ZeroDivisionError.
Proof. repeat split. Qed.
(** but powers depend on more than the sign: 2.0 ** inf, 0.5 ** -inf, 2.0 ** nan and (-inf) ** 2.0 *)
Definition pow_same (a b : option ext) : Prop :=
  match a, b with Some x, Some y => ext_eq x y | None, None => True | _, _ => False end.
Theorem C150_power_refuted :
  (exists a, m_op_left py_pow a (Inf false) = Some (Fin 1) /\ py_pow (Fin a) (Inf false) = Some (Inf false)) /\
  (exists a, m_op_left py_pow a (Inf true) = Some (Fin 1) /\ py_pow (Fin a) (Inf true) = Some (Inf false)) /\
  (exists a, m_op_left py_pow a NaN = Some (Fin 1) /\ py_pow (Fin a) NaN = Some NaN) /\
  (exists b, m_op_right py_pow (Inf true) b = Some (Inf true) /\ py_pow (Inf true) (Fin b) = Some (Inf false)).
Proof.
  split; [|split; [|split]]; [exists 2|exists (1 # 2)|exists 2|exists 2]; split; reflexivity.
Qed.
Print Assumptions C150_power_refuted.
(** they are right when the number is 0, 1 or -1, and for powers of inf and nan *)
Theorem C150_power_partial : forall a b, finite b = false ->
  (a == 0 \/ a == 1 \/ a == -1 -> pow_same (m_op_left py_pow a b) (py_pow (Fin a) b)) /\
  (b <> Inf true -> pow_same (m_op_right py_pow b a) (py_pow b (Fin a))).
Proof.
  intros a b Hb. split.
  - intros H. assert (C : comparable a == a).
    { unfold comparable. destruct (Qle_bool a 0) eqn:E; cbn [negb].
      - apply Qle_bool_iff in E. destruct (Qle_bool 0 a) eqn:F; cbn [negb].
        + apply Qle_bool_iff in F. lra.
        + apply Qle_bool_false in F. destruct H as [H|[H|H]]; lra.
      - apply Qle_bool_false in E. destruct H as [H|[H|H]]; lra. }
    unfold m_op_left, py_pow. destruct b as [q|n|]; [discriminate| |]; cbn [zero_ext].
    + unfold e_abs_cmp1. destruct (comparable_sign a) as [_ S]. rewrite S.
      assert (Qcompare (if Qle_bool 0 a then comparable a else - comparable a) 1 = Qcompare (if Qle_bool 0 a then a else - a) 1) as ->.
      { destruct (Qle_bool 0 a); rewrite C; reflexivity. }
      destruct ((if Qle_bool 0 a then a else - a) ?= 1), n; cbn; auto; reflexivity.
    + assert (Qeq_bool (comparable a) 1 = Qeq_bool a 1) as ->.
      { destruct (Qeq_bool a 1) eqn:E.
        - apply Qeq_bool_iff in E. apply Qeq_bool_iff. lra.
        - apply Qeq_bool_false in E. apply Qeq_bool_false. lra. }
      destruct (Qeq_bool a 1); cbn; auto; reflexivity.
  - intros Hn. destruct (comparable_sign a) as [Z0 S]. unfold m_op_right, py_pow.
    assert (P : Qle_bool (comparable a) 0 = Qle_bool a 0).
    { unfold comparable. destruct (Qle_bool a 0) eqn:E; cbn [negb]; [|reflexivity].
      destruct (Qle_bool 0 a); reflexivity. }
    destruct b as [q|n|]; [discriminate| |]; cbn [zero_ext]; rewrite Z0; destruct (Qeq_bool a 0); try (cbn; auto; reflexivity).
    destruct n; [contradiction|]. rewrite P. destruct (Qle_bool a 0); cbn [negb andb]; cbn; auto; reflexivity.
Qed.
Print Assumptions C150_power_partial.
Example C150_power_example : py_pow (Inf false) (Fin (3 # 2)) = Some (Inf false) /\ py_pow (Fin (-1)) (Inf false) = Some (Fin 1).
Proof. split; reflexivity. Qed.
