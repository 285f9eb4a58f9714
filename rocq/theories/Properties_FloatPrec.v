From Coq Require Import QArith Qround Qabs ZArith Bool List Lia Lqa.
From Verif Require Import Py FloatPrec_Model FloatPrec_Spec.
From Verif Require FloatReal_Spec FloatReal_Proofs.
Open Scope Z_scope.

(** doubles have a magnitude of at least 0 *)
Definition wf (x : fp) : Prop := match x with FFin _ m => (0 <= m)%Q | _ => True end.
Lemma of_Q_comp : forall z a b, (a == b)%Q -> of_Q z a = of_Q z b.
Proof. intros z a b E. unfold of_Q. rewrite (Qred_complete _ _ E). reflexivity. Qed.
Lemma nearest_even_unique : forall q z w, nearest_even q z -> nearest_even q w -> z = w.
Proof. intros q z w. exact (FloatReal_Proofs.rounds_unique q z w). Qed.
Lemma half_even_nearest : forall q, nearest_even q (half_even (Qnum q) (QDen q)).
Proof.
  intros [n d]. cbn [Qnum Qden]. apply FloatReal_Proofs.rounds_intro.
  - unfold half_even. pose proof (Z.div_mod n (Zpos d) ltac:(lia)) as D. pose proof (Z.mod_pos_bound n (Zpos d) ltac:(lia)) as B.
    set (q := n / Zpos d) in *. set (r := n mod Zpos d) in *. clearbody q r.
    unfold Qle, Qminus, Qplus, Qopp, inject_Z. cbn [Qnum Qden].
    destruct (2 * r ?= Zpos d) eqn:C; [apply Z.compare_eq in C; destruct (Z.even q)|change (2 * r < Zpos d) in C|apply Z.gt_lt in C];
      cbn [Pos.mul]; rewrite ?Pos2Z.inj_mul; split; nia.
  - unfold half_even. pose proof (Z.div_mod n (Zpos d) ltac:(lia)) as D. pose proof (Z.mod_pos_bound n (Zpos d) ltac:(lia)) as B.
    set (q := n / Zpos d) in *. set (r := n mod Zpos d) in *. clearbody q r.
    unfold Qeq, Qminus, Qplus, Qopp, inject_Z. cbn [Qnum Qden].
    destruct (2 * r ?= Zpos d) eqn:C; [apply Z.compare_eq in C; destruct (Z.even q) eqn:E|change (2 * r < Zpos d) in C|apply Z.gt_lt in C].
    + intros _. apply Z.even_spec, E.
    + intros _. apply Z.even_spec. rewrite Z.even_add, E. reflexivity.
    + cbn [Pos.mul]. rewrite ?Pos2Z.inj_mul. intros [H|H]; exfalso; nia.
    + cbn [Pos.mul]. rewrite ?Pos2Z.inj_mul. intros [H|H]; exfalso; nia.
Qed.
Lemma ceiling_Z : forall q z, (q == inject_Z z)%Q -> Qceiling q = z.
Proof. intros q z E. rewrite (Qceiling_comp _ _ E). apply Qceiling_Z. Qed.
Lemma integral_value : forall md n m, exists s a, to_integral md (FFin n m) = FFin s a /\
  (0 <= a)%Q /\ (fval s a == inject_Z (whole md (fval n m)))%Q.
Proof.
  intros md n m. unfold to_integral. set (z := whole md (fval n m)). destruct (Z.eqb_spec z 0) as [E|E].
  - exists n, 0%Q. rewrite E. split; [reflexivity|]. split; [lra|]. destruct n; reflexivity.
  - exists (z <? 0), (inject_Z (Z.abs z)). split; [reflexivity|]. split; [unfold Qle; cbn; lia|].
    unfold fval. destruct (Z.ltb_spec z 0).
    + rewrite Z.abs_neq by lia. rewrite inject_Z_opp. ring.
    + rewrite Z.abs_eq by lia. reflexivity.
Qed.
Lemma to_Z_integral : forall md n m, fp_to_Z (to_integral md (FFin n m)) = whole md (fval n m).
Proof.
  intros md n m. destruct (integral_value md n m) as [s [a [-> [_ E]]]]. unfold fp_to_Z.
  apply FloatReal_Proofs.floor_int, E.
Qed.
Lemma floor_quot_pos : forall q, (0 <= q)%Q -> Qfloor q = Z.quot (Qnum q) (QDen q).
Proof.
  intros [n d] H. unfold Qle in H. cbn in H. cbn [Qfloor Qnum Qden]. symmetry. apply Z.quot_div_nonneg; lia.
Qed.
Lemma trunc_quot : forall q, whole RTZ q = Z.quot (Qnum q) (QDen q).
Proof.
  intros q. cbn [whole]. destruct (Qle_bool 0 q) eqn:E.
  - apply floor_quot_pos, Qle_bool_iff, E.
  - apply FloatReal_Proofs.Qle_bool_false in E. unfold Qceiling. rewrite floor_quot_pos by lra.
    destruct q as [n d]. cbn [Qopp Qnum Qden]. rewrite Z.quot_opp_l by lia. lia.
Qed.

(** * C151 *)
(** int() and round() give CPython's int, and fail alike; truth is being other than zero *)
Theorem C151_int_proved : forall x,
  p_int x = py_trunc x /\
  (forall z, p_round x None = Ok (AnInt z) <-> exists n m, x = FFin n m /\ nearest_even (if n then (- m)%Q else m) z) /\
  (p_round x None = Err OverflowError <-> exists n, x = FInf n) /\
  (p_round x None = Err ValueError <-> x = FNaN).
Proof.
  intros [n m|n|].
  - split; [|split; [|split]].
    + unfold p_int, py_trunc, py_whole. cbn [check_finite bind]. rewrite to_Z_integral, trunc_quot. reflexivity.
    + intros z. unfold p_round. cbn [check_finite bind]. rewrite to_Z_integral. cbn [whole]. split.
      * intros H. injection H as <-. exists n, m. split; [reflexivity|]. apply half_even_nearest.
      * intros [n' [m' [E H]]]. injection E as <- <-. do 2 f_equal.
        apply (nearest_even_unique (fval n m)); [apply half_even_nearest|exact H].
    + split; [discriminate|]. intros [n' E]. discriminate.
    + split; discriminate.
  - split; [reflexivity|]. split; [|split].
    + intros z. split; [discriminate|]. intros [n' [m' [E _]]]. discriminate.
    + split; [intros _; exists n; reflexivity|reflexivity].
    + split; discriminate.
  - split; [reflexivity|]. split; [|split].
    + intros z. split; [discriminate|]. intros [n' [m' [E _]]]. discriminate.
    + split; [discriminate|]. intros [n' E]. discriminate.
    + split; reflexivity.
Qed.
Print Assumptions C151_int_proved.
Example C151_int_example : p_int (FFin true (7 # 2)) = Ok (AnInt (-3)) /\ p_round (FFin false (5 # 2)) None = Ok (AnInt 2) /\
  p_int (FInf true) = Err OverflowError /\ p_bool (FFin true 0) = false.
Proof. repeat split. Qed.
(** math.floor, math.ceil and math.trunc: the right number, but as a float *)
Definition same_number (a b : res num) : Prop :=
  match a, b with
  | Ok (AFloat (FFin s m)), Ok (AnInt z) => (fval s m == inject_Z z)%Q
  | Err e, Err e' => e = e'
  | _, _ => False
  end.
Theorem C151_floor_partial : forall x,
  same_number (p_floor x) (py_floor x) /\ same_number (p_ceil x) (py_ceil x) /\ same_number (p_trunc x) (py_trunc x).
Proof.
  intros [n m|n|]; [|repeat split; reflexivity|repeat split; reflexivity].
  unfold p_floor, p_ceil, p_trunc, py_floor, py_ceil, py_trunc, py_whole. cbn [check_finite bind].
  destruct (integral_value RTN n m) as [s1 [a1 [-> [_ E1]]]].
  destruct (integral_value RTP n m) as [s2 [a2 [-> [_ E2]]]].
  destruct (integral_value RTZ n m) as [s3 [a3 [-> [_ E3]]]].
  rewrite trunc_quot in E3. cbn [same_number]. repeat split; assumption.
Qed.
Print Assumptions C151_floor_partial.
Theorem C151_floor_refuted : exists x y,
  p_floor x = Ok (AFloat y) /\ py_floor x = Ok (AnInt 2) /\ p_ceil x <> py_ceil x /\ p_trunc x <> py_trunc x.
Proof. exists (FFin false (5 # 2)), (FFin false 2). split; [reflexivity|]. split; [reflexivity|]. split; discriminate. Qed.
Print Assumptions C151_floor_refuted.
(** is_integer: right on numbers, but an error on infinities and not-a-number *)
Theorem C151_is_integer_partial : forall n m, p_is_integer (FFin n m) = Ok (py_is_integer (FFin n m)).
Proof.
  intros n m. unfold p_is_integer, p_int. cbn [check_finite bind]. rewrite to_Z_integral, trunc_quot.
  f_equal. unfold py_is_integer. destruct m as [a d]. cbn [Qnum Qden].
  pose proof (Z.mod_divide a (Zpos d) ltac:(lia)) as MD.
  destruct (Z.eqb_spec (a mod Zpos d) 0) as [E|E].
  - destruct (proj1 MD E) as [k Hk]. apply Qeq_bool_iff. unfold fval.
    destruct n; cbn [Qopp Qnum Qden]; subst a.
    + rewrite Z.quot_opp_l by lia. rewrite Z.quot_mul by lia. unfold Qeq, inject_Z. cbn [Qnum Qden Qopp]. lia.
    + rewrite Z.quot_mul by lia. unfold Qeq, inject_Z. cbn [Qnum Qden]. lia.
  - apply FloatReal_Proofs.Qeq_bool_false. intros H. apply E. apply (proj2 MD). unfold fval in H.
    destruct n; unfold Qeq, inject_Z, Qopp in H; cbn [Qnum Qden] in H.
    + exists (- (Z.quot (- a) (Zpos d))). lia.
    + exists (Z.quot a (Zpos d)). lia.
Qed.
Print Assumptions C151_is_integer_partial.
Theorem C151_is_integer_refuted :
  (exists x, p_is_integer x = Err OverflowError /\ py_is_integer x = false) /\
  (exists x, p_is_integer x = Err ValueError /\ py_is_integer x = false).
Proof. split; [exists (FInf false)|exists FNaN]; split; reflexivity. Qed.
Print Assumptions C151_is_integer_refuted.
Example C151_is_integer_example : p_is_integer (FFin true (8 # 4)) = Ok true /\ p_is_integer (FFin false (9 # 4)) = Ok false.
Proof. split; reflexivity. Qed.
(** abs: right but for the negative zero, which stays negative *)
Theorem C151_abs_partial : forall x, (forall m, x = FFin true m -> ~ (m == 0)%Q) -> p_abs x = py_abs x.
Proof.
  intros [n m|n|] H.
  - unfold p_abs. cbn [below_zero]. destruct n; [|reflexivity]. cbn [andb].
    rewrite (proj2 (FloatReal_Proofs.Qeq_bool_false m 0)) by (apply H; reflexivity). reflexivity.
  - destruct n; reflexivity.
  - reflexivity.
Qed.
Print Assumptions C151_abs_partial.
Theorem C151_abs_refuted : exists x, p_abs x = FFin true 0 /\ py_abs x = FFin false 0.
Proof. exists (FFin true 0). split; reflexivity. Qed.
Print Assumptions C151_abs_refuted.
(** round to digits: right when the product with the power of ten is exact *)
Theorem C151_digits_partial : forall x n,
  (n = 0 -> wf x -> exists r, p_round x (Some n) = Ok (AFloat r) /\
     match x, r with
     | FFin s m, FFin s' m' => exists z, nearest_even (fval s m) z /\ (fval s' m' == inject_Z z)%Q
     | _, _ => r = x end) /\
  (forall f s m m', n <> 0 -> x = FFin s m -> p_factor n = Ok (FFin false f) -> (f == Qpower 10 n)%Q ->
     fp_mul x (FFin false f) = FFin s m' -> (m' == m * Qpower 10 n)%Q ->
     exists r, p_round x (Some n) = Ok (AFloat r) /\ py_round_to x n r).
Proof.
  intros x n. split.
  - intros -> _. unfold p_round. cbn [Z.eqb]. eexists. split; [reflexivity|]. unfold p_round_whole.
    destruct x as [s m|s|]; cbn [finite]; [|reflexivity|reflexivity].
    destruct (integral_value RNE s m) as [s' [a [-> [_ E]]]].
    exists (whole RNE (fval s m)). split; [apply half_even_nearest|exact E].
  - intros f s m m' Hn -> Hf Ef Hm Em. unfold p_round. rewrite (proj2 (Z.eqb_neq n 0) Hn), Hf. cbn [bind].
    assert (P : (0 < Qpower 10 n)%Q) by (apply Qpower.Qpower_0_lt; reflexivity).
    cbn [is_zero]. rewrite (proj2 (FloatReal_Proofs.Qeq_bool_false f 0)) by lra.
    eexists. split; [reflexivity|]. unfold p_round_whole. rewrite Hm. cbn [finite].
    assert (S : (fval s m' == (if s then - m else m) * Qpower 10 n)%Q) by (unfold fval; destruct s; rewrite Em; ring).
    exists (whole RNE (fval s m')). split.
    { cbn [whole]. pose proof (half_even_nearest (fval s m')) as [A B]. split; intros w.
      - specialize (A w). rewrite <- S. exact A.
      - intros N E. rewrite <- S in E. exact (B w N E). }
    destruct (integral_value RNE s m') as [s' [a [HI [La E]]]]. pose proof HI as HI'. rewrite HI. cbn [fp_div].
    rewrite (proj2 (FloatReal_Proofs.Qeq_bool_false f 0)) by lra.
    rewrite xorb_false_r.
    assert (V : (fval s' a / fval false f == inject_Z (whole RNE (fval s m')) / Qpower 10 n)%Q).
    { rewrite E. unfold fval at 2. rewrite Ef. reflexivity. }
    rewrite (of_Q_comp s' _ _ V).
    (* the sign of the rounded product matters for zero only *)
    unfold to_integral in HI'. destruct (Z.eqb_spec (whole RNE (fval s m')) 0) as [Z0|Z0].
    + injection HI' as <- <-. reflexivity.
    + unfold of_Q. set (q := Qred (inject_Z (whole RNE (fval s m')) / Qpower 10 n)).
      assert (NZ : ~ (q == 0)%Q).
      { subst q. rewrite Qred_correct. intros C. apply Z0.
        assert (inject_Z (whole RNE (fval s m')) == 0)%Q.
        { assert (inject_Z (whole RNE (fval s m')) == inject_Z (whole RNE (fval s m')) / Qpower 10 n * Qpower 10 n)%Q as -> by (field; lra).
          rewrite C. ring. }
        unfold Qeq, inject_Z in H. cbn [Qnum Qden] in H. lia. }
      rewrite (proj2 (FloatReal_Proofs.Qeq_bool_false q 0) NZ). reflexivity.
Qed.
Print Assumptions C151_digits_partial.
Example C151_digits_example :
  p_factor 2 = Ok (FFin false 100) /\ fp_mul (FFin true (17 # 8)) (FFin false 100) = FFin true (425 # 2) /\
  p_round (FFin true (17 # 8)) (Some 2) = Ok (AFloat (of_Q true (-212 # 100))).
Proof. repeat split. Qed.
(** but round(1.115, 2) is 1.12 for CPython's 1.11, and round(1.5e308, 2) overflows *)
Definition d1115 : fp := of_Q false (1115 # 1000).
Definition huge : fp := of_Q false (inject_Z (15 * 10 ^ 307)).
Definition huge_k : Z := match huge with FFin _ m => Qnum m | _ => 0 end.
Theorem C151_digits_refuted :
  (exists x, p_round x (Some 2) = Ok (AFloat (of_Q false (112 # 100))) /\
     forall r, py_round_to x 2 r -> r = of_Q false (111 # 100) /\ r <> of_Q false (112 # 100)) /\
  (exists x, p_round x (Some 2) = Ok (AFloat (FInf false)) /\ forall r, py_round_to x 2 r -> r <> FInf false).
Proof.
  split.
  - exists d1115. split; [vm_compute; reflexivity|]. intros r H.
    assert (D : d1115 = FFin false (Qred (5021513584518103 # 4503599627370496))) by (vm_compute; reflexivity).
    assert (E : r = of_Q false (111 # 100)).
    { rewrite D in H. destruct H as [z [N ->]].
      assert (z = 111) as ->.
      { apply (nearest_even_unique _ _ _ N). apply FloatReal_Proofs.rounds_intro.
        - rewrite Qred_correct. change (Qpower 10 2) with 100%Q. unfold Qle. cbn. lia.
        - rewrite Qred_correct. change (Qpower 10 2) with 100%Q. intros [C|C]; unfold Qeq in C; cbn in C; lia. }
      apply of_Q_comp. reflexivity. }
    split; [exact E|]. rewrite E. vm_compute. discriminate.
  - exists huge. split; [vm_compute; reflexivity|]. intros r H.
    assert (Hk : huge = FFin false (inject_Z huge_k)) by (vm_compute; reflexivity).
    assert (Hr : of_Q false (inject_Z huge_k) = huge) by (vm_compute; reflexivity).
    generalize dependent huge_k. intros k Hk Hr.
    rewrite Hk in H. destruct H as [z [N ->]].
    assert (z = k * 100) as ->.
    { apply (nearest_even_unique _ _ _ N). apply FloatReal_Proofs.rounds_intro.
      - change (Qpower 10 2) with (inject_Z 100). rewrite inject_Z_mult. lra.
      - change (Qpower 10 2) with (inject_Z 100). rewrite inject_Z_mult. intros [C|C]; exfalso; lra. }
    rewrite (of_Q_comp false _ (inject_Z k)).
    + rewrite Hr, Hk. discriminate.
    + rewrite inject_Z_mult. change (Qpower 10 2) with (inject_Z 100). field. 
Qed.
Print Assumptions C151_digits_refuted.

(** * C152 *)
(** failures and not-a-number *)
Definition is_nan (x : fp) : bool := match x with FNaN => true | _ => false end.
Theorem C152_zero_nan_partial : forall x y,
  (is_zero y = true -> p_floordiv x y = Err ZeroDivisionError /\ p_mod x y = Err ZeroDivisionError /\
                       py_divmod x y = Err ZeroDivisionError) /\
  (is_zero y = false -> is_nan x || is_nan y = true ->
     p_floordiv x y = Ok FNaN /\ p_mod x y = Ok FNaN /\ py_divmod x y = Ok (FNaN, FNaN)).
Proof.
  intros x y. split.
  - intros H. unfold p_floordiv, p_mod, py_divmod. rewrite H. repeat split.
  - intros H N. unfold p_floordiv, p_mod, py_divmod. rewrite H.
    destruct x as [n m|n|], y as [n' m'|n'|]; try discriminate N;
      repeat match goal with b : bool |- _ => destruct b end; cbn in *; rewrite ?H; cbn; repeat split.
Qed.
Print Assumptions C152_zero_nan_partial.
(** // is the floor of the quotient when the division is exact; % is right for a positive divisor
    when the remainder is below half of it *)
Definition true_floor (x y : Q) : Z := Qfloor (x / y).
Theorem C152_exact_partial : forall n a k b,
  ~ (b == 0)%Q ->
  (forall s q, fp_div (FFin n a) (FFin k b) = FFin s q -> (fval s q == fval n a / fval k b)%Q ->
     exists s' r, p_floordiv (FFin n a) (FFin k b) = Ok (FFin s' r) /\
                  (fval s' r == inject_Z (true_floor (fval n a) (fval k b)))%Q) /\
  (k = false -> (0 < b)%Q ->
     let r := (fval n a - b * inject_Z (true_floor (fval n a) b))%Q in
     (2 * r < b)%Q -> p_mod (FFin n a) (FFin k b) = Ok (of_Q n r)).
Proof.
  intros n a k b Hb. split.
  - intros s q E V. unfold p_floordiv. cbn [is_zero]. rewrite (proj2 (FloatReal_Proofs.Qeq_bool_false b 0) Hb), E.
    destruct (integral_value RTN s q) as [s' [r [-> [_ R]]]]. exists s', r. split; [reflexivity|].
    rewrite R. cbn [whole]. unfold true_floor. rewrite (Qfloor_comp _ _ V). reflexivity.
  - intros -> P r Hr. unfold p_mod. cbn [is_zero]. rewrite (proj2 (FloatReal_Proofs.Qeq_bool_false b 0) Hb).
    cbn [at_least_zero negb orb fp_rem]. rewrite (proj2 (FloatReal_Proofs.Qeq_bool_false b 0) Hb).
    cbn [fval]. set (x := fval n a) in *. unfold true_floor in *.
    assert (half_even (Qnum (x / b)) (QDen (x / b)) = Qfloor (x / b)) as ->; [|reflexivity].
    apply (nearest_even_unique (x / b)); [apply half_even_nearest|].
    pose proof (FloatReal_Proofs.floor_spec (x / b)) as [A B]. set (z := Qfloor (x / b)) in *.
    assert (X : (x == b * (x / b))%Q) by (field; lra). set (t := (x / b)%Q) in *.
    assert (T : (2 * (b * (t - inject_Z z)) < b)%Q) by (unfold r in Hr; rewrite X in Hr; lra).
    assert ((t - inject_Z z < 1 # 2)%Q) by nra.
    apply FloatReal_Proofs.rounds_intro; [lra|]. intros [C|C]; exfalso; lra.
Qed.
Print Assumptions C152_exact_partial.
Example C152_exact_example :
  fp_div (FFin true 7) (FFin false 2) = FFin true (7 # 2) /\ p_floordiv (FFin true 7) (FFin false 2) = Ok (FFin true 4) /\
  p_mod (FFin false 7) (FFin false 3) = Ok (FFin false 1).
Proof. repeat split. Qed.
(** the range of doubles: 2 ** 1023 is one, twice that is infinite *)
Example C152_range_example :
  fp_add (FFin false (inject_Z (2 ^ 1022))) (FFin false (inject_Z (2 ^ 1022)))
  = FFin false (inject_Z (2 ^ 1023)) /\
  fp_add (FFin false (inject_Z (2 ^ 1023))) (FFin false (inject_Z (2 ^ 1023))) = FInf false.
Proof. split; reflexivity. Qed.
(** % with a remainder of at least half the divisor, or a negative divisor: 5.0 % 3.0 is -1.0 *)
Definition f (z : Z) : fp := of_Q (z <? 0) (inject_Z z).
Theorem C152_mod_refuted :
  (p_mod (f 5) (f 3) = Ok (f (-1)) /\ py_divmod (f 5) (f 3) = Ok (f 1, f 2)) /\
  (p_mod (f (-6)) (f (-3)) = Ok (f (-3)) /\ py_divmod (f (-6)) (f (-3)) = Ok (f 2, FFin true 0)) /\
  (p_mod (f 5) (f (-3)) = Ok (f (-4)) /\ py_divmod (f 5) (f (-3)) = Ok (f (-2), f (-1))) /\
  (p_mod (f (-1)) (FInf false) = Ok (f (-1)) /\ py_divmod (f (-1)) (FInf false) = Ok (f (-1), FInf false)).
Proof. repeat split. Qed.
Print Assumptions C152_mod_refuted.
(** 1.0 // 0.1 is 10.0 for CPython's 9.0; infinite operands *)
Theorem C152_floordiv_refuted :
  (exists x y, p_floordiv x y = Ok (f 10) /\ exists m, py_divmod x y = Ok (f 9, m)) /\
  (p_floordiv (FInf false) (f 2) = Ok (FInf false) /\ py_divmod (FInf false) (f 2) = Ok (FNaN, FNaN)) /\
  (p_floordiv (f (-1)) (FInf false) = Ok (FFin true 0) /\ py_divmod (f (-1)) (FInf false) = Ok (f (-1), FInf false)).
Proof.
  split; [|repeat split]. exists (f 1), (of_Q false (1 # 10)). split; [vm_compute; reflexivity|].
  eexists. vm_compute. reflexivity.
Qed.
Print Assumptions C152_floordiv_refuted.
