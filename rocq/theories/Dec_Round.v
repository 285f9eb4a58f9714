(** Rounding to an integer: the digit-wise rules of the model and the rules on rational numbers. *)
From Coq Require Import ZArith QArith Qabs Qround Lqa List Bool Lia ZifyBool ZifyNat.
From Verif Require Import Dec_Model Dec_Spec Dec_Digits.
Import ListNotations.
Open Scope Z_scope.

(** Where a number lies between an integer and the next. *)
Inductive part := PZero | PLow | PHalf | PHigh.
Definition part_of (r d : Z) : part := if r =? 0 then PZero else if 2 * r <? d then PLow else if 2 * r =? d then PHalf else PHigh.
Definition bump (m : mode) (neg : bool) (f : Z) (p : part) : Z :=
  match p with PZero => 0 | _ =>
    match m with
    | DOWN => -1 | UP => 1
    | HALF_UP => match p with PLow => -1 | _ => 1 end
    | HALF_DOWN => match p with PHigh => 1 | _ => -1 end
    | HALF_EVEN => match p with PHigh => 1 | PHalf => if Z.even f then -1 else 1 | _ => -1 end
    | CEILING => if neg then -1 else 1
    | FLOOR => if neg then 1 else -1
    | UP05 => if f mod 5 =? 0 then 1 else -1
    end end.
Lemma bump_cases : forall m s f p, bump m s f p = 1 \/ bump m s f p = -1 \/ (bump m s f p = 0 /\ p = PZero).
Proof. intros m s f p. destruct p; cbn [bump]; auto; destruct m; auto; try (destruct s; auto); try (destruct (Z.even f); auto); destruct (f mod 5 =? 0); auto. Qed.
Lemma bump_zero : forall m s f p, bump m s f p = 0 <-> p = PZero.
Proof. intros. split; [destruct (bump_cases m s f p) as [H|[H|[_ H]]]; intro; [lia|lia|exact H]|now intros ->]. Qed.

Lemma nth_number : forall s k, Forall is_digit s -> 0 <= k < len s ->
  digit s k = number (from s k) / 10 ^ (len s - k - 1) /\ from s k = digit s k :: from s (k + 1).
Proof.
  intros s k F K. unfold digit, from, len in *.
  assert (E : skipn (Z.to_nat k) s = nth (Z.to_nat k) s 0 :: skipn (Z.to_nat (k + 1)) s).
  { replace (Z.to_nat (k + 1)) with (S (Z.to_nat k)) by lia. remember (Z.to_nat k) as n eqn:En. assert (L : (n < length s)%nat) by lia. clear - L.
    revert n L. induction s as [|d s IH]; intros n L; [cbn [length] in L; lia|]. destruct n; [reflexivity|]. cbn [skipn nth]. apply IH. cbn [length] in L. lia. }
  split; [|exact E]. rewrite E. cbn [number]. rewrite skipn_length.
  pose proof (digits_from s (k + 1) F) as D. pose proof (number_bound _ D) as B. unfold from in B. rewrite skipn_length in B.
  replace (Z.of_nat (length s - Z.to_nat (k + 1))) with (Z.of_nat (length s) - k - 1) in * by lia.
  apply (Z.div_unique _ _ _ (number (skipn (Z.to_nat (k + 1)) s))); [lia|ring].
Qed.
Lemma digit_range : forall s k, Forall is_digit s -> 0 <= digit s k <= 9.
Proof.
  intros s k F. unfold digit. destruct (Nat.lt_ge_cases (Z.to_nat k) (length s)) as [L|L].
  - rewrite Forall_forall in F. apply F. now apply nth_In.
  - rewrite nth_overflow by assumption. lia.
Qed.
Lemma last_digit : forall s k, Forall is_digit s -> 0 < k <= len s -> digit s (k - 1) = number (upto s k) mod 10.
Proof.
  intros s k F K. pose proof (nth_number s (k - 1) F ltac:(lia)) as [_ E]. replace (k - 1 + 1) with k in E by lia.
  pose proof (digit_range s (k - 1) F). 
  assert (U : upto s k = upto s (k - 1) ++ [digit s (k - 1)]).
  { apply (app_inv_tail (from s k)). rewrite <- app_assoc. cbn [app]. rewrite <- E. unfold upto, from. now rewrite !firstn_skipn. }
  rewrite U, number_app. cbn [number length]. change (10 ^ Z.of_nat 1) with 10. change (10 ^ Z.of_nat 0) with 1.
  apply (Z.mod_unique _ _ (number (upto s (k - 1)))); lia.
Qed.

(** The digit-wise functions compute [bump]. *)
Lemma pick_bump : forall m neg s k, Forall is_digit s -> 0 <= k < len s ->
  let d := 10 ^ (len s - k) in
  pick m neg s k = bump m neg (number s / d) (part_of (number s mod d) d).
Proof.
  intros m neg s k F K d. subst d. rewrite <- from_mod by (auto; lia). rewrite <- upto_div by (auto; lia).
  pose proof (from_bound s k F ltac:(lia)) as B. destruct (nth_number s k F K) as [Dg E].
  pose proof (digits_from s k F) as DF. pose proof (digits_from s (k + 1) F) as DF1. pose proof (digit_range s k F) as R.
  assert (P : 10 ^ (len s - k) = 10 * 10 ^ (len s - k - 1)) by (rewrite <- pow10_S by lia; f_equal; lia).
  pose proof (pow10_pos (len s - k - 1) ltac:(lia)) as Pp.
  pose proof (from_bound s (k + 1) F ltac:(lia)) as B1. replace (len s - (k + 1)) with (len s - k - 1) in B1 by lia.
  assert (V : number (from s k) = digit s k * 10 ^ (len s - k - 1) + number (from s (k + 1))).
  { rewrite E at 1. cbn [number]. f_equal. f_equal. f_equal. unfold from, len in *. rewrite skipn_length. lia. }
  assert (AZ : all_zeros s k = (number (from s k) =? 0)).
  { unfold all_zeros. pose proof (forallb_zero (from s k) DF) as I. destruct (forallb (Z.eqb 0) (from s k)); lia. }
  assert (EH : exact_half s k = (2 * number (from s k) =? 10 ^ (len s - k))).
  { unfold exact_half. rewrite E at 1. pose proof (forallb_zero (from s (k + 1)) DF1) as I.
    destruct (forallb (Z.eqb 0) (from s (k + 1))).
    - destruct I as [I _]. specialize (I eq_refl). rewrite andb_true_r, V, I. nia.
    - rewrite andb_false_r. symmetry. apply Z.eqb_neq. intro H.
      assert (digit s k = 5) by nia. destruct I as [_ I]. discriminate I. nia. }
  assert (H5 : (5 <=? digit s k) = (10 ^ (len s - k) <=? 2 * number (from s k))).
  { apply Bool.eq_iff_eq_true. rewrite !Z.leb_le, P, V. split; intro; nia. }
  remember (number (upto s k)) as f eqn:Ef.
  assert (K0 : k = 0 -> f = 0) by (intros ->; subst f; reflexivity).
  assert (Lst : k <> 0 -> digit s (k - 1) = f mod 10) by (intro; subst f; apply last_digit; [auto|lia]).
  assert (EV : (k =? 0) || Z.even (digit s (k - 1)) = Z.even f).
  { destruct (k =? 0) eqn:Hk; [rewrite K0 by lia; reflexivity|]. rewrite Lst by lia. cbn [orb].
    rewrite (Z.div_mod f 10) at 2 by lia. rewrite Z.even_add, Z.even_mul. change (Z.even 10) with true. cbn [orb]. now destruct (Z.even (f mod 10)). }
  assert (M5 : negb (k =? 0) && negb ((digit s (k - 1) =? 0) || (digit s (k - 1) =? 5)) = negb (f mod 5 =? 0)).
  { destruct (k =? 0) eqn:Hk; [rewrite K0 by lia; reflexivity|]. rewrite Lst by lia. cbn [negb andb]. f_equal.
    pose proof (Z.mod_pos_bound f 10 ltac:(lia)). pose proof (Z.mod_pos_bound f 5 ltac:(lia)).
    pose proof (Z.div_mod f 10 ltac:(lia)). pose proof (Z.div_mod f 5 ltac:(lia)). lia. }
  unfold pick, part_of, round_up, round_half_even, round_half_down, round_half_up, round_ceiling, round_floor, round_05up, round_down.
  rewrite AZ, EH, H5, EV, M5. remember (number (from s k)) as r eqn:Er. remember (10 ^ (len s - k)) as D eqn:ED.
  clear Er ED Ef AZ EH H5 V P E Dg B1 Lst K0 EV M5 DF DF1 F.
  destruct (r =? 0) eqn:R0.
  { assert (r = 0) by lia. subst r. replace (D <=? 2 * 0) with false by lia. replace (2 * 0 =? D) with false by lia.
    destruct m; cbn [bump andb]; try reflexivity; try (destruct neg; reflexivity). destruct (negb _); reflexivity. }
  destruct (2 * r <? D) eqn:RL.
  { replace (D <=? 2 * r) with false by lia. replace (2 * r =? D) with false by lia.
    destruct m; cbn [bump andb]; try reflexivity; try (destruct neg; reflexivity). destruct (f mod 5 =? 0); reflexivity. }
  replace (D <=? 2 * r) with true by lia. destruct (2 * r =? D) eqn:RH.
  - destruct m; cbn [bump andb]; try reflexivity; try (destruct neg; reflexivity). destruct (f mod 5 =? 0); reflexivity.
  - destruct m; cbn [bump andb]; try reflexivity; try (destruct neg; reflexivity). destruct (f mod 5 =? 0); reflexivity.
Qed.

(** The same places on rational numbers. *)
Definition lies (y : Q) (f : Z) (p : part) : Prop :=
  match p with
  | PZero => (y == inject_Z f)%Q
  | PLow => (inject_Z f < y /\ y < inject_Z f + (1 # 2))%Q
  | PHalf => (y == inject_Z f + (1 # 2))%Q
  | PHigh => (inject_Z f + (1 # 2) < y /\ y < inject_Z f + 1)%Q
  end.
Lemma lies_range : forall y f p, lies y f p -> (inject_Z f <= y /\ y < inject_Z f + 1)%Q.
Proof. intros y f p L. destruct p; cbn [lies] in L; lra. Qed.
Lemma lies_eq : forall y y' f p, (y == y')%Q -> lies y f p -> lies y' f p.
Proof. intros y y' f p E L. destruct p; cbn [lies] in *; rewrite <- E; exact L. Qed.
(** The fraction [N / D]. *)
Lemma lies_fraction : forall N D, 0 < D -> lies (N # Z.to_pos D) (N / D) (part_of (N mod D) D).
Proof.
  intros N D P. pose proof (Z.div_mod N D ltac:(lia)) as E. pose proof (Z.mod_pos_bound N D P) as B.
  assert (I : Z.pos (Z.to_pos D) = D) by (apply Z2Pos.id; lia).
  unfold part_of. destruct (N mod D =? 0) eqn:R0; [|destruct (2 * (N mod D) <? D) eqn:RL; [|destruct (2 * (N mod D) =? D) eqn:RH]]; cbn [lies];
    unfold inject_Z, Qplus, Qeq, Qlt, Qle; cbn [Qnum Qden]; rewrite ?Pos2Z.inj_mul, ?Pos.mul_1_l, ?I; nia.
Qed.

Lemma inject_signed : forall s n, (inject_Z (signed s n) == if s then - inject_Z n else inject_Z n)%Q.
Proof. intros [|] n; cbn [signed]; [now rewrite inject_Z_opp|reflexivity]. Qed.
Definition sgn (s : bool) (y : Q) : Q := if s then (- y)%Q else y.
Lemma rounds_eq : forall m x x' n, (x == x')%Q -> rounds m x n -> rounds m x' n.
Proof.
  intros m x x' n E R.
  assert (TZ : forall t, toward_zero x t -> toward_zero x' t) by (intros t; unfold toward_zero; now rewrite E).
  assert (AZ : forall t, away_from_zero x t -> away_from_zero x' t) by (intros t; unfold away_from_zero; now rewrite E).
  destruct m; cbn [rounds] in *; auto; try (unfold nearest, tie in *; rewrite <- E; exact R); try (rewrite <- E; exact R).
  destruct R as (t & T & H). exists t. split; [auto|]. destruct H as [H|[H A]]; auto.
Qed.
Lemma inject_pos : forall f, 0 <= f -> (0 <= inject_Z f)%Q.
Proof. intros. change 0%Q with (inject_Z 0). now rewrite <- Zle_Qle. Qed.
Lemma inject_neg : forall f, f <= 0 -> (inject_Z f <= 0)%Q.
Proof. intros. change 0%Q with (inject_Z 0). now rewrite <- Zle_Qle. Qed.

Lemma toward_sgn : forall s y f, (inject_Z f <= y /\ y < inject_Z f + 1)%Q -> (0 <= inject_Z f)%Q -> (0 < y)%Q -> toward_zero (sgn s y) (signed s f).
Proof. intros s y f L F Y. unfold toward_zero. rewrite inject_signed. destruct s; cbn [sgn]; split; intro; lra. Qed.
Lemma away_sgn : forall s y f, (inject_Z f < y /\ y <= inject_Z f + 1)%Q -> (0 <= inject_Z f)%Q -> away_from_zero (sgn s y) (signed s (f + 1)).
Proof.
  intros s y f L F. unfold away_from_zero. rewrite inject_signed, inject_Z_plus. change (inject_Z 1) with 1%Q. destruct s; cbn [sgn]; split; intro; lra.
Qed.
Lemma away_exact : forall s y f, (y == inject_Z f)%Q -> (0 <= inject_Z f)%Q -> away_from_zero (sgn s y) (signed s f).
Proof.
  intros s y f L F. unfold away_from_zero. rewrite inject_signed. destruct s; cbn [sgn]; split; intro; lra.
Qed.
Lemma abs_sgn : forall s y, (Qabs (sgn s y) == Qabs y)%Q.
Proof. intros [|] y; cbn [sgn]; [apply Qabs_opp|reflexivity]. Qed.
Lemma sgn_minus : forall s y n, (sgn s y - inject_Z (signed s n) == sgn s (y - inject_Z n))%Q.
Proof. intros s y n. rewrite inject_signed. destruct s; cbn [sgn]; lra. Qed.
Lemma Qabs_cases : forall y : Q, ((0 <= y /\ Qabs y == y) \/ (y <= 0 /\ Qabs y == - y))%Q.
Proof. intro y. destruct (Qlt_le_dec y 0) as [H|H]; [right|left]; (split; [lra|]); [apply Qabs_neg; lra|now apply Qabs_pos]. Qed.
Lemma near_sgn : forall s y n, nearest y n -> nearest (sgn s y) (signed s n).
Proof. intros s y n. unfold nearest. now rewrite sgn_minus, abs_sgn. Qed.
Lemma tie_sgn : forall s y n, tie (sgn s y) (signed s n) -> tie y n.
Proof. intros s y n. unfold tie. now rewrite sgn_minus, abs_sgn. Qed.

Lemma rounds_lies : forall m s y f p, (0 < y)%Q -> 0 <= f -> lies y f p ->
  rounds m (sgn s y) (signed s (if bump m s f p >? 0 then f + 1 else f)).
Proof.
  intros m s y f p Y F L. pose proof (lies_range y f p L) as Rg. pose proof (inject_pos f F) as Fq.
  assert (Nlow : (y <= inject_Z f + (1 # 2))%Q -> nearest y f).
  { intro H. unfold nearest. destruct (Qabs_cases (y - inject_Z f)) as [[A B]|[A B]]; rewrite B; lra. }
  assert (Nhigh : (inject_Z f + (1 # 2) <= y)%Q -> nearest y (f + 1)).
  { intro H. unfold nearest. rewrite inject_Z_plus. change (inject_Z 1) with 1%Q. destruct (Qabs_cases (y - (inject_Z f + 1))) as [[A B]|[A B]]; rewrite B; lra. }
  assert (Tlow : tie y f -> (y == inject_Z f + (1 # 2))%Q).
  { unfold tie. destruct (Qabs_cases (y - inject_Z f)) as [[A B]|[A B]]; rewrite B; intro; lra. }
  assert (Thigh : tie y (f + 1) -> (y == inject_Z f + (1 # 2))%Q).
  { unfold tie. rewrite inject_Z_plus. change (inject_Z 1) with 1%Q. destruct (Qabs_cases (y - (inject_Z f + 1))) as [[A B]|[A B]]; rewrite B; intro; lra. }
  assert (Ab : forall n, 0 <= n -> (Qabs (inject_Z (signed s n)) == inject_Z n)%Q).
  { intros n Hn. rewrite inject_signed. pose proof (inject_pos n Hn). destruct s; [rewrite Qabs_opp|]; now apply Qabs_pos. }
  assert (Ay : (Qabs (sgn s y) == y)%Q) by (rewrite abs_sgn; apply Qabs_pos; lra).
  assert (If1 : (inject_Z (f + 1) == inject_Z f + 1)%Q) by (rewrite inject_Z_plus; reflexivity).
  destruct p; cbn [lies] in L.
  - cbn [bump]. change (0 >? 0) with false. cbn iota.
    destruct m; cbn [rounds].
    + apply toward_sgn; assumption.
    + split; [apply near_sgn, Nlow; lra|]. intro T. apply tie_sgn, Tlow in T. lra.
    + split; [apply near_sgn, Nlow; lra|]. intro T. apply tie_sgn, Tlow in T. lra.
    + rewrite inject_signed; destruct s; cbn [sgn]; lra.
    + rewrite inject_signed; destruct s; cbn [sgn]; lra.
    + now apply away_exact.
    + split; [apply near_sgn, Nlow; lra|]. intro T. apply tie_sgn, Tlow in T. lra.
    + exists (signed s f). split; [apply toward_sgn; assumption|].
      destruct (Z.eq_dec (signed s f mod 5) 0) as [e|e]; [right; split; [exact e|now apply away_exact]|left; auto].
  - destruct m; cbn [bump rounds]; try change (1 >? 0) with true; try change (-1 >? 0) with false; cbn iota.
    + apply toward_sgn; assumption.
    + split; [apply near_sgn, Nlow; lra|]. intro T. apply tie_sgn, Tlow in T. lra.
    + split; [apply near_sgn, Nlow; lra|]. intro T. apply tie_sgn, Tlow in T. lra.
    + rewrite inject_signed; destruct s; cbn [sgn]; change (1 >? 0) with true; change (-1 >? 0) with false; cbn iota; rewrite ?If1; lra.
    + rewrite inject_signed; destruct s; cbn [sgn]; change (1 >? 0) with true; change (-1 >? 0) with false; cbn iota; rewrite ?If1; lra.
    + apply away_sgn; [lra|assumption].
    + split; [apply near_sgn, Nlow; lra|]. intro T. apply tie_sgn, Tlow in T. lra.
    + exists (signed s f). split; [apply toward_sgn; assumption|].
      assert (M : (f mod 5 =? 0) = (signed s f mod 5 =? 0)).
      { destruct s; cbn [signed]; [|reflexivity]. pose proof (Z.div_mod f 5 ltac:(lia)). pose proof (Z.div_mod (- f) 5 ltac:(lia)).
        pose proof (Z.mod_pos_bound f 5 ltac:(lia)). pose proof (Z.mod_pos_bound (- f) 5 ltac:(lia)). lia. }
      rewrite M. destruct (signed s f mod 5 =? 0) eqn:Z5; [right|left]; (split; [lia|]); [|reflexivity]. change (1 >? 0) with true. cbn iota. apply away_sgn; [lra|assumption].
  - destruct m; cbn [bump rounds]; try change (1 >? 0) with true; try change (-1 >? 0) with false; cbn iota.
    + apply toward_sgn; assumption.
    + split; [apply near_sgn, Nhigh; lra|]. intro T. rewrite Ab, Ay by lia. lra.
    + destruct (Z.even f) eqn:Ev; [change (-1 >? 0) with false|change (1 >? 0) with true]; cbn iota.
      * split; [apply near_sgn, Nlow; lra|]. intros _. apply Z.even_spec. destruct s; cbn [signed]; [now rewrite Z.even_opp|exact Ev].
      * split; [apply near_sgn, Nhigh; lra|]. intros _. apply Z.even_spec. destruct s; cbn [signed]; [rewrite Z.even_opp|]; rewrite Z.even_add, Ev; reflexivity.
    + rewrite inject_signed; destruct s; cbn [sgn]; change (1 >? 0) with true; change (-1 >? 0) with false; cbn iota; rewrite ?If1; lra.
    + rewrite inject_signed; destruct s; cbn [sgn]; change (1 >? 0) with true; change (-1 >? 0) with false; cbn iota; rewrite ?If1; lra.
    + apply away_sgn; [lra|assumption].
    + split; [apply near_sgn, Nlow; lra|]. intro T. rewrite Ab, Ay by lia. lra.
    + exists (signed s f). split; [apply toward_sgn; assumption|].
      assert (M : (f mod 5 =? 0) = (signed s f mod 5 =? 0)).
      { destruct s; cbn [signed]; [|reflexivity]. pose proof (Z.div_mod f 5 ltac:(lia)). pose proof (Z.div_mod (- f) 5 ltac:(lia)).
        pose proof (Z.mod_pos_bound f 5 ltac:(lia)). pose proof (Z.mod_pos_bound (- f) 5 ltac:(lia)). lia. }
      rewrite M. destruct (signed s f mod 5 =? 0) eqn:Z5; [right|left]; (split; [lia|]); [|reflexivity]. change (1 >? 0) with true. cbn iota. apply away_sgn; [lra|assumption].
  - destruct m; cbn [bump rounds]; try change (1 >? 0) with true; try change (-1 >? 0) with false; cbn iota.
    + apply toward_sgn; assumption.
    + split; [apply near_sgn, Nhigh; lra|]. intro T. apply tie_sgn, Thigh in T. lra.
    + split; [apply near_sgn, Nhigh; lra|]. intro T. apply tie_sgn, Thigh in T. lra.
    + rewrite inject_signed; destruct s; cbn [sgn]; change (1 >? 0) with true; change (-1 >? 0) with false; cbn iota; rewrite ?If1; lra.
    + rewrite inject_signed; destruct s; cbn [sgn]; change (1 >? 0) with true; change (-1 >? 0) with false; cbn iota; rewrite ?If1; lra.
    + apply away_sgn; [lra|assumption].
    + split; [apply near_sgn, Nhigh; lra|]. intro T. apply tie_sgn, Thigh in T. lra.
    + exists (signed s f). split; [apply toward_sgn; assumption|].
      assert (M : (f mod 5 =? 0) = (signed s f mod 5 =? 0)).
      { destruct s; cbn [signed]; [|reflexivity]. pose proof (Z.div_mod f 5 ltac:(lia)). pose proof (Z.div_mod (- f) 5 ltac:(lia)).
        pose proof (Z.mod_pos_bound f 5 ltac:(lia)). pose proof (Z.mod_pos_bound (- f) 5 ltac:(lia)). lia. }
      rewrite M. destruct (signed s f mod 5 =? 0) eqn:Z5; [right|left]; (split; [lia|]); [|reflexivity]. change (1 >? 0) with true. cbn iota. apply away_sgn; [lra|assumption].
Qed.
