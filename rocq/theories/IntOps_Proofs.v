From Coq Require Import ZArith List Bool Lia.
From Coq Require Import ZifyBool ZifyNat.
From Verif Require Import Py IntOps_Model IntOps_Spec.
Import ListNotations.
Open Scope Z_scope.
Ltac Zify.zify_post_hook ::= Z.div_mod_to_equations.

(** *** Division *)
Lemma divmod_unique x y q r q' r' :
  is_divmod x y q r -> is_divmod x y q' r' -> q = q' /\ r = r'.
Proof. unfold is_divmod. intros [E1 H1] [E2 H2]. assert (q = q') by nia. subst. nia. Qed.

Lemma is_divmod_Z x y : y <> 0 -> is_divmod x y (x / y) (x mod y).
Proof. intros H. unfold is_divmod. split; [pose proof (Z.div_mod x y H); lia|].
  destruct (Z_lt_le_dec y 0); [right; apply Z.mod_neg_bound|left; apply Z.mod_pos_bound]; lia. Qed.

Lemma floordiv_Z x y : m_floordiv x y = if y =? 0 then Err ZeroDivisionError else Ok (x / y).
Proof.
  unfold m_floordiv, zdiv. destruct (y =? 0) eqn:?; [reflexivity|].
  destruct (0 <=? y) eqn:?.
  - replace (0 <? y) with true by lia. destruct (0 <=? x) eqn:?; [reflexivity|]. f_equal.
    apply Z.div_unique with (r := x + y * ((y - x - 1) / y)).
    + left. nia.
    + nia.
  - replace (0 <? - y) with true by lia. destruct (0 <=? x) eqn:?.
    + f_equal. apply Z.div_unique with (r := x + y * ((x - y - 1) / - y)).
      * right. pose proof (Z.div_mod (x - y - 1) (- y)). pose proof (Z.mod_pos_bound (x - y - 1) (- y)). nia.
      * nia.
    + f_equal. apply Z.div_opp_opp. lia.
Qed.

Lemma mod_Z x y : m_mod x y = if y =? 0 then Err ZeroDivisionError else Ok (x mod y).
Proof.
  unfold m_mod, zmod. destruct (y =? 0) eqn:?; [reflexivity|].
  destruct (0 <=? y) eqn:?; cbn [orb].
  - rewrite Z.abs_eq by lia. reflexivity.
  - replace (Z.abs y) with (- y) by lia.
    assert (H : x mod - y = if x mod y =? 0 then 0 else x mod y - y).
    { destruct (x mod y =? 0) eqn:?.
      - apply Z.mod_opp_r_z; lia.
      - apply Z.mod_opp_r_nz; lia. }
    rewrite H. destruct (x mod y =? 0) eqn:?; cbn [Z.eqb].
    + f_equal. lia.
    + replace (x mod y - y =? 0) with false.
      * f_equal. lia.
      * pose proof (Z.mod_neg_bound x y). lia.
Qed.

Lemma floordiv_ok x y : y <> 0 -> m_floordiv x y = Ok (x / y).
Proof. intros. rewrite floordiv_Z. replace (y =? 0) with false by lia. reflexivity. Qed.
Lemma mod_ok x y : y <> 0 -> m_mod x y = Ok (x mod y).
Proof. intros. rewrite mod_Z. replace (y =? 0) with false by lia. reflexivity. Qed.

Lemma divmod_correct x y :
  (y = 0 -> m_floordiv x y = Err ZeroDivisionError /\ m_mod x y = Err ZeroDivisionError
            /\ m_divmod x y = Err ZeroDivisionError) /\
  (y <> 0 -> exists q r, m_floordiv x y = Ok q /\ m_mod x y = Ok r /\ m_divmod x y = Ok (q, r)
                         /\ is_divmod x y q r).
Proof.
  split; intro H.
  - unfold m_divmod. rewrite floordiv_Z, mod_Z. subst y. cbn. auto.
  - exists (x / y), (x mod y). unfold m_divmod. rewrite floordiv_ok, mod_ok by auto. cbn.
    repeat split; try apply is_divmod_Z; auto.
Qed.

(** *** Bit operations *)
Lemma lshift_correct a b : m_lshift a b = if b <? 0 then Err ValueError else Ok (Z.shiftl a b).
Proof. unfold m_lshift. destruct (b <? 0) eqn:?; auto. rewrite Z.shiftl_mul_pow2 by lia. auto. Qed.

Lemma rshift_correct a b : m_rshift a b = if b <? 0 then Err ValueError else Ok (Z.shiftr a b).
Proof.
  unfold m_rshift. destruct (b <? 0) eqn:?; auto. rewrite Z.shiftr_div_pow2 by lia.
  apply floordiv_ok. pose proof (Z.pow_pos_nonneg 2 b). lia.
Qed.

Lemma mask_pow2 b : 0 < b -> Z.land (b + 1) b = 0 -> exists k, 0 <= k /\ b = Z.ones k.
Proof.
  intros P H.
  exists (Z.log2 (b + 1)). split; [apply Z.log2_nonneg|].
  set (k := Z.log2 (b + 1)).
  assert (K : 2 ^ k <= b + 1 < 2 ^ (k + 1)) by (apply Z.log2_spec; lia).
  assert (Kn : 0 <= k) by apply Z.log2_nonneg.
  rewrite Z.ones_equiv.
  destruct (Z.eq_dec (b + 1) (2 ^ k)) as [E|N]; [lia|exfalso].
  assert (L : Z.log2 b = k).
  { apply Z.log2_unique; lia. }
  assert (T : Z.testbit (Z.land (b + 1) b) k = true).
  { rewrite Z.land_spec. rewrite <- L at 2. rewrite (Z.bit_log2 b) by lia.
    unfold k. rewrite Z.bit_log2 by lia. reflexivity. }
  rewrite H, Z.bits_0 in T. discriminate.
Qed.

Lemma and_correct a b : m_and a b = Z.land a b.
Proof.
  unfold m_and. destruct (b =? 0) eqn:?.
  - assert (b = 0) by lia. subst. now rewrite Z.land_0_r.
  - destruct (0 <? b) eqn:?; cbn [andb]; [|reflexivity].
    destruct (Z.land (b + 1) b =? 0) eqn:E; [|reflexivity].
    apply Z.eqb_eq in E. apply mask_pow2 in E; [|lia]. destruct E as (k & K & ->).
    rewrite Z.land_ones by auto.
    assert (O : Z.ones k + 1 = 2 ^ k) by (rewrite Z.ones_equiv; lia).
    rewrite O. unfold zmod.
    assert (P : 0 < 2 ^ k) by (apply Z.pow_pos_nonneg; lia).
    rewrite Z.abs_eq by lia.
    destruct (0 <=? a) eqn:?; [reflexivity|].
    replace (Z.ones k) with (2 ^ k - 1) by lia.
    pose proof (Z.mod_pos_bound (- a - 1) (2 ^ k) P).
    apply Z.mod_unique with (q := - ((- a - 1) / 2 ^ k) - 1).
    + left. lia.
    + pose proof (Z.div_mod (- a - 1) (2 ^ k)). nia.
Qed.

Lemma invert_correct a : m_invert a = Z.lnot a.
Proof. unfold m_invert, Z.lnot. lia. Qed.

Lemma abs_correct a : m_abs a = Z.abs a.
Proof. unfold m_abs. destruct (a <? 0) eqn:?; lia. Qed.

(** popcount by halving *)
Lemma popcount_half n : 0 <= n -> popcount n = popcount (n / 2) + n mod 2.
Proof.
  intros. destruct n as [|p|p]; [reflexivity| |lia].
  destruct p as [p|p|]; cbn [popcount pos_popcount].
  - replace (Zpos p~1 / 2) with (Zpos p) by lia. replace (Zpos p~1 mod 2) with 1 by lia.
    cbn [popcount]. lia.
  - replace (Zpos p~0 / 2) with (Zpos p) by lia. replace (Zpos p~0 mod 2) with 0 by lia.
    cbn [popcount]. lia.
  - reflexivity.
Qed.

Lemma bit_count_loop_ok fuel : forall self count h,
  0 <= self -> 0 < h -> self < h * 2 ^ (Z.of_nat fuel - 1) -> (0 < fuel)%nat ->
  bit_count_loop fuel self count (h * 2) h = Ok (count + popcount (self / h)).
Proof.
  induction fuel as [|f IH]; intros self count h Hs Hh Hb Hf; [lia|].
  cbn [bit_count_loop]. destruct (h <=? self) eqn:C.
  - rewrite mod_ok by lia. cbn [bind].
    assert (1 <= Z.of_nat f) as Ff.
    { destruct f; [|lia]. cbn in Hb. lia. }
    rewrite IH; try lia.
    + f_equal. rewrite (popcount_half (self / h)) by lia.
      rewrite Z.div_div by lia.
      assert ((self / h) mod 2 = if h <=? self mod (h * 2) then 1 else 0) as ->.
      { pose proof (Z.rem_mul_r self h 2). destruct (h <=? self mod (h * 2)) eqn:?; nia. }
      destruct (h <=? self mod (h * 2)); lia.
    + replace (Z.of_nat (S f) - 1) with (1 + (Z.of_nat f - 1)) in Hb by lia.
      rewrite Z.pow_add_r in Hb by lia. nia.
  - rewrite Z.div_small by lia. cbn. f_equal. lia.
Qed.

Lemma popcount_abs n : popcount (Z.abs n) = popcount n.
Proof. destruct n; reflexivity. Qed.

Lemma bit_count_correct fuel n : Z.abs n < 2 ^ (Z.of_nat fuel - 1) -> (0 < fuel)%nat ->
  m_bit_count fuel n = Ok (popcount n).
Proof.
  intros H F. unfold m_bit_count.
  replace (if n <? 0 then - n else n) with (Z.abs n) by (destruct (n <? 0) eqn:?; lia).
  change 2 with (1 * 2) at 1. rewrite (bit_count_loop_ok fuel (Z.abs n) 0 1); try lia.
  rewrite Z.div_1_r, popcount_abs. reflexivity.
Qed.

(** *** Rounding *)
Lemma pow10_even d : 0 < d -> exists k, 0 < k /\ 10 ^ d = 2 * k.
Proof.
  intros. exists (5 * 10 ^ (d - 1)). pose proof (Z.pow_pos_nonneg 10 (d - 1)).
  split; [lia|]. replace d with (1 + (d - 1)) at 1 by lia. rewrite Z.pow_add_r by lia.
  change (10 ^ 1) with 10. lia.
Qed.

Lemma round_pos_correct n d : 0 <= n -> 0 < d -> is_round n d (round_pos n (- d)).
Proof.
  intros Hn Hd. unfold round_pos, is_round. rewrite Z.opp_involutive.
  destruct (pow10_even d Hd) as (k & K & ->).
  replace (2 * k / 2) with k by (rewrite Z.mul_comm, Z.div_mul; lia).
  unfold zmod, zdiv. rewrite (Z.abs_eq (2 * k)), (Z.abs_eq 2) by lia.
  replace (0 <? 2 * k) with true by lia.
  pose proof (Z.div_mod n (2 * k)). pose proof (Z.mod_pos_bound n (2 * k)).
  set (q := n / (2 * k)) in *. set (r := n mod (2 * k)) in *.
  destruct ((n + k) mod (2 * k) =? 0) eqn:B.
  - assert (r = k).
    { assert ((n + k) = 2 * k * ((n + k) / (2 * k))) by (apply Z_div_exact_full_2; lia).
      set (w := (n + k) / (2 * k)) in *. assert (w = q + 1) by nia. nia. }
    destruct (q mod 2 =? 0) eqn:Q.
    + exists q. split; [nia|]. split; [nia|]. intros _. rewrite Zeven_mod. 
      unfold Zeq_bool. replace (q mod 2) with 0 by lia. reflexivity.
    + exists (q + 1). split; [nia|]. split; [nia|]. intros _.
      rewrite Zeven_mod. unfold Zeq_bool. replace ((q + 1) mod 2) with 0 by lia. reflexivity.
  - exists ((n + k) / (2 * k)).
    pose proof (Z.div_mod (n + k) (2 * k)). pose proof (Z.mod_pos_bound (n + k) (2 * k)).
    set (w := (n + k) / (2 * k)) in *. set (s := (n + k) mod (2 * k)) in *.
    split; [nia|]. replace (n - (n + k - s)) with (s - k) by lia. lia.
Qed.

Lemma round_opp n d r : is_round n d r -> is_round (- n) d (- r).
Proof.
  intros (m & E & A & B). exists (- m). split; [lia|].
  replace (- n - - r) with (- (n - r)) by lia. rewrite Z.abs_opp. split; [auto|].
  intro H. rewrite Z.even_opp. auto.
Qed.

Lemma round_correct n :
  (m_round n None = n) /\
  (forall nd, 0 <= nd -> m_round n (Some nd) = n) /\
  (forall d, 0 < d -> is_round n d (m_round n (Some (- d)))).
Proof.
  split; [reflexivity|]. split.
  - intros nd H. cbn. replace (0 <=? nd) with true by lia. reflexivity.
  - intros d H. cbn. replace (0 <=? - d) with false by lia.
    destruct (n <? 0) eqn:?.
    + replace n with (- - n) at 1 by lia. apply round_opp. apply round_pos_correct; lia.
    + apply round_pos_correct; lia.
Qed.

Lemma round_unique n d r r' : 0 < d -> is_round n d r -> is_round n d r' -> r = r'.
Proof.
  intros D (m & E & A & B) (m' & E' & A' & B'). 
  pose proof (Z.pow_pos_nonneg 10 d ltac:(lia) ltac:(lia)) as P.
  set (T := 10 ^ d) in *.
  assert (m' <= m + 1 /\ m <= m' + 1) as [M1 M2] by nia.
  assert (m = m' \/ m' = m + 1 \/ m = m' + 1) as [?|[?|?]] by lia; subst; auto; exfalso.
  - assert (X : 2 * Z.abs (n - m * T) = T) by nia.
    assert (Y : 2 * Z.abs (n - (m + 1) * T) = T) by nia.
    specialize (B X). specialize (B' Y). rewrite Z.even_add, B in B'. discriminate.
  - assert (X : 2 * Z.abs (n - m' * T) = T) by nia.
    assert (Y : 2 * Z.abs (n - (m' + 1) * T) = T) by nia.
    specialize (B Y). specialize (B' X). rewrite Z.even_add, B' in B. discriminate.
Qed.

(** *** bit_length *)
Lemma bl_char n k : 0 < k -> 2 ^ (k - 1) <= Z.abs n < 2 ^ k -> is_bit_length n k.
Proof.
  intros K [A B]. split; [lia|]. split; [auto|]. intros j J H.
  destruct (Z_le_gt_dec k j); auto. exfalso.
  assert (2 ^ j <= 2 ^ (k - 1)) by (apply Z.pow_le_mono_r; lia). lia.
Qed.
Lemma bl_inv n k : n <> 0 -> is_bit_length n k -> 0 < k /\ 2 ^ (k - 1) <= Z.abs n < 2 ^ k.
Proof.
  intros N (K & A & B). assert (0 < k) as K0.
  { destruct (Z.eq_dec k 0); [subst; change (2 ^ 0) with 1 in A; lia|lia]. }
  split; [auto|]. split; [|auto]. destruct (Z_le_gt_dec (2 ^ (k - 1)) (Z.abs n)); auto.
  specialize (B (k - 1)). lia.
Qed.

Lemma bit_length_correct fuel : forall n, Z.abs n < 256 ^ Z.of_nat fuel -> (0 < fuel)%nat ->
  exists k, m_bit_length fuel n = Ok k /\ is_bit_length n k.
Proof.
  induction fuel as [|f IH]; intros n H F; [lia|].
  cbn [m_bit_length].
  replace (if n <? 0 then - n else n) with (Z.abs n) by (destruct (n <? 0) eqn:?; lia).
  destruct (256 <=? Z.abs n) eqn:C.
  - rewrite floordiv_ok by lia. cbn [bind].
    assert (Hf : (0 < f)%nat).
    { destruct f; [|lia]. cbn in H. change (Z.pow_pos 256 1) with 256 in H. lia. }
    destruct (IH (Z.abs n / 256)) as (k & -> & Bk).
    + rewrite Nat2Z.inj_succ, Z.pow_succ_r in H by lia. rewrite Z.abs_eq by lia.
      apply Z.div_lt_upper_bound; lia.
    + auto.
    + cbn [bind]. exists (k + 8). split; [reflexivity|].
      apply bl_inv in Bk; [|lia]. destruct Bk as (K0 & A & B).
      rewrite (Z.abs_eq (Z.abs n / 256)) in * by lia.
      apply bl_char; [lia|].
      replace (k + 8 - 1) with (k - 1 + 8) by lia.
      rewrite !Z.pow_add_r by lia. change (2 ^ 8) with 256. lia.
  - exists (bit_length_small (Z.abs n)). split; [reflexivity|].
    unfold bit_length_small.
    destruct (Z.abs n =? 0) eqn:?.
    { split; [lia|]. split; [lia|]. intros; lia. }
    repeat match goal with |- context [if ?c then _ else _] => destruct c eqn:? end;
      apply bl_char; lia.
Qed.

(** *** Decimal representation *)
Lemma dec_value_app l c : dec_value (l ++ [c]) = dec_value l * 10 + (c - 48).
Proof. unfold dec_value. rewrite fold_left_app. reflexivity. Qed.

(** [digits k n]: the [k] low decimal digits of [n], most significant first. *)
Fixpoint digits (k : nat) (n : Z) : list Z :=
  match k with O => [] | S k => digits k (n / 10) ++ [48 + n mod 10] end.

Lemma digits_value k : forall n, dec_value (digits k n) = n mod 10 ^ Z.of_nat k.
Proof.
  induction k as [|k IH]; intro n; cbn [digits].
  - cbn. now rewrite Z.mod_1_r.
  - rewrite dec_value_app, IH. rewrite Nat2Z.inj_succ, Z.pow_succ_r by lia.
    pose proof (Z.pow_pos_nonneg 10 (Z.of_nat k)).
    rewrite Z.rem_mul_r by lia. lia.
Qed.
Lemma digits_digit k : forall n, Forall is_digit (digits k n).
Proof.
  induction k; intro n; cbn [digits]; [constructor|]. apply Forall_app. split; [auto|].
  constructor; [|constructor]. unfold is_digit. lia.
Qed.
(** Peeling from the top. *)
Lemma digits_top k : forall n, digits (S k) n = (48 + (n / 10 ^ Z.of_nat k) mod 10) :: digits k n.
Proof.
  induction k as [|k IH]; intro n.
  - cbn. now rewrite Z.div_1_r.
  - cbn [digits] in *. rewrite IH. cbn [app]. f_equal.
    rewrite Z.div_div by (try apply Z.pow_pos_nonneg; lia).
    rewrite Nat2Z.inj_succ, Z.pow_succ_r by lia. reflexivity.
Qed.
Lemma digits_numeral k n : 10 ^ Z.of_nat k <= n < 10 ^ Z.of_nat (S k) -> is_numeral n (digits (S k) n).
Proof.
  intros [A B]. split; [apply digits_digit|]. split.
  - rewrite digits_value. pose proof (Z.pow_pos_nonneg 10 (Z.of_nat k)). apply Z.mod_small. lia.
  - rewrite digits_top.
    pose proof (Z.pow_pos_nonneg 10 (Z.of_nat k)) as P.
    assert (1 <= n / 10 ^ Z.of_nat k < 10).
    { rewrite Nat2Z.inj_succ, Z.pow_succ_r in B by lia.
      split; [apply Z.div_le_lower_bound; lia|apply Z.div_lt_upper_bound; lia]. }
    rewrite Z.mod_small by lia. destruct (digits k n); lia.
Qed.
Lemma numeral_small n : 0 <= n < 10 -> is_numeral n [48 + n].
Proof.
  intros. split; [constructor; [unfold is_digit; lia|constructor]|]. split; [|exact I].
  unfold dec_value. cbn [fold_left]. lia.
Qed.

Lemma digits_cut k n : digits (S k) n = (48 + (n / 10 ^ Z.of_nat k) mod 10) :: digits k n.
Proof. apply digits_top. Qed.

Lemma repr_loop_ok fuel : forall n k, 0 <= n -> (1 <= k)%nat -> 10 ^ (Z.of_nat k - 1) <= n ->
  n < 10 ^ (Z.of_nat k - 1 + Z.of_nat fuel) ->
  exists l, repr_loop fuel n (rev (digits k n)) (10 ^ Z.of_nat k) = Ok l /\ is_numeral n l.
Proof.
  induction fuel as [|f IH]; intros n k Hn Hk L U.
  - replace (Z.of_nat k - 1 + Z.of_nat 0) with (Z.of_nat k - 1) in U by lia. lia.
  - cbn [repr_loop]. pose proof (Z.pow_pos_nonneg 10 (Z.of_nat k)) as P.
    rewrite floordiv_ok by lia. cbn [bind].
    destruct (n / 10 ^ Z.of_nat k =? 0) eqn:C.
    + eexists; split; [reflexivity|]. rewrite rev_involutive.
      destruct k as [|k]; [lia|]. apply digits_numeral.
      replace (Z.of_nat (S k) - 1) with (Z.of_nat k) in L by lia. split; auto.
      apply Z.eqb_eq in C. apply Z.div_small_iff in C; lia.
    + rewrite mod_ok by lia. cbn [bind].
      assert (10 ^ Z.of_nat k <= n).
      { destruct (Z_le_gt_dec (10 ^ Z.of_nat k) n); auto. rewrite Z.div_small in C; lia. }
      replace (rev (digits k n) ++ [48 + (n / 10 ^ Z.of_nat k) mod 10])
        with (rev (digits (S k) n)) by (rewrite digits_top; reflexivity).
      replace (10 ^ Z.of_nat k * 10) with (10 ^ Z.of_nat (S k))
        by (rewrite Nat2Z.inj_succ, Z.pow_succ_r; lia).
      apply IH; try lia.
      * replace (Z.of_nat (S k) - 1) with (Z.of_nat k) by lia. auto.
      * replace (Z.of_nat (S k) - 1 + Z.of_nat f) with (Z.of_nat k - 1 + Z.of_nat (S f)) by lia. auto.
Qed.

Lemma repr_nonneg_ok fuel n : 0 <= n < 10 ^ Z.of_nat fuel ->
  exists l, repr_nonneg fuel n = Ok l /\ is_numeral n l.
Proof.
  intros H. unfold repr_nonneg. destruct (n <? 10) eqn:?.
  - eexists; split; [reflexivity|]. apply numeral_small. lia.
  - rewrite mod_ok by lia. cbn [bind].
    apply (repr_loop_ok fuel n 1); try lia. replace (Z.of_nat 1 - 1 + Z.of_nat fuel) with (Z.of_nat fuel) by lia. lia.
Qed.

Lemma repr_correct fuel n : Z.abs n < 10 ^ Z.of_nat fuel ->
  exists l, m_repr fuel n = Ok l /\ is_decimal n l.
Proof.
  intros H. unfold m_repr, is_decimal. destruct (n <? 0) eqn:?.
  - destruct (repr_nonneg_ok fuel (- n)) as (l & -> & L); [lia|]. cbn. eauto.
  - apply repr_nonneg_ok. lia.
Qed.

Lemma srepr_loop_ok fuel : forall n k, 0 <= n -> (1 <= k)%nat ->
  (10 ^ (Z.of_nat k - 1) <= n \/ k = 1%nat) ->
  n < 10 ^ (Z.of_nat k - 1 + Z.of_nat fuel) -> (0 < fuel)%nat ->
  exists l, srepr_loop fuel n (rev (digits k n)) (10 ^ Z.of_nat k) = Ok l /\ is_numeral n (rev l).
Proof.
  induction fuel as [|f IH]; intros n k Hn Hk L U F; [lia|].
  cbn [srepr_loop]. pose proof (Z.pow_pos_nonneg 10 (Z.of_nat k)) as P.
  destruct (10 ^ Z.of_nat k <=? n) eqn:C.
  - rewrite floordiv_ok by lia. cbn [bind]. rewrite mod_ok by lia. cbn [bind].
    replace (rev (digits k n) ++ [48 + (n / 10 ^ Z.of_nat k) mod 10])
      with (rev (digits (S k) n)) by (rewrite digits_top; reflexivity).
    replace (10 ^ Z.of_nat k * 10) with (10 ^ Z.of_nat (S k))
      by (rewrite Nat2Z.inj_succ, Z.pow_succ_r; lia).
    assert (Ff : (0 < f)%nat).
    { destruct f; [|lia]. replace (Z.of_nat k - 1 + Z.of_nat 1) with (Z.of_nat k) in U by lia. lia. }
    apply IH; try lia.
    + left. replace (Z.of_nat (S k) - 1) with (Z.of_nat k) by lia. lia.
    + replace (Z.of_nat (S k) - 1 + Z.of_nat f) with (Z.of_nat k - 1 + Z.of_nat (S f)) by lia. auto.
  - eexists; split; [reflexivity|]. rewrite rev_involutive.
    destruct L as [L|L].
    + destruct k as [|k]; [lia|]. apply digits_numeral.
      replace (Z.of_nat (S k) - 1) with (Z.of_nat k) in L by lia. lia.
    + subst k. change (10 ^ Z.of_nat 1) with 10 in C. cbn [digits app].
      rewrite Z.mod_small by lia. apply numeral_small. lia.
Qed.

Lemma symbolic_repr_correct fuel n : Z.abs n < 10 ^ Z.of_nat fuel -> (0 < fuel)%nat ->
  exists l, m_symbolic_repr fuel n = Ok l /\ is_decimal n l.
Proof.
  intros H F. unfold m_symbolic_repr, is_decimal.
  replace (if n <? 0 then - n else n) with (Z.abs n) by (destruct (n <? 0) eqn:?; lia).
  rewrite mod_ok by lia. cbn [bind].
  destruct (srepr_loop_ok fuel (Z.abs n) 1) as (l & E & N); try lia.
  { replace (Z.of_nat 1 - 1 + Z.of_nat fuel) with (Z.of_nat fuel) by lia. lia. }
  cbn [digits app rev] in E. change (10 ^ Z.of_nat 1) with 10 in E. rewrite E. cbn [bind].
  destruct (n <? 0) eqn:?.
  - rewrite rev_app_distr. cbn. eexists; split; [reflexivity|].
    exists (rev l). split; [auto|]. replace (- n) with (Z.abs n) by lia. auto.
  - eexists; split; [reflexivity|]. replace n with (Z.abs n) by lia. auto.
Qed.

(** A number has one numeral only. *)
Lemma dec_value_cons c l : dec_value (c :: l) = (c - 48) * 10 ^ Z.of_nat (length l) + dec_value l.
Proof.
  revert c. induction l as [|d l IH] using rev_ind; intro c; [cbn; lia|].
  rewrite app_comm_cons, !dec_value_app, IH, app_length. cbn [length].
  replace (Z.of_nat (length l + 1)) with (Z.succ (Z.of_nat (length l))) by lia.
  rewrite Z.pow_succ_r by lia. lia.
Qed.
Lemma dec_value_bound l : Forall is_digit l -> 0 <= dec_value l < 10 ^ Z.of_nat (length l).
Proof.
  induction l as [|c l IH]; intro H; [cbn; lia|]. inversion H; subst. specialize (IH H3).
  rewrite dec_value_cons. cbn [length]. rewrite Nat2Z.inj_succ, Z.pow_succ_r by lia.
  unfold is_digit in H2. nia.
Qed.
Lemma dec_value_inj l : forall l', length l = length l' -> Forall is_digit l -> Forall is_digit l' ->
  dec_value l = dec_value l' -> l = l'.
Proof.
  induction l as [|c l IH]; intros [|c' l'] L H H' E; try discriminate; auto.
  inversion H; inversion H'; subst. rewrite !dec_value_cons in E. cbn in L. injection L as L.
  rewrite <- L in E.
  pose proof (dec_value_bound l H3). pose proof (dec_value_bound l' H7). rewrite <- L in *.
  assert (c = c') by nia. subst. f_equal. apply IH; auto. lia.
Qed.
Lemma numeral_len n l : is_numeral n l -> (1 < length l)%nat ->
  10 ^ (Z.of_nat (length l) - 1) <= n.
Proof.
  intros (D & V & H) L. destruct l as [|c [|d l]]; cbn [length] in L; try lia.
  subst n. rewrite dec_value_cons. inversion D; subst. pose proof (dec_value_bound _ H3).
  unfold is_digit in H2. replace (Z.of_nat (length (c :: d :: l)) - 1) with (Z.of_nat (length (d :: l))) by (cbn [length]; lia).
  nia.
Qed.
Lemma numeral_unique n l l' : is_numeral n l -> is_numeral n l' -> l = l'.
Proof.
  assert (W : forall l l', is_numeral n l -> is_numeral n l' -> (length l < length l')%nat -> False).
  { intros a b (D & V & H) B L.
    pose proof (dec_value_bound a D). assert (1 <= length a)%nat by (destruct a; cbn; [tauto|lia]).
    pose proof (numeral_len n b B ltac:(lia)).
    assert (10 ^ Z.of_nat (length a) <= 10 ^ (Z.of_nat (length b) - 1)) by (apply Z.pow_le_mono_r; lia).
    lia. }
  intros A B. destruct (lt_eq_lt_dec (length l) (length l')) as [[L|L]|L].
  - exfalso; eauto.
  - destruct A as (D & V & _), B as (D' & V' & _). apply dec_value_inj; auto. lia.
  - exfalso; eauto.
Qed.

(** *** pow *)
Lemma pow_correct (z3pow : Z -> Z -> Z) :
  (forall x y, 0 <= y -> z3pow x y = x ^ y) ->
  forall x y, 0 <= y \/ x = 0 -> m_pow z3pow x y = py_pow x y.
Proof.
  intros Z x y H. unfold m_pow, py_pow. destruct (0 <=? y) eqn:?.
  - replace (y <? 0) with false by lia. rewrite andb_false_r, Z by lia. reflexivity.
  - replace (x =? 0) with true by lia. replace (y <? 0) with true by lia. reflexivity.
Qed.
Lemma pow_negative_wrong (z3pow : Z -> Z -> Z) x y : x <> 0 -> y < 0 ->
  m_pow z3pow x y <> py_pow x y.
Proof.
  intros X Y. unfold m_pow, py_pow.
  replace (0 <=? y) with false by lia. replace (x =? 0) with false by lia. cbn. discriminate.
Qed.

(** *** to_bytes / from_bytes *)
Definition le_digits (k : nat) (n : Z) : list Z :=
  map (fun i => zmod (zdiv n (2 ^ (Z.of_nat i * 8))) 256) (seq 0 k).

Lemma le_digit_eq n i : zmod (zdiv n (2 ^ (Z.of_nat i * 8))) 256 = (n / 256 ^ Z.of_nat i) mod 256.
Proof.
  unfold zmod, zdiv. pose proof (Z.pow_pos_nonneg 2 (Z.of_nat i * 8)).
  replace (0 <? 2 ^ (Z.of_nat i * 8)) with true by lia.
  rewrite (Z.mul_comm (Z.of_nat i)), Z.pow_mul_r by lia. reflexivity.
Qed.

Lemma le_digits_S k n : le_digits (S k) n = n mod 256 :: le_digits k (n / 256).
Proof.
  unfold le_digits. rewrite <- cons_seq, <- seq_shift. cbn [map]. f_equal.
  - rewrite le_digit_eq. cbn. now rewrite Z.div_1_r.
  - rewrite map_map. apply map_ext. intro i. rewrite !le_digit_eq.
    rewrite Nat2Z.inj_succ, Z.pow_succ_r by lia.
    rewrite Z.div_div by (try apply Z.pow_pos_nonneg; lia). reflexivity.
Qed.

Lemma le_digits_value k : forall n, le_value (le_digits k n) = n mod 256 ^ Z.of_nat k.
Proof.
  induction k as [|k IH]; intro n.
  - cbn. now rewrite Z.mod_1_r.
  - rewrite le_digits_S. cbn [le_value]. rewrite IH.
    rewrite Nat2Z.inj_succ, Z.pow_succ_r by lia.
    pose proof (Z.pow_pos_nonneg 256 (Z.of_nat k)). rewrite Z.rem_mul_r by lia. lia.
Qed.
Lemma le_digits_bytes k n : Forall is_byte (le_digits k n).
Proof.
  apply Forall_forall. intros c H. unfold le_digits in H. apply in_map_iff in H as (i & <- & _).
  rewrite le_digit_eq. unfold is_byte. lia.
Qed.
Lemma le_digits_length k n : length (le_digits k n) = k.
Proof. unfold le_digits. now rewrite map_length, seq_length. Qed.

Lemma le_value_bound l : Forall is_byte l -> 0 <= le_value l < 256 ^ Z.of_nat (length l).
Proof.
  induction 1 as [|c l C _ IH]; [cbn; lia|]. cbn [le_value length].
  rewrite Nat2Z.inj_succ, Z.pow_succ_r by lia. unfold is_byte in C. lia.
Qed.
Lemma le_value_inj l : forall l', length l = length l' -> Forall is_byte l -> Forall is_byte l' ->
  le_value l = le_value l' -> l = l'.
Proof.
  induction l as [|c l IH]; intros [|c' l'] L H H' E; try discriminate; auto.
  inversion H; inversion H'; subst. cbn [le_value length] in E, L. unfold is_byte in *.
  assert (c = c') by lia. subst. f_equal. apply IH; auto. lia.
Qed.

Lemma bytes_value_bound o l : Forall is_byte l -> 0 <= bytes_value o l < 256 ^ Z.of_nat (length l).
Proof.
  intro H. unfold bytes_value. destruct o; try now apply le_value_bound.
  rewrite <- rev_length. apply le_value_bound. now apply Forall_rev.
Qed.
Lemma bytes_value_inj o l l' : length l = length l' -> Forall is_byte l -> Forall is_byte l' ->
  bytes_value o l = bytes_value o l' -> l = l'.
Proof.
  unfold bytes_value. intros L H H' E. destruct o; try (apply le_value_inj; auto; fail).
  rewrite <- (rev_involutive l), <- (rev_involutive l'). f_equal.
  apply le_value_inj; auto using Forall_rev. now rewrite !rev_length.
Qed.

Lemma digits_out self len o : 0 <= len -> 0 <= self < 256 ^ len ->
  let l := to_bytes_digits self len o in
  Forall is_byte l /\ Z.of_nat (length l) = len /\ bytes_value o l = self.
Proof.
  intros H B. unfold to_bytes_digits. fold (le_digits (Z.to_nat len) self).
  assert (V : le_value (le_digits (Z.to_nat len) self) = self).
  { rewrite le_digits_value. rewrite Z2Nat.id by lia. apply Z.mod_small. lia. }
  unfold bytes_value. destruct o; cbn zeta.
  - rewrite rev_involutive, rev_length, le_digits_length. repeat split; auto; try lia.
    apply Forall_rev, le_digits_bytes.
  - rewrite le_digits_length. repeat split; auto; try lia. apply le_digits_bytes.
  - rewrite le_digits_length. repeat split; auto; try lia. apply le_digits_bytes.
Qed.

Lemma pow256_half n : 0 < n -> exists k, 0 < k /\ 256 ^ n = 2 * k.
Proof.
  intros. exists (128 * 256 ^ (n - 1)). pose proof (Z.pow_pos_nonneg 256 (n - 1)).
  split; [lia|]. replace n with (1 + (n - 1)) at 1 by lia. rewrite Z.pow_add_r by lia.
  change (256 ^ 1) with 256. lia.
Qed.

Lemma to_bytes_correct n len o signed :
  0 <= len -> o <> OtherOrder -> (signed = true -> 0 < len) ->
  is_to_bytes n len o signed (m_to_bytes n len o signed).
Proof.
  intros L O S. unfold is_to_bytes.
  replace (len <? 0) with false by lia.
  replace (match o with OtherOrder => true | _ => false end) with false by (destruct o; congruence).
  cbn [orb]. unfold m_to_bytes, py_int_of_bytes. replace (len <? 0) with false by lia.
  destruct signed; cbn [andb].
  - specialize (S eq_refl). destruct (pow256_half len S) as (k & K & E).
    rewrite E. replace (Z.shiftr (2 * k) 1) with k
      by (rewrite Z.shiftr_div_pow2 by lia; change (2 ^ 1) with 2; rewrite Z.mul_comm, Z.div_mul; lia).
    destruct ((n <? - k) || (k <=? n)) eqn:R.
    + right. split; [reflexivity|]. intros l Fl Ll.
      pose proof (bytes_value_bound o l Fl). rewrite Ll, E in *.
      replace (Nat.eqb (length l) 0) with false by lia. cbn [negb].
      unfold signed_value. rewrite E. destruct (2 * bytes_value o l <? 2 * k) eqn:?; lia.
    + left. eexists; split; [reflexivity|].
      destruct (digits_out (if n <? 0 then 2 * k + n else n) len o) as (A & B & C); [lia| |].
      { rewrite E. destruct (n <? 0) eqn:?; lia. }
      split; [auto|]. split; [auto|]. rewrite C, B.
      replace (Nat.eqb (length _) 0) with false by lia. cbn [negb].
      unfold signed_value. rewrite E. destruct (n <? 0) eqn:?.
      * replace (2 * (2 * k + n) <? 2 * k) with false by lia. lia.
      * replace (2 * n <? 2 * k) with true by lia. lia.
  - destruct ((n <? 0) || (256 ^ len <=? n)) eqn:R.
    + right. split; [reflexivity|]. intros l Fl Ll.
      pose proof (bytes_value_bound o l Fl). rewrite Ll in *. lia.
    + left. eexists; split; [reflexivity|]. apply digits_out; lia.
Qed.

Lemma fold_be l : forall v, fold_left (fun val byt => val * 256 + byt) l v
  = v * 256 ^ Z.of_nat (length l) + le_value (rev l).
Proof.
  induction l as [|c l IH]; intro v; [cbn; lia|]. cbn [fold_left]. rewrite IH.
  cbn [length rev]. rewrite Nat2Z.inj_succ, Z.pow_succ_r by lia.
  assert (A : forall m c, le_value (m ++ [c]) = le_value m + c * 256 ^ Z.of_nat (length m)).
  { clear. induction m as [|d m IH]; intro c; [cbn; lia|]. cbn [app le_value length]. rewrite IH.
    rewrite Nat2Z.inj_succ, Z.pow_succ_r by lia. lia. }
  rewrite A, rev_length. lia.
Qed.

Lemma from_bytes_correct l o signed : Forall is_byte l -> o <> OtherOrder ->
  m_from_bytes l o signed = Ok (py_int_of_bytes o signed l).
Proof.
  intros H O. unfold m_from_bytes, py_int_of_bytes.
  assert (V : forall items, fold_left (fun val byt => val * 256 + byt) items 0 = le_value (rev items)).
  { intro. rewrite fold_be. lia. }
  assert (W : le_value (rev (match o with Little => rev l | _ => l end)) = bytes_value o l).
  { unfold bytes_value. destruct o; [reflexivity| |congruence]. now rewrite rev_involutive. }
  assert (G : forall v, v = bytes_value o l ->
    (if signed && negb (Z.of_nat (length l) =? 0)
     then if 256 ^ Z.of_nat (length l) / 2 <=? v then v - 256 ^ Z.of_nat (length l) else v else v)
    = (if signed && negb (Nat.eqb (length l) 0)
       then signed_value (Z.of_nat (length l)) (bytes_value o l) else bytes_value o l)).
  { intros v ->. replace (Z.of_nat (length l) =? 0) with (Nat.eqb (length l) 0) by lia.
    destruct (signed && negb (Nat.eqb (length l) 0)) eqn:C; [|reflexivity].
    destruct (pow256_half (Z.of_nat (length l))) as (k & K & E); [lia|].
    unfold signed_value. rewrite E. replace (2 * k / 2) with k by (rewrite Z.mul_comm, Z.div_mul; lia).
    destruct (k <=? bytes_value o l) eqn:?.
    - replace (2 * bytes_value o l <? 2 * k) with false by lia. reflexivity.
    - replace (2 * bytes_value o l <? 2 * k) with true by lia. reflexivity. }
  destruct o; [| |congruence]; cbn zeta; rewrite V; f_equal; apply G; auto.
Qed.

Lemma bytes_roundtrip n len o signed l : 0 <= len -> o <> OtherOrder -> (signed = true -> 0 < len) ->
  m_to_bytes n len o signed = Ok l -> m_from_bytes l o signed = Ok n.
Proof.
  intros L O S E. pose proof (to_bytes_correct n len o signed L O S) as H.
  unfold is_to_bytes in H. replace (len <? 0) with false in H by lia.
  replace (match o with OtherOrder => true | _ => false end) with false in H by (destruct o; congruence).
  cbn [orb] in H. rewrite E in H. destruct H as [(l' & E' & B & Len & V)|[E' _]]; [|discriminate].
  injection E' as <-. rewrite from_bytes_correct by auto. now rewrite V.
Qed.

Lemma bytes_roundtrip_back l o signed : Forall is_byte l -> o <> OtherOrder ->
  (signed = true -> l <> []) ->
  (do n <- m_from_bytes l o signed; m_to_bytes n (Z.of_nat (length l)) o signed) = Ok l.
Proof.
  intros B O S. rewrite from_bytes_correct by auto. cbn [bind].
  assert (S' : signed = true -> 0 < Z.of_nat (length l)).
  { intro E. specialize (S E). destruct l; [congruence|cbn [length]; lia]. }
  pose proof (to_bytes_correct (py_int_of_bytes o signed l) (Z.of_nat (length l)) o signed ltac:(lia) O S') as H.
  unfold is_to_bytes in H. replace (Z.of_nat (length l) <? 0) with false in H by lia.
  replace (match o with OtherOrder => true | _ => false end) with false in H by (destruct o; congruence).
  cbn [orb] in H. destruct H as [(l' & -> & B' & Len & V)|[_ N]]; [|exfalso; apply (N l); auto].
  f_equal. apply (bytes_value_inj o); auto; [lia|].
  unfold py_int_of_bytes in V. replace (length l') with (length l) in V by lia.
  destruct (signed && negb (Nat.eqb (length l) 0)); auto.
  unfold signed_value in V.
  pose proof (bytes_value_bound o l B). pose proof (bytes_value_bound o l' B').
  replace (length l') with (length l) in * by lia.
  destruct (2 * bytes_value o l' <? _) eqn:?, (2 * bytes_value o l <? _) eqn:?; lia.
Qed.

(** *** Bounded ints *)
Definition bint_inv (b : bint) : Prop :=
  in_bounds (b_val b) (b_min b) (b_max b) /\ Forall (bound_holds (b_val b)) (b_added b).

Lemma bint_init_inv v mn mx : in_bounds v mn mx -> bint_inv (bint_init v mn mx).
Proof.
  intros [A B]. split; [split; auto|]. cbn. apply Forall_app. split.
  - destruct mn; constructor; cbn; auto.
  - destruct mx; constructor; cbn; auto.
Qed.
Lemma intersect_min_inv b m : bint_inv b -> m <= b_val b ->
  bint_inv (intersect_min b m) /\ b_val (intersect_min b m) = b_val b.
Proof.
  intros [[A B] C] H. unfold intersect_min.
  destruct (match b_min b with None => true | Some k => k <? m end); [|split; [split; [split|]|]; auto].
  split; [|reflexivity]. split; cbn; [split; cbn; auto|constructor; auto].
  intros k E. injection E as <-. auto.
Qed.
Lemma intersect_max_inv b m : bint_inv b -> b_val b <= m ->
  bint_inv (intersect_max b m) /\ b_val (intersect_max b m) = b_val b.
Proof.
  intros [[A B] C] H. unfold intersect_max.
  destruct (match b_max b with None => true | Some k => m <? k end); [|split; [split; [split|]|]; auto].
  split; [|reflexivity]. split; cbn; [split; cbn; auto|constructor; auto].
  intros k E. injection E as <-. auto.
Qed.

Lemma bint_lt_ok b z : bint_inv b ->
  fst (bint_lt b z) = (b_val b <? z) /\ bint_inv (snd (bint_lt b z)) /\ b_val (snd (bint_lt b z)) = b_val b.
Proof.
  intros I. pose proof I as [[A B] C]. unfold bint_lt, opt_test.
  destruct (match b_min b with None => false | Some m => z <? m end) eqn:E1.
  { destruct (b_min b) as [m|]; [|discriminate]. specialize (A m eq_refl). cbn. split; [lia|auto]. }
  destruct (match b_max b with None => false | Some m => m <? z end) eqn:E2.
  { destruct (b_max b) as [m|]; [|discriminate]. specialize (B m eq_refl). cbn. split; [lia|auto]. }
  cbn. split; [auto|]. destruct (b_val b <? z) eqn:?;
    [apply intersect_max_inv|apply intersect_min_inv]; auto; lia.
Qed.
Lemma bint_gt_ok b z : bint_inv b ->
  fst (bint_gt b z) = (b_val b >? z) /\ bint_inv (snd (bint_gt b z)) /\ b_val (snd (bint_gt b z)) = b_val b.
Proof.
  intros I. pose proof I as [[A B] C]. unfold bint_gt, opt_test.
  destruct (match b_max b with None => false | Some m => m <? z end) eqn:E1.
  { destruct (b_max b) as [m|]; [|discriminate]. specialize (B m eq_refl). cbn. split; [lia|auto]. }
  destruct (match b_min b with None => false | Some m => z <? m end) eqn:E2.
  { destruct (b_min b) as [m|]; [|discriminate]. specialize (A m eq_refl). cbn. split; [lia|auto]. }
  cbn. split; [lia|]. destruct (z <? b_val b) eqn:?;
    [apply intersect_min_inv|apply intersect_max_inv]; auto; lia.
Qed.
Lemma bint_neg_ok b : bint_inv b -> bint_inv (bint_neg b) /\ b_val (bint_neg b) = - b_val b.
Proof.
  intros [[A B] C]. split; [|reflexivity]. apply bint_init_inv. split; intros m E.
  - destruct (b_max b) as [k|]; [|discriminate]. injection E as <-. specialize (B k eq_refl). lia.
  - destruct (b_min b) as [k|]; [|discriminate]. injection E as <-. specialize (A k eq_refl). lia.
Qed.

Lemma bint_run_ok l : forall b, bint_inv b ->
  fst (bint_run b l) = int_run (b_val b) l /\ bint_inv (snd (bint_run b l)).
Proof.
  induction l as [|[z|z|] l IH]; intros b I; cbn [bint_run int_run]; [auto| | |].
  - destruct (bint_lt_ok b z I) as (A & B & C). destruct (bint_lt b z) as [r b'].
    destruct (IH b' B) as [D F]. destruct (bint_run b' l). cbn in *. split; [|auto]. congruence.
  - destruct (bint_gt_ok b z I) as (A & B & C). destruct (bint_gt b z) as [r b'].
    destruct (IH b' B) as [D F]. destruct (bint_run b' l). cbn in *. split; [|auto]. congruence.
  - destruct (bint_neg_ok b I) as [A B]. rewrite <- B. apply IH. auto.
Qed.

Lemma bint_correct v mn mx l : in_bounds v mn mx ->
  fst (bint_run (bint_init v mn mx) l) = int_run v l /\
  let b := snd (bint_run (bint_init v mn mx) l) in
  in_bounds (b_val b) (b_min b) (b_max b) /\ Forall (bound_holds (b_val b)) (b_added b).
Proof.
  intro H. destruct (bint_run_ok l _ (bint_init_inv v mn mx H)) as [A B]. split; [exact A|exact B].
Qed.
