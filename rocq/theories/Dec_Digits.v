(** Digits and numbers. *)
From Coq Require Import ZArith QArith List Bool Lia ZifyBool ZifyNat.
From Verif Require Import Dec_Model Dec_Spec.
Import ListNotations.
Open Scope Z_scope.

Lemma pow10_pos : forall k, 0 <= k -> 0 < 10 ^ k.
Proof. intros. apply Z.pow_pos_nonneg; lia. Qed.
Lemma pow10_nat : forall k : nat, 0 < 10 ^ Z.of_nat k.
Proof. intros. apply pow10_pos. lia. Qed.
Lemma pow10_S : forall k, 0 <= k -> 10 ^ (k + 1) = 10 * 10 ^ k.
Proof. intros. rewrite Z.pow_add_r by lia. lia. Qed.
Lemma pow10_split : forall a b, 0 <= a <= b -> 10 ^ b = 10 ^ a * 10 ^ (b - a).
Proof. intros. rewrite <- Z.pow_add_r by lia. f_equal. lia. Qed.
Lemma pow10_le : forall a b, 0 <= a <= b -> 10 ^ a <= 10 ^ b.
Proof. intros. apply Z.pow_le_mono_r; lia. Qed.
Lemma pow10_lt : forall a b, 0 <= a < b -> 10 ^ a < 10 ^ b.
Proof. intros. apply Z.pow_lt_mono_r; lia. Qed.

Lemma number_app : forall a b, number (a ++ b) = number a * 10 ^ Z.of_nat (length b) + number b.
Proof.
  induction a as [|d a IH]; intro b; cbn [app number length]; [lia|].
  rewrite IH, app_length, Nat2Z.inj_add, Z.pow_add_r by lia. ring.
Qed.
Lemma to_int_go : forall s a, fold_left (fun a d => a * 10 + d) s a = a * 10 ^ Z.of_nat (length s) + number s.
Proof.
  induction s as [|d s IH]; intro a; cbn [fold_left number length]; [lia|].
  rewrite IH, Nat2Z.inj_succ, Z.pow_succ_r by lia. ring.
Qed.
Lemma to_int_number : forall s, to_int s = number s.
Proof. intro s. unfold to_int. rewrite to_int_go. lia. Qed.
Lemma number_bound : forall s, Forall is_digit s -> 0 <= number s < 10 ^ Z.of_nat (length s).
Proof.
  induction 1 as [|d s D _ IH]; cbn [number length]; [change (10 ^ Z.of_nat 0) with 1; lia|].
  rewrite Nat2Z.inj_succ, Z.pow_succ_r by lia. unfold is_digit in D. nia.
Qed.
Lemma number_low : forall s, coefficient s -> number s <> 0 -> 10 ^ (Z.of_nat (length s) - 1) <= number s.
Proof.
  intros s (F & N & H) Z0. destruct s as [|d r]; [congruence|]. cbn [hd] in H. cbn [number length] in *.
  inversion F as [|? ? D R]; subst. pose proof (number_bound r R). unfold is_digit in D.
  replace (Z.of_nat (S (length r)) - 1) with (Z.of_nat (length r)) by lia.
  destruct (Z.eq_dec d 0) as [->|Dz]; [specialize (H eq_refl); inversion H; subst; cbn in Z0; lia|]. nia.
Qed.
Lemma is0_iff : forall s, coefficient s -> is0 s = true <-> number s = 0.
Proof.
  intros s C. split.
  - destruct s as [|d [|]]; cbn [is0]; try discriminate. intro. cbn [number length]. change (10 ^ Z.of_nat 0) with 1. lia.
  - intro Z0. destruct (Z.eq_dec (hd 1 s) 0) as [H|H].
    + destruct C as (_ & _ & C). now rewrite (C H).
    + destruct C as (F & N & C). destruct s as [|d r]; [congruence|]. cbn [hd number] in *. inversion F; subst.
      pose proof (number_bound r ltac:(assumption)). pose proof (pow10_nat (length r)). unfold is_digit in *. nia.
Qed.
Lemma is0_false : forall s, coefficient s -> is0 s = false <-> 0 < number s.
Proof.
  intros s C. pose proof (is0_iff s C) as I. destruct C as (F & _). pose proof (number_bound s F).
  destruct (is0 s); split; intro H'; try discriminate; try reflexivity.
  - destruct I as [I _]. specialize (I eq_refl). lia.
  - destruct (Z.eq_dec (number s) 0) as [e|]; [|lia]. destruct I as [_ I]. discriminate (I e).
Qed.
Lemma zero_coefficient : forall s, coefficient s -> number s = 0 -> s = [0].
Proof. intros s C N. apply is0_iff in N; [|assumption]. destruct s as [|d [|]]; cbn [is0] in N; try discriminate. f_equal. lia. Qed.
Lemma coefficient0 : coefficient [0].
Proof. split; [|split]; [repeat constructor; lia|discriminate|reflexivity]. Qed.

(** Two coefficients of the same number are the same digits. *)
Lemma digits_inj : forall a b, Forall is_digit a -> Forall is_digit b -> length a = length b -> number a = number b -> a = b.
Proof.
  induction a as [|d a IH]; intros [|e b] A B L N; cbn [length] in L; try lia; [reflexivity|].
  inversion A; inversion B; subst. cbn [number] in N. assert (La : length a = length b) by lia. rewrite La in N.
  pose proof (number_bound a ltac:(assumption)) as Ba. pose proof (number_bound b ltac:(assumption)) as Bb. rewrite La in Ba.
  assert (d = e) by nia. subst. f_equal. apply IH; auto. lia.
Qed.
Lemma length_unique : forall s k, coefficient s -> 0 <= k -> 10 ^ k <= number s < 10 ^ (k + 1) -> Z.of_nat (length s) = k + 1.
Proof.
  intros s k C K N. pose proof C as (F & _). pose proof (number_bound s F) as B. pose proof (pow10_pos k K).
  pose proof (number_low s C ltac:(lia)) as L. 
  destruct (Z.lt_trichotomy (Z.of_nat (length s)) (k + 1)) as [G|[G|G]]; [|exact G|].
  - pose proof (pow10_le (Z.of_nat (length s)) k ltac:(lia)). lia.
  - pose proof (pow10_le (k + 1) (Z.of_nat (length s) - 1) ltac:(lia)). lia.
Qed.
Lemma length_pos : forall s, coefficient s -> 1 <= Z.of_nat (length s).
Proof. intros [|d s] (_ & N & _); [congruence|cbn [length]; lia]. Qed.
Lemma coefficient_inj : forall a b, coefficient a -> coefficient b -> number a = number b -> a = b.
Proof.
  intros a b A B N. destruct (Z.eq_dec (number a) 0) as [Z0|Z0].
  - now rewrite (zero_coefficient a A Z0), (zero_coefficient b B ltac:(lia)).
  - pose proof A as (FA & _). pose proof B as (FB & _). pose proof (number_bound a FA). pose proof (number_low a A Z0). pose proof (length_pos a A).
    apply digits_inj; auto. apply Nat2Z.inj.
    rewrite (length_unique b (Z.of_nat (length a) - 1) B ltac:(lia)); [lia|]. rewrite <- N. replace (Z.of_nat (length a) - 1 + 1) with (Z.of_nat (length a)) by lia. lia.
Qed.

(** [str(n)]. *)
Lemma to_str_go_ok : forall fuel n, 0 <= n < 2 ^ Z.of_nat fuel -> (0 < fuel)%nat ->
  number (to_str_go fuel n) = n /\ coefficient (to_str_go fuel n) /\ (0 < n -> hd 0 (to_str_go fuel n) <> 0).
Proof.
  induction fuel as [|f IH]; intros n N F; [lia|]. rewrite Nat2Z.inj_succ, Z.pow_succ_r in N by lia. cbn [to_str_go].
  destruct (n <? 10) eqn:L.
  - split; [cbn [number length]; change (10 ^ Z.of_nat 0) with 1; lia|]. split; [|cbn [hd]; lia].
    split; [|split]; [repeat constructor; lia|discriminate|]. cbn [hd]. now intros ->.
  - assert (f <> O) by (intros ->; change (2 ^ Z.of_nat 0) with 1 in N; lia).
    pose proof (Z.mod_pos_bound n 10 ltac:(lia)). pose proof (Z.div_mod n 10 ltac:(lia)).
    destruct (IH (n / 10) ltac:(lia) ltac:(lia)) as (V & C & Hd). specialize (Hd ltac:(lia)).
    split; [rewrite number_app, V; cbn [number length]; change (10 ^ Z.of_nat 1) with 10; change (10 ^ Z.of_nat 0) with 1; lia|].
    assert (Hd' : hd 0 (to_str_go f (n / 10) ++ [n mod 10]) <> 0) by (destruct (to_str_go f (n / 10)); [cbn [hd] in Hd; congruence|exact Hd]).
    split; [|intros _; exact Hd']. destruct C as (CF & CN & _). split; [|split].
    + apply Forall_app. split; [assumption|]. repeat constructor; lia.
    + destruct (to_str_go f (n / 10)); discriminate.
    + intro Z0. exfalso. apply Hd'. destruct (to_str_go f (n / 10)); [congruence|exact Z0].
Qed.
Lemma to_str_fuel : forall n, 0 <= n -> n < 2 ^ Z.of_nat (S (Z.to_nat (Z.log2 n))).
Proof.
  intros n N. rewrite Nat2Z.inj_succ, Z2Nat.id by apply Z.log2_nonneg. destruct (Z.eq_dec n 0) as [->|]; [reflexivity|].
  apply Z.log2_spec. lia.
Qed.
Lemma number_to_str : forall n, 0 <= n -> number (to_str n) = n.
Proof. intros n N. apply (to_str_go_ok (S (Z.to_nat (Z.log2 n))) n); [split; [lia|now apply to_str_fuel]|lia]. Qed.
Lemma coefficient_to_str : forall n, 0 <= n -> coefficient (to_str n).
Proof. intros n N. apply (to_str_go_ok (S (Z.to_nat (Z.log2 n))) n); [split; [lia|now apply to_str_fuel]|lia]. Qed.
Lemma to_str_number : forall s, coefficient s -> to_str (number s) = s.
Proof.
  intros s C. pose proof C as (F & _). pose proof (number_bound s F). apply coefficient_inj; [apply coefficient_to_str; lia|assumption|].
  apply number_to_str. lia.
Qed.
Lemma len_to_str : forall n k, 0 <= k -> 10 ^ k <= n < 10 ^ (k + 1) -> len (to_str n) = k + 1.
Proof.
  intros n k K N. pose proof (pow10_pos k K). unfold len. apply length_unique; [apply coefficient_to_str; lia|assumption|].
  rewrite number_to_str by lia. assumption.
Qed.
(** Bounds of a positive number from its number of digits. *)
Lemma digits_of : forall n, 0 < n -> 1 <= len (to_str n) /\ 10 ^ (len (to_str n) - 1) <= n < 10 ^ len (to_str n).
Proof.
  intros n N. pose proof (coefficient_to_str n ltac:(lia)) as C. pose proof (number_to_str n ltac:(lia)) as V. unfold len.
  split; [now apply length_pos|]. rewrite <- V at 2 3. pose proof C as (F & _). split; [apply number_low; [assumption|lia]|apply number_bound; assumption].
Qed.
Lemma digits_of_number : forall s, coefficient s -> 0 < number s -> 1 <= len s /\ 10 ^ (len s - 1) <= number s < 10 ^ len s.
Proof. intros s C N. pose proof (digits_of (number s) N) as D. now rewrite to_str_number in D. Qed.

Lemma number_zeros : forall s k, number (s ++ zeros k) = number s * 10 ^ Z.max k 0.
Proof.
  intros s k. rewrite number_app. unfold zeros. rewrite repeat_length.
  assert (Z0 : forall n, number (repeat 0 n) = 0) by (induction n; cbn [repeat number]; lia).
  rewrite Z0. replace (Z.of_nat (Z.to_nat k)) with (Z.max k 0) by lia. lia.
Qed.
Lemma coefficient_zeros : forall s k, coefficient s -> 0 < number s -> coefficient (s ++ zeros k).
Proof.
  intros s k (F & N & H) P. split; [|split].
  - apply Forall_app. split; [assumption|]. unfold zeros. apply Forall_forall. intros x I. apply repeat_spec in I. subst. unfold is_digit. lia.
  - destruct s; [congruence|discriminate].
  - destruct s as [|d s]; [congruence|]. cbn [app hd] in *. intro D. specialize (H D). inversion H; subst. cbn in P. lia.
Qed.
Lemma len_zeros : forall s k, 0 <= k -> len (s ++ zeros k) = len s + k.
Proof. intros. unfold len, zeros. rewrite app_length, repeat_length. lia. Qed.

(** Cutting digits off is dividing by a power of ten. *)
Lemma split_number : forall s k, 0 <= k <= len s ->
  number s = number (upto s k) * 10 ^ (len s - k) + number (from s k).
Proof.
  intros s k K. unfold upto, from, len in *. rewrite <- (firstn_skipn (Z.to_nat k) s) at 1. rewrite number_app, skipn_length.
  f_equal. f_equal. f_equal. lia.
Qed.
Lemma digits_upto : forall s k, Forall is_digit s -> Forall is_digit (upto s k).
Proof. intros. unfold upto. rewrite <- (firstn_skipn (Z.to_nat k) s) in H. now apply Forall_app in H. Qed.
Lemma digits_from : forall s k, Forall is_digit s -> Forall is_digit (from s k).
Proof. intros. unfold from. rewrite <- (firstn_skipn (Z.to_nat k) s) in H. now apply Forall_app in H. Qed.
Lemma from_bound : forall s k, Forall is_digit s -> 0 <= k <= len s -> 0 <= number (from s k) < 10 ^ (len s - k).
Proof.
  intros s k F K. pose proof (number_bound _ (digits_from s k F)) as B. unfold from, len in *. rewrite skipn_length in B.
  replace (Z.of_nat (length s - Z.to_nat k)) with (Z.of_nat (length s) - k) in B by lia. exact B.
Qed.
Lemma upto_div : forall s k, Forall is_digit s -> 0 <= k <= len s -> number (upto s k) = number s / 10 ^ (len s - k).
Proof.
  intros s k F K. pose proof (from_bound s k F K). pose proof (split_number s k K) as E.
  apply (Z.div_unique _ _ _ (number (from s k))); [lia|]. rewrite E. ring.
Qed.
Lemma from_mod : forall s k, Forall is_digit s -> 0 <= k <= len s -> number (from s k) = number s mod 10 ^ (len s - k).
Proof.
  intros s k F K. pose proof (from_bound s k F K). pose proof (split_number s k K) as E.
  apply (Z.mod_unique _ _ (number (upto s k))); [lia|]. rewrite E. ring.
Qed.
Lemma coefficient_upto : forall s k, coefficient s -> 0 < number s -> 0 < k -> coefficient (upto s k).
Proof.
  intros s k (F & N & H) P K. split; [now apply digits_upto|]. unfold upto. destruct s as [|d s]; [congruence|].
  destruct (Z.to_nat k) eqn:E; [lia|]. cbn [firstn hd] in *. split; [discriminate|]. intro D. specialize (H D). inversion H; subst. cbn in P. lia.
Qed.
Lemma number_or0 : forall s, number (or0 s) = number s.
Proof. destruct s; reflexivity. Qed.

Lemma forallb_zero : forall s, Forall is_digit s -> forallb (Z.eqb 0) s = true <-> number s = 0.
Proof.
  induction s as [|d s IH]; intro F; [split; reflexivity|]. inversion F; subst. cbn [forallb number].
  pose proof (number_bound s ltac:(assumption)). pose proof (pow10_nat (length s)). specialize (IH ltac:(assumption)). unfold is_digit in *.
  rewrite andb_true_iff, IH. split; [intros [A B]; nia|intro; split; nia].
Qed.
