(** Rounding, in terms of the numbers that a context can hold. *)
From Coq Require Import ZArith QArith Qabs Lqa List Bool Lia ZifyBool ZifyNat.
From Verif Require Import Dec_Model Dec_Spec Dec_Digits Dec_Round Dec_Fix Dec_Arith Dec_Ops.
Import ListNotations.
Open Scope Z_scope.

Lemma inject_lt1 : forall a b, (inject_Z a < inject_Z b + 1)%Q -> a <= b.
Proof. intros a b H. change 1%Q with (inject_Z 1) in H. rewrite <- inject_Z_plus, <- Zlt_Qlt in H. lia. Qed.
(** The rounded integer is unique. *)
Theorem rounds_unique : forall m x n k, rounds m x n -> rounds m x k -> n = k.
Proof.
  assert (TZ : forall x n k, toward_zero x n -> toward_zero x k -> n = k).
  { intros x n k (A1 & A2) (B1 & B2). destruct (Qlt_le_dec x 0) as [X|X].
    - specialize (A2 (Qlt_le_weak _ _ X)). specialize (B2 (Qlt_le_weak _ _ X)). apply Z.le_antisymm; apply inject_lt1; lra.
    - specialize (A1 X). specialize (B1 X). apply Z.le_antisymm; apply inject_lt1; lra. }
  assert (AZ : forall x n k, away_from_zero x n -> away_from_zero x k -> n = k).
  { intros x n k (A1 & A2) (B1 & B2). destruct (Qlt_le_dec x 0) as [X|X].
    - specialize (A2 (Qlt_le_weak _ _ X)). specialize (B2 (Qlt_le_weak _ _ X)). apply Z.le_antisymm; apply inject_lt1; lra.
    - specialize (A1 X). specialize (B1 X). apply Z.le_antisymm; apply inject_lt1; lra. }
  assert (NR : forall x n k, nearest x n -> nearest x k -> n = k \/ (tie x n /\ tie x k /\ (n = k + 1 \/ k = n + 1))).
  { intros x n k A B. unfold nearest, tie in *. rewrite Qabs_Qle_condition in A, B. destruct (Z.lt_trichotomy n k) as [L|[L|L]]; [right|now left|right].
    - assert (K : (inject_Z (n + 1) <= inject_Z k)%Q) by (rewrite <- Zle_Qle; lia). rewrite inject_Z_plus in K. change (inject_Z 1) with 1%Q in K.
      assert (K' : (inject_Z k < inject_Z (n + 1) + 1)%Q) by (rewrite inject_Z_plus; change (inject_Z 1) with 1%Q; lra). apply inject_lt1 in K'.
      split; [|split; [|lia]].
      + setoid_replace (x - inject_Z n)%Q with (1 # 2)%Q by lra. reflexivity.
      + setoid_replace (x - inject_Z k)%Q with (- (1 # 2))%Q by lra. reflexivity.
    - assert (K : (inject_Z (k + 1) <= inject_Z n)%Q) by (rewrite <- Zle_Qle; lia). rewrite inject_Z_plus in K. change (inject_Z 1) with 1%Q in K.
      assert (K' : (inject_Z n < inject_Z (k + 1) + 1)%Q) by (rewrite inject_Z_plus; change (inject_Z 1) with 1%Q; lra). apply inject_lt1 in K'.
      split; [|split; [|lia]].
      + setoid_replace (x - inject_Z n)%Q with (- (1 # 2))%Q by lra. reflexivity.
      + setoid_replace (x - inject_Z k)%Q with (1 # 2)%Q by lra. reflexivity. }
  assert (UPx : forall x n, nearest x n -> nearest x (n + 1) -> (Qabs x <= Qabs (inject_Z n))%Q -> (Qabs x <= Qabs (inject_Z (n + 1)))%Q -> False).
  { intros x n A B. unfold nearest in *. rewrite Qabs_Qle_condition in A, B. rewrite inject_Z_plus in *. change (inject_Z 1) with 1%Q in *. intros U1 U2.
    destruct (Z.le_gt_cases 0 n) as [G|G].
    - pose proof (inject_pos n G). rewrite !Qabs_pos in U1 by lra. lra.
    - assert (inject_Z n + 1 <= 0)%Q by (change 1%Q with (inject_Z 1); rewrite <- inject_Z_plus; apply inject_neg; lia). rewrite !Qabs_neg in U2 by lra. lra. }
  assert (DNx : forall x n, nearest x n -> nearest x (n + 1) -> (Qabs (inject_Z n) <= Qabs x)%Q -> (Qabs (inject_Z (n + 1)) <= Qabs x)%Q -> False).
  { intros x n A B. unfold nearest in *. rewrite Qabs_Qle_condition in A, B. rewrite inject_Z_plus in *. change (inject_Z 1) with 1%Q in *. intros U1 U2.
    destruct (Z.le_gt_cases 0 n) as [G|G].
    - pose proof (inject_pos n G). rewrite !Qabs_pos in U2 by lra. lra.
    - assert (inject_Z n + 1 <= 0)%Q by (change 1%Q with (inject_Z 1); rewrite <- inject_Z_plus; apply inject_neg; lia). rewrite !Qabs_neg in U1 by lra. lra. }
  intros m x n k A B. destruct m; cbn [rounds] in *.
  - eapply TZ; eassumption.
  - destruct A as (A1 & A2), B as (B1 & B2). destruct (NR x n k A1 B1) as [|(T1 & T2 & [->| ->])]; [assumption|exfalso; exact (UPx x k B1 A1 (B2 T2) (A2 T1))|exfalso; exact (UPx x n A1 B1 (A2 T1) (B2 T2))].
  - destruct A as (A1 & A2), B as (B1 & B2). destruct (NR x n k A1 B1) as [|(T1 & T2 & D)]; [assumption|]. exfalso. destruct (A2 T1), (B2 T2). lia.
  - apply Z.le_antisymm; apply inject_lt1; lra.
  - apply Z.le_antisymm; apply inject_lt1; lra.
  - eapply AZ; eassumption.
  - destruct A as (A1 & A2), B as (B1 & B2). destruct (NR x n k A1 B1) as [|(T1 & T2 & [->| ->])]; [assumption|exfalso; exact (DNx x k B1 A1 (B2 T2) (A2 T1))|exfalso; exact (DNx x n A1 B1 (A2 T1) (B2 T2))].
  - destruct A as (t & T & A), B as (t' & T' & B). pose proof (TZ _ _ _ T T'). subst t'. destruct A as [[A1 A2]|[A1 A2]], B as [[B1 B2]|[B1 B2]]; try lia. eapply AZ; eassumption.
Qed.

(** Between [x] and a number that the context holds there is a multiple of the unit of [x]. *)
Lemma between : forall c x v E, valid c -> holds c v -> (ten E <= Qabs x /\ Qabs x < ten (E + 1))%Q ->
  let q := Z.max (E - prec c + 1) (Emin c - prec c + 1) in
  exists k, (v <= inject_Z k * ten q /\ inject_Z k * ten q <= x \/ x <= inject_Z k * ten q /\ inject_Z k * ten q <= v)%Q.
Proof.
  intros c x v E (P1 & Em & EM) (n & q' & Vn & Nb & Qt & Vb) (L1 & L2) q. destruct (Z.le_gt_cases q q') as [G|G].
  - exists (n * 10 ^ (q' - q)). rewrite <- rescaled by exact G. rewrite <- Vn. destruct (Qlt_le_dec x v); [right|left]; lra.
  - assert (Eq : q = E - prec c + 1) by lia.
    assert (Vl : (Qabs v < ten E)%Q).
    { rewrite Vn. rewrite Qabs_Qmult. rewrite (Qabs_pos (ten q')) by (pose proof (ten_pos q'); lra). apply (Qlt_le_trans _ (inject_Z (10 ^ prec c) * ten q')).
      - assert (A : (Qabs (inject_Z n) < inject_Z (10 ^ prec c))%Q) by (change (Qabs (inject_Z n)) with (inject_Z (Z.abs n)); rewrite <- Zlt_Qlt; exact Nb). pose proof (ten_pos q'). nra.
      - rewrite <- ten_Z by lia. rewrite <- ten_add. apply (proj1 (ten_le _ _)). lia. }
    assert (Te : (ten E == inject_Z (10 ^ (E - q)) * ten q)%Q) by (apply ten_as; lia).
    pose proof (ten_pos E). rewrite Qabs_Qlt_condition in Vl. destruct (Qlt_le_dec x 0) as [X|X].
    + exists (- 10 ^ (E - q)). rewrite inject_Z_opp. rewrite Qabs_neg in L1 by lra. right. split; lra.
    + exists (10 ^ (E - q)). rewrite Qabs_pos in L1 by lra. left. split; lra.
Qed.
Lemma fits_holds : forall c s i e, valid c -> fits c i e -> holds c (value s i e).
Proof.
  intros c s i e (P1 & Em & EM) (C & L & T & B). pose proof C as (F & _). pose proof (number_bound i F) as Nb. pose proof (pow10_le (len i) (prec c) ltac:(unfold len; lia)) as Pl. unfold len in Pl.
  exists (signed s (number i)), e. split; [reflexivity|]. split; [destruct s; cbn [signed]; lia|]. split; [exact T|]. rewrite value_abs by assumption.
  pose proof (length_pos i C). apply (Qlt_le_trans _ (inject_Z (10 ^ Z.of_nat (length i)) * ten e)); [rewrite scaled_lt; lia|].
  rewrite <- ten_Z by lia. rewrite <- ten_add. apply (proj1 (ten_le _ _)). destruct (clamp c); lia.
Qed.
Section Sets.
Variables (c : ctx) (x : Q) (s : bool) (i : list Z) (e : Z) (sigs : list signal).
Hypotheses (V : valid c) (R : rounded c x (Fin s i e) sigs) (NO : ~ In Overflow sigs).
Lemma rounded_unit : exists E n, let q := Z.max (E - prec c + 1) (Emin c - prec c + 1) in
  (ten E <= Qabs x /\ Qabs x < ten (E + 1))%Q /\ rounds (rounding c) (x * ten (- q)) n /\ (value s i e == inject_Z n * ten q)%Q /\ fits c i e /\
  (In Inexact sigs <-> (~ x == inject_Z n * ten q)%Q).
Proof.
  destruct R as (E & n & A1 & A2 & (s' & A3 & A4) & A5 & _). exists E, n. cbv zeta in *. split; [exact A1|]. split; [exact A2|].
  destruct A4 as [(_ & _ & O)|(_ & _ & i' & e' & H & H1 & H2)]; [contradiction|]. injection H as <- <- <-. split; [exact H2|]. split; [exact H1|]. rewrite A5. split; [intros [H|H]; [exact H|contradiction]|now left].
Qed.
Theorem rounded_holds : holds c (value s i e).
Proof. destruct rounded_unit as (E & n & _ & _ & _ & H & _). now apply fits_holds. Qed.
(** A unit is undone by the inverse unit. *)
Lemma unit_mult : forall q k, (inject_Z k * ten q * ten (- q) == inject_Z k)%Q.
Proof. intros q k. rewrite <- Qmult_assoc, ten_inv. ring. Qed.
Lemma unit_le : forall q k, (inject_Z k * ten q <= x <-> inject_Z k <= x * ten (- q))%Q.
Proof. intros q k. pose proof (unit_mult q k) as U. pose proof (ten_pos (- q)) as T. split; intro H; [rewrite <- U; apply Qmult_le_compat_r; [exact H|lra]|]. apply (Qmult_le_r _ _ (ten (- q))); [exact T|]. rewrite U. exact H. Qed.
Lemma unit_ge : forall q k, (x <= inject_Z k * ten q <-> x * ten (- q) <= inject_Z k)%Q.
Proof. intros q k. pose proof (unit_mult q k) as U. pose proof (ten_pos (- q)) as T. split; intro H; [rewrite <- U; apply Qmult_le_compat_r; [exact H|lra]|]. apply (Qmult_le_r _ _ (ten (- q))); [exact T|]. rewrite U. exact H. Qed.
Theorem floor_greatest : rounding c = FLOOR ->
  (value s i e <= x)%Q /\ (forall v, holds c v -> v <= x -> v <= value s i e)%Q.
Proof.
  intro M. destruct rounded_unit as (E & n & L & Rn & Vn & _). rewrite M in Rn. cbn [rounds] in Rn. destruct Rn as (R1 & R2).
  split; [rewrite Vn; now apply unit_le|]. intros v H Vx. destruct (between c x v E V H L) as (k & [(K1 & K2)|(K1 & K2)]).
  - rewrite Vn. apply (Qle_trans _ _ _ K1). rewrite scaled_le. apply unit_le in K2. apply inject_lt1. lra.
  - rewrite Vn. assert (Kx : (x == inject_Z k * ten (Z.max (E - prec c + 1) (Emin c - prec c + 1)))%Q) by lra. apply (Qle_trans _ x); [exact Vx|]. rewrite Kx. rewrite scaled_le. rewrite Kx, unit_mult in R2. now apply inject_lt1.
Qed.
Theorem ceiling_least : rounding c = CEILING ->
  (x <= value s i e)%Q /\ (forall v, holds c v -> x <= v -> value s i e <= v)%Q.
Proof.
  intro M. destruct rounded_unit as (E & n & L & Rn & Vn & _). rewrite M in Rn. cbn [rounds] in Rn. destruct Rn as (R1 & R2).
  split; [rewrite Vn; now apply unit_ge|]. intros v H Vx. destruct (between c x v E V H L) as (k & [(K1 & K2)|(K1 & K2)]).
  - rewrite Vn. assert (Kx : (x == inject_Z k * ten (Z.max (E - prec c + 1) (Emin c - prec c + 1)))%Q) by lra. apply (Qle_trans _ x); [|exact Vx]. rewrite Kx. rewrite scaled_le. rewrite Kx, unit_mult in R2. apply inject_lt1. lra.
  - rewrite Vn. apply (Qle_trans _ (inject_Z k * ten (Z.max (E - prec c + 1) (Emin c - prec c + 1)))); [|exact K2]. rewrite scaled_le. apply unit_ge in K1. apply inject_lt1. lra.
Qed.
Theorem half_nearest : rounding c = HALF_EVEN \/ rounding c = HALF_UP \/ rounding c = HALF_DOWN ->
  forall v, holds c v -> (Qabs (x - value s i e) <= Qabs (x - v))%Q.
Proof.
  intros M v H. destruct rounded_unit as (E & n & L & Rn & Vn & _).
  remember (Z.max (E - prec c + 1) (Emin c - prec c + 1)) as q eqn:Eq.
  assert (N : nearest (x * ten (- q)) n) by (destruct M as [M|[M|M]]; rewrite M in Rn; exact (proj1 Rn)).
  (* any multiple of the unit is at least as far away *)
  assert (Far : forall k, (Qabs (x - inject_Z n * ten q) <= Qabs (x - inject_Z k * ten q))%Q).
  { intro k. assert (Sc : forall j, (Qabs (x - inject_Z j * ten q) == Qabs (x * ten (- q) - inject_Z j) * ten q)%Q).
    { intro j. rewrite <- (Qabs_pos (ten q)) at 2 by (pose proof (ten_pos q); lra). rewrite <- Qabs_Qmult. apply Qabs_wd. pose proof (ten_inv q) as I. setoid_replace (x - inject_Z j * ten q)%Q with (x * (ten q * ten (- q)) - inject_Z j * ten q)%Q by (rewrite I; ring). ring. }
    rewrite !Sc. pose proof (ten_pos q) as Tq. apply Qmult_le_compat_r; [|lra]. unfold nearest in N. destruct (Z.eq_dec n k) as [->|D]; [apply Qle_refl|].
    apply (Qle_trans _ (1 # 2)); [exact N|]. rewrite Qabs_Qle_condition in N.
    destruct (Z.lt_ge_cases n k) as [Lt|Ge].
    - assert (K : (inject_Z (n + 1) <= inject_Z k)%Q) by (rewrite <- Zle_Qle; lia). rewrite inject_Z_plus in K. change (inject_Z 1) with 1%Q in K. rewrite Qabs_neg by lra. lra.
    - assert (K : (inject_Z (k + 1) <= inject_Z n)%Q) by (rewrite <- Zle_Qle; lia). rewrite inject_Z_plus in K. change (inject_Z 1) with 1%Q in K. rewrite Qabs_pos by lra. lra. }
  destruct (between c x v E V H L) as (k & K). rewrite <- Eq in K. rewrite Vn. apply (Qle_trans _ _ _ (Far k)).
  destruct K as [(K1 & K2)|(K1 & K2)]; [rewrite !Qabs_pos by lra|rewrite !Qabs_neg by lra]; lra.
Qed.
(** A number that the context holds is not changed. *)
Theorem held_exact : holds c x -> (value s i e == x)%Q /\ ~ In Inexact sigs.
Proof.
  intro H. destruct rounded_unit as (E & n & L & Rn & Vn & _ & I). cbv zeta in *. destruct (between c x x E V H L) as (k & K).
  remember (Z.max (E - prec c + 1) (Emin c - prec c + 1)) as q eqn:Eq. assert (Kx : (x == inject_Z k * ten q)%Q) by (destruct K; lra).
  assert (n = k).
  { apply (rounds_unique (rounding c) (x * ten (- q))); [exact Rn|]. apply (rounds_eq _ (inject_Z k)); [rewrite Kx, unit_mult; reflexivity|].
    clear. assert (Tz : toward_zero (inject_Z k) k) by (unfold toward_zero; split; intro; lra). assert (Az : away_from_zero (inject_Z k) k) by (unfold away_from_zero; split; intro; lra).
    assert (Nr : nearest (inject_Z k) k) by (unfold nearest; setoid_replace (inject_Z k - inject_Z k)%Q with 0%Q by ring; discriminate).
    assert (Nt : ~ tie (inject_Z k) k) by (unfold tie; setoid_replace (inject_Z k - inject_Z k)%Q with 0%Q by ring; discriminate).
    destruct (rounding c); cbn [rounds]; auto; try (split; [assumption|intro; contradiction]); try lra. exists k. split; [assumption|].
    destruct (Z.eq_dec (k mod 5) 0); [right|left]; auto. }
  subst n. split; [rewrite Vn; now symmetry|]. rewrite I. intro A. now apply A.
Qed.
End Sets.
