(** Integer division and remainders. *)
From Coq Require Import ZArith QArith Qabs Lqa List Bool Lia ZifyBool ZifyNat.
From Verif Require Import Dec_Model Dec_Spec Dec_Digits Dec_Round Dec_Fix Dec_Arith Dec_Ops Dec_Div.
Import ListNotations.
Open Scope Z_scope.

Lemma rounds_zero : forall m x, (x == 0)%Q -> rounds m x 0.
Proof.
  intros m x X. assert (Ax : (Qabs x == 0)%Q) by (rewrite X; reflexivity).
  assert (Nr : nearest x 0) by (unfold nearest; rewrite X; discriminate). assert (Nt : ~ tie x 0) by (unfold tie; rewrite X; discriminate).
  assert (Tz : toward_zero x 0) by (unfold toward_zero; change (inject_Z 0) with 0%Q; split; intro; lra).
  assert (Az : away_from_zero x 0) by (unfold away_from_zero; change (inject_Z 0) with 0%Q; split; intro; lra).
  destruct m; cbn [rounds]; auto; try (split; [assumption|intro; contradiction]); change (inject_Z 0) with 0%Q; try lra.
  exists 0. split; [assumption|]. right. split; [reflexivity|assumption].
Qed.
(** Both operands in units of the smaller exponent. *)
Definition units (i : list Z) (e m : Z) : Z := number i * 10 ^ (e - m).
Lemma units_value : forall s i e m, m <= e -> (value s i e == sgn s (inject_Z (units i e m) * ten m))%Q.
Proof. intros. rewrite value_sgn. apply sgn_inj. now apply rescaled. Qed.
Lemma units_pos : forall i e m, m <= e -> 0 < number i -> 0 < units i e m.
Proof. intros i e m H N. unfold units. pose proof (pow10_pos (e - m) ltac:(lia)). nia. Qed.
Lemma pair_units : forall i1 e1 i2 e2, (if e1 >=? e2 then (number i1 * 10 ^ (e1 - e2), number i2) else (number i1, number i2 * 10 ^ (e2 - e1))) =
  (units i1 e1 (Z.min e1 e2), units i2 e2 (Z.min e1 e2)).
Proof.
  intros. unfold units. destruct (e1 >=? e2) eqn:G.
  - replace (Z.min e1 e2) with e2 by lia. rewrite Z.sub_diag. change (10 ^ 0) with 1. now rewrite Z.mul_1_r.
  - replace (Z.min e1 e2) with e1 by lia. rewrite Z.sub_diag. change (10 ^ 0) with 1. now rewrite Z.mul_1_r.
Qed.
Lemma quotient_units : forall s1 i1 e1 s2 i2 e2, 0 < number i2 ->
  let m := Z.min e1 e2 in
  (value s1 i1 e1 / value s2 i2 e2 == sgn (xorb s1 s2) (units i1 e1 m # Z.to_pos (units i2 e2 m)))%Q.
Proof.
  intros s1 i1 e1 s2 i2 e2 N m. rewrite (units_value s1 i1 e1 m), (units_value s2 i2 e2 m) by lia.
  pose proof (units_pos i2 e2 m ltac:(lia) N) as U. pose proof (ten_pos m) as T.
  assert (B : (0 < inject_Z (units i2 e2 m))%Q) by (change 0%Q with (inject_Z 0); rewrite <- Zlt_Qlt; lia).
  destruct s1, s2; cbn [sgn xorb]; rewrite Qmake_eq by assumption; field; lra.
Qed.
Lemma remainder_units : forall s1 i1 e1 s2 i2 e2 q,
  let m := Z.min e1 e2 in
  (value s1 i1 e1 - inject_Z (signed (xorb s1 s2) q) * value s2 i2 e2 == inject_Z (signed s1 (units i1 e1 m - q * units i2 e2 m)) * ten m)%Q.
Proof.
  intros s1 i1 e1 s2 i2 e2 q m. rewrite (units_value s1 i1 e1 m), (units_value s2 i2 e2 m) by lia.
  unfold Z.sub. destruct s1, s2; cbn [sgn xorb signed]; rewrite ?inject_Z_opp, inject_Z_plus, ?inject_Z_opp, inject_Z_mult; ring.
Qed.
(** The quotient by the leading digits. *)
Lemma units_leading : forall i e m, coefficient i -> 0 < number i -> m <= e -> 10 ^ (e + len i - 1 - m) <= units i e m < 10 ^ (e + len i - m).
Proof.
  intros i e m C N H. destruct (digits_of_number i C N) as (L & B). unfold units. pose proof (pow10_pos (e - m) ltac:(lia)).
  replace (e + len i - 1 - m) with (len i - 1 + (e - m)) by lia. replace (e + len i - m) with (len i + (e - m)) by lia. rewrite !Z.pow_add_r by lia. nia.
Qed.
Lemma units_small : forall i1 e1 i2 e2, coefficient i1 -> coefficient i2 -> 0 < number i1 -> 0 < number i2 ->
  (e1 + len i1 - 1) - (e2 + len i2 - 1) <= -2 -> let m := Z.min e1 e2 in 10 * units i1 e1 m < units i2 e2 m.
Proof.
  intros i1 e1 i2 e2 C1 C2 N1 N2 H m. pose proof (units_leading i1 e1 m C1 N1 ltac:(lia)) as U1. pose proof (units_leading i2 e2 m C2 N2 ltac:(lia)) as U2.
  destruct (digits_of_number i1 C1 N1) as (L1 & _). destruct (digits_of_number i2 C2 N2) as (L2 & _).
  pose proof (pow10_le (e1 + len i1 - m + 1) (e2 + len i2 - 1 - m) ltac:(lia)) as P. rewrite pow10_S in P by lia. lia.
Qed.
Lemma units_large : forall p i1 e1 i2 e2, 1 <= p -> coefficient i1 -> coefficient i2 -> 0 < number i1 -> 0 < number i2 ->
  p < (e1 + len i1 - 1) - (e2 + len i2 - 1) -> let m := Z.min e1 e2 in 10 ^ p * units i2 e2 m < units i1 e1 m.
Proof.
  intros p i1 e1 i2 e2 P1 C1 C2 N1 N2 H m. pose proof (units_leading i1 e1 m C1 N1 ltac:(lia)) as U1. pose proof (units_leading i2 e2 m C2 N2 ltac:(lia)) as U2.
  destruct (digits_of_number i1 C1 N1) as (L1 & _). destruct (digits_of_number i2 C2 N2) as (L2 & _).
  pose proof (pow10_le (p + (e2 + len i2 - m)) (e1 + len i1 - 1 - m) ltac:(lia)) as P. rewrite Z.pow_add_r in P by lia. pose proof (pow10_pos p ltac:(lia)). nia.
Qed.
Lemma rescale_units : forall s i e m k, coefficient i -> m <= e -> rescale (Fin s i e) m k = Fin s (to_str (units i e m)) m.
Proof.
  intros s i e m k C H. pose proof C as (F & _). pose proof (number_bound i F). cbn [rescale]. unfold units. destruct (is0 i) eqn:Z0.
  - apply is0_iff in Z0; [|assumption]. now rewrite Z0.
  - apply is0_false in Z0; [|assumption]. replace (e >=? m) with true by lia. now rewrite to_str_pad by (auto; lia).
Qed.

(** What [divide] computes: the truncated quotient and the remainder, in those units. *)
Lemma divide_ok : forall c s1 i1 e1 s2 i2 e2 f, valid c -> coefficient i1 -> coefficient i2 -> 0 < number i2 ->
  let m := Z.min e1 e2 in let A := units i1 e1 m in let B := units i2 e2 m in
  divide c (Fin s1 i1 e1) (Fin s2 i2 e2) f =
  if A / B <? 10 ^ prec c then (Ret (Fin (xorb s1 s2) (to_str (A / B)) 0, Fin s1 (to_str (A mod B)) m), f)
  else if traps c InvalidOperation then (Raise InvalidOperation, InvalidOperation :: f) else (Ret (NaN false false [], NaN false false []), InvalidOperation :: f).
Proof.
  intros c s1 i1 e1 s2 i2 e2 f V C1 C2 N2 m A B. pose proof V as (P1 & Em & EM). pose proof (pow10_pos (prec c) ltac:(lia)) as Pp.
  pose proof C1 as (F1 & _). pose proof (number_bound i1 F1) as Bd1. pose proof (units_pos i2 e2 m ltac:(lia) N2) as Bp. fold B in Bp.
  unfold divide. cbn [sign_of adjusted]. fold m. rewrite (rescale_units s1 i1 e1 m) by (auto; lia). fold A.
  destruct (is0 i1) eqn:Z1; cbn [orb].
  { apply is0_iff in Z1; [|assumption]. assert (A0 : A = 0) by (unfold A, units; rewrite Z1; reflexivity). rewrite A0, Zdiv_0_l, Zmod_0_l. replace (0 <? 10 ^ prec c) with true by lia. reflexivity. }
  apply is0_false in Z1; [|assumption]. pose proof (units_pos i1 e1 m ltac:(lia) Z1) as Ap. fold A in Ap.
  destruct (e1 + len i1 - 1 - (e2 + len i2 - 1) <=? -2) eqn:Sm.
  { pose proof (units_small i1 e1 i2 e2 C1 C2 Z1 N2 ltac:(lia)) as U. cbv zeta in U. fold m A B in U. rewrite Z.div_small, Z.mod_small by lia. replace (0 <? 10 ^ prec c) with true by lia. reflexivity. }
  rewrite !to_int_number, pair_units. fold m A B.
  destruct (e1 + len i1 - 1 - (e2 + len i2 - 1) <=? prec c) eqn:La.
  - destruct (A / B <? 10 ^ prec c); [reflexivity|]. unfold bind, raise_in, ret. destruct (traps c InvalidOperation); reflexivity.
  - pose proof (units_large (prec c) i1 e1 i2 e2 P1 C1 C2 Z1 N2 ltac:(lia)) as U. cbv zeta in U. fold m A B in U.
    assert (10 ^ prec c <= A / B) by (apply Z.div_le_lower_bound; lia). replace (A / B <? 10 ^ prec c) with false by lia.
    unfold bind, raise_in, ret. destruct (traps c InvalidOperation); reflexivity.
Qed.
Lemma trunc_units : forall s1 i1 e1 s2 i2 e2, coefficient i1 -> 0 < number i2 ->
  let m := Z.min e1 e2 in
  toward_zero (value s1 i1 e1 / value s2 i2 e2) (signed (xorb s1 s2) (units i1 e1 m / units i2 e2 m)).
Proof.
  intros s1 i1 e1 s2 i2 e2 C1 N2 m. pose proof C1 as (F1 & _). pose proof (number_bound i1 F1) as Bd1. pose proof (units_pos i2 e2 m ltac:(lia) N2) as Bp.
  pose proof (quotient_units s1 i1 e1 s2 i2 e2 N2) as Q. cbv zeta in Q. fold m in Q.
  apply (rounds_eq DOWN (sgn (xorb s1 s2) (units i1 e1 m # Z.to_pos (units i2 e2 m)))); [now symmetry|].
  destruct (Z.eq_dec (number i1) 0) as [Z1|Z1].
  - replace (units i1 e1 m) with 0 by (unfold units; rewrite Z1; reflexivity). rewrite Zdiv_0_l. replace (signed (xorb s1 s2) 0) with 0 by (destruct (xorb s1 s2); reflexivity).
    apply rounds_zero. destruct (xorb s1 s2); reflexivity.
  - pose proof (units_pos i1 e1 m ltac:(lia) ltac:(lia)) as Ap.
    pose proof (rounds_lies DOWN (xorb s1 s2) (units i1 e1 m # Z.to_pos (units i2 e2 m)) (units i1 e1 m / units i2 e2 m) (part_of (units i1 e1 m mod units i2 e2 m) (units i2 e2 m)) ltac:(unfold Qlt; cbn [Qnum Qden]; lia) ltac:(apply Z.div_pos; lia) (lies_fraction (units i1 e1 m) (units i2 e2 m) Bp)) as R.
    replace (bump DOWN (xorb s1 s2) (units i1 e1 m / units i2 e2 m) (part_of (units i1 e1 m mod units i2 e2 m) (units i2 e2 m)) >? 0) with false in R; [exact R|].
    cbn [bump]. destruct (part_of _ _); reflexivity.
Qed.
Lemma signed_abs : forall s n, 0 <= n -> Z.abs (signed s n) = n.
Proof. intros [|] n; cbn [signed]; lia. Qed.

Lemma fix_nan_empty : forall c s g, valid c -> fix_nan c g s [] = NaN g s [].
Proof. intros c s g (P1 & _). unfold fix_nan. change (len []) with 0. cbv zeta. now replace (0 >? prec c - (if clamp c then 1 else 0)) with false by (destruct (clamp c); lia). Qed.

(** [n] is the quotient of [x] by [y], cut off to an integer. *)
Section Quotients.
Variables (c : ctx) (s1 : bool) (i1 : list Z) (e1 : Z) (s2 : bool) (i2 : list Z) (e2 : Z).
Hypotheses (V : valid c) (C1 : coefficient i1) (C2 : coefficient i2) (N2 : 0 < number i2).
Let m := Z.min e1 e2.
Let A := units i1 e1 m.
Let B := units i2 e2 m.
Let n := signed (xorb s1 s2) (A / B).
Lemma quo_nonneg : 0 <= A / B /\ 0 < B.
Proof.
  pose proof C1 as (F1 & _). pose proof (number_bound i1 F1) as Bd1. pose proof (units_pos i2 e2 m ltac:(lia) N2) as Bp. fold B in Bp. split; [|assumption].
  apply Z.div_pos; [|assumption]. unfold A, units. pose proof (pow10_pos (e1 - m) ltac:(lia)). nia.
Qed.
Lemma truthy2 : truth (Fin s2 i2 e2) = true.
Proof. cbn [truth]. now rewrite (proj2 (is0_false i2 C2) N2). Qed.
Lemma floordiv_ok : forall f, floordiv c (Fin s1 i1 e1) (Fin s2 i2 e2) f =
  if A / B <? 10 ^ prec c then (Ret (Fin (xorb s1 s2) (to_str (A / B)) 0), f) else report c [InvalidOperation] (NaN false false []) f.
Proof.
  intro f. unfold floordiv. rewrite no_nans by reflexivity. rewrite truthy2. cbn [negb]. unfold bind. rewrite divide_ok by assumption. cbv zeta. fold m A B.
  destruct (A / B <? 10 ^ prec c); [reflexivity|]. rewrite <- raise_report. unfold raise_in. destruct (traps c InvalidOperation); reflexivity.
Qed.
Lemma mod_ok : forall f, mod_ c (Fin s1 i1 e1) (Fin s2 i2 e2) f =
  if A / B <? 10 ^ prec c then fix_ c (Fin s1 (to_str (A mod B)) m) f else report c [InvalidOperation] (NaN false false []) f.
Proof.
  intro f. unfold mod_. rewrite no_nans by reflexivity. rewrite truthy2. cbn [negb]. unfold bind. rewrite divide_ok by assumption. cbv zeta. fold m A B.
  destruct (A / B <? 10 ^ prec c); [reflexivity|]. rewrite <- raise_report. unfold raise_in. destruct (traps c InvalidOperation); [reflexivity|].
  cbn [snd fix_]. unfold ret. now rewrite fix_nan_empty.
Qed.
Lemma divmod_ok : forall f, divmod c (Fin s1 i1 e1) (Fin s2 i2 e2) f =
  if A / B <? 10 ^ prec c then
    match fix_ c (Fin s1 (to_str (A mod B)) m) f with
    | (Ret r, f') => (Ret (Fin (xorb s1 s2) (to_str (A / B)) 0, r), f') | (Raise s, f') => (Raise s, f') | (AttrError, f') => (AttrError, f')
    | (ValError, f') => (ValError, f') | (OverError, f') => (OverError, f') end
  else if traps c InvalidOperation then (Raise InvalidOperation, InvalidOperation :: f) else (Ret (NaN false false [], NaN false false []), InvalidOperation :: f).
Proof.
  intro f. unfold divmod, bind at 1, check_nans. cbn [isnan]. change (0 =? 0) with true. cbn [negb orb]. unfold ret at 1. cbv iota beta.
  rewrite truthy2. cbn [negb]. unfold bind at 1. rewrite divide_ok by assumption. cbv zeta. fold m A B.
  destruct (A / B <? 10 ^ prec c); [reflexivity|]. destruct (traps c InvalidOperation); [reflexivity|].
  cbn [fst snd fix_]. unfold bind, ret. now rewrite fix_nan_empty.
Qed.
(** The quotient is the integer part of the exact quotient; the remainder is exact, then rounded. *)
Theorem divmod_delivers : exists n : Z, toward_zero (value s1 i1 e1 / value s2 i2 e2) n /\
  (Z.abs n < 10 ^ prec c ->
     (exists i, coefficient i /\ number i = Z.abs n /\ (forall f, floordiv c (Fin s1 i1 e1) (Fin s2 i2 e2) f = (Ret (Fin (xorb s1 s2) i 0), f))) /\
     delivers c (value s1 i1 e1 - inject_Z n * value s2 i2 e2) s1 (Z.min e1 e2) (mod_ c (Fin s1 i1 e1) (Fin s2 i2 e2)) /\
     (forall f, divmod c (Fin s1 i1 e1) (Fin s2 i2 e2) f = (let* q := floordiv c (Fin s1 i1 e1) (Fin s2 i2 e2) in let* r := mod_ c (Fin s1 i1 e1) (Fin s2 i2 e2) in ret (q, r)) f)) /\
  (10 ^ prec c <= Z.abs n -> forall f,
     floordiv c (Fin s1 i1 e1) (Fin s2 i2 e2) f = report c [InvalidOperation] (NaN false false []) f /\
     mod_ c (Fin s1 i1 e1) (Fin s2 i2 e2) f = report c [InvalidOperation] (NaN false false []) f /\
     divmod c (Fin s1 i1 e1) (Fin s2 i2 e2) f = (let* r := raise_in c InvalidOperation (NaN false false []) in ret (r, r)) f).
Proof.
  destruct quo_nonneg as (Q0 & Bp). pose proof (Z.mod_pos_bound A B Bp) as MB. pose proof (Z_div_mod_eq_full A B) as DM.
  exists n. split; [now apply trunc_units|]. assert (An : Z.abs n = A / B) by (unfold n; now apply signed_abs). rewrite An. split.
  - intro L. split; [|split].
    + exists (to_str (A / B)). split; [now apply coefficient_to_str|]. split; [now apply number_to_str|]. intro f. rewrite floordiv_ok. now replace (A / B <? 10 ^ prec c) with true by lia.
    + apply (delivers_ext _ _ _ _ (fix_ c (Fin s1 (to_str (A mod B)) m))); [intro f; rewrite mod_ok; now replace (A / B <? 10 ^ prec c) with true by lia|].
      apply fix_delivers; [assumption|apply coefficient_to_str; lia|]. unfold n. rewrite remainder_units. fold m A B. unfold value. rewrite number_to_str by lia. replace (A mod B) with (A - A / B * B) by lia. reflexivity.
    + intro f. rewrite divmod_ok. unfold bind. rewrite floordiv_ok. replace (A / B <? 10 ^ prec c) with true by lia. cbv iota beta. rewrite mod_ok. replace (A / B <? 10 ^ prec c) with true by lia. reflexivity.
  - intros L f. rewrite floordiv_ok, mod_ok, divmod_ok. replace (A / B <? 10 ^ prec c) with false by lia. split; [reflexivity|]. split; [reflexivity|].
    unfold bind, raise_in, ret. destruct (traps c InvalidOperation); reflexivity.
Qed.
End Quotients.

(** * The remainder of the nearest quotient *)
Lemma near_units : forall s1 i1 e1 s2 i2 e2, coefficient i1 -> 0 < number i2 ->
  let m := Z.min e1 e2 in let A := units i1 e1 m in let B := units i2 e2 m in
  rounds HALF_EVEN (value s1 i1 e1 / value s2 i2 e2) (signed (xorb s1 s2) (if 2 * (A mod B) + (A / B) mod 2 >? B then A / B + 1 else A / B)).
Proof.
  intros s1 i1 e1 s2 i2 e2 C1 N2 m A B. pose proof C1 as (F1 & _). pose proof (number_bound i1 F1) as Bd1. pose proof (units_pos i2 e2 m ltac:(lia) N2) as Bp. fold B in Bp.
  pose proof (quotient_units s1 i1 e1 s2 i2 e2 N2) as Q. cbv zeta in Q. fold m A B in Q.
  apply (rounds_eq HALF_EVEN (sgn (xorb s1 s2) (A # Z.to_pos B))); [now symmetry|].
  destruct (Z.eq_dec (number i1) 0) as [Z1|Z1].
  - assert (A0 : A = 0) by (unfold A, units; rewrite Z1; reflexivity). rewrite A0, Zdiv_0_l, Zmod_0_l. change (2 * 0 + 0 mod 2) with 0. replace (0 >? B) with false by lia.
    replace (signed (xorb s1 s2) 0) with 0 by (destruct (xorb s1 s2); reflexivity). apply rounds_zero. destruct (xorb s1 s2); reflexivity.
  - pose proof (units_pos i1 e1 m ltac:(lia) ltac:(lia)) as Ap. fold A in Ap.
    pose proof (rounds_lies HALF_EVEN (xorb s1 s2) (A # Z.to_pos B) (A / B) (part_of (A mod B) B) ltac:(unfold Qlt; cbn [Qnum Qden]; lia) ltac:(apply Z.div_pos; lia) (lies_fraction A B Bp)) as R.
    replace (2 * (A mod B) + (A / B) mod 2 >? B) with (bump HALF_EVEN (xorb s1 s2) (A / B) (part_of (A mod B) B) >? 0); [exact R|].
    pose proof (Z.mod_pos_bound A B Bp) as MB. unfold part_of. pose proof (Zmod_even (A / B)) as Ev.
    destruct (A mod B =? 0) eqn:?; cbn [bump]; [destruct (Z.even (A / B)); lia|].
    destruct (2 * (A mod B) <? B) eqn:?; cbn [bump]; [destruct (Z.even (A / B)); lia|].
    destruct (2 * (A mod B) =? B) eqn:?; cbn [bump]; destruct (Z.even (A / B)); lia.
Qed.
Theorem near_delivers : forall c s1 i1 e1 s2 i2 e2, valid c -> coefficient i1 -> coefficient i2 -> 0 < number i2 ->
  exists n : Z, rounds HALF_EVEN (value s1 i1 e1 / value s2 i2 e2) n /\
  (Z.abs n < 10 ^ prec c -> delivers c (value s1 i1 e1 - inject_Z n * value s2 i2 e2) s1 (Z.min e1 e2) (remainder_near c (Fin s1 i1 e1) (Fin s2 i2 e2))) /\
  (10 ^ prec c <= Z.abs n -> forall f, remainder_near c (Fin s1 i1 e1) (Fin s2 i2 e2) f = report c [InvalidOperation] (NaN false false []) f).
Proof.
  intros c s1 i1 e1 s2 i2 e2 V C1 C2 N2. pose proof V as (P1 & Em & EM). pose proof (pow10_pos (prec c) ltac:(lia)) as Pp.
  pose proof (near_units s1 i1 e1 s2 i2 e2 C1 N2) as R. cbv zeta in R.
  assert (E : forall f, remainder_near c (Fin s1 i1 e1) (Fin s2 i2 e2) f =
    let m := Z.min e1 e2 in let A := units i1 e1 m in let B := units i2 e2 m in
    let q := if 2 * (A mod B) + (A / B) mod 2 >? B then A / B + 1 else A / B in
    if q <? 10 ^ prec c then fix_ c (Fin (if A - q * B <? 0 then negb s1 else s1) (to_str (Z.abs (A - q * B))) m) f else report c [InvalidOperation] (NaN false false []) f).
  { intro f. unfold remainder_near. rewrite no_nans by reflexivity. rewrite (proj2 (is0_false i2 C2) N2).
    rewrite rescale_units by (auto; lia). rewrite !to_int_number, pair_units. cbn [adjusted]. cbv zeta.
    remember (Z.min e1 e2) as m eqn:Em'. remember (units i1 e1 m) as A eqn:EA. remember (units i2 e2 m) as B eqn:EB.
    pose proof (units_pos i2 e2 m ltac:(lia) N2) as Bp. rewrite <- EB in Bp.
    destruct (is0 i1) eqn:Z1.
    { apply is0_iff in Z1; [|assumption]. assert (A0 : A = 0) by (rewrite EA; unfold units; rewrite Z1; reflexivity). rewrite A0, Zdiv_0_l, Zmod_0_l. change (2 * 0 + 0 mod 2) with 0. replace (0 >? B) with false by lia.
      replace (0 <? 10 ^ prec c) with true by lia. reflexivity. }
    apply is0_false in Z1; [|assumption]. pose proof (units_pos i1 e1 m ltac:(lia) Z1) as Ap. rewrite <- EA in Ap. pose proof (Z.mod_pos_bound A B Bp) as MB. pose proof (Z_div_mod_eq_full A B) as DM.
    assert (Q0 : 0 <= A / B) by (apply Z.div_pos; lia).
    destruct (_ >=? prec c + 1) eqn:La.
    { pose proof (units_large (prec c) i1 e1 i2 e2 P1 C1 C2 Z1 N2 ltac:(lia)) as U. cbv zeta in U. rewrite <- Em', <- EA, <- EB in U.
      assert (10 ^ prec c <= A / B) by (apply Z.div_le_lower_bound; lia). rewrite <- raise_report. destruct (2 * (A mod B) + (A / B) mod 2 >? B).
      - now replace (A / B + 1 <? 10 ^ prec c) with false by lia.
      - now replace (A / B <? 10 ^ prec c) with false by lia. }
    destruct (_ <=? -2) eqn:Sm.
    { pose proof (units_small i1 e1 i2 e2 C1 C2 Z1 N2 ltac:(lia)) as U. cbv zeta in U. rewrite <- Em', <- EA, <- EB in U. rewrite Z.div_small, Z.mod_small by lia. change (0 mod 2) with 0.
      replace (2 * A + 0 >? B) with false by lia. replace (0 <? 10 ^ prec c) with true by lia. replace (A - 0 * B) with A by lia. replace (A <? 0) with false by lia. now replace (Z.abs A) with A by lia. }
    destruct (2 * (A mod B) + (A / B) mod 2 >? B).
    - replace (A / B + 1 >=? 10 ^ prec c) with (negb (A / B + 1 <? 10 ^ prec c)) by lia. destruct (A / B + 1 <? 10 ^ prec c); cbn [negb]; [|now rewrite <- raise_report].
      replace (A - (A / B + 1) * B) with (A mod B - B) by lia. destruct (A mod B - B <? 0) eqn:Ng; [|lia]. f_equal. f_equal. f_equal. lia.
    - replace (A / B >=? 10 ^ prec c) with (negb (A / B <? 10 ^ prec c)) by lia. destruct (A / B <? 10 ^ prec c); cbn [negb]; [|now rewrite <- raise_report].
      replace (A - A / B * B) with (A mod B) by lia. replace (A mod B <? 0) with false by lia. f_equal. f_equal. f_equal. lia. }
  cbv zeta in E. remember (Z.min e1 e2) as m eqn:Em'. remember (units i1 e1 m) as A eqn:EA. remember (units i2 e2 m) as B eqn:EB.
  remember (if 2 * (A mod B) + (A / B) mod 2 >? B then A / B + 1 else A / B) as q eqn:Eq.
  pose proof (units_pos i2 e2 m ltac:(lia) N2) as Bp. rewrite <- EB in Bp. pose proof C1 as (F1 & _). pose proof (number_bound i1 F1) as Bd1.
  assert (A0 : 0 <= A) by (rewrite EA; unfold units; pose proof (pow10_pos (e1 - m) ltac:(lia)); nia).
  assert (Q0 : 0 <= q) by (pose proof (Z.div_pos A B A0 Bp); destruct (_ >? B); lia).
  exists (signed (xorb s1 s2) q). split; [exact R|]. rewrite signed_abs by assumption. split.
  - intro L. apply (delivers_sign c _ (if A - q * B <? 0 then negb s1 else s1)).
    + intro X. pose proof (remainder_units s1 i1 e1 s2 i2 e2 q) as RU. cbv zeta in RU. rewrite <- Em', <- EA, <- EB in RU. rewrite RU in X.
      assert (Z0 : A - q * B = 0). { change 0%Q with (inject_Z 0) in X. assert (X' : (inject_Z (signed s1 (A - q * B)) * ten m == inject_Z 0 * ten m)%Q) by (rewrite X; change (inject_Z 0) with 0%Q; ring). apply scaled_eq in X'. now apply signed_zero in X'. }
      now rewrite Z0.
    + apply (delivers_ext _ _ _ _ (fix_ c (Fin (if A - q * B <? 0 then negb s1 else s1) (to_str (Z.abs (A - q * B))) m))); [intro f; rewrite E; now replace (q <? 10 ^ prec c) with true by lia|].
      apply fix_delivers; [assumption|apply coefficient_to_str; lia|]. rewrite remainder_units. rewrite <- Em', <- EA, <- EB. unfold value. rewrite number_to_str by lia.
      replace (signed (if A - q * B <? 0 then negb s1 else s1) (Z.abs (A - q * B))) with (signed s1 (A - q * B)); [reflexivity|]. destruct (A - q * B <? 0) eqn:?, s1; cbn [signed negb]; lia.
  - intros L f. rewrite E. now replace (q <? 10 ^ prec c) with false by lia.
Qed.
