(** Rounding to a given exponent: quantize, round, floor, ceil, int, to_integral, normalize. *)
From Coq Require Import ZArith QArith Qabs Lqa List Bool Lia ZifyBool ZifyNat.
From Verif Require Import Dec_Model Dec_Spec Dec_Digits Dec_Round Dec_Fix Dec_Arith Dec_Ops Dec_Div Dec_Rem Dec_Cmp.
Import ListNotations.
Open Scope Z_scope.

(** Rounding moves a number by less than one. *)
Lemma rounds_within : forall m x n, rounds m x n -> (Qabs (x - inject_Z n) < 1)%Q.
Proof.
  assert (TZ : forall x n, toward_zero x n -> (Qabs (x - inject_Z n) < 1)%Q).
  { intros x n (A & B). rewrite Qabs_Qlt_condition. destruct (Qlt_le_dec x 0) as [X|X]; [specialize (B (Qlt_le_weak _ _ X)); lra|specialize (A X); lra]. }
  assert (AZ : forall x n, away_from_zero x n -> (Qabs (x - inject_Z n) < 1)%Q).
  { intros x n (A & B). rewrite Qabs_Qlt_condition. destruct (Qlt_le_dec x 0) as [X|X]; [specialize (B (Qlt_le_weak _ _ X)); lra|specialize (A X); lra]. }
  intros m x n R. destruct m; cbn [rounds] in R; auto; try (destruct R as (R & _); unfold nearest in R; lra); try (rewrite Qabs_Qlt_condition; lra).
  destruct R as (t & T & [[_ ->]|[_ A]]); auto.
Qed.
Lemma rounds_big : forall m x n K, rounds m x n -> (inject_Z K <= Qabs x)%Q -> K <= Z.abs n.
Proof.
  intros m x n K R H. pose proof (rounds_within m x n R) as W. assert (T : (Qabs x <= Qabs (x - inject_Z n) + Qabs (inject_Z n))%Q).
  { setoid_replace x with ((x - inject_Z n) + inject_Z n)%Q at 1 by ring. apply Qabs_triangle. }
  change (Qabs (inject_Z n)) with (inject_Z (Z.abs n)) in T. assert (L : (inject_Z K < inject_Z (Z.abs n) + 1)%Q) by lra.
  change 1%Q with (inject_Z 1) in L. rewrite <- inject_Z_plus, <- Zlt_Qlt in L. lia.
Qed.

Lemma rescale_ok : forall m s i e exp, coefficient i -> exists n, 0 <= n /\ rescale (Fin s i e) exp m = Fin s (to_str n) exp /\
  rounds m (value s i e * ten (- exp)) (signed s n) /\ (exp <= e -> n = units i e exp).
Proof.
  intros m s i e exp C. pose proof C as (F & _). pose proof (number_bound i F) as Nb. cbn [rescale]. destruct (is0 i) eqn:Z0.
  { apply is0_iff in Z0; [|assumption]. exists 0. split; [lia|]. split; [reflexivity|]. split; [|intros _; unfold units; rewrite Z0; reflexivity].
    replace (signed s 0) with 0 by (destruct s; reflexivity). apply rounds_zero. assert (V0 : (value s i e == 0)%Q) by (now apply value_zero). rewrite V0. ring. }
  apply is0_false in Z0; [|assumption]. pose proof (value_sgn s i e) as Vs. destruct (digits_of_number i C Z0) as (L1 & NB).
  assert (Sc : (value s i e * ten (- exp) == sgn s (inject_Z (number i) * ten e * ten (- exp)))%Q) by (rewrite Vs; apply sgn_scale).
  pose proof (scaled_pos (number i) e Z0) as Yp. pose proof (ten_pos (- exp)) as Tp.
  destruct (e >=? exp) eqn:G.
  - exists (units i e exp). pose proof (units_pos i e exp ltac:(lia) Z0) as Up. split; [lia|]. split; [unfold units; now rewrite to_str_pad by (auto; lia)|]. split; [|reflexivity].
    apply (rounds_eq m _ _ _ (Qeq_sym _ _ Sc)).
    pose proof (rounds_lies m s (inject_Z (number i) * ten e * ten (- exp)) (units i e exp) PZero ltac:(nra) ltac:(lia)) as R. cbn [bump] in R. change (0 >? 0) with false in R. cbn iota in R.
    apply R. cbn [lies]. apply to_units_exact. lia.
  - remember (len i + e - exp) as k eqn:Ek. remember (10 ^ (exp - e)) as d eqn:Ed. pose proof (pow10_pos (exp - e) ltac:(lia)) as Dp. rewrite <- Ed in Dp.
    assert (PK : pick m s (if k <? 0 then [1] else i) (if k <? 0 then 0 else k) = bump m s (number i / d) (part_of (number i mod d) d) /\
                 or0 (upto (if k <? 0 then [1] else i) (if k <? 0 then 0 else k)) = to_str (number i / d)).
    { destruct (k <? 0) eqn:K0.
      - assert (Lt : 10 * number i < d).
        { pose proof (pow10_le (len i + 1) (exp - e) ltac:(lia)) as Q. rewrite pow10_S in Q by lia. lia. }
        assert (D0 : number i / d = 0) by (apply Z.div_small; lia). assert (M0 : number i mod d = number i) by (apply Z.mod_small; lia).
        rewrite D0, M0. rewrite pick_bump by (try (repeat constructor; lia); cbn; lia).
        change (10 ^ (len [1] - 0)) with 10. change (number [1]) with 1. change (1 / 10) with 0. change (part_of (1 mod 10) 10) with PLow.
        split; [|reflexivity]. f_equal. unfold part_of. replace (number i =? 0) with false by lia. now replace (2 * number i <? d) with true by lia.
      - assert (Q : len i - k = exp - e) by lia. rewrite pick_bump by (auto; lia). rewrite or0_upto by (auto; lia). rewrite Q, <- Ed. split; reflexivity. }
    destruct PK as (PKb & PKo). rewrite PKb, PKo, to_int_number, number_to_str by (apply Z.div_pos; lia).
    pose proof (Z.div_pos (number i) d ltac:(lia) Dp) as Q0.
    exists (if bump m s (number i / d) (part_of (number i mod d) d) >? 0 then number i / d + 1 else number i / d). split; [destruct (_ >? 0); lia|]. split.
    { f_equal. destruct (bump_cases m s (number i / d) (part_of (number i mod d) d)) as [B|[B|[B _]]]; rewrite B; reflexivity. }
    split; [|lia]. apply (rounds_eq m _ _ _ (Qeq_sym _ _ Sc)). apply rounds_lies; [nra|assumption|].
    apply (lies_eq (number i # Z.to_pos d)); [rewrite Ed; symmetry; apply to_units_fraction; lia|]. now apply lies_fraction.
Qed.

Lemma value_shift : forall s n exp, 0 <= n -> (value s (to_str n) exp == inject_Z (signed s n) * ten exp)%Q.
Proof. intros. unfold value. now rewrite number_to_str. Qed.
Lemma abs_scaled : forall n e, (Qabs (inject_Z n * ten e) == inject_Z (Z.abs n) * ten e)%Q.
Proof. intros. rewrite Qabs_Qmult. change (Qabs (inject_Z n)) with (inject_Z (Z.abs n)). rewrite (Qabs_pos (ten e)); [reflexivity|]. pose proof (ten_pos e). lra. Qed.

(** Signals one after the other. *)
Lemma report_nested : forall c (b1 b2 b3 : bool) l r f (k : M dec), (forall f, k f = report c l r f) ->
  (let* _ := when b1 (sig c Subnormal) in let* _ := when b2 (let* _ := when b3 (sig c Inexact) in sig c Rounded) in k) f =
  report c (opt b1 Subnormal ++ (if b2 then opt b3 Inexact ++ [Rounded] else []) ++ l) r f.
Proof.
  intros c b1 b2 b3 l r f k K. rewrite when_then, <- when_report.
  assert (E : forall f, (let* _ := when b2 (let* _ := when b3 (sig c Inexact) in sig c Rounded) in k) f = report c ((if b2 then opt b3 Inexact ++ [Rounded] else []) ++ l) r f).
  { intro g. destruct b2; cbn [when app]; [|cbn [bind]; unfold bind, ret; apply K]. rewrite <- app_assoc, <- when_report. unfold bind, when, sig, raise_in, ret. cbn [app report].
    destruct b3; [destruct (traps c Inexact); [reflexivity|]|]; destruct (traps c Rounded); try reflexivity; apply K. }
  destruct b1; [destruct (traps c Subnormal); [reflexivity|]|]; apply E.
Qed.

Theorem quantize_ok : forall c m s i e s' i' exp, valid c -> coefficient i ->
  exists n, rounds m (value s i e * ten (- exp)) n /\
  let y := (inject_Z n * ten exp)%Q in
  let top := Emax c - prec c + 1 in
  let possible := Emin c - prec c + 1 <= exp <= Emax c /\ Z.abs n < 10 ^ prec c /\ (Qabs y < ten (Emax c + 1))%Q in
  (possible -> exists r sigs, (forall f, quantize c m (Fin s i e) (Fin s' i' exp) f = report c sigs r f) /\
     (exists i2 e2, r = Fin s i2 e2 /\ coefficient i2 /\ (value s i2 e2 == y)%Q /\ e2 = if clamp c then Z.min exp top else exp) /\
     (In Inexact sigs <-> (~ value s i e == y)%Q) /\
     (In Rounded sigs <-> e < exp /\ (~ value s i e == 0)%Q) /\
     (In Subnormal sigs <-> (~ y == 0)%Q /\ (Qabs y < ten (Emin c))%Q) /\
     (In Clamped sigs <-> clamp c = true /\ top < exp) /\
     incl sigs [Subnormal; Inexact; Rounded; Clamped]) /\
  (~ possible -> forall f, quantize c m (Fin s i e) (Fin s' i' exp) f = report c [InvalidOperation] (NaN false false []) f).
Proof.
  intros c m s i e s' i' exp V C. pose proof V as (P1 & Em & EM). pose proof C as (F & _). pose proof (number_bound i F) as Nb.
  destruct (rescale_ok m s i e exp C) as (n & N0 & Rs & Rn & Rx). exists (signed s n). split; [exact Rn|]. cbv zeta.
  rewrite (signed_abs s n N0). pose proof (pow10_pos (prec c) ltac:(lia)) as Pp.
  assert (Ay : (Qabs (inject_Z (signed s n) * ten exp) == inject_Z n * ten exp)%Q) by (rewrite abs_scaled, signed_abs by assumption; reflexivity).
  assert (Y0 : (inject_Z (signed s n) * ten exp == 0)%Q <-> n = 0).
  { rewrite <- value_shift by assumption. rewrite value_zero by (now apply coefficient_to_str). now rewrite number_to_str. }
  assert (Ini : forall f, raise_in c InvalidOperation (NaN false false []) f = report c [InvalidOperation] (NaN false false []) f) by (intro; apply raise_report).
  assert (Q : forall f, quantize c m (Fin s i e) (Fin s' i' exp) f =
     (if negb ((Etiny c <=? exp) && (exp <=? Emax c)) then raise_in c InvalidOperation (NaN false false [])
      else if is0 i then fix_ c (Fin s [0] exp)
      else if e + len i - 1 >? Emax c then raise_in c InvalidOperation (NaN false false [])
      else if e + len i - 1 - exp + 1 >? prec c then raise_in c InvalidOperation (NaN false false [])
      else if exp + len (to_str n) - 1 >? Emax c then raise_in c InvalidOperation (NaN false false [])
      else if len (to_str n) >? prec c then raise_in c InvalidOperation (NaN false false [])
      else let* _ := when (negb (is0 (to_str n)) && (exp + len (to_str n) - 1 <? Emin c)) (sig c Subnormal) in
           let* _ := when (exp >? e) (let* _ := when (negb (cmp (Fin s (to_str n) exp) (Fin s i e) =? 0)) (sig c Inexact) in sig c Rounded) in
           fix_ c (Fin s (to_str n) exp)) f).
  { intro f. unfold quantize. rewrite no_nans by reflexivity. cbv zeta. rewrite Rs. reflexivity. }
  destruct ((Etiny c <=? exp) && (exp <=? Emax c)) eqn:Rg; cbn [negb] in Q.
  2:{ split; [unfold Etiny in Rg; lia|]. intros _ f. now rewrite Q, Ini. }
  assert (Rg' : Emin c - prec c + 1 <= exp <= Emax c) by (unfold Etiny in Rg; lia).
  assert (Zero : n = 0 -> exists r sigs, (forall f, fix_ c (Fin s [0] exp) f = report c sigs r f) /\
     (exists i2 e2, r = Fin s i2 e2 /\ coefficient i2 /\ (value s i2 e2 == inject_Z (signed s n) * ten exp)%Q /\ e2 = if clamp c then Z.min exp (Emax c - prec c + 1) else exp) /\
     sigs = opt (clamp c && (Emax c - prec c + 1 <? exp)) Clamped).
  { intro Z0. eexists _, _. split; [intro f; apply fix_zero|]. split.
    - eexists [0], _. split; [reflexivity|]. split; [apply coefficient0|]. split; [|unfold Etiny, Etop; destruct (clamp c); lia].
      transitivity 0%Q; [apply value_zero; [apply coefficient0|reflexivity]|]. symmetry. now apply Y0.
    - f_equal. unfold Etiny, Etop. destruct (clamp c); cbn [andb]; lia. }
  pose proof (value_zero s i e C) as VZ.
  destruct (is0 i) eqn:Z0.
  { apply is0_iff in Z0; [|assumption].
    assert (n = 0). { destruct (Z.eq_dec n 0); [assumption|]. pose proof (rounds_within _ _ _ Rn) as W. assert (V0 : (value s i e * ten (- exp) == 0)%Q) by (rewrite (proj2 VZ Z0); ring). rewrite V0 in W.
      assert (W' : (Qabs (inject_Z (signed s n)) < 1)%Q) by (rewrite <- Qabs_opp; setoid_replace (- inject_Z (signed s n))%Q with (0 - inject_Z (signed s n))%Q by ring; exact W).
      change (Qabs (inject_Z (signed s n))) with (inject_Z (Z.abs (signed s n))) in W'. change 1%Q with (inject_Z 1) in W'. rewrite <- Zlt_Qlt, signed_abs in W' by assumption. lia. }
    destruct (Zero H) as (r & sigs & Z1 & Z2 & ->). clear Zero. split.
    - intros _. exists r, (opt (clamp c && (Emax c - prec c + 1 <? exp)) Clamped). split; [intro f; rewrite Q; apply Z1|]. split; [exact Z2|]. rewrite !in_opt.
      assert (Vy : (value s i e == inject_Z (signed s n) * ten exp)%Q) by (rewrite (proj2 VZ Z0); symmetry; now apply Y0).
      split; [split; [intros [_ ?]; discriminate|intro A; exfalso; now apply A]|].
      split; [split; [intros [_ ?]; discriminate|intros [_ A]; exfalso; apply A; now apply VZ]|].
      split; [split; [intros [_ ?]; discriminate|intros [A _]; exfalso; apply A; now apply Y0]|].
      split; [split; [intros [A _]; lia|intros [A B]; split; [lia|reflexivity]]|].
      intros x I. apply in_opt in I. destruct I as [_ ->]. cbn; auto.
    - intro A. exfalso. apply A. split; [exact Rg'|]. split; [lia|]. rewrite Ay. subst n. change (inject_Z 0) with 0%Q. rewrite Qmult_0_l. apply ten_pos. }
  apply is0_false in Z0; [|assumption]. destruct (digits_of_number i C Z0) as (L1 & NB). pose proof (leading i e C Z0) as (Le1 & Le2).
  assert (Big : forall K, 0 <= K -> (ten (exp + K) <= inject_Z (number i) * ten e)%Q -> 10 ^ K <= n).
  { intros K K0 H. rewrite <- (signed_abs s n N0). apply (rounds_big m _ _ _ Rn). rewrite Qabs_Qmult, value_abs by assumption. rewrite (Qabs_pos (ten (- exp))) by (pose proof (ten_pos (- exp)); lra).
    rewrite <- (ten_Z K K0). pose proof (ten_pos (- exp)). apply (Qle_trans _ (ten (exp + K) * ten (- exp))); [|apply Qmult_le_compat_r; [exact H|lra]].
    rewrite <- ten_add. replace (exp + K + - exp) with K by lia. apply Qle_refl. }
  destruct (e + len i - 1 >? Emax c) eqn:G1.
  { assert (B : 10 ^ (Emax c + 1 - exp) <= n). { apply Big; [lia|]. apply (Qle_trans _ (ten (e + len i - 1))); [apply (proj1 (ten_le _ _)); lia|exact Le1]. }
    split; [|intros _ f; now rewrite Q, Ini]. intros (_ & _ & A). exfalso. rewrite Ay in A. rewrite (ten_as (Emax c + 1) exp) in A by lia. rewrite scaled_lt in A. lia. }
  destruct (e + len i - 1 - exp + 1 >? prec c) eqn:G2.
  { assert (B : 10 ^ prec c <= n). { apply Big; [lia|]. apply (Qle_trans _ (ten (e + len i - 1))); [apply (proj1 (ten_le _ _)); lia|exact Le1]. }
    split; [|intros _ f; now rewrite Q, Ini]. intros (_ & A & _). lia. }
  clear G1 G2.
  destruct (Z.eq_dec n 0) as [Hn|Hn].
  - (* rounded to zero *)
    assert (Lt0 : len (to_str n) = 1) by (subst n; reflexivity). assert (Is0 : is0 (to_str n) = true) by (subst n; reflexivity). rewrite Lt0, Is0 in Q. cbn [negb andb] in Q.
    replace (exp + 1 - 1 >? Emax c) with false in Q by lia. replace (1 >? prec c) with false in Q by lia.
    assert (Nv : ~ (value s i e == inject_Z (signed s n) * ten exp)%Q) by (intro A; rewrite (proj2 Y0 Hn) in A; apply VZ in A; lia).
    assert (Ge : exp >? e = true). { destruct (exp >? e) eqn:G; [reflexivity|]. rewrite Rx in Hn by lia. pose proof (units_pos i e exp ltac:(lia) Z0). lia. }
    assert (Cz : (cmp (Fin s (to_str n) exp) (Fin s i e) =? 0) = false).
    { destruct (cmp _ _ =? 0) eqn:Cm; [|reflexivity]. apply cmp_zero in Cm; [|now apply coefficient_to_str|assumption]. rewrite value_shift in Cm by assumption. exfalso. apply Nv. now symmetry. }
    rewrite Ge, Cz in Q. destruct (Zero Hn) as (r & sigs & Z1 & Z2 & ->). clear Zero.
    assert (ToS : to_str n = [0]) by (subst n; reflexivity). rewrite ToS in Q.
    split.
    + intros _. eexists r, _. split; [intro f; rewrite Q; exact (report_nested c false true true _ r f _ Z1)|]. split; [exact Z2|].
      cbn [opt app negb]. cbn [In]. rewrite in_opt. rewrite !in_opt.
      split; [split; [intros _; exact Nv|now left]|]. split; [split; [intros _; split; [lia|rewrite VZ; lia]|auto]|].
      split; [split; [intros [A|[A|[_ A]]]; discriminate|intros [A _]; exfalso; apply A; now apply Y0]|].
      split; [split; [intros [A|[A|[A _]]]; [discriminate|discriminate|lia]|intros [A B]; right; right; split; [lia|reflexivity]]|].
      intros x [<-|[<-|I]]; [cbn; auto|cbn; auto|]. apply in_opt in I. destruct I as [_ ->]. cbn; auto.
    + intro A. exfalso. apply A. split; [exact Rg'|]. split; [lia|]. rewrite Ay, Hn. change (inject_Z 0) with 0%Q. rewrite Qmult_0_l. apply ten_pos.
  - assert (Np : 0 < n) by lia. clear Zero. destruct (digits_of n Np) as (Ln & Bn). pose proof (coefficient_to_str n N0) as Cn. pose proof (number_to_str n N0) as Nn.
    assert (Is0 : is0 (to_str n) = false) by (apply is0_false; [assumption|lia]). rewrite Is0 in Q. cbn [negb andb] in Q.
    assert (Bd : exp + len (to_str n) - 1 <= Emax c <-> (inject_Z n * ten exp < ten (Emax c + 1))%Q).
    { rewrite (ten_as (Emax c + 1) exp) by lia. rewrite scaled_lt. split; intro H.
      - pose proof (pow10_le (len (to_str n)) (Emax c + 1 - exp) ltac:(lia)). lia.
      - destruct (Z.le_gt_cases (exp + len (to_str n) - 1) (Emax c)) as [G|G]; [exact G|]. pose proof (pow10_le (Emax c + 1 - exp) (len (to_str n) - 1) ltac:(lia)). lia. }
    assert (Bp : len (to_str n) <= prec c <-> n < 10 ^ prec c).
    { split; intro H; [pose proof (pow10_le (len (to_str n)) (prec c) ltac:(lia)); lia|]. destruct (Z.le_gt_cases (len (to_str n)) (prec c)) as [G|G]; [exact G|]. pose proof (pow10_le (prec c) (len (to_str n) - 1) ltac:(lia)). lia. }
    assert (Bs : exp + len (to_str n) - 1 < Emin c <-> (inject_Z n * ten exp < ten (Emin c))%Q).
    { pose proof (leading (to_str n) exp Cn ltac:(lia)) as (A1 & A2). rewrite Nn in A1, A2. split; intro H.
      - apply (Qlt_le_trans _ _ _ A2). apply (proj1 (ten_le _ _)). lia.
      - apply (proj2 (ten_lt _ _)). lra. }
    destruct (exp + len (to_str n) - 1 >? Emax c) eqn:G1.
    { split; [|intros _ f; now rewrite Q, Ini]. intros (_ & _ & A). rewrite Ay in A. apply Bd in A. lia. }
    destruct (len (to_str n) >? prec c) eqn:G2.
    { split; [|intros _ f; now rewrite Q, Ini]. intros (_ & A & _). apply Bp in A. lia. }
    split.
    2:{ intro A. exfalso. apply A. split; [exact Rg'|]. split; [apply Bp; lia|]. rewrite Ay. apply Bd. lia. }
    intros _. assert (Fx : forall f, fix_ c (Fin s (to_str n) exp) f = report c (opt (exp + len (to_str n) - 1 <? Emin c) Subnormal ++ opt (folded c exp) Clamped) (fold_down c s (to_str n) exp) f).
    { intro f. apply fix_exact; [assumption|assumption|lia|lia|]. unfold unit_exp, Etiny. lia. }
    eexists _, _. split; [intro f; rewrite Q; apply (report_nested c _ _ _ _ _ f _ Fx)|].
    assert (Cm : (cmp (Fin s (to_str n) exp) (Fin s i e) =? 0) = true <-> (value s i e == inject_Z (signed s n) * ten exp)%Q).
    { rewrite cmp_zero by assumption. rewrite value_shift by assumption. split; intro; now symmetry. }
    assert (Ex : (exp >? e) = false -> (value s i e == inject_Z (signed s n) * ten exp)%Q).
    { intro G. rewrite value_sgn, signed_scale. apply sgn_inj. rewrite (Rx ltac:(lia)). apply rescaled. lia. }
    split.
    { unfold fold_down, folded, Etop. destruct (clamp c) eqn:Cl; cbn [andb].
      - destruct (exp >? Emax c - prec c + 1) eqn:Fo.
        + eexists _, _. split; [reflexivity|]. split; [apply coefficient_zeros; [assumption|lia]|]. split; [|lia]. rewrite value_sgn, signed_scale. apply sgn_inj. rewrite number_zeros, Nn.
          replace (Z.max (exp - (Emax c - prec c + 1)) 0) with (exp - (Emax c - prec c + 1)) by lia. symmetry. apply rescaled. lia.
        + eexists _, _. split; [reflexivity|]. split; [assumption|]. split; [now apply value_shift|lia].
      - eexists _, _. split; [reflexivity|]. split; [assumption|]. split; [now apply value_shift|reflexivity]. }
    rewrite !in_app_iff, !in_opt. remember (cmp (Fin s (to_str n) exp) (Fin s i e) =? 0) as cz eqn:Ecz.
    assert (InX : forall x, In x (if exp >? e then opt (negb cz) Inexact ++ [Rounded] else []) <-> (exp >? e) = true /\ (cz = false /\ x = Inexact \/ x = Rounded)).
    { intro x. destruct (exp >? e); [rewrite in_app_iff, in_opt; cbn [In]|cbn [In]; split; [contradiction|intros [? _]; discriminate]].
      split; [intros [[A B]|[A|[]]]; (split; [reflexivity|]); [left; split; [destruct cz; [discriminate|reflexivity]|exact B]|right; now symmetry]|]. intros [_ [[A B]|A]]; [left; split; [rewrite A; reflexivity|exact B]|right; left; now symmetry]. }
    rewrite !InX.
    split; [|split; [|split; [|split]]].
    + split.
      * intros [[_ A]|[(A1 & [(A2 & _)|A2])|[[_ A]|[_ A]]]]; try discriminate. intro A. apply Cm in A. congruence.
      * intro A. right. left. destruct (exp >? e) eqn:Ge; [|exfalso; apply A, Ex; reflexivity]. split; [reflexivity|]. left. split; [|reflexivity]. destruct cz; [exfalso; apply A; now apply Cm|reflexivity].
    + split.
      * intros [[_ A]|[(A1 & _)|[[_ A]|[_ A]]]]; try discriminate. split; [lia|]. rewrite VZ. lia.
      * intros [A _]. right. left. split; [lia|]. now right.
    + rewrite Ay, <- Bs, Y0. split.
      * intros [[A _]|[(A1 & [(A2 & A)|A])|[[A _]|[_ A]]]]; try discriminate; split; lia.
      * intros [_ A]. left. split; [lia|reflexivity].
    + unfold folded, Etop. split.
      * intros [[_ A]|[(A1 & [(A2 & A)|A])|[[_ A]|[A _]]]]; try discriminate. lia.
      * intros [A B]. right. right. right. split; [lia|reflexivity].
    + intros x I. rewrite !in_app_iff, !in_opt, InX in I. destruct I as [[_ ->]|[(_ & [(_ & ->)| ->])|[[_ ->]|[_ ->]]]]; cbn; auto.
Qed.
