(** Conversions to integers, to_integral and normalize. *)
From Coq Require Import ZArith QArith Qabs Lqa List Bool Lia ZifyBool ZifyNat.
From Verif Require Import Dec_Model Dec_Spec Dec_OrderSpec Dec_Digits Dec_Round Dec_Fix Dec_Arith Dec_Ops Dec_Rem Dec_Cmp Dec_Special Dec_Quant.
Import ListNotations.
Open Scope Z_scope.

Lemma times_one : forall x, (x * ten (- 0) == x)%Q.
Proof. intro x. change (ten (- 0)) with 1%Q. ring. Qed.
Lemma signed_pm : forall s n, pm s * n = signed s n.
Proof. intros [|] n; cbn [pm signed]; lia. Qed.

Theorem to_integer_ok : forall s i e, coefficient i -> exists n, to_integer (Fin s i e) = Ret n /\ toward_zero (value s i e) n.
Proof.
  intros s i e C. pose proof C as (D & _). pose proof (number_bound i D) as Nb. cbn [to_integer]. destruct (e >=? 0) eqn:G.
  - eexists. split; [reflexivity|]. rewrite to_int_number, <- Z.mul_assoc, signed_pm.
    assert (E : (value s i e == inject_Z (signed s (number i * 10 ^ e)))%Q).
    { unfold value. rewrite ten_Z by lia. rewrite <- inject_Z_mult. destruct s; cbn [signed]; [|reflexivity]. now rewrite Z.mul_opp_l. }
    split; intros _; lra.
  - eexists. split; [reflexivity|]. rewrite to_int_number, number_or0, signed_pm. pose proof (pow10_pos (- e) ltac:(lia)) as Dp.
    assert (Q : number (firstn (length i - Z.to_nat (- e)) i) = number i / 10 ^ (- e)).
    { destruct (Z.le_gt_cases (- e) (len i)) as [L|L].
      - pose proof (upto_div i (len i + e) D ltac:(lia)) as U. replace (len i - (len i + e)) with (- e) in U by lia. rewrite <- U. unfold upto. f_equal. f_equal. unfold len. lia.
      - unfold len in L. replace (length i - Z.to_nat (- e))%nat with O by lia. cbn [firstn number]. symmetry. apply Z.div_small. pose proof (pow10_le (Z.of_nat (length i)) (- e) ltac:(lia)). lia. }
    rewrite Q. destruct (Z.eq_dec (number i) 0) as [N0|N0].
    { rewrite N0, Z.div_0_l by lia. assert (V0 : (value s i e == 0)%Q) by (now apply value_zero). replace (signed s 0) with 0 by (destruct s; reflexivity). change (rounds DOWN (value s i e) 0). now apply rounds_zero. }
    pose proof (Z.div_pos (number i) (10 ^ (- e)) ltac:(lia) Dp) as Q0.
    pose proof (rounds_lies DOWN s (inject_Z (number i) * ten e * ten (- 0)) (number i / 10 ^ (- e)) (part_of (number i mod 10 ^ (- e)) (10 ^ (- e)))) as R.
    assert (B : bump DOWN s (number i / 10 ^ (- e)) (part_of (number i mod 10 ^ (- e)) (10 ^ (- e))) >? 0 = false) by (unfold bump; destruct (part_of _ _); reflexivity).
    rewrite B in R. assert (T : toward_zero (sgn s (inject_Z (number i) * ten e * ten (- 0))) (signed s (number i / 10 ^ (- e)))).
    { apply R; [|exact Q0|].
      { rewrite times_one. apply scaled_pos. lia. }
      apply (lies_eq (number i # Z.to_pos (10 ^ (- e)))); [symmetry; replace (- e) with (0 - e) by lia; apply to_units_fraction; lia|]. now apply lies_fraction. }
    change (rounds DOWN (value s i e) (signed s (number i / 10 ^ (- e)))). apply (rounds_eq DOWN (sgn s (inject_Z (number i) * ten e * ten (- 0)))); [|exact T].
    rewrite value_sgn. apply sgn_inj. apply times_one.
Qed.
Theorem to_integer_by_ok : forall m s i e, coefficient i -> exists n, to_integer_by m (Fin s i e) = Ret n /\ rounds m (value s i e) n.
Proof.
  intros m s i e C. destruct (rescale_ok m s i e 0 C) as (n & N0 & R & Q & _). cbn [to_integer_by]. rewrite R. exists (signed s n). split.
  - cbn [to_integer]. change (0 >=? 0) with true. cbn iota. rewrite to_int_number, number_to_str by assumption. rewrite signed_pm. change (10 ^ 0) with 1. f_equal. lia.
  - exact (rounds_eq m _ _ _ (times_one _) Q).
Qed.

Lemma whole : forall s i e, 0 <= e -> exists n, (value s i e == inject_Z n)%Q.
Proof. intros s i e H. exists (signed s (number i) * 10 ^ e). unfold value. now rewrite inject_Z_mult, ten_Z. Qed.
Lemma rounds_whole : forall m n, rounds m (inject_Z n) n.
Proof.
  assert (T : forall n, toward_zero (inject_Z n) n) by (intro n; split; intros _; lra). assert (A : forall n, away_from_zero (inject_Z n) n) by (intro n; split; intros _; lra).
  assert (Z0 : forall n, (Qabs (inject_Z n - inject_Z n) == 0)%Q) by (intro n; setoid_replace (inject_Z n - inject_Z n)%Q with 0%Q by ring; reflexivity).
  intros m n. pose proof (Z0 n) as Z1. destruct m; cbn [rounds]; auto; try lra; unfold nearest, tie.
  - split; [lra|]. intro B. exfalso. lra.
  - split; [lra|]. intro B. exfalso. lra.
  - split; [lra|]. intro B. exfalso. lra.
  - exists n. split; [apply T|]. destruct (Z.eq_dec (n mod 5) 0); auto.
Qed.
Theorem to_integral_ok : forall c m s i e, coefficient i -> exists i' n sigs,
  let r := Fin s i' (Z.max e 0) in
  coefficient i' /\ rounds m (value s i e) n /\ (value s i' (Z.max e 0) == inject_Z n)%Q /\
  (forall f, to_integral_value c m (Fin s i e) f = (Ret r, f)) /\
  (forall f, to_integral_exact c m (Fin s i e) f = report c sigs r f) /\
  (In Inexact sigs <-> (~ value s i e == inject_Z n)%Q) /\
  (In Rounded sigs <-> e < 0 /\ (~ value s i e == 0)%Q) /\ incl sigs [Inexact; Rounded] /\ NoDup sigs.
Proof.
  intros c m s i e C. cbn [to_integral_value to_integral_exact]. destruct (e >=? 0) eqn:G.
  - destruct (whole s i e ltac:(lia)) as (n & E). exists i, n, []. cbv zeta. replace (Z.max e 0) with e by lia. split; [assumption|]. split; [apply (rounds_eq m _ _ _ (Qeq_sym _ _ E)), rounds_whole|].
    split; [exact E|]. split; [reflexivity|]. split; [reflexivity|]. cbn [In]. split; [split; [contradiction|intro A; now apply A]|]. split; [lia|]. split; [intros ? []|constructor].
  - replace (Z.max e 0) with 0 by lia. destruct (rescale_ok m s i e 0 C) as (n & N0 & R & Q & _). rewrite R. pose proof (value_shift s n 0 N0) as Vn. change (ten 0) with 1%Q in Vn.
    pose proof (rounds_eq m _ _ _ (times_one _) Q) as Q'. cbv zeta.
    assert (Cz : (cmp (Fin s (to_str n) 0) (Fin s i e) =? 0) = true <-> (value s i e == inject_Z (signed s n))%Q).
    { rewrite cmp_zero by (auto using coefficient_to_str). rewrite Vn. split; intro; lra. }
    assert (Ret' : is0 i = true -> to_str n = [0]).
    { intro Z0. assert (H : rescale (Fin s i e) 0 m = Fin s [0] 0) by (cbn [rescale]; now rewrite Z0). rewrite R in H. congruence. }
    destruct (is0 i) eqn:Z0.
    + rewrite Ret' in * by reflexivity. exists [0], (signed s n), []. split; [apply coefficient0|]. split; [exact Q'|]. split; [rewrite Vn; ring|]. split; [reflexivity|]. split; [reflexivity|].
      apply is0_iff in Z0; [|assumption]. pose proof (proj2 (value_zero s i e C) Z0) as V0. cbn [In].
      assert (Vs0 : Qeq (value s [0] 0) 0) by (apply value_zero; [apply coefficient0|reflexivity]).
      split; [split; [contradiction|intro A; apply A; lra]|]. split; [split; [contradiction|intros [_ A]; now apply A]|]. split; [intros ? []|constructor].
    + apply is0_false in Z0; [|assumption]. exists (to_str n), (signed s n), (opt (negb (cmp (Fin s (to_str n) 0) (Fin s i e) =? 0)) Inexact ++ [Rounded]).
      split; [now apply coefficient_to_str|]. split; [exact Q'|]. split; [rewrite Vn; ring|]. split; [reflexivity|]. split.
      { intro f. rewrite <- when_report. unfold bind, when, sig, raise_in, ret. cbn [report]. destruct (negb _); [destruct (traps c Inexact); [reflexivity|]|]; destruct (traps c Rounded); reflexivity. }
      rewrite !in_app_iff, !in_opt. cbn [In]. remember (cmp (Fin s (to_str n) 0) (Fin s i e) =? 0) as cz.
      split; [split; [intros [[A _]|[A|[]]]; [|discriminate]; intro B; apply Cz in B; rewrite B in A; discriminate|intro A; left; split; [|reflexivity]; destruct cz; [exfalso; now apply A, Cz|reflexivity]]|].
      split; [split; [intros _; split; [lia|]; rewrite value_zero by assumption; lia|auto]|].
      split; [intros x I; rewrite in_app_iff, in_opt in I; cbn [In] in I; destruct I as [[_ ->]|[<-|[]]]; cbn; auto|].
      destruct cz; cbn; repeat constructor; cbn; intuition discriminate.
Qed.

Lemma removelast_number : forall s, s <> [] -> number s = number (removelast s) * 10 + last s 1.
Proof. intros s H. rewrite (app_removelast_last 1 H) at 1. rewrite number_app. cbn [length number]. change (Z.of_nat 1) with 1. change (10 ^ 1) with 10. change (Z.of_nat 0) with 0. change (10 ^ 0) with 1. lia. Qed.
Lemma drop0_ok : forall fuel s e bound (sg : bool), (length s <= fuel)%nat -> coefficient s -> 0 < number s -> e <= bound ->
  exists i' e', drop0 fuel s e bound = (i', e') /\ coefficient i' /\ 0 < number i' /\ (value sg i' e' == value sg s e)%Q /\ e <= e' <= bound /\ (number i' mod 10 <> 0 \/ e' = bound) /\
    len i' <= len s /\ e' + len i' = e + len s.
Proof.
  induction fuel as [|fuel IH]; intros s e bound sg L C P B; [destruct s; [destruct C as (_ & ? & _); congruence|cbn in L; lia]|].
  pose proof C as (D & Ne & Hd). pose proof (removelast_number s Ne) as RN. cbn [drop0]. pose proof (app_removelast_last 1 Ne) as Sp.
  assert (Ld : is_digit (last s 1)). { rewrite Forall_forall in D. apply D. rewrite Sp at 2. apply in_or_app. right. now left. } unfold is_digit in Ld.
  assert (Ls : length s = S (length (removelast s))) by (rewrite Sp at 1; rewrite app_length; cbn; lia).
  destruct ((last s 1 =? 0) && (e <? bound)) eqn:T.
  - assert (P' : 0 < number (removelast s)) by lia.
    assert (C' : coefficient (removelast s)).
    { split; [rewrite Forall_forall in *; intros x I; apply D; rewrite Sp; apply in_or_app; now left|]. split; [intro A; rewrite A in P'; cbn in P'; lia|]. intro A. exfalso.
      destruct (removelast s) as [|d r] eqn:Er; [cbn in A; lia|]. cbn in A. subst d. rewrite Sp in Hd. cbn [app hd] in Hd. specialize (Hd eq_refl). destruct r; cbn in Hd; [cbn in P'; lia|discriminate]. }
    destruct (IH (removelast s) (e + 1) bound sg ltac:(lia) C' P' ltac:(lia)) as (i' & e' & -> & Ci & Pi & V & Le & Mx & Ll & Lx). exists i', e'. split; [reflexivity|]. split; [assumption|]. split; [assumption|]. split.
    { rewrite V, !value_sgn. apply sgn_inj. rewrite (rescaled (number (removelast s)) (e + 1) e) by lia. replace (e + 1 - e) with 1 by lia. change (10 ^ 1) with 10. replace (number s) with (number (removelast s) * 10) by lia. reflexivity. }
    split; [lia|]. split; [assumption|]. unfold len in *. lia.
  - exists s, e. split; [reflexivity|]. split; [assumption|]. split; [assumption|]. split; [reflexivity|]. split; [lia|]. split; [|lia].
    destruct (last s 1 =? 0) eqn:A; cbn [andb] in T; [right; lia|]. left. rewrite RN, Z.add_comm, Z.mod_add by lia. rewrite Z.mod_small; lia.
Qed.
Lemma report_then : forall c sigs r (k : dec -> M dec) r' f, k r = ret r' -> bind (fun f => report c sigs r f) k f = report c sigs r' f.
Proof.
  intros c sigs r k r' f H. revert f. induction sigs as [|x sigs IH]; intro f; unfold bind; cbn [report]; [now rewrite H|]. destruct (traps c x); [reflexivity|]. apply IH.
Qed.
Lemma bind_ext : forall (m m' : M dec) (k : dec -> M dec) f, (forall f, m f = m' f) -> bind m k f = bind m' k f.
Proof. intros m m' k f H. unfold bind. now rewrite H. Qed.
Lemma rounded_bound : forall c x s i e sigs, rounded c x (Fin s i e) sigs -> valid c -> coefficient i /\ e <= (if clamp c then Emax c - prec c + 1 else Emax c).
Proof.
  intros c x s i e sigs (E & n & _ & _ & (s' & _ & [(_ & T & _)|(_ & _ & i' & e' & Q & (C & L & _ & B) & _)]) & _) (P1 & _).
  - unfold too_large in T. destruct (rounding c), s'; try discriminate; destruct T as (i' & e' & Q & C & _ & B); injection Q as -> -> ->; (split; [assumption|destruct (clamp c); lia]).
  - injection Q as -> -> ->. split; [assumption|]. pose proof (length_pos i' C). destruct (clamp c); lia.
Qed.
Theorem normalize_ok : forall c s i e, valid c -> coefficient i ->
  ((value s i e == 0)%Q -> exists sigs, (forall f, normalize c (Fin s i e) f = report c sigs (Fin s [0] 0) f) /\ incl sigs [Clamped]) /\
  ((~ value s i e == 0)%Q -> exists r0 r sigs, (forall f, normalize c (Fin s i e) f = report c sigs r f) /\ rounded c (value s i e) r0 sigs /\ in_order sigs /\ reduced c r0 r).
Proof.
  intros c s i e V C. destruct (fix_delivers c s i e (value s i e) V C (Qeq_refl _)) as (A & B). unfold normalize. rewrite no_nans by (exact I || reflexivity). split; intro Z0.
  - destruct (A Z0) as (e' & M & _). eexists. split; [intro f; rewrite (bind_ext _ _ _ _ M); apply report_then; reflexivity|]. destruct (e' =? e); intros x I; cbn in *; tauto.
  - destruct (B Z0) as (r0 & sigs & M & R & O & _). exists r0.
    assert (K : exists r, reduced c r0 r /\ match r0 with Fin s i e => if is0 i then ret (Fin s [0] 0) else let '(i', e') := drop0 (length i) i e (if clamp c then Etop c else Emax c) in ret (Fin s i' e') | _ => ret r0 end = ret r).
    { destruct r0 as [s0 i0 e0|s0|g0 s0 p0]; [|eexists; split; [reflexivity|reflexivity]|eexists; split; [reflexivity|reflexivity]].
      destruct (rounded_bound c _ s0 i0 e0 sigs R V) as (C0 & Bd). cbn [reduced]. destruct (is0 i0) eqn:I0.
      - apply is0_iff in I0; [|assumption]. eexists. split; [|reflexivity]. split; [reflexivity|congruence].
      - apply is0_false in I0; [|assumption]. destruct (drop0_ok (length i0) i0 e0 (if clamp c then Etop c else Emax c) s0 ltac:(lia) C0 I0 Bd) as (i' & e' & -> & Ci & _ & Vv & Le & Mx & _).
        eexists. split; [|reflexivity]. split; [lia|]. intros _. exists i', e'. auto. }
    destruct K as (r & Rd & K). exists r, sigs. split; [|auto]. intro f. rewrite (bind_ext _ _ _ _ M). apply report_then. exact K.
Qed.
(** One operand: a NaN is passed on, an infinity is kept. *)
Lemma unary_nan : forall c g s p k f, valid c -> canonical (NaN g s p) ->
  exists r, quieted c (NaN g s p) r /\ after_nans c (NaN g s p) None k f = report c (if g then [InvalidOperation] else []) r f.
Proof.
  intros c g s p k f V (D & _). destruct (nans_passed c (NaN g s p) (NaN g s p) (NaN g s p) g k f V D D) as (r & Q & E); [destruct g; split; reflexivity|]. exists r. split; [exact Q|]. rewrite <- E.
  unfold after_nans, check_nans. destruct g; reflexivity.
Qed.
