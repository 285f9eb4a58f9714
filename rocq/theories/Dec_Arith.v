(** Rounding of finite numbers, and of numbers known only between two neighbours. *)
From Coq Require Import ZArith QArith Qabs Lqa List Bool Lia ZifyBool ZifyNat.
From Verif Require Import Dec_Model Dec_Spec Dec_Digits Dec_Round Dec_Fix.
Import ListNotations.
Open Scope Z_scope.

Lemma value_sgn : forall s i e, (value s i e == sgn s (inject_Z (number i) * ten e))%Q.
Proof. intros. unfold value. apply signed_scale. Qed.
Lemma leading : forall i e, coefficient i -> 0 < number i ->
  (ten (e + len i - 1) <= inject_Z (number i) * ten e /\ inject_Z (number i) * ten e < ten (e + len i - 1 + 1))%Q.
Proof.
  intros i e C N. destruct (digits_of_number i C N) as (L & B). rewrite (ten_as (e + len i - 1) e), (ten_as (e + len i - 1 + 1) e) by lia.
  rewrite scaled_le, scaled_lt. replace (e + len i - 1 - e) with (len i - 1) by lia. replace (e + len i - 1 + 1 - e) with (len i) by lia. exact B.
Qed.
Lemma scaled_pos : forall n e, 0 < n -> (0 < inject_Z n * ten e)%Q.
Proof. intros n e N. pose proof (ten_pos e). rewrite Zlt_Qlt in N. change (inject_Z 0) with 0%Q in N. nra. Qed.
Lemma to_units_fraction : forall N e q, e <= q -> (inject_Z N * ten e * ten (- q) == N # Z.to_pos (10 ^ (q - e)))%Q.
Proof. intros N e q L. rewrite <- Qmult_assoc, <- ten_add. replace (e + - q) with (- (q - e)) by lia. apply scale_down. lia. Qed.
Lemma to_units_exact : forall N e q, q <= e -> (inject_Z N * ten e * ten (- q) == inject_Z (N * 10 ^ (e - q)))%Q.
Proof. intros N e q L. apply unscale. now apply rescaled. Qed.
Lemma lies_exists : forall y, (0 <= y)%Q -> exists f p, 0 <= f /\ lies y f p.
Proof.
  intros [a b] Y. exists (a / Z.pos b), (part_of (a mod Z.pos b) (Z.pos b)).
  assert (A : 0 <= a) by (unfold Qle in Y; cbn in Y; lia).
  split; [apply Z.div_pos; lia|]. exact (lies_fraction a (Z.pos b) ltac:(lia)).
Qed.
Lemma lies_unique : forall y f p f' p', lies y f p -> lies y f' p' -> f = f' /\ p = p'.
Proof.
  intros y f p f' p' L L'. pose proof (lies_range _ _ _ L) as R. pose proof (lies_range _ _ _ L') as R'.
  assert (f = f').
  { assert (A : (inject_Z f < inject_Z (f' + 1))%Q) by (rewrite inject_Z_plus; change (inject_Z 1) with 1%Q; lra).
    assert (B : (inject_Z f' < inject_Z (f + 1))%Q) by (rewrite inject_Z_plus; change (inject_Z 1) with 1%Q; lra). rewrite <- Zlt_Qlt in A, B. lia. }
  subst f'. split; [reflexivity|]. destruct p, p'; try reflexivity; cbn [lies] in *; exfalso; lra.
Qed.
Lemma leading_unique : forall y E E', (ten E <= y)%Q -> (y < ten (E + 1))%Q -> (ten E' <= y)%Q -> (y < ten (E' + 1))%Q -> E = E'.
Proof.
  intros y E E' A B A' B'. assert (X : (ten E < ten (E' + 1))%Q) by lra. assert (X' : (ten E' < ten (E + 1))%Q) by lra. apply ten_lt in X, X'. lia.
Qed.

(** Too large. *)
Lemma overflow_rounded : forall c s E x y, valid c -> (x == sgn s y)%Q -> (0 < y)%Q -> (ten E <= y)%Q -> (y < ten (E + 1))%Q -> Emax c < E ->
  rounded c x (handle_overflow c s) [Overflow; Inexact; Rounded].
Proof.
  intros c s E x y V Ex Y Y1 Y2 HE. pose proof V as (P1 & Em & EM).
  remember (unit_exp c E) as q eqn:Eq. pose proof (ten_pos (- q)) as Tq. destruct (lies_exists (y * ten (- q)) ltac:(nra)) as (f & p & F & L). clear Tq.
  exists E, (signed s (if bump (rounding c) s f p >? 0 then f + 1 else f)).
  assert (Q' : Z.max (E - prec c + 1) (Emin c - prec c + 1) = q) by (subst q; reflexivity). rewrite Q'. cbv zeta.
  assert (Ax : (Qabs x == y)%Q) by (rewrite Ex, abs_sgn; apply Qabs_pos; lra).
  split; [rewrite Ax; split; assumption|]. split.
  { apply (rounds_eq _ (sgn s (y * ten (- q)))); [rewrite Ex; symmetry; apply sgn_scale|]. apply rounds_lies; [|assumption|assumption]. pose proof (ten_pos (- q)). nra. }
  remember (if bump (rounding c) s f p >? 0 then f + 1 else f) as n eqn:En.
  assert (Fn : f <= n) by (rewrite En; destruct (bump (rounding c) s f p >? 0); lia).
  assert (Aq : (Qabs (inject_Z (signed s n) * ten q) == inject_Z n * ten q)%Q).
  { rewrite signed_scale, abs_sgn. apply Qabs_pos. pose proof (ten_pos q). pose proof (inject_pos n ltac:(lia)). nra. }
  assert (EQ : q <= E) by (subst q; unfold unit_exp, Etiny; lia).
  assert (FE : 10 ^ (E - q) <= f).
  { pose proof (lies_range _ _ _ L) as [_ R]. rewrite (ten_as E q EQ) in Y1.
    assert (Z1 : (inject_Z (10 ^ (E - q)) <= y * ten (- q))%Q).
    { pose proof (ten_inv q) as I. pose proof (ten_pos (- q)). assert ((inject_Z (10 ^ (E - q)) * ten q) * ten (- q) == inject_Z (10 ^ (E - q)))%Q by (rewrite <- Qmult_assoc, I; ring). nra. }
    assert (Z2 : (inject_Z (10 ^ (E - q)) < inject_Z (f + 1))%Q) by (rewrite inject_Z_plus; change (inject_Z 1) with 1%Q; lra). rewrite <- Zlt_Qlt in Z2. lia. }
  split.
  { exists s. split; [destruct s; cbn [sgn] in Ex; lra|]. left. split; [|split; [now apply handle_too_large|now left]]. rewrite Aq.
    apply (Qle_trans _ (ten E)); [apply (proj1 (ten_le _ _)); lia|]. rewrite (ten_as E q EQ). rewrite scaled_le. lia. }
  cbn [In]. assert (~ E < Emin c) by lia.
  split; [split; intro; auto|]. split; [split; [intro I; repeat destruct I as [I|I]; try discriminate; contradiction|intro; contradiction]|].
  split; [split; [intro I; repeat destruct I as [I|I]; try discriminate; contradiction|intros [? _]; contradiction]|].
  split; [auto|]. split; [|split]; intro I; repeat destruct I as [I|I]; try discriminate; contradiction.
Qed.

(** The signals come in the fixed order. *)
Lemma opts_in_order : forall o u s i r c, in_order (opt o Overflow ++ opt u Underflow ++ opt s Subnormal ++ opt i Inexact ++ opt r Rounded ++ opt c Clamped).
Proof.
  intros. exists (fun x => match x with Overflow => o | Underflow => u | Subnormal => s | Inexact => i | Rounded => r | Clamped => c | _ => false end).
  destruct o, u, s, i, r, c; reflexivity.
Qed.
Lemma fix_res_order : forall c s E f p, in_order (snd (fix_res c s E f p)).
Proof. intros. unfold fix_res. cbv zeta. destruct (if _ =? 10 ^ prec c then _ else _) as [k e]. cbn [snd]. apply (opts_in_order _ _ _ _ true _). Qed.
(** Rounding signals Clamped exactly when it gives a zero. *)
Lemma handle_not_zero : forall c s, valid c -> ~ (exists s' e, handle_overflow c s = Fin s' [0] e).
Proof. intros c s V (s' & e & H). pose proof (handle_truth c s V) as T. rewrite H in T. discriminate T. Qed.
Lemma fix_res_clamped : forall c s E f p, valid c -> 0 <= f -> E <= Emax c ->
  In Clamped (snd (fix_res c s E f p)) <-> (exists s' e, fst (fix_res c s E f p) = Fin s' [0] e).
Proof.
  intros c s E f p V F HE. pose proof V as (P1 & Em & EM). unfold fix_res. cbv zeta.
  remember (if bump (rounding c) s f p >? 0 then f + 1 else f) as n eqn:En. assert (N : 0 <= n) by (destruct (bump (rounding c) s f p >? 0); lia).
  pose proof (pow10_pos (prec c) ltac:(lia)). pose proof (pow10_pos (prec c - 1) ltac:(lia)).
  destruct (n =? 10 ^ prec c) eqn:Eq; cbn [fst snd]; insig.
  - split; [intro I; repeat match goal with H : _ \/ _ |- _ => destruct H | H : _ /\ _ |- _ => destruct H end; try discriminate; lia|].
    intro X. exfalso. destruct (unit_exp c E + 1 >? Etop c); [now apply (handle_not_zero c s V)|]. destruct X as (s' & e & X). injection X. intros _ X' _.
    apply (f_equal number) in X'. rewrite number_to_str in X' by lia. change (number [0]) with 0 in X'. lia.
  - split.
    + intro I. assert (n = 0) by (repeat match goal with H : _ \/ _ |- _ => destruct H | H : _ /\ _ |- _ => destruct H end; try discriminate; lia).
      subst n. rewrite H1. replace (unit_exp c E >? Etop c) with false by (unfold unit_exp, Etop, Etiny; lia). now exists s, (unit_exp c E).
    + intro X. destruct (unit_exp c E >? Etop c); [exfalso; now apply (handle_not_zero c s V)|]. destruct X as (s' & e & X). injection X. intros _ X' _.
      apply (f_equal number) in X'. rewrite number_to_str in X' by lia. change (number [0]) with 0 in X'. repeat right. split; [lia|reflexivity].
Qed.

(** Every finite nonzero number is rounded correctly; digits are lost exactly when the last place is below the unit. *)
Definition bits (c : ctx) (i : list Z) (e : Z) : Prop := e < unit_exp c (e + len i - 1) \/ Emax c < e + len i - 1.
Theorem fix_correct : forall c s i e, valid c -> coefficient i -> 0 < number i ->
  exists r sigs, (forall f, fix_ c (Fin s i e) f = report c sigs r f) /\ rounded c (value s i e) r sigs /\
    (In Rounded sigs <-> bits c i e) /\ (~ bits c i e -> r = fold_down c s i e) /\
    (In Clamped sigs <-> (exists s' e', r = Fin s' [0] e') \/ (~ bits c i e /\ folded c e = true)) /\ in_order sigs.
Proof.
  intros c s i e V C N. pose proof V as (P1 & Em & EM). pose proof (leading i e C N) as (L1 & L2). remember (e + len i - 1) as E eqn:EE.
  pose proof (scaled_pos (number i) e N) as Y. pose proof (value_sgn s i e) as Ex. unfold bits. rewrite <- EE.
  destruct (Z.le_gt_cases E (Emax c)) as [HE|HE].
  - destruct (Z.le_gt_cases (unit_exp c E) e) as [Hq|Hq].
    + eexists _, _. split; [intro f; subst E; now apply fix_exact|].
      assert (Ca : folded c e = true -> clamp c = true /\ Etop c < e) by (unfold folded; lia).
      split.
      { exists E, (signed s (number i * 10 ^ (e - unit_exp c E))). change (Z.max (E - prec c + 1) (Emin c - prec c + 1)) with (unit_exp c E). cbv zeta.
        remember (unit_exp c E) as q eqn:Eq. pose proof (pow10_pos (e - q) ltac:(lia)) as Pq.
        assert (Vq : (value s i e == inject_Z (signed s (number i * 10 ^ (e - q))) * ten q)%Q) by (rewrite Ex, signed_scale, sgn_inj; now apply rescaled).
        assert (Ax : (Qabs (value s i e) == inject_Z (number i) * ten e)%Q) by (rewrite Ex, abs_sgn; apply Qabs_pos; lra).
        split; [rewrite Ax; split; assumption|]. split.
        { apply (rounds_eq _ (sgn s (inject_Z (number i) * ten e * ten (- q)))); [rewrite Ex; symmetry; apply sgn_scale|].
          pose proof (rounds_lies (rounding c) s (inject_Z (number i) * ten e * ten (- q)) (number i * 10 ^ (e - q)) PZero) as R. cbn [bump] in R. change (0 >? 0) with false in R. cbn iota in R.
          apply R; [pose proof (ten_pos (- q)); nra|nia|]. cbn [lies]. now apply to_units_exact. }
        split.
        { exists s. split; [clear Ca Vq Ax; destruct s; cbn [sgn] in Ex; lra|]. right. rewrite <- Vq, Ax. split; [apply (Qlt_le_trans _ _ _ L2), (proj1 (ten_le _ _)); lia|].
          split; [insig; intro I; repeat match goal with H : _ \/ _ |- _ => destruct H | H : _ /\ _ |- _ => destruct H end; discriminate|].
          unfold fold_down. destruct (folded c e) eqn:Fo.
          - destruct (Ca eq_refl) as [Cl Ce]. exists (i ++ zeros (e - Etop c)), (Etop c). split; [reflexivity|]. split.
            + split; [now apply coefficient_zeros|]. pose proof (len_zeros i (e - Etop c) ltac:(lia)) as Lz. unfold len in *. rewrite Lz, Cl. unfold Etop, unit_exp, Etiny in *. lia.
            + rewrite <- Vq, value_sgn, Ex, sgn_inj, number_zeros. replace (Z.max (e - Etop c) 0) with (e - Etop c) by lia. symmetry. apply rescaled. lia.
          - exists i, e. split; [reflexivity|]. split; [|exact Vq]. split; [assumption|]. unfold folded in Fo. unfold len, Etop, unit_exp, Etiny in *. destruct (clamp c); lia. }
        assert (Vn : ~ (~ value s i e == inject_Z (signed s (number i * 10 ^ (e - q))) * ten q)%Q) by (intro A; exact (A Vq)).
        insig. split; [|split; [|split; [|split; [|split; [|split]]]]].
        all: try (intro I; repeat match goal with H : _ \/ _ |- _ => destruct H | H : _ /\ _ |- _ => destruct H end; discriminate).
        - split; [intros [[? ?]|[? ?]]; discriminate|]. insig. intros [A|A]; [contradiction|]. destruct A as [[? ?]|[? ?]]; discriminate.
        - split; [intros [[? ?]|[? ?]]; [lia|discriminate]|]. left. split; [lia|reflexivity].
        - split; [intros [[? ?]|[? ?]]; discriminate|]. intros [? ?]. contradiction. }
      split; [insig; split; [intros [[? ?]|[? ?]]; discriminate|lia]|]. split; [intros _; reflexivity|].
      split; [|exact (opts_in_order false false _ false false _)].
      insig. split; [intros [[? ?]|[? ?]]; [discriminate|right; split; [lia|assumption]]|]. intros [(s' & e' & X)|[_ X]]; [exfalso|right; split; [assumption|reflexivity]].
      revert X. unfold fold_down. pose proof C as (Fd & _). destruct (folded c e); intro X; injection X; intros _ X' _; apply (f_equal number) in X'; rewrite ?number_zeros in X'; change (number [0]) with 0 in X'; pose proof (pow10_pos (Z.max (e - Etop c) 0) ltac:(lia)); nia.
    + pose proof (fun f => fix_round c s i e f V C N) as FR. cbv zeta in FR. rewrite <- EE in FR.
      eexists _, _. split; [intro f; exact (FR f HE Hq)|].
      pose proof (pow10_pos (unit_exp c E - e) ltac:(lia)) as D.
      split.
      { apply (fix_res_rounded c s E _ _ _ (inject_Z (number i) * ten e)); auto; [apply Z.div_pos; lia|].
        apply (lies_eq (number i # Z.to_pos (10 ^ (unit_exp c E - e)))); [symmetry; apply to_units_fraction; lia|]. now apply lies_fraction. }
      split; [|split; [intro B; exfalso; apply B; now left|]].
      2: { split; [|apply fix_res_order]. rewrite fix_res_clamped by (auto; apply Z.div_pos; lia). split; [auto|]. intros [X|[X _]]; [exact X|exfalso; apply X; now left]. }
      unfold fix_res. cbv zeta. destruct (if _ =? 10 ^ prec c then _ else _) as [k e']. cbn [snd]. insig. split; [auto|]. intros _. right. right. right. right. now left.
  - pose proof (fun f => fix_overflow c s i e f V C N) as FR. rewrite <- EE in FR.
    eexists _, _. split; [intro f; exact (FR f HE)|]. pose proof C as (Fd & _). pose proof (number_bound i Fd).
    split; [apply (overflow_rounded c s E _ (inject_Z (number i) * ten e)); auto|].
    split; [cbn [In]; split; [auto|intros _; auto]|]. split; [intro B; exfalso; apply B; now right|].
    split; [|exact (opts_in_order true false false true true false)].
    split; [cbn [In]; intros [I|[I|[I|I]]]; [discriminate|discriminate|discriminate|contradiction]|]. intros [X|[X _]]; [exfalso; now apply (handle_not_zero c s V)|exfalso; apply X; now right].
Qed.

(** Two numbers between the same neighbouring multiples of five units of [10^g]. *)
Definition slot (g : Z) (y y' : Q) : Prop := exists k,
  (inject_Z (5 * k) * ten g < y /\ y < inject_Z (5 * (k + 1)) * ten g)%Q /\ (inject_Z (5 * k) * ten g < y' /\ y' < inject_Z (5 * (k + 1)) * ten g)%Q.
(** No multiple of five units lies between them. *)
Lemma slot_above : forall g y y' m, slot g y y' -> (inject_Z (5 * m) * ten g <= y)%Q -> (inject_Z (5 * m) * ten g < y')%Q.
Proof.
  intros g y y' m (k & (A & B) & (A' & B')) H. assert (X : (inject_Z (5 * m) * ten g < inject_Z (5 * (k + 1)) * ten g)%Q) by lra. rewrite scaled_lt in X.
  assert (5 * m <= 5 * k) as Y by lia. rewrite <- (scaled_le _ _ g) in Y. lra.
Qed.
Lemma slot_below : forall g y y' m, slot g y y' -> (y <= inject_Z (5 * m) * ten g)%Q -> (y' < inject_Z (5 * m) * ten g)%Q.
Proof.
  intros g y y' m (k & (A & B) & (A' & B')) H. assert (X : (inject_Z (5 * k) * ten g < inject_Z (5 * m) * ten g)%Q) by lra. rewrite scaled_lt in X.
  assert (5 * (k + 1) <= 5 * m) as Y by lia. rewrite <- (scaled_le _ _ g) in Y. lra.
Qed.
Lemma slot_sym : forall g y y', slot g y y' -> slot g y' y.
Proof. intros g y y' (k & A & B). exists k. auto. Qed.
Lemma slot_not : forall g y y' m, slot g y y' -> ~ (y == inject_Z (5 * m) * ten g)%Q.
Proof. intros g y y' m S0 E. apply slot_sym in S0. assert (S1 : slot g y y) by (destruct S0 as (k & A & B); exists k; auto). pose proof (slot_above g y y m S1 ltac:(lra)). lra. Qed.
Lemma pow_five : forall k, 0 < k -> 10 ^ k = 5 * (2 * 10 ^ (k - 1)).
Proof. intros k K. replace (10 ^ k) with (10 ^ (k - 1 + 1)) by (f_equal; lia). rewrite pow10_S by lia. lia. Qed.
Lemma slot_leading : forall g y y' E, slot g y y' -> g < E -> (ten E <= y)%Q -> (y < ten (E + 1))%Q -> (ten E <= y' /\ y' < ten (E + 1))%Q.
Proof.
  intros g y y' E S0 G A B. rewrite (ten_as E g), (ten_as (E + 1) g) in * by lia. rewrite (pow_five (E - g)), (pow_five (E + 1 - g)) in * by lia.
  pose proof (slot_above g y y' _ S0 A). pose proof (slot_below g y y' (2 * 10 ^ (E + 1 - g - 1)) S0 ltac:(lra)). split; lra.
Qed.
Lemma slot_lies : forall g y y' q f p, slot g y y' -> g < q -> lies (y * ten (- q)) f p -> lies (y' * ten (- q)) f p.
Proof.
  intros g y y' q f p S0 G L. pose proof (ten_pos q) as Tp. pose proof (ten_pos (- q)) as Tn. pose proof (ten_inv q) as I.
  assert (U : forall z, (z * ten (- q) * ten q == z)%Q) by (intro z; rewrite <- Qmult_assoc, (Qmult_comm (ten (- q))), I; ring).
  assert (Tq : (ten q == inject_Z (5 * (2 * 10 ^ (q - g - 1))) * ten g)%Q) by (rewrite (ten_as q g) by lia; now rewrite pow_five by lia).
  remember (10 ^ (q - g - 1)) as w eqn:Ew.
  assert (B0 : (inject_Z f * ten q == inject_Z (5 * (2 * f * w)) * ten g)%Q).
  { rewrite Tq, Qmult_assoc, <- inject_Z_mult. now replace (f * (5 * (2 * w))) with (5 * (2 * f * w)) by ring. }
  assert (B1 : ((inject_Z f + 1) * ten q == inject_Z (5 * (2 * f * w + 2 * w)) * ten g)%Q).
  { rewrite Qmult_plus_distr_l, B0, Qmult_1_l, Tq, <- Qmult_plus_distr_l, <- inject_Z_plus. now replace (5 * (2 * f * w) + 5 * (2 * w)) with (5 * (2 * f * w + 2 * w)) by ring. }
  assert (Bh : ((inject_Z f + (1 # 2)) * ten q == inject_Z (5 * (2 * f * w + w)) * ten g)%Q).
  { rewrite Qmult_plus_distr_l, B0, Tq. replace (5 * (2 * f * w + w)) with (5 * (2 * f * w) + 5 * w) by ring. replace (5 * (2 * w)) with (2 * (5 * w)) by ring. rewrite inject_Z_plus, (inject_Z_mult 2). change (inject_Z 2) with 2%Q. ring. }
  destruct p; cbn [lies] in *.
  - exfalso. apply (slot_not g y y' (2 * f * w) S0). rewrite <- B0, <- L. symmetry. apply U.
  - destruct L as [L1 L2].
    assert (M1 : (inject_Z (5 * (2 * f * w)) * ten g <= y)%Q) by (rewrite <- B0, <- (U y); nra).
    assert (M2 : (y <= inject_Z (5 * (2 * f * w + w)) * ten g)%Q) by (rewrite <- Bh, <- (U y); nra).
    pose proof (slot_above _ _ _ _ S0 M1) as N1. pose proof (slot_below _ _ _ _ S0 M2) as N2. rewrite <- B0 in N1. rewrite <- Bh in N2. rewrite <- (U y') in N1, N2. split; nra.
  - exfalso. apply (slot_not g y y' (2 * f * w + w) S0). rewrite <- Bh, <- L. symmetry. apply U.
  - destruct L as [L1 L2].
    assert (M1 : (inject_Z (5 * (2 * f * w + w)) * ten g <= y)%Q) by (rewrite <- Bh, <- (U y); nra).
    assert (M2 : (y <= inject_Z (5 * (2 * f * w + 2 * w)) * ten g)%Q) by (rewrite <- B1, <- (U y); nra).
    pose proof (slot_above _ _ _ _ S0 M1) as N1. pose proof (slot_below _ _ _ _ S0 M2) as N2. rewrite <- Bh in N1. rewrite <- B1 in N2. rewrite <- (U y') in N1, N2. split; nra.
Qed.

(** A number with more digits than the precision whose last place stands for a slot rounds like every number of the slot. *)
Theorem fix_sticky : forall c s i e y', valid c -> coefficient i -> 10 ^ prec c <= number i -> (0 < y')%Q ->
  slot e (inject_Z (number i) * ten e) y' ->
  exists r sigs, (forall f, fix_ c (Fin s i e) f = report c sigs r f) /\ rounded c (sgn s y') r sigs /\ In Rounded sigs /\
    (In Clamped sigs <-> exists s' e', r = Fin s' [0] e') /\ in_order sigs.
Proof.
  intros c s i e y' V C N Y' S0. pose proof V as (P1 & Em & EM). pose proof (pow10_pos (prec c) ltac:(lia)) as Pp.
  assert (Ni : 0 < number i) by lia. destruct (digits_of_number i C Ni) as (Li & Bi).
  assert (Lp : prec c < len i). { destruct (Z.le_gt_cases (len i) (prec c)) as [G|G]; [|exact G]. pose proof (pow10_le (len i) (prec c) ltac:(lia)). lia. }
  pose proof (leading i e C Ni) as (L1 & L2). pose proof (scaled_pos (number i) e Ni) as Y.
  assert (Lead' := slot_leading e _ y' (e + len i - 1) S0 ltac:(lia) L1 L2). destruct Lead' as (L1' & L2').
  remember (e + len i - 1) as E eqn:EE.
  destruct (Z.le_gt_cases E (Emax c)) as [HE|HE].
  - assert (Hq : e < unit_exp c E) by (unfold unit_exp; lia). pose proof (fun f => fix_round c s i e f V C Ni) as FR. cbv zeta in FR. rewrite <- EE in FR.
    eexists _, _. split; [intro f; exact (FR f HE Hq)|]. pose proof (pow10_pos (unit_exp c E - e) ltac:(lia)) as D. split.
    + apply (fix_res_rounded c s E _ _ _ y'); auto; [reflexivity|apply Z.div_pos; lia|]. apply (slot_lies e _ y' _ _ _ S0 Hq).
      apply (lies_eq (number i # Z.to_pos (10 ^ (unit_exp c E - e)))); [symmetry; apply to_units_fraction; lia|]. now apply lies_fraction.
    + split; [|split; [apply fix_res_clamped; auto; apply Z.div_pos; lia|apply fix_res_order]].
      unfold fix_res. cbv zeta. destruct (if _ =? 10 ^ prec c then _ else _) as [k e']. cbn [snd]. insig. right. right. right. right. now left.
  - pose proof (fun f => fix_overflow c s i e f V C Ni) as FR. rewrite <- EE in FR. eexists _, _. split; [intro f; exact (FR f HE)|].
    split; [apply (overflow_rounded c s E _ y'); auto; reflexivity|]. split; [right; right; now left|].
    split; [|exact (opts_in_order true false false true true false)].
    split; [cbn [In]; intros [I|[I|[I|I]]]; [discriminate|discriminate|discriminate|contradiction]|]. intro X; exfalso; now apply (handle_not_zero c s V).
Qed.
(** Two numbers of the same slot round to the same outcome. *)
Theorem fix_slot : forall c s i e i' e' g f, valid c -> coefficient i -> coefficient i' -> 0 < number i -> 0 < number i' ->
  slot g (inject_Z (number i) * ten e) (inject_Z (number i') * ten e') -> e <= g -> e' <= g -> g + prec c <= e + len i - 1 ->
  fix_ c (Fin s i e) f = fix_ c (Fin s i' e') f.
Proof.
  intros c s i e i' e' g f V C C' N N' S0 G G' Gp. pose proof V as (P1 & Em & EM).
  pose proof (leading i e C N) as (L1 & L2). pose proof (leading i' e' C' N') as (L1' & L2').
  destruct (slot_leading g _ _ (e + len i - 1) S0 ltac:(lia) L1 L2) as (A1 & A2). pose proof (leading_unique _ _ _ A1 A2 L1' L2') as EE.
  remember (e + len i - 1) as E eqn:E1. symmetry in EE.
  destruct (Z.le_gt_cases E (Emax c)) as [HE|HE].
  - assert (Hq : g < unit_exp c E) by (unfold unit_exp; lia).
    pose proof (fix_round c s i e f V C N) as FR. cbv zeta in FR. rewrite <- E1 in FR. rewrite (FR HE ltac:(lia)).
    pose proof (fix_round c s i' e' f V C' N') as FR'. cbv zeta in FR'. rewrite EE in FR'. rewrite (FR' HE ltac:(lia)).
    pose proof (pow10_pos (unit_exp c E - e) ltac:(lia)) as D. pose proof (pow10_pos (unit_exp c E - e') ltac:(lia)) as D'.
    pose proof (lies_fraction (number i) _ D) as A. apply (lies_eq _ (inject_Z (number i) * ten e * ten (- unit_exp c E))) in A; [|symmetry; apply to_units_fraction; lia].
    pose proof (lies_fraction (number i') _ D') as A'. apply (lies_eq _ (inject_Z (number i') * ten e' * ten (- unit_exp c E))) in A'; [|symmetry; apply to_units_fraction; lia].
    apply (slot_lies g _ (inject_Z (number i') * ten e') _ _ _ S0 Hq) in A. destruct (lies_unique _ _ _ _ _ A A') as [-> ->]. reflexivity.
  - rewrite (fix_overflow c s i e f V C N) by lia. rewrite (fix_overflow c s i' e' f V C' N') by lia. reflexivity.
Qed.
(** The same number with more zeros, when digits are lost anyway. *)
Theorem fix_pad : forall c s i e i' e' f, valid c -> coefficient i -> coefficient i' -> 0 < number i -> 0 < number i' ->
  (inject_Z (number i) * ten e == inject_Z (number i') * ten e')%Q -> bits c i e -> bits c i' e' ->
  fix_ c (Fin s i e) f = fix_ c (Fin s i' e') f.
Proof.
  intros c s i e i' e' f V C C' N N' Eq B B'. pose proof V as (P1 & Em & EM).
  pose proof (leading i e C N) as (L1 & L2). pose proof (leading i' e' C' N') as (L1' & L2'). rewrite Eq in L1, L2.
  pose proof (leading_unique _ _ _ L1 L2 L1' L2') as EE. unfold bits in *. rewrite <- EE in *. remember (e + len i - 1) as E eqn:E1.
  destruct (Z.le_gt_cases E (Emax c)) as [HE|HE].
  - pose proof (fix_round c s i e f V C N) as FR. cbv zeta in FR. rewrite <- E1 in FR. rewrite (FR HE ltac:(lia)).
    pose proof (fix_round c s i' e' f V C' N') as FR'. cbv zeta in FR'. rewrite <- EE in FR'. rewrite (FR' HE ltac:(lia)).
    pose proof (pow10_pos (unit_exp c E - e) ltac:(lia)) as D. pose proof (pow10_pos (unit_exp c E - e') ltac:(lia)) as D'.
    pose proof (lies_fraction (number i) _ D) as A. apply (lies_eq _ (inject_Z (number i') * ten e' * ten (- unit_exp c E))) in A; [|rewrite <- Eq; symmetry; apply to_units_fraction; lia].
    pose proof (lies_fraction (number i') _ D') as A'. apply (lies_eq _ (inject_Z (number i') * ten e' * ten (- unit_exp c E))) in A'; [|symmetry; apply to_units_fraction; lia].
    destruct (lies_unique _ _ _ _ _ A A') as [-> ->]. reflexivity.
  - rewrite (fix_overflow c s i e f V C N) by lia. rewrite (fix_overflow c s i' e' f V C' N') by lia. reflexivity.
Qed.
