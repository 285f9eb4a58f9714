(** Square roots. *)
From Coq Require Import ZArith QArith Qabs Lqa List Bool Lia ZifyBool ZifyNat Znumtheory.
From Verif Require Import Dec_Model Dec_Spec Dec_OrderSpec Dec_Digits Dec_Round Dec_Fix Dec_Arith Dec_Ops Dec_Rem Dec_Cmp Dec_Quant Dec_Integral.
Import ListNotations.
Open Scope Z_scope.

(** [r] is the square root of the positive number [x], rounded half to even: stated through squares. *)
Definition sq (y : Q) : Q := (y * y)%Q.
Definition root_rounded (c : ctx) (x : Q) (r : dec) (sigs : list signal) : Prop :=
  exists E n, let q := Z.max (E - prec c + 1) (Emin c - prec c + 1) in
    let low := (inject_Z (2 * n - 1) * ten q * (1 # 2))%Q in
    let high := (inject_Z (2 * n + 1) * ten q * (1 # 2))%Q in
    (sq (ten E) <= x /\ x < sq (ten (E + 1)))%Q /\
    0 <= n /\ (1 <= n -> (sq low <= x)%Q) /\ (x <= sq high)%Q /\ (1 <= n /\ (sq low == x)%Q \/ (sq high == x)%Q -> Z.Even n) /\
    ((ten (Emax c + 1) <= inject_Z n * ten q)%Q /\ r = Inf false /\ In Overflow sigs \/
     (inject_Z n * ten q < ten (Emax c + 1))%Q /\ ~ In Overflow sigs /\
     exists i e, r = Fin false i e /\ fits c i e /\ (value false i e == inject_Z n * ten q)%Q) /\
    (In Inexact sigs <-> (~ x == sq (inject_Z n * ten q))%Q \/ In Overflow sigs) /\
    (In Subnormal sigs <-> E < Emin c) /\
    (In Underflow sigs <-> E < Emin c /\ (~ x == sq (inject_Z n * ten q))%Q) /\
    (In Inexact sigs -> In Rounded sigs) /\
    ~ In DivisionByZero sigs /\ ~ In InvalidOperation sigs /\ ~ In FloatOperation sigs.

(** Newton's iteration finds the integer square root. *)
Lemma newton_ok : forall fuel v n, 0 < v -> 0 <= n - Z.sqrt v < 2 ^ Z.of_nat fuel -> newton fuel v n = Z.sqrt v.
Proof.
  induction fuel as [|fuel IH]; intros v n V B; [change (2 ^ Z.of_nat 0) with 1 in B; cbn [newton]; lia|].
  pose proof (Z.sqrt_spec v ltac:(lia)) as (S1 & S2). pose proof (proj2 (Z.sqrt_pos v) V) as Sp. assert (Np : 0 < n) by lia.
  cbn [newton]. pose proof (Z.div_mod v n ltac:(lia)) as DM. pose proof (Z.mod_pos_bound v n ltac:(lia)) as MB. remember (v / n) as q eqn:Eq.
  destruct (n <=? q) eqn:G; [nia|].
  assert (Sq : Z.sqrt v <= q \/ q < Z.sqrt v) by lia. remember (Z.sqrt v) as s.
  assert (Qs : q <= s) by nia.
  rewrite Nat2Z.inj_succ, Z.pow_succ_r in B by lia.
  rewrite Heqs. apply IH; [assumption|]. rewrite <- Heqs. pose proof (Z.div_mod (n + q) 2 ltac:(lia)) as D2. pose proof (Z.mod_pos_bound (n + q) 2 ltac:(lia)) as M2.
  remember ((n + q) / 2) as h eqn:Eh. split; [|lia].
  assert (s <= h); [|lia]. destruct (Z.le_gt_cases s h) as [|Lt]; [assumption|exfalso].
  (* n + q <= 2 s - 1, yet n (q + 1) > v >= s s *)
  assert (n + q <= 2 * s - 1) by lia. assert (v < n * (q + 1)) by nia. assert (4 * (n * (q + 1)) <= (n + q + 1) * (n + q + 1)) by nia. nia.
Qed.

(** A square root of an integer, times a power, divides. *)
Lemma square_divides : forall n m c, 0 < m -> n * n = c * (m * m) -> n mod m = 0.
Proof.
  intros n m c M H. pose proof (Z.gcd_nonneg n m) as G0. assert (Gp : 0 < Z.gcd n m). { destruct (Z.eq_dec (Z.gcd n m) 0) as [E|E]; [apply Z.gcd_eq_0_r in E; lia|lia]. }
  destruct (Z.gcd_divide_l n m) as (a & A). destruct (Z.gcd_divide_r n m) as (b & B). remember (Z.gcd n m) as g eqn:Eg.
  assert (Co : Z.gcd a b = 1). { pose proof (Z.gcd_div_gcd n m g ltac:(lia) Eg) as Q. rewrite A, B in Q. rewrite !Z.div_mul in Q by lia. exact Q. }
  assert (Sq : a * a = c * (b * b)). { assert ((a * a) * (g * g) = (c * (b * b)) * (g * g)) by nia. apply Z.mul_cancel_r in H0; nia. }
  assert (D : (b | a)). { apply (Z.gauss b a a); [rewrite Sq; exists (c * b); ring|]. now rewrite Z.gcd_comm. }
  assert (D1 : (b | 1)). { rewrite <- Co. apply Z.gcd_greatest; [exact D|apply Z.divide_refl]. }
  assert (b = 1). { apply Z.divide_1_r in D1. destruct D1; [assumption|nia]. } subst b.
  apply Z.mod_divide; [lia|]. exists a. lia.
Qed.

Lemma sq_le : forall a b, (0 <= a)%Q -> (0 <= b)%Q -> (a <= b <-> sq a <= sq b)%Q.
Proof. intros a b A B. unfold sq. split; intro H; [nra|]. destruct (Qlt_le_dec b a) as [L|L]; [exfalso; nra|exact L]. Qed.
Lemma sq_eq : forall a b, (0 <= a)%Q -> (0 <= b)%Q -> (a == b <-> sq a == sq b)%Q.
Proof. intros a b A B. split; intro H; [unfold sq; now rewrite H|]. assert (a <= b)%Q by (apply sq_le; auto; lra). assert (b <= a)%Q by (apply sq_le; auto; lra). lra. Qed.

(** From a rational [y] that lies like the root with respect to all half units, to the root itself. *)
Lemma root_of : forall c x y g r sigs, valid c -> rounding c = HALF_EVEN -> (0 < y)%Q -> rounded c y r sigs ->
  (forall E, (ten E <= y)%Q -> (y < ten (E + 1))%Q -> g < E - prec c + 1) ->
  (forall m t, 0 <= m -> g < t -> let B := (inject_Z m * ten t * (1 # 2))%Q in (B <= y <-> sq B <= x)%Q /\ (B == y <-> sq B == x)%Q) ->
  root_rounded c x r sigs.
Proof.
  intros c x y g r sigs V M Yp (E & n & L & R & (s & Sx & Ov) & I1 & I2 & I3 & I4) G H. pose proof V as (P1 & Em & EM). rewrite (Qabs_pos y) in L by lra. destruct L as (L1 & L2).
  specialize (G E L1 L2). exists E, n. cbv zeta. remember (Z.max (E - prec c + 1) (Emin c - prec c + 1)) as q eqn:Eq. rewrite M in R. cbn [rounds] in R. destruct R as (Rn & Rt).
  pose proof (ten_pos q) as Tq. pose proof (ten_inv q) as Ti. pose proof (ten_pos (- q)) as Tq'.
  assert (N0 : 0 <= n). { apply Z.le_ngt. intro A. unfold nearest in Rn. rewrite Qabs_Qle_condition in Rn. assert (inject_Z n <= -1)%Q by (change (-1)%Q with (inject_Z (-1)); rewrite <- Zle_Qle; lia). nra. }
  assert (Bd : forall t, g < t -> (ten t <= y <-> sq (ten t) <= x)%Q /\ (ten t == y <-> sq (ten t) == x)%Q).
  { intros t A. destruct (H 2 t ltac:(lia) A) as (H1 & H2). assert (Q : (inject_Z 2 * ten t * (1 # 2) == ten t)%Q) by (change (inject_Z 2) with 2%Q; field). unfold sq in *. rewrite Q in H1, H2. auto. }
  assert (Un : forall m, (inject_Z m * ten q * (1 # 2) <= y <-> inject_Z m * (1 # 2) <= y * ten (- q))%Q /\ (y <= inject_Z m * ten q * (1 # 2) <-> y * ten (- q) <= inject_Z m * (1 # 2))%Q).
  { intro m. assert (Q : (inject_Z m * ten q * (1 # 2) * ten (- q) == inject_Z m * (1 # 2))%Q) by (setoid_replace (inject_Z m * ten q * (1 # 2) * ten (- q))%Q with (inject_Z m * (1 # 2) * (ten q * ten (- q)))%Q by ring; rewrite Ti; ring).
    rewrite <- Q. split; (rewrite Qmult_le_r by exact Tq'; reflexivity). }
  assert (Half : forall k, (inject_Z (2 * n + k) * (1 # 2) == inject_Z n + inject_Z k * (1 # 2))%Q) by (intro k; rewrite inject_Z_plus, inject_Z_mult; change (inject_Z 2) with 2%Q; field).
  assert (Hm : (inject_Z (2 * n - 1) * (1 # 2) == inject_Z n - (1 # 2))%Q) by (replace (2 * n - 1) with (2 * n + -1) by lia; rewrite Half; change (inject_Z (-1)) with (-(1))%Q; ring).
  assert (Hp : (inject_Z (2 * n + 1) * (1 # 2) == inject_Z n + (1 # 2))%Q) by (rewrite Half; change (inject_Z 1) with 1%Q; ring).
  assert (Nr := Rn). unfold nearest in Nr. rewrite Qabs_Qle_condition in Nr.
  split; [split; [apply Bd; [lia|exact L1]|]|].
  { destruct (Qlt_le_dec x (sq (ten (E + 1)))) as [|A]; [assumption|]. apply Bd in A; [lra|lia]. }
  split; [exact N0|]. split; [|split; [|split]].
  - intro N1. apply H; [lia|lia|]. apply Un. rewrite Hm. lra.
  - destruct (Qlt_le_dec (sq (inject_Z (2 * n + 1) * ten q * (1 # 2))) x) as [A|A]; [|exact A].
    assert (A' := proj2 (proj1 (H (2 * n + 1) q ltac:(lia) ltac:(lia))) (Qlt_le_weak _ _ A)). apply Un in A'. rewrite Hp in A'.
    assert (Eqy : (inject_Z (2 * n + 1) * ten q * (1 # 2) == y)%Q). { apply Qle_antisym; [now apply Un; rewrite Hp|]. apply Un. rewrite Hp. lra. }
    apply H in Eqy; [lra|lia|lia].
  - intro A. apply Rt. unfold tie. destruct A as [(N1 & A)|A]; apply H in A; try lia.
    + assert (Q : (y * ten (- q) == inject_Z n - (1 # 2))%Q) by (rewrite <- Hm; apply Qle_antisym; apply Un; lra). setoid_replace (y * ten (- q) - inject_Z n)%Q with (- (1 # 2))%Q by (rewrite Q; ring). reflexivity.
    + assert (Q : (y * ten (- q) == inject_Z n + (1 # 2))%Q) by (rewrite <- Hp; apply Qle_antisym; apply Un; lra). setoid_replace (y * ten (- q) - inject_Z n)%Q with (1 # 2)%Q by (rewrite Q; ring). reflexivity.
  - assert (s = false) by (destruct s; [lra|reflexivity]). subst s. rewrite abs_scaled, Z.abs_eq in Ov by assumption. unfold too_large in Ov. rewrite M in Ov.
    assert (Xe : (y == inject_Z n * ten q <-> x == sq (inject_Z n * ten q))%Q).
    { destruct (H (2 * n) q ltac:(lia) ltac:(lia)) as (_ & H2). assert (Q : (inject_Z (2 * n) * ten q * (1 # 2) == inject_Z n * ten q)%Q) by (rewrite inject_Z_mult; change (inject_Z 2) with 2%Q; field).
      unfold sq in *. rewrite Q in H2. split; intro A; [symmetry; apply H2; now symmetry|symmetry; apply H2; now symmetry]. }
    split; [destruct Ov as [(O1 & O2 & O3)|O]; [left; auto|right; exact O]|]. rewrite <- Xe. auto.
Qed.

Lemma pow100 : forall k, 0 <= k -> 100 ^ k = 10 ^ (2 * k).
Proof. intros k K. change 100 with (10 ^ 2). rewrite <- Z.pow_mul_r by lia. reflexivity. Qed.
Lemma ten_sq : forall k, (sq (ten k) == ten (2 * k))%Q.
Proof. intro k. unfold sq. rewrite <- ten_add. replace (k + k) with (2 * k) by lia. reflexivity. Qed.
Lemma pow_sq : forall k, 0 <= k -> 10 ^ (2 * k) = 10 ^ k * 10 ^ k.
Proof. intros k K. replace (2 * k) with (k + k) by lia. apply Z.pow_add_r; lia. Qed.
Lemma radicand : forall i e v d, coefficient i -> 0 < number i ->
  (if negb (e mod 2 =? 0) then (to_int i * 10, len i / 2 + 1) else (to_int i, (len i + 1) / 2)) = (v, d) ->
  1 <= d /\ 10 ^ (2 * (d - 1)) <= v < 10 ^ (2 * d) /\ (inject_Z (number i) * ten e == inject_Z v * ten (2 * (e / 2)))%Q.
Proof.
  intros i e v d C P H. destruct (digits_of_number i C P) as (L1 & B1 & B2). rewrite to_int_number in H. pose proof (Z.div_mod e 2 ltac:(lia)) as DM. pose proof (Z.mod_pos_bound e 2 ltac:(lia)) as MB.
  destruct (e mod 2 =? 0) eqn:Ev; cbn [negb] in H; injection H as <- <-.
  - pose proof (Z.div_mod (len i + 1) 2 ltac:(lia)) as LD. pose proof (Z.mod_pos_bound (len i + 1) 2 ltac:(lia)) as LM. split; [lia|]. split.
    + pose proof (pow10_le (2 * ((len i + 1) / 2 - 1)) (len i - 1) ltac:(lia)). pose proof (pow10_le (len i) (2 * ((len i + 1) / 2)) ltac:(lia)). lia.
    + replace (2 * (e / 2)) with e by lia. reflexivity.
  - pose proof (Z.div_mod (len i) 2 ltac:(lia)) as LD. pose proof (Z.mod_pos_bound (len i) 2 ltac:(lia)) as LM. split; [lia|]. split.
    + pose proof (pow10_le (2 * (len i / 2 + 1 - 1)) (len i - 1 + 1) ltac:(lia)). pose proof (pow10_le (len i + 1) (2 * (len i / 2 + 1)) ltac:(lia)). rewrite pow10_S in * by lia. lia.
    + rewrite (rescaled (number i) e (2 * (e / 2))) by lia. replace (e - 2 * (e / 2)) with 1 by lia. reflexivity.
Qed.

(** The root is approximated from below by [n] units [10^e3]; [w] is the radicand in squared units. *)
Lemma sticky_root : forall c x w n e3 f, valid c -> rounding c = HALF_EVEN -> 10 ^ prec c <= n -> (x == w * sq (ten e3))%Q ->
  (inject_Z (n * n) < w)%Q -> (w < inject_Z ((n + 1) * (n + 1)))%Q ->
  exists r sigs, fix_ c (Fin false (to_str (if n mod 5 =? 0 then n + 1 else n)) e3) f = report c sigs r f /\ root_rounded c x r sigs /\ in_order sigs.
Proof.
  intros c x w n e3 f V M Nb X W1 W2. pose proof V as (P1 & _). pose proof (pow10_pos (prec c) ltac:(lia)) as Pp. remember (if n mod 5 =? 0 then n + 1 else n) as n' eqn:En. assert (N' : n <= n' <= n + 1) by (destruct (n mod 5 =? 0); lia).
  destruct (fix_correct c false (to_str n') e3 V ltac:(apply coefficient_to_str; lia) ltac:(rewrite number_to_str; lia)) as (r & sigs & F & R & _ & _ & _ & O).
  exists r, sigs. split; [apply F|]. split; [|exact O].
  assert (Vy : (value false (to_str n') e3 == inject_Z n' * ten e3)%Q) by (unfold value; rewrite number_to_str by lia; reflexivity). pose proof (ten_pos e3) as Te.
  apply (root_of c x (inject_Z n' * ten e3) e3 r sigs V M); [apply scaled_pos; lia|exact (rounded_eq _ _ _ _ _ Vy R)| |].
  - intros E L1 L2. assert (A : (ten (prec c + e3) < ten (E + 1))%Q).
    { apply (Qle_lt_trans _ (inject_Z n' * ten e3)); [|exact L2]. rewrite ten_add, ten_Z by lia. rewrite scaled_le. lia. }
    apply (proj2 (ten_lt _ _)) in A. lia.
  - intros m t M0 G B. remember (m * 10 ^ (t - e3 - 1)) as k eqn:Ek. assert (K0 : 0 <= k) by (subst k; apply Z.mul_nonneg_nonneg; [assumption|apply Z.pow_nonneg; lia]).
    assert (Eb : (B == inject_Z (5 * k) * ten e3)%Q).
    { unfold B. rewrite (rescaled m t e3) by lia. replace (t - e3) with (t - e3 - 1 + 1) by lia. rewrite pow10_S by lia. replace (m * (10 * 10 ^ (t - e3 - 1))) with (2 * (5 * k)) by (subst k; lia). rewrite inject_Z_mult. change (inject_Z 2) with 2%Q. field. }
    assert (Es : (sq B == inject_Z (5 * k * (5 * k)) * sq (ten e3))%Q) by (unfold sq; rewrite Eb, (inject_Z_mult (5 * k) (5 * k)); ring).
    assert (S0 : (0 < sq (ten e3))%Q) by (unfold sq; nra). rewrite Es, X, Eb, scaled_le, scaled_eq.
    assert (N5 : 5 * k <= n' <-> 5 * k <= n) by (rewrite En; destruct (n mod 5 =? 0) eqn:Z5; [assert (n = 5 * (n / 5)) by (pose proof (Z.div_mod n 5); lia); lia|lia]).
    assert (Ne : 5 * k <> n').
    { intro A. rewrite En in A. destruct (n mod 5 =? 0) eqn:Z5; [assert (n = 5 * (n / 5)) by (pose proof (Z.div_mod n 5); lia); lia|]. rewrite <- A, Z.mul_comm, Z.mod_mul in Z5 by lia. discriminate. }
    split.
    + rewrite Qmult_le_r by exact S0. rewrite N5. split; intro A.
      * apply (Qle_trans _ (inject_Z (n * n))); [rewrite <- Zle_Qle; nia|lra].
      * apply Z.le_ngt. intro Gt. assert (Q : (inject_Z ((n + 1) * (n + 1)) <= inject_Z (5 * k * (5 * k)))%Q) by (rewrite <- Zle_Qle; nia). lra.
    + split; intro A; [contradiction|]. exfalso. assert (A' : (inject_Z (5 * k * (5 * k)) == w)%Q) by (apply Qmult_inj_r in A; [exact A|intro Q; rewrite Q in S0; revert S0; apply Qlt_irrefl]).
      destruct (Z.le_gt_cases (5 * k) n) as [Le|Gt].
      * assert (Q : (inject_Z (5 * k * (5 * k)) <= inject_Z (n * n))%Q) by (rewrite <- Zle_Qle; nia). lra.
      * assert (Q : (inject_Z ((n + 1) * (n + 1)) <= inject_Z (5 * k * (5 * k)))%Q) by (rewrite <- Zle_Qle; nia). lra.
Qed.
Lemma exact_root : forall c x k e2, valid c -> rounding c = HALF_EVEN -> 0 < k -> (x == sq (inject_Z k * ten e2))%Q ->
  exists r sigs, (forall f, fix_ c (Fin false (to_str k) e2) f = report c sigs r f) /\ root_rounded c x r sigs /\ in_order sigs.
Proof.
  intros c x k e2 V M K X. assert (Ck : coefficient (to_str k)) by (apply coefficient_to_str; lia). assert (Nk : number (to_str k) = k) by (apply number_to_str; lia).
  destruct (fix_correct c false (to_str k) e2 V Ck ltac:(lia)) as (r & sigs & F & R & _ & _ & _ & O). exists r, sigs. split; [exact F|]. split; [|exact O].
  assert (Vy : (value false (to_str k) e2 == inject_Z k * ten e2)%Q) by (unfold value; now rewrite Nk). pose proof (scaled_pos k e2 K) as Yp. pose proof (leading (to_str k) e2 Ck ltac:(lia)) as (L1 & L2). rewrite Nk in L1, L2.
  apply (root_of c x (inject_Z k * ten e2) (e2 + len (to_str k) - 1 - prec c) r sigs V M Yp (rounded_eq _ _ _ _ _ Vy R)).
  - intros E A1 A2. pose proof (leading_unique _ _ _ A1 A2 L1 L2). lia.
  - intros m t M0 G B. assert (B0 : (0 <= B)%Q). { unfold B. pose proof (ten_pos t). assert (0 <= inject_Z m)%Q by (change 0%Q with (inject_Z 0); rewrite <- Zle_Qle; lia). nra. }
    rewrite X. split; [apply sq_le; lra|apply sq_eq; lra].
Qed.

Definition half_even (c : ctx) : ctx := Ctx (prec c) HALF_EVEN (Emin c) (Emax c) (clamp c) (traps c) (native c).
Theorem sqrt_ok : forall c i e, valid c -> native c = false -> coefficient i -> 0 < number i ->
  (forall f, exists r sigs, sqrt c (Fin false i e) f = report (half_even c) sigs r f /\ root_rounded c (value false i e) r sigs /\ in_order sigs) /\
  (forall k, 0 < k < 10 ^ (prec c + 1) -> (value false i e == sq (inject_Z k * ten (e / 2)))%Q ->
     delivers (half_even c) (inject_Z k * ten (e / 2)) false (e / 2) (sqrt c (Fin false i e))).
Proof.
  intros c i e V Nt C P. assert (V' : valid (half_even c)) by exact V. pose proof V as (P1 & _).
  assert (Rc : forall x r sigs, root_rounded (half_even c) x r sigs -> root_rounded c x r sigs) by (intros; assumption).
  destruct (if negb (e mod 2 =? 0) then (to_int i * 10, len i / 2 + 1) else (to_int i, (len i + 1) / 2)) as [v d] eqn:Vd. destruct (radicand i e v d C P Vd) as (D1 & Vb & Vx).
  remember (prec c + 1 - d) as shift eqn:Esh.
  remember (if shift >=? 0 then v * 100 ^ shift else v / 100 ^ (- shift)) as v1 eqn:Ev1. remember (if shift >=? 0 then true else v mod 100 ^ (- shift) =? 0) as ex1 eqn:Ex1.
  remember (Z.sqrt v1) as n eqn:En.
  pose proof (pow10_pos (prec c) ltac:(lia)) as Pp.
  (* the radicand in squared units *)
  assert (W : exists w, (value false i e == w * sq (ten (e / 2 - shift)))%Q /\ (inject_Z v1 <= w)%Q /\ (w < inject_Z (v1 + 1))%Q /\ (ex1 = true <-> (w == inject_Z v1)%Q) /\ 10 ^ (2 * prec c) <= v1 < 10 ^ (2 * (prec c + 1))).
  { assert (Vl : (value false i e == inject_Z v * ten (2 * (e / 2)))%Q) by (rewrite value_sgn; cbn [sgn]; exact Vx).
    destruct (shift >=? 0) eqn:G.
    - exists (inject_Z v1). split; [|split; [|split; [|split]]].
      + rewrite Vl, ten_sq. subst v1. rewrite pow100 by lia. replace (2 * shift) with (2 * (e / 2) - 2 * (e / 2 - shift)) by lia. apply rescaled. lia.
      + apply Qle_refl.
      + rewrite <- Zlt_Qlt. lia.
      + subst ex1. split; reflexivity.
      + subst v1. rewrite pow100 by lia. replace (2 * prec c) with (2 * (d - 1) + 2 * shift) by lia. replace (2 * (prec c + 1)) with (2 * d + 2 * shift) by lia. rewrite !Z.pow_add_r by lia. pose proof (pow10_pos (2 * shift) ltac:(lia)). nia.
    - pose proof (pow10_pos (2 * (- shift)) ltac:(lia)) as Hp. rewrite pow100 in * by lia. remember (10 ^ (2 * - shift)) as h eqn:Eh.
      pose proof (Z.div_mod v h ltac:(lia)) as DM. pose proof (Z.mod_pos_bound v h Hp) as MB. rewrite <- Ev1 in DM.
      exists (v # Z.to_pos h)%Q. assert (Hq : (inject_Z v == (v # Z.to_pos h) * inject_Z h)%Q) by (unfold Qeq, inject_Z; cbn [Qnum Qden Qmult]; rewrite Pos.mul_1_r, Z2Pos.id by lia; ring).
      assert (Hpq : (0 < inject_Z h)%Q) by (change 0%Q with (inject_Z 0); rewrite <- Zlt_Qlt; lia).
      split; [|split; [|split; [|split]]].
      + rewrite Vl, ten_sq, Hq. rewrite <- Qmult_assoc. rewrite Eh. rewrite <- ten_Z by lia. rewrite <- ten_add. replace (2 * - shift + 2 * (e / 2)) with (2 * (e / 2 - shift)) by lia. reflexivity.
      + unfold Qle, inject_Z; cbn [Qnum Qden]. rewrite Z2Pos.id by lia. nia.
      + unfold Qlt, inject_Z; cbn [Qnum Qden]. rewrite Z2Pos.id by lia. nia.
      + subst ex1. unfold Qeq, inject_Z; cbn [Qnum Qden]. rewrite Z2Pos.id by lia. rewrite Z.eqb_eq. nia.
      + assert (A : 10 ^ (2 * prec c) * h <= v < 10 ^ (2 * (prec c + 1)) * h).
        { rewrite Eh, <- !Z.pow_add_r by lia. replace (2 * prec c + 2 * - shift) with (2 * (d - 1)) by lia. replace (2 * (prec c + 1) + 2 * - shift) with (2 * d) by lia. exact Vb. }
        split; nia. }
  destruct W as (w & Xw & W1 & W2 & We & Vr).
  assert (V1 : 0 < v1) by (pose proof (pow10_pos (2 * prec c)); lia). pose proof (Z.sqrt_spec v1 ltac:(lia)) as (S1 & S2). rewrite <- En in S1, S2. pose proof (proj2 (Z.sqrt_pos v1) V1) as Sp. rewrite <- En in Sp.
  rewrite !pow_sq in Vr by lia. pose proof (pow10_S (prec c) ltac:(lia)) as PS.
  assert (Nb : 10 ^ prec c <= n < 10 ^ (prec c + 1)) by nia.
  assert (Nw : newton (S (S (Z.to_nat (Z.log2 (10 ^ (prec c + 1)))))) v1 (10 ^ (prec c + 1)) = n).
  { rewrite newton_ok; [now symmetry|assumption|]. rewrite <- En. split; [lia|]. pose proof (Z.log2_spec (10 ^ (prec c + 1)) ltac:(lia)) as (_ & Lg). pose proof (Z.log2_nonneg (10 ^ (prec c + 1))).
    rewrite !Nat2Z.inj_succ, Z2Nat.id by lia. rewrite (Z.pow_succ_r 2 (Z.succ _)) by lia. lia. }
  assert (Unf : forall f, sqrt c (Fin false i e) f =
    fix_ (half_even c) (let '(n2, e4) := if ex1 && (n * n =? v1) then (if shift >=? 0 then n / 10 ^ shift else n * 10 ^ (- shift), e / 2 - shift + shift) else (if n mod 5 =? 0 then n + 1 else n, e / 2 - shift) in Fin false (to_str n2) e4) f).
  { intro f. unfold sqrt. rewrite no_nans by (reflexivity || exact I). apply is0_false in P; [|assumption]. rewrite P. cbv zeta. rewrite Vd. rewrite <- Esh.
    assert (Pr : (if shift >=? 0 then (v * 100 ^ shift, true) else (v / 100 ^ (- shift), v mod 100 ^ (- shift) =? 0)) = (v1, ex1)) by (subst v1 ex1; destruct (shift >=? 0); reflexivity).
    rewrite Pr, Nw, Nt. destruct (ex1 && (n * n =? v1)); reflexivity. }
  assert (Ex : ex1 && (n * n =? v1) = true -> exists k, 0 < k /\ (if shift >=? 0 then n / 10 ^ shift else n * 10 ^ (- shift)) = k /\ (value false i e == sq (inject_Z k * ten (e / 2)))%Q).
  { intro A. apply andb_true_iff in A. destruct A as (A1 & A2). apply We in A1. apply Z.eqb_eq in A2. rewrite <- A2 in A1.
    assert (Vn : (value false i e == sq (inject_Z n * ten (e / 2 - shift)))%Q) by (rewrite Xw, A1, inject_Z_mult; unfold sq; ring).
    destruct (shift >=? 0) eqn:G.
    - exists (n / 10 ^ shift). pose proof (pow10_pos shift ltac:(lia)) as Ph. assert (Mz : n mod 10 ^ shift = 0).
      { apply (square_divides n (10 ^ shift) v Ph). rewrite A2, Ev1, pow100, pow_sq by lia. reflexivity. }
      pose proof (Z.div_mod n (10 ^ shift) ltac:(lia)) as DM. rewrite Mz in DM. split; [nia|]. split; [reflexivity|]. rewrite Vn. unfold sq. rewrite (rescaled (n / 10 ^ shift) (e / 2) (e / 2 - shift)) by lia.
      replace (e / 2 - (e / 2 - shift)) with shift by lia. replace (n / 10 ^ shift * 10 ^ shift) with n by lia. reflexivity.
    - exists (n * 10 ^ (- shift)). pose proof (pow10_pos (- shift) ltac:(lia)) as Ph. split; [nia|]. split; [reflexivity|]. rewrite Vn. unfold sq. rewrite (rescaled n (e / 2 - shift) (e / 2)) by lia. replace (e / 2 - shift - e / 2) with (- shift) by lia. reflexivity. }
  replace (e / 2 - shift + shift) with (e / 2) in Unf by lia.
  split.
  - intro f. rewrite Unf. destruct (ex1 && (n * n =? v1)) eqn:X.
    + destruct (Ex eq_refl) as (k & K0 & -> & Kx). destruct (exact_root (half_even c) _ k (e / 2) V' eq_refl K0 Kx) as (r & sigs & F & R & O). exists r, sigs. auto.
    + apply (sticky_root (half_even c) _ w n (e / 2 - shift) f V' eq_refl); [cbn [half_even prec]; lia|exact Xw| |].
      * destruct (Qlt_le_dec (inject_Z (n * n)) w) as [A|A]; [exact A|exfalso]. assert (Q1 : (inject_Z (n * n) <= inject_Z v1)%Q) by (rewrite <- Zle_Qle; lia).
        assert (n * n = v1). { assert (Q2 : (inject_Z v1 <= inject_Z (n * n))%Q) by lra. rewrite <- Zle_Qle in Q2. lia. }
        assert (A1 : ex1 = true) by (apply We; rewrite <- H; rewrite <- H in W1; lra). rewrite A1 in X. cbn [andb] in X. lia.
      * apply (Qlt_le_trans _ _ _ W2). rewrite <- Zle_Qle. unfold Z.succ in S2. lia.
  - intros k (K0 & K1) Kx. assert (G : shift >=? 0 = true).
    { (* v = k k < 100^(prec+1) *)
      assert (Vk : v = k * k). { assert (Q : (inject_Z v * ten (2 * (e / 2)) == inject_Z (k * k) * ten (2 * (e / 2)))%Q). { rewrite <- Vx, <- (value_sgn false i e), Kx, <- ten_sq, inject_Z_mult. unfold sq. ring. } now apply scaled_eq in Q. }
      destruct (Z.le_gt_cases d (prec c + 1)) as [L|L]; [lia|exfalso]. pose proof (pow10_le (2 * (prec c + 1)) (2 * (d - 1)) ltac:(lia)) as Q. rewrite (pow_sq (prec c + 1)) in Q by lia. nia. }
    assert (Nk : n = k * 10 ^ shift /\ n * n = v1).
    { pose proof (pow10_pos shift ltac:(lia)) as Ph. rewrite G in Ev1. rewrite pow100, pow_sq in Ev1 by lia.
      assert (Vk : v = k * k). { assert (Q : (inject_Z v * ten (2 * (e / 2)) == inject_Z (k * k) * ten (2 * (e / 2)))%Q). { rewrite <- Vx, <- (value_sgn false i e), Kx, <- ten_sq, inject_Z_mult. unfold sq. ring. } now apply scaled_eq in Q. }
      assert (Vs : v1 = (k * 10 ^ shift) * (k * 10 ^ shift)) by (rewrite Ev1, Vk; ring). assert (n = k * 10 ^ shift) by (rewrite En, Vs; apply Z.sqrt_square; nia). split; [assumption|]. rewrite Vs, H. reflexivity. }
    destruct Nk as (Nk & Nn). pose proof (pow10_pos shift ltac:(lia)) as Ph.
    apply (delivers_ext _ _ _ _ (fix_ (half_even c) (Fin false (to_str k) (e / 2)))).
    + intro f. rewrite Unf. rewrite G in Ex1. rewrite Ex1, Nn, Z.eqb_refl, G. cbn [andb]. rewrite Nk at 1. rewrite Z.div_mul by lia. reflexivity.
    + apply fix_delivers; [exact V'|apply coefficient_to_str; lia|]. unfold value. rewrite number_to_str by lia. reflexivity.
Qed.
