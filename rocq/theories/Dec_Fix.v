(** Rounding into a context. *)
From Coq Require Import ZArith QArith Qabs Qpower Lqa List Bool Lia ZifyBool ZifyNat.
From Verif Require Import Dec_Model Dec_Spec Dec_Digits Dec_Round.
Import ListNotations.
Open Scope Z_scope.

(** Powers of ten. *)
Lemma ten_add : forall a b, (ten (a + b) == ten a * ten b)%Q.
Proof. intros. unfold ten. apply Qpower_plus. intro H. discriminate H. Qed.
Lemma ten_0 : (ten 0 == 1)%Q.
Proof. reflexivity. Qed.
Lemma ten_inv : forall a, (ten a * ten (- a) == 1)%Q.
Proof. intro a. rewrite <- ten_add. replace (a + - a) with 0 by lia. reflexivity. Qed.
Lemma ten_pos : forall a, (0 < ten a)%Q.
Proof.
  intro a. assert (0 <= ten a)%Q by (apply Qpower_pos; lra). destruct (Qlt_le_dec 0 (ten a)) as [|H0]; [assumption|].
  assert (E : (ten a == 0)%Q) by lra. pose proof (ten_inv a) as I. rewrite E, Qmult_0_l in I. discriminate I.
Qed.
Lemma ten_Z : forall k, 0 <= k -> (ten k == inject_Z (10 ^ k))%Q.
Proof. intros k K. unfold ten. rewrite Zpower_Qpower by assumption. reflexivity. Qed.
Lemma ten_lt : forall a b, a < b <-> (ten a < ten b)%Q.
Proof.
  assert (H : forall a b, a < b -> (ten a < ten b)%Q).
  { intros a b L. replace b with (a + (b - a)) by lia. rewrite ten_add, (ten_Z (b - a)) by lia. pose proof (ten_pos a).
    assert (1 < inject_Z (10 ^ (b - a)))%Q. { change 1%Q with (inject_Z 1). rewrite <- Zlt_Qlt. change 1 with (10 ^ 0). apply pow10_lt. lia. } nra. }
  intros a b. split; [apply H|]. intro L. destruct (Z.lt_trichotomy a b) as [|[->|G]]; [assumption|lra|]. specialize (H b a G). lra.
Qed.
Lemma ten_le : forall a b, a <= b <-> (ten a <= ten b)%Q.
Proof.
  intros a b. split; intro L.
  - destruct (Z.eq_dec a b) as [->|]; [lra|]. apply Qlt_le_weak. apply (proj1 (ten_lt a b)). lia.
  - destruct (Z.le_gt_cases a b) as [|G]; [assumption|]. apply ten_lt in G. lra.
Qed.
Lemma Qmake_eq : forall N D, 0 < D -> (N # Z.to_pos D == inject_Z N / inject_Z D)%Q.
Proof.
  intros N D P. rewrite (Qmake_Qdiv N (Z.to_pos D)). rewrite Z2Pos.id by lia. reflexivity.
Qed.
Lemma scale_down : forall N k, 0 <= k -> (inject_Z N * ten (- k) == N # Z.to_pos (10 ^ k))%Q.
Proof.
  intros N k K. pose proof (pow10_pos k K). rewrite Qmake_eq by assumption.
  assert (Nz : ~ (inject_Z (10 ^ k) == 0)%Q). { intro E. change 0%Q with (inject_Z 0) in E. apply (proj1 (inject_Z_injective _ _)) in E. lia. }
  pose proof (ten_inv k) as I. rewrite ten_Z in I by assumption. field_simplify_eq; [|assumption]. rewrite <- (Qmult_1_r (inject_Z N)) at 2. rewrite <- I. ring.
Qed.
(** Comparing two decimal fractions of the same unit. *)
Lemma scaled_le : forall a b e, (inject_Z a * ten e <= inject_Z b * ten e)%Q <-> a <= b.
Proof. intros a b e. pose proof (ten_pos e). rewrite (Zle_Qle a b). split; intro; nra. Qed.
Lemma scaled_lt : forall a b e, (inject_Z a * ten e < inject_Z b * ten e)%Q <-> a < b.
Proof. intros a b e. pose proof (ten_pos e). rewrite (Zlt_Qlt a b). split; intro; nra. Qed.
Lemma scaled_eq : forall a b e, (inject_Z a * ten e == inject_Z b * ten e)%Q <-> a = b.
Proof. intros a b e. split; [|now intros ->]. intro E. assert (a <= b) by (apply (scaled_le a b e); lra). assert (b <= a) by (apply (scaled_le b a e); lra). lia. Qed.
Lemma rescaled : forall a e q, q <= e -> (inject_Z a * ten e == inject_Z (a * 10 ^ (e - q)) * ten q)%Q.
Proof. intros a e q L. rewrite inject_Z_mult, <- ten_Z by lia. rewrite <- Qmult_assoc, <- ten_add. replace (e - q + q) with e by lia. reflexivity. Qed.
Lemma ten_as : forall e q, q <= e -> (ten e == inject_Z (10 ^ (e - q)) * ten q)%Q.
Proof. intros e q L. rewrite <- (Qmult_1_l (ten e)). change 1%Q with (inject_Z 1). rewrite (rescaled 1 e q L). now rewrite Z.mul_1_l. Qed.

(** Reporting signals. *)
Lemma raise_report : forall c s (v : dec) f, raise_in c s v f = report c [s] v f.
Proof. reflexivity. Qed.
Lemma report_app : forall c l1 l2 (r v : dec) f, 
  bind (fun f => report c l1 v f) (fun _ f => report c l2 r f) f = report c (l1 ++ l2) r f.
Proof.
  intros c l1 l2 r v. induction l1 as [|s l IH]; intro f; [reflexivity|]. cbn [app report]. unfold bind in *. cbn [report]. destruct (traps c s); [reflexivity|]. apply IH.
Qed.
Lemma sig_then : forall c s (k : M dec) f, bind (sig c s) (fun _ => k) f = if traps c s then (Raise s, s :: f) else k (s :: f).
Proof. intros. unfold bind, sig, raise_in. destruct (traps c s); reflexivity. Qed.
Lemma when_then : forall c (b : bool) s (k : M dec) f, bind (when b (sig c s)) (fun _ => k) f = if b then (if traps c s then (Raise s, s :: f) else k (s :: f)) else k f.
Proof. intros c b s k f. destruct b; [apply sig_then|reflexivity]. Qed.
Definition opt (b : bool) (s : signal) : list signal := if b then [s] else [].
Lemma when_report : forall c (b : bool) s l r f, (if b then (if traps c s then (Raise s, s :: f) else report c l r (s :: f)) else report c l r f) = report c (opt b s ++ l) r f.
Proof. intros. destruct b; reflexivity. Qed.

(** The outcome of rounding, from the sign, the place of the leading digit, the integer part in units of [10^q] and where
    the rest lies. *)
Definition unit_exp (c : ctx) (E : Z) : Z := Z.max (E - prec c + 1) (Etiny c).
Definition fix_res (c : ctx) (s : bool) (E f : Z) (p : part) : dec * list signal :=
  let q := unit_exp c E in
  let b := bump (rounding c) s f p in
  let n := if b >? 0 then f + 1 else f in
  let sub := E <? Emin c in
  let '(k, e) := if n =? 10 ^ prec c then (10 ^ (prec c - 1), q + 1) else (n, q) in
  let over := e >? Etop c in
  (if over then handle_overflow c s else Fin s (to_str k) e,
   opt over Overflow ++ opt (negb (b =? 0) && sub) Underflow ++ opt sub Subnormal ++ opt (negb (b =? 0)) Inexact ++ [Rounded] ++ opt (n =? 0) Clamped).

Lemma removelast_10 : forall k, 0 < k -> removelast (to_str (10 ^ k)) = to_str (10 ^ (k - 1)).
Proof.
  intros k K. pose proof (pow10_pos k ltac:(lia)). pose proof (pow10_pos (k - 1) ltac:(lia)).
  assert (E : to_str (10 ^ k) = to_str (10 ^ (k - 1)) ++ zeros 1).
  { apply coefficient_inj; [apply coefficient_to_str; lia|apply coefficient_zeros; [apply coefficient_to_str; lia|rewrite number_to_str; lia]|].
    rewrite number_zeros, !number_to_str by lia. change (10 ^ Z.max 1 0) with 10. replace (10 ^ k) with (10 ^ (k - 1 + 1)) by (f_equal; lia). rewrite pow10_S by lia. lia. }
  rewrite E. change (zeros 1) with [0]. apply removelast_last.
Qed.
Lemma or0_upto : forall i k, coefficient i -> 0 < number i -> 0 <= k < len i -> or0 (upto i k) = to_str (number i / 10 ^ (len i - k)).
Proof.
  intros i k C N K. pose proof C as (F & _). rewrite <- upto_div by (auto; lia). destruct (Z.eq_dec k 0) as [->|]; [reflexivity|].
  pose proof (coefficient_upto i k C N ltac:(lia)) as CU. rewrite to_str_number by assumption. destruct CU as (_ & Nn & _). destruct (upto i k); [congruence|reflexivity].
Qed.
Lemma handle_truth : forall c s, valid c -> truth (handle_overflow c s) = true.
Proof.
  intros c s (P & _). unfold handle_overflow, largest. destruct (Z.to_nat (prec c)) as [|[|k]] eqn:E; [lia| |]; destruct (rounding c), s; reflexivity.
Qed.

(** The rounding branch of [fix_] computes [fix_res]. *)
Lemma fix_round : forall c s i e f, valid c -> coefficient i -> 0 < number i ->
  let E := e + len i - 1 in let q := unit_exp c E in
  E <= Emax c -> e < q ->
  let d := 10 ^ (q - e) in
  fix_ c (Fin s i e) f = (let rs := fix_res c s E (number i / d) (part_of (number i mod d) d) in report c (snd rs) (fst rs) f).
Proof.
  intros c s i e f V C N E q HE Hq d. pose proof V as (P1 & Em & EM). pose proof C as (F & _).
  destruct (digits_of_number i C N) as (L1 & NB).
  cbn [fix_]. replace (is0 i) with false by (symmetry; now apply is0_false).
  assert (G1 : (len i + e - prec c >? Etop c) = false) by (unfold Etop; lia). rewrite G1.
  assert (G2 : (len i + e - prec c <? Etiny c) = (E <? Emin c)) by (unfold Etiny; lia). rewrite G2.
  assert (G3 : (if E <? Emin c then Etiny c else len i + e - prec c) = q) by (unfold q, unit_exp, Etiny; destruct (E <? Emin c) eqn:?; lia). rewrite G3.
  replace (e <? q) with true by lia.
  remember (len i + e - q) as k eqn:Ek.
  assert (K : k < len i /\ k <= prec c) by (unfold q, unit_exp, Etiny in *; lia).
  (* the digits kept and the part dropped *)
  remember (if k <? 0 then [1] else i) as i1 eqn:Ei1. remember (if k <? 0 then 0 else k) as k1 eqn:Ek1.
  assert (PK : pick (rounding c) s i1 k1 = bump (rounding c) s (number i / d) (part_of (number i mod d) d) /\
               or0 (upto i1 k1) = to_str (number i / d) /\ 0 <= number i / d < 10 ^ prec c /\ (prec c = k -> 10 ^ (prec c - 1) <= number i / d)).
  { pose proof (pow10_pos (prec c) ltac:(lia)). pose proof (pow10_pos (q - e) ltac:(lia)) as Dp. fold d in Dp.
    destruct (k <? 0) eqn:K0; subst i1 k1.
    - assert (Lt : 10 * number i < d).
      { pose proof (pow10_lt (len i) (q - e) ltac:(lia)). pose proof (pow10_le (len i + 1) (q - e) ltac:(lia)) as Q. rewrite pow10_S in Q by lia. unfold d. lia. }
      assert (D0 : number i / d = 0) by (apply Z.div_small; lia). assert (M0 : number i mod d = number i) by (apply Z.mod_small; lia).
      rewrite D0, M0. rewrite pick_bump by (try (repeat constructor; lia); cbn; lia).
      change (10 ^ (len [1] - 0)) with 10. change (number [1]) with 1. change (1 / 10) with 0. change (part_of (1 mod 10) 10) with PLow.
      split; [|split; [reflexivity|split; [lia|lia]]]. f_equal. unfold part_of. replace (number i =? 0) with false by lia. now replace (2 * number i <? d) with true by lia.
    - assert (Q : len i - k = q - e) by lia.
      rewrite pick_bump by (auto; lia). rewrite or0_upto by (auto; lia). rewrite Q. fold d. split; [reflexivity|]. split; [reflexivity|].
      split.
      + split; [apply Z.div_pos; lia|]. apply Z.div_lt_upper_bound; [lia|]. unfold d. rewrite <- Z.pow_add_r by lia.
        pose proof (pow10_le (len i) (q - e + prec c) ltac:(lia)). lia.
      + intro PK. apply Z.div_le_lower_bound; [lia|]. unfold d. rewrite <- Z.pow_add_r by lia. replace (q - e + (prec c - 1)) with (len i - 1) by lia. lia. }
  destruct PK as (PKb & PKo & PKr & PKl). rewrite PKb, PKo, to_int_number, number_to_str by lia.
  remember (bump (rounding c) s (number i / d) (part_of (number i mod d) d)) as b eqn:Eb.
  unfold fix_res. cbv zeta. fold q. rewrite <- Eb. remember (number i / d) as n0 eqn:En0.
  remember (if b >? 0 then n0 + 1 else n0) as n eqn:En.
  pose proof (pow10_pos (prec c - 1) ltac:(lia)) as Pp.
  assert (P10 : 10 ^ prec c = 10 * 10 ^ (prec c - 1)) by (rewrite <- pow10_S by lia; f_equal; lia).
  assert (CE : (if b >? 0 then if len (to_str (n0 + 1)) >? prec c then (removelast (to_str (n0 + 1)), q + 1) else (to_str (n0 + 1), q) else (to_str n0, q))
             = if n =? 10 ^ prec c then (to_str (10 ^ (prec c - 1)), q + 1) else (to_str n, q)).
  { subst n. destruct (b >? 0).
    - destruct (n0 + 1 =? 10 ^ prec c) eqn:X.
      + assert (X' : n0 + 1 = 10 ^ prec c) by lia. rewrite X'. rewrite (len_to_str (10 ^ prec c) (prec c)) by (first [lia | split; [lia|apply pow10_lt; lia]]).
        replace (prec c + 1 >? prec c) with true by lia. now rewrite removelast_10 by lia.
      + destruct (digits_of (n0 + 1) ltac:(lia)) as (Ld & Bd). destruct (len (to_str (n0 + 1)) >? prec c) eqn:Y; [|reflexivity].
        pose proof (pow10_le (prec c) (len (to_str (n0 + 1)) - 1) ltac:(lia)). lia.
    - destruct (n0 =? 10 ^ prec c) eqn:X; [lia|reflexivity]. }
  rewrite CE.
  assert (TR : forall k, 0 <= k -> truth (Fin s (to_str k) 0) = negb (k =? 0)).
  { intros k2 K2. cbn [truth]. f_equal. apply Bool.eq_iff_eq_true. rewrite (is0_iff _ (coefficient_to_str k2 K2)), number_to_str by assumption. lia. }
  assert (Nn : 0 <= n) by (subst n; destruct (b >? 0); lia).
  destruct (n =? 10 ^ prec c) eqn:X.
  - destruct (q + 1 >? Etop c) eqn:O; cbn [fst snd].
    + unfold bind at 1. rewrite raise_report. cbn [report opt app]. destruct (traps c Overflow); [reflexivity|]. cbv beta iota.
      rewrite !when_then. rewrite (handle_truth c s V). cbn [negb].
      rewrite <- !when_report. unfold ret. replace (n =? 0) with false by lia.
      destruct (negb (b =? 0) && (E <? Emin c)), (E <? Emin c), (negb (b =? 0));
        repeat (rewrite ?sig_then, ?when_then; cbn [report app opt]; try (destruct (traps c _); [reflexivity|])); try reflexivity.
    + unfold bind at 1. unfold ret at 1. cbv beta iota.
      change (truth (Fin s (to_str (10 ^ (prec c - 1))) (q + 1))) with (truth (Fin s (to_str (10 ^ (prec c - 1))) 0)). rewrite TR by lia.
      replace (10 ^ (prec c - 1) =? 0) with false by lia. replace (n =? 0) with false by lia.
      cbn [negb opt app]. unfold ret.
      destruct (negb (b =? 0) && (E <? Emin c)), (E <? Emin c), (negb (b =? 0)); cbn [opt app];
        repeat (rewrite ?sig_then, ?when_then; cbn [report app opt]; try (destruct (traps c _); [reflexivity|])); try reflexivity.
  - destruct (q >? Etop c) eqn:O; [exfalso; unfold q, unit_exp, Etop, Etiny in O; lia|]. cbn [fst snd].
    unfold bind at 1. unfold ret at 1. cbv beta iota.
    change (truth (Fin s (to_str n) q)) with (truth (Fin s (to_str n) 0)). rewrite TR by lia. rewrite negb_involutive.
    unfold ret.
    destruct (negb (b =? 0) && (E <? Emin c)), (E <? Emin c), (negb (b =? 0)); cbn [opt app];
        repeat (rewrite ?sig_then, ?when_then; cbn [report app opt]; try (destruct (traps c _); [reflexivity|])); destruct (n =? 0); reflexivity.
Qed.

(** The two other branches. *)
Lemma fix_overflow : forall c s i e f, valid c -> coefficient i -> 0 < number i -> Emax c < e + len i - 1 ->
  fix_ c (Fin s i e) f = report c [Overflow; Inexact; Rounded] (handle_overflow c s) f.
Proof.
  intros c s i e f V C N H. cbn [fix_]. replace (is0 i) with false by (symmetry; now apply is0_false).
  replace (len i + e - prec c >? Etop c) with true by (unfold Etop; lia).
  unfold bind at 1. rewrite raise_report. cbn [report]. destruct (traps c Overflow); [reflexivity|]. cbv beta iota.
  rewrite !sig_then. reflexivity.
Qed.
Definition folded (c : ctx) (e : Z) : bool := clamp c && (e >? Etop c).
Definition fold_down (c : ctx) (s : bool) (i : list Z) (e : Z) : dec :=
  if folded c e then Fin s (i ++ zeros (e - Etop c)) (Etop c) else Fin s i e.
Lemma fix_exact : forall c s i e f, valid c -> coefficient i -> 0 < number i ->
  let E := e + len i - 1 in E <= Emax c -> unit_exp c E <= e ->
  fix_ c (Fin s i e) f = report c (opt (E <? Emin c) Subnormal ++ opt (folded c e) Clamped) (fold_down c s i e) f.
Proof.
  intros c s i e f V C N E H Hq. cbn [fix_]. replace (is0 i) with false by (symmetry; now apply is0_false).
  replace (len i + e - prec c >? Etop c) with false by (unfold Etop; lia).
  assert (G2 : (len i + e - prec c <? Etiny c) = (E <? Emin c)) by (unfold Etiny; lia). rewrite G2.
  assert (G3 : (if E <? Emin c then Etiny c else len i + e - prec c) = unit_exp c E) by (unfold unit_exp, Etiny; destruct (E <? Emin c) eqn:?; lia). rewrite G3.
  replace (e <? unit_exp c E) with false by lia. rewrite when_then, <- when_report. unfold fold_down, folded.
  assert (T : forall f, (if clamp c && (e >? Etop c) then let* _ := sig c Clamped in ret (Fin s (i ++ zeros (e - Etop c)) (Etop c)) else ret (Fin s i e)) f
           = report c (opt (clamp c && (e >? Etop c)) Clamped) (if clamp c && (e >? Etop c) then Fin s (i ++ zeros (e - Etop c)) (Etop c) else Fin s i e) f).
  { intro f'. destruct (clamp c && (e >? Etop c)); [rewrite sig_then; reflexivity|reflexivity]. }
  rewrite !T. reflexivity.
Qed.
Lemma fix_zero : forall c s e f, 
  fix_ c (Fin s [0] e) f =
  (let e' := Z.min (Z.max e (Etiny c)) (if clamp c then Etop c else Emax c) in report c (opt (negb (e' =? e)) Clamped) (Fin s [0] e') f).
Proof.
  intros c s e f. cbn [fix_ is0]. change (0 =? 0) with true. cbn iota. cbv zeta.
  destruct (Z.min (Z.max e (Etiny c)) (if clamp c then Etop c else Emax c) =? e) eqn:X; cbn [negb opt].
  - replace (Z.min (Z.max e (Etiny c)) (if clamp c then Etop c else Emax c)) with e by lia. reflexivity.
  - rewrite sig_then. reflexivity.
Qed.

(** The overflow values are the prescribed ones. *)
Lemma number_nines : forall k, number (repeat 9 k) = 10 ^ Z.of_nat k - 1.
Proof.
  induction k as [|k IH]; [reflexivity|]. cbn [repeat number]. rewrite repeat_length, IH, Nat2Z.inj_succ, Z.pow_succ_r by lia. lia.
Qed.
Lemma coefficient_nines : forall k, (0 < k)%nat -> coefficient (repeat 9 k).
Proof.
  intros k K. split; [|split].
  - apply Forall_forall. intros x I. apply repeat_spec in I. subst. unfold is_digit. lia.
  - destruct k; [lia|discriminate].
  - destruct k; [lia|]. cbn [repeat hd]. discriminate.
Qed.
Lemma handle_too_large : forall c s, valid c -> too_large c s (handle_overflow c s).
Proof.
  intros c s (P & _). unfold too_large, handle_overflow.
  assert (L : exists i e, largest c s = Fin s i e /\ coefficient i /\ number i = 10 ^ prec c - 1 /\ e = Emax c - prec c + 1).
  { eexists _, _. split; [reflexivity|]. split; [apply coefficient_nines; lia|]. split; [|reflexivity]. rewrite number_nines. f_equal. f_equal. lia. }
  destruct (rounding c), s; try reflexivity; exact L.
Qed.

(** The rounding branch meets the specification, for any number with the same leading place, integer part and rest. *)
Lemma in_opt : forall s b t, In s (opt b t) <-> b = true /\ s = t.
Proof. intros s b t. destruct b; cbn; intuition congruence. Qed.
Ltac insig := cbn [app]; rewrite ?in_app_iff; cbn [In]; rewrite ?in_app_iff, ?in_opt.
Lemma sgn_scale : forall s y z, (sgn s y * z == sgn s (y * z))%Q.
Proof. intros [|] y z; cbn [sgn]; ring. Qed.
Lemma signed_scale : forall s n z, (inject_Z (signed s n) * z == sgn s (inject_Z n * z))%Q.
Proof. intros s n z. rewrite inject_signed. destruct s; cbn [sgn]; ring. Qed.
Lemma unscale : forall y q k, (y * ten (- q) == inject_Z k <-> y == inject_Z k * ten q)%Q.
Proof.
  intros y q k. pose proof (ten_inv q) as I. split; intro H.
  - rewrite <- H. rewrite <- Qmult_assoc, (Qmult_comm (ten (- q))), I. ring.
  - rewrite H. rewrite <- Qmult_assoc, I. ring.
Qed.
Lemma sgn_inj : forall s a b, (sgn s a == sgn s b <-> a == b)%Q.
Proof. intros [|] a b; cbn [sgn]; split; intro; lra. Qed.

Lemma scaled_below : forall y E q, (y < ten (E + 1))%Q -> (y * ten (- q) < ten (E + 1 - q))%Q.
Proof. intros y E q H. replace (E + 1 - q) with (E + 1 + - q) by lia. rewrite ten_add. pose proof (ten_pos (- q)). nra. Qed.

Theorem fix_res_rounded : forall c s E f p x y, valid c ->
  (x == sgn s y)%Q -> (0 < y)%Q -> (ten E <= y)%Q -> (y < ten (E + 1))%Q -> E <= Emax c -> 0 <= f ->
  lies (y * ten (- unit_exp c E)) f p ->
  rounded c x (fst (fix_res c s E f p)) (snd (fix_res c s E f p)).
Proof.
  intros c s E f p x y V Ex Y YE1 YE2 HE F L. pose proof V as (P1 & Em & EM).
  assert (Ax : (Qabs x == y)%Q). { rewrite Ex, abs_sgn. apply Qabs_pos. lra. }
  remember (unit_exp c E) as q eqn:Eq.
  remember (bump (rounding c) s f p) as b eqn:Eb.
  remember (if b >? 0 then f + 1 else f) as n eqn:En.
  exists E, (signed s n). 
  assert (Q' : Z.max (E - prec c + 1) (Emin c - prec c + 1) = q) by (subst q; reflexivity). rewrite Q'. cbv zeta.
  assert (Qle : q <= Emax c - prec c + 1) by (subst q; unfold unit_exp, Etiny; lia).
  pose proof (pow10_pos (prec c) ltac:(lia)) as Pp. pose proof (pow10_pos (prec c - 1) ltac:(lia)) as Pp1.
  assert (P10 : 10 ^ prec c = 10 * 10 ^ (prec c - 1)) by (rewrite <- pow10_S by lia; f_equal; lia).
  assert (Fb : f < 10 ^ prec c).
  { pose proof (lies_range _ _ _ L) as [Lr _]. pose proof (scaled_below y E q YE2) as Sb. pose proof (proj1 (ten_le (E + 1 - q) (prec c)) ltac:(subst q; unfold unit_exp; lia)) as Tb.
    rewrite (ten_Z (prec c)) in Tb by lia. rewrite Zlt_Qlt. lra. }
  assert (Nr : 0 <= n <= 10 ^ prec c) by (subst n; destruct (b >? 0); lia).
  assert (Inex : (~ x == inject_Z (signed s n) * ten q)%Q <-> b <> 0).
  { rewrite Ex, signed_scale, sgn_inj, <- unscale. subst b. rewrite bump_zero. split; intros A B; apply A.
    - subst p. cbn [lies] in L. subst n. cbn [bump]. change (0 >? 0) with false. cbn iota. exact L.
    - destruct p; [reflexivity| | |]; exfalso; subst n; cbn [lies] in L;
      (destruct (bump _ _ _ _ >? 0); rewrite ?inject_Z_plus in B; change (inject_Z 1) with 1%Q in B; lra). }
  split; [rewrite Ax; split; assumption|]. split.
  { apply (rounds_eq _ (sgn s (y * ten (- q)))); [rewrite Ex; symmetry; apply sgn_scale|]. subst n b. apply rounds_lies; [|assumption|assumption].
    pose proof (ten_pos (- q)). nra. }
  unfold fix_res. cbv zeta. rewrite <- Eq, <- Eb, <- En.
  assert (Aq : (Qabs (inject_Z (signed s n) * ten q) == inject_Z n * ten q)%Q).
  { rewrite signed_scale, abs_sgn. apply Qabs_pos. pose proof (ten_pos q). pose proof (inject_pos n ltac:(lia)). nra. }
  assert (Sg : (if s then x < 0 else 0 < x)%Q) by (destruct s; cbn [sgn] in Ex; lra).
  assert (Tsplit : forall k, q <= k -> (ten k == inject_Z (10 ^ (k - q)) * ten q)%Q) by (intros; now apply ten_as).
  assert (Main : let '(k, e) := if n =? 10 ^ prec c then (10 ^ (prec c - 1), q + 1) else (n, q) in
     0 <= k < 10 ^ prec c /\ (inject_Z k * ten e == inject_Z n * ten q)%Q /\
     (if e >? Etop c then n = 10 ^ prec c /\ b <> 0 /\ (ten (Emax c + 1) <= inject_Z n * ten q)%Q
      else (inject_Z n * ten q < ten (Emax c + 1))%Q /\ Etiny c <= e)).
  { assert (Qt : Etiny c <= q) by (subst q; unfold unit_exp; lia).
    destruct (n =? 10 ^ prec c) eqn:X.
    - assert (Xn : n = 10 ^ prec c) by lia. assert (B0 : b <> 0) by (intros ->; subst n; change (0 >? 0) with false in *; cbn iota in *; lia).
      split; [lia|]. assert (Sc : (inject_Z (10 ^ (prec c - 1)) * ten (q + 1) == inject_Z n * ten q)%Q).
      { rewrite (rescaled _ (q + 1) q) by lia. replace (q + 1 - q) with 1 by lia. rewrite scaled_eq. lia. }
      split; [exact Sc|]. destruct (q + 1 >? Etop c) eqn:O.
      + split; [exact Xn|]. split; [exact B0|]. rewrite (Tsplit (Emax c + 1)) by lia. rewrite scaled_le, Xn. apply pow10_le. unfold Etop in O. lia.
      + split; [|unfold Etiny in *; lia]. rewrite (Tsplit (Emax c + 1)) by lia. rewrite scaled_lt, Xn. apply pow10_lt. unfold Etop in O. lia.
    - split; [lia|]. split; [reflexivity|]. replace (q >? Etop c) with false by (unfold Etop; lia). split; [|lia].
      rewrite (Tsplit (Emax c + 1)) by lia. rewrite scaled_lt. pose proof (pow10_le (prec c) (Emax c + 1 - q) ltac:(lia)). lia. }
  destruct (if n =? 10 ^ prec c then (10 ^ (prec c - 1), q + 1) else (n, q)) as [k e] eqn:KE. cbn [fst snd].
  destruct Main as (Kr & Sc & Big). rewrite Inex.
  assert (Sub : (E <? Emin c) = true <-> E < Emin c) by lia.
  assert (BZ : negb (b =? 0) = true <-> b <> 0) by lia.
  split; [|].
  { exists s. split; [exact Sg|]. rewrite Aq. destruct (e >? Etop c) eqn:O.
    - left. destruct Big as (_ & _ & Big). split; [exact Big|]. split; [now apply handle_too_large|]. cbn [opt app]. now left.
    - right. destruct Big as (Big & Et). split; [exact Big|]. split.
      { cbn [opt app]. insig. intro I. repeat match goal with H : _ \/ _ |- _ => destruct H | H : _ /\ _ |- _ => destruct H end; try discriminate; contradiction. }
      exists (to_str k), e. split; [reflexivity|]. split.
      + split; [apply coefficient_to_str; lia|].
        assert (Ln : len (to_str k) <= prec c).
        { destruct (Z.eq_dec k 0) as [->|]; [cbn; lia|]. destruct (digits_of k ltac:(lia)) as (_ & Dk).
          destruct (Z.le_gt_cases (len (to_str k)) (prec c)) as [|G]; [assumption|]. pose proof (pow10_le (prec c) (len (to_str k) - 1) ltac:(lia)). lia. }
        unfold len, Etop, Etiny in *. split; [exact Ln|]. split; [lia|]. destruct (clamp c); lia.
      + unfold value. rewrite number_to_str by lia. rewrite !signed_scale, sgn_inj. exact Sc. }
  split; [|split; [|split; [|split; [|split; [|split]]]]]; insig;
    destruct (e >? Etop c); try (destruct Big as (_ & Big & _)); rewrite <- ?Sub, <- ?BZ, ?andb_true_iff; intuition (try discriminate; try congruence).
Qed.
