(** Neighbours and square roots of decimals. *)
From Coq Require Import ZArith QArith Qabs Lqa List Bool Lia ZifyBool ZifyNat.
From Verif Require Import Dec_Model Dec_Spec Dec_OrderSpec Dec_Digits Dec_Round Dec_Fix Dec_Arith Dec_Ops Dec_Special Dec_Order Dec_Quant Dec_Integral Dec_Next Dec_Sqrt Properties_DecArith.
Import ListNotations.
Open Scope Z_scope.

(** * C93: next_plus and next_minus
    The full claim: for every context, the result is the nearest number of the context strictly above (below) x,
    and nothing is signaled.  Missing: contexts that are the interpreter's own ([native]), contexts that trap a
    signal of rounding; both are refuted below. *)
Theorem dec_next_plus_partial : forall c s i e f, valid c -> coefficient i -> native c = false -> traps_overflow_at_most c ->
  exists r, next_above c (value s i e) r /\
  (next_plus c (Fin s i e) f = (Ret r, f) \/
   next_plus c (Fin s i e) f = (Raise Overflow, f) /\ traps c Overflow = true /\ (r = Inf false \/ forall v, holds c v -> (value s i e < v)%Q)).
Proof. intros c s i e f V C N T. exact (next_plus_ok c s i e V C N T f). Qed.
Theorem dec_next_minus_partial : forall c s i e f, valid c -> coefficient i -> native c = false -> traps_overflow_at_most c ->
  exists r, next_below c (value s i e) r /\
  (next_minus c (Fin s i e) f = (Ret r, f) \/
   next_minus c (Fin s i e) f = (Raise Overflow, f) /\ traps c Overflow = true /\ (r = Inf true \/ forall v, holds c v -> (v < value s i e)%Q)).
Proof. intros c s i e f V C N T. exact (next_minus_ok c s i e V C N T f). Qed.
Lemma nines : forall n, number (repeat 9 n) = 10 ^ Z.of_nat n - 1 /\ Forall is_digit (repeat 9 n).
Proof.
  induction n as [|n (IH & IH')]; [split; [reflexivity|constructor]|]. cbn [repeat number]. rewrite repeat_length, IH. split; [|constructor; [unfold is_digit; lia|assumption]].
  rewrite Nat2Z.inj_succ, Z.pow_succ_r by lia. lia.
Qed.
(** The neighbours of the infinities: the largest numbers. *)
Theorem dec_next_infinite : forall c f, valid c ->
  next_plus c (Inf false) f = (Ret (Inf false), f) /\ next_minus c (Inf true) f = (Ret (Inf true), f) /\
  (exists i e, next_minus c (Inf false) f = (Ret (Fin false i e), f) /\ coefficient i /\ holds c (value false i e) /\ forall v, holds c v -> (v <= value false i e)%Q) /\
  (exists i e, next_plus c (Inf true) f = (Ret (Fin true i e), f) /\ coefficient i /\ holds c (value true i e) /\ forall v, holds c v -> (value true i e <= v)%Q).
Proof.
  intros c f V. pose proof V as (P1 & _). destruct (nines (Z.to_nat (prec c))) as (N & D). rewrite Z2Nat.id in N by lia.
  assert (C : coefficient (repeat 9 (Z.to_nat (prec c)))).
  { split; [assumption|]. destruct (Z.to_nat (prec c)) eqn:E; [lia|]. cbn [repeat hd]. split; [discriminate|lia]. }
  split; [reflexivity|]. split; [reflexivity|]. split; eexists _, _; (split; [reflexivity|]); (split; [exact C|]); (split; [apply largest_holds; auto|]); intros v H;
    pose proof (holds_max c v V H) as B; rewrite Qabs_Qle_condition in B; rewrite value_sgn; cbn [sgn]; rewrite N; unfold Etop; lra.
Qed.
Theorem dec_next_nan : forall c x f g s p, valid c -> canonical x -> x = NaN g s p ->
  let passes o := exists r, quieted c x r /\ o = report c (if g then [InvalidOperation] else []) r f in
  passes (next_plus c x f) /\ passes (next_minus c x f).
Proof. intros c x f g s p V C ->. cbv zeta. split; now apply unary_nan. Qed.
(** Refuted: without an explicit context, the calls fail. *)
Theorem dec_next_native_refuted : exists c x, valid c /\ canonical x /\ (forall s, traps c s = false) /\ forall f, next_plus c x f = (AttrError, f) /\ next_minus c x f = (AttrError, f).
Proof. exists (Ctx 3 HALF_EVEN (-5) 5 false (fun _ => false) true), (Fin false [1] 0). split; [unfold valid; cbn; lia|]. split; [apply one_coefficient|]. split; [reflexivity|]. intro f. split; reflexivity. Qed.
(** Refuted: a trap of Overflow, which is on by default, or of Inexact, fires although these operations must signal nothing. *)
Definition trapping (t : signal) : ctx := Ctx 3 HALF_EVEN (-5) 5 false (fun s => match s, t with Overflow, Overflow | Inexact, Inexact => true | _, _ => false end) false.
Theorem dec_next_traps_refuted :
  (exists x, canonical x /\ next_above (trapping Overflow) (value false [9;9;9] 3) (Inf false) /\ x = Fin false [9;9;9] 3 /\ forall f, next_plus (trapping Overflow) x f = (Raise Overflow, f)) /\
  (exists x, canonical x /\ x = Fin false [1] 0 /\ forall f, next_plus (trapping Inexact) x f = (Raise Inexact, f) /\ next_minus (trapping Inexact) x f = (Raise Inexact, f)).
Proof.
  split.
  - exists (Fin false [9;9;9] 3). split; [apply digits3; lia|]. split; [|split; [reflexivity|intro f; reflexivity]]. right. split; [reflexivity|]. intros v H.
    assert (V : valid (trapping Overflow)) by (unfold valid; cbn; lia). pose proof (holds_max _ v V H) as B. rewrite Qabs_Qle_condition in B. destruct B as (_ & B). exact B.
  - exists (Fin false [1] 0). split; [apply one_coefficient|]. split; [reflexivity|]. intro f. split; reflexivity.
Qed.
Example ex_next : next_plus small (Fin false [1] 0) [] = (Ret (Fin false [1;0;1] (-2)), []) /\ next_minus small (Fin false [1] 0) [] = (Ret (Fin false [9;9;9] (-3)), []) /\
  next_plus small (Fin true [1] (-7)) [] = (Ret (Fin true [0] (-7)), []) /\ next_plus small (Fin false [9;9;9] 3) [] = (Ret (Inf false), []) /\
  next_minus small (Fin false [1;2;3;4] 0) [] = (Ret (Fin false [1;2;3] 1), []) /\ next_minus small (Inf false) [] = (Ret (Fin false [9;9;9] 3), []) /\
  valid small /\ native small = false /\ traps_overflow_at_most small /\ traps_overflow_at_most (trapping Overflow).
Proof. repeat (split; [reflexivity|]). split; [exact small_valid|]. split; [reflexivity|]. split; [intros s H; discriminate|]. intros s H. destruct s; cbn in H; try discriminate. now left. Qed.

(** * C94: sqrt
    The full claim is for every context; missing: the interpreter's own contexts, refuted below. *)
Theorem dec_sqrt_partial : forall c i e f, valid c -> native c = false -> coefficient i -> 0 < number i ->
  exists r sigs, sqrt c (Fin false i e) f = report c sigs r f /\ root_rounded c (value false i e) r sigs /\ in_order sigs.
Proof.
  intros c i e f V N C P. destruct (proj1 (sqrt_ok c i e V N C P) f) as (r & sigs & E & R & O). exists r, sigs. split; [|auto]. rewrite E. clear.
  revert f. induction sigs as [|a l IH]; intro f; cbn [report]; [reflexivity|]. change (traps (half_even c) a) with (traps c a). destruct (traps c a); [reflexivity|apply IH].
Qed.
(** An exact root of at most prec + 1 digits is delivered with the ideal exponent. *)
Theorem dec_sqrt_exact_partial : forall c i e k, valid c -> native c = false -> coefficient i -> 0 < number i ->
  0 < k < 10 ^ (prec c + 1) -> (value false i e == inject_Z k * ten (e / 2) * (inject_Z k * ten (e / 2)))%Q ->
  delivers (Ctx (prec c) HALF_EVEN (Emin c) (Emax c) (clamp c) (traps c) (native c)) (inject_Z k * ten (e / 2)) false (e / 2) (sqrt c (Fin false i e)).
Proof. intros c i e k V N C P K X. exact (proj2 (sqrt_ok c i e V N C P) k K X). Qed.
Theorem dec_sqrt_special : forall c f, valid c ->
  (forall s i e, coefficient i -> number i = 0 -> delivers c 0 s (e / 2) (sqrt c (Fin s i e))) /\
  (forall i e, coefficient i -> 0 < number i -> sqrt c (Fin true i e) f = report c [InvalidOperation] (NaN false false []) f) /\
  sqrt c (Inf false) f = (Ret (Inf false), f) /\ sqrt c (Inf true) f = report c [InvalidOperation] (NaN false false []) f /\
  (forall g s p, canonical (NaN g s p) -> exists r, quieted c (NaN g s p) r /\ sqrt c (NaN g s p) f = report c (if g then [InvalidOperation] else []) r f).
Proof.
  intros c f V. split; [|split; [|split; [reflexivity|split]]].
  - intros s i e C Z0. assert (Z1 : is0 i = true) by (now apply is0_iff). apply (delivers_ext _ _ _ _ (fix_ c (Fin s [0] (e / 2)))).
    + intro g. unfold sqrt. rewrite no_nans by (reflexivity || exact I). now rewrite Z1.
    + apply fix_delivers; [assumption|apply coefficient0|]. symmetry. apply value_zero; [apply coefficient0|reflexivity].
  - intros i e C P. assert (Z1 : is0 i = false) by (now apply is0_false). unfold sqrt. rewrite no_nans by (reflexivity || exact I). rewrite Z1. apply raise_report.
  - unfold sqrt. rewrite no_nans by (reflexivity || exact I). apply raise_report.
  - intros g s p C. now apply unary_nan.
Qed.
Theorem dec_sqrt_native_refuted : exists c x, valid c /\ canonical x /\ (forall s, traps c s = false) /\ forall f, sqrt c x f = (AttrError, f).
Proof. exists (Ctx 3 HALF_EVEN (-5) 5 false (fun _ => false) true), (Fin false [2] 0). split; [unfold valid; cbn; lia|]. split; [split; [repeat constructor; unfold is_digit; lia|split; [discriminate|cbn; lia]]|]. split; [reflexivity|]. intro f. vm_compute. reflexivity. Qed.
Example ex_sqrt : sqrt small (Fin false [2] 0) [] = (Ret (Fin false [1;4;1] (-2)), [Rounded; Inexact]) /\ sqrt small (Fin false [1;0;0] (-2)) [] = (Ret (Fin false [1;0] (-1)), []) /\
  sqrt small (Fin false [1] (-14)) [] = (Ret (Fin false [1] (-7)), [Subnormal]) /\ sqrt small (Fin true [0] 5) [] = (Ret (Fin true [0] 2), []) /\
  Qeq (value false [1;0;0] (-2)) (inject_Z 10 * ten (-2 / 2) * (inject_Z 10 * ten (-2 / 2))).
Proof. repeat (split; [vm_compute; reflexivity|]). vm_compute. reflexivity. Qed.

Print Assumptions dec_next_plus_partial.
Print Assumptions dec_next_minus_partial.
Print Assumptions dec_next_infinite.
Print Assumptions dec_next_nan.
Print Assumptions dec_next_native_refuted.
Print Assumptions dec_next_traps_refuted.
Print Assumptions dec_sqrt_partial.
Print Assumptions dec_sqrt_exact_partial.
Print Assumptions dec_sqrt_special.
Print Assumptions dec_sqrt_native_refuted.
