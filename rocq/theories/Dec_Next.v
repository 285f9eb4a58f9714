(** next_plus and next_minus. *)
From Coq Require Import ZArith QArith Qabs Lqa List Bool Lia ZifyBool ZifyNat.
From Verif Require Import Dec_Model Dec_Spec Dec_OrderSpec Dec_Digits Dec_Round Dec_Fix Dec_Arith Dec_Ops Dec_Nearest Dec_Cmp Dec_Quant Dec_Integral.
Import ListNotations.
Open Scope Z_scope.

(** The neighbours of [x] among the numbers of the context. *)
Definition next_above (c : ctx) (x : Q) (r : dec) : Prop :=
  (exists s i e, r = Fin s i e /\ coefficient i /\ holds c (value s i e) /\ (x < value s i e)%Q /\ forall v, holds c v -> (x < v)%Q -> (value s i e <= v)%Q) \/
  (r = Inf false /\ forall v, holds c v -> (v <= x)%Q).
Definition next_below (c : ctx) (x : Q) (r : dec) : Prop :=
  (exists s i e, r = Fin s i e /\ coefficient i /\ holds c (value s i e) /\ (value s i e < x)%Q /\ forall v, holds c v -> (v < x)%Q -> (v <= value s i e)%Q) \/
  (r = Inf true /\ forall v, holds c v -> (x <= v)%Q).

Lemma holds_units : forall c v, holds c v -> exists k, (v == inject_Z k * ten (Emin c - prec c + 1))%Q.
Proof. intros c v (n & q & V & _ & Q & _). exists (n * 10 ^ (q - (Emin c - prec c + 1))). rewrite V. now apply rescaled. Qed.
Lemma holds_max : forall c v, valid c -> holds c v -> (Qabs v <= inject_Z (10 ^ prec c - 1) * ten (Emax c - prec c + 1))%Q.
Proof.
  intros c v (P1 & Em & EM) (n & q & V & N & Q & B). pose proof (pow10_pos (prec c) ltac:(lia)) as Pp. pose proof (ten_pos q) as Tq. rewrite V, abs_scaled in *.
  destruct (Z.le_gt_cases q (Emax c - prec c + 1)) as [G|G].
  - apply (Qle_trans _ (inject_Z (10 ^ prec c - 1) * ten q)); [rewrite scaled_le; lia|]. apply (proj1 (ten_le _ _)) in G. assert (0 <= inject_Z (10 ^ prec c - 1))%Q by (change 0%Q with (inject_Z 0); rewrite <- Zle_Qle; lia). nra.
  - rewrite (rescaled _ q (Emax c - prec c + 1)) in * by lia. rewrite scaled_le. rewrite (ten_as (Emax c + 1) (Emax c - prec c + 1)) in B by lia. rewrite scaled_lt in B. replace (Emax c + 1 - (Emax c - prec c + 1)) with (prec c) in B by lia. lia.
Qed.
Lemma largest_holds : forall c (s : bool) i e, valid c -> coefficient i -> number i = 10 ^ prec c - 1 -> e = Emax c - prec c + 1 -> holds c (value s i e).
Proof.
  intros c s i e (P1 & Em & EM) C N ->. pose proof (pow10_pos (prec c) ltac:(lia)) as Pp. exists (signed s (number i)), (Emax c - prec c + 1). split; [reflexivity|]. split; [destruct s; cbn [signed]; lia|]. split; [lia|].
  rewrite value_abs by assumption. rewrite N, (ten_as (Emax c + 1) (Emax c - prec c + 1)) by lia. rewrite scaled_lt. replace (Emax c + 1 - (Emax c - prec c + 1)) with (prec c) by lia. lia.
Qed.

Lemma ceiling_cases : forall c x r sigs, valid c -> rounded c x r sigs -> rounding c = CEILING ->
  (r = Inf false /\ In Overflow sigs /\ forall v, holds c v -> (v < x)%Q) \/
  (exists s i e, r = Fin s i e /\ coefficient i /\ holds c (value s i e) /\ (x <= value s i e)%Q /\ (forall v, holds c v -> x <= v -> value s i e <= v)%Q /\
     (In Overflow sigs -> forall v, holds c v -> (x < v)%Q)).
Proof.
  intros c x r sigs V R M. pose proof V as (P1 & Em & EM). pose proof R as (E & n & L & Rn & (s & Sx & [(O & T & I)|(O & NI & i & e & -> & Ft & Vv)]) & _).
  2:{ right. exists s, i, e. split; [reflexivity|]. split; [exact (proj1 Ft)|]. split; [exact (rounded_holds c x s i e sigs V R NI)|]. destruct (ceiling_least c x s i e sigs V R NI M) as (A & B). split; [exact A|]. split; [exact B|]. intro; contradiction. }
  unfold too_large in T. rewrite M in *. cbn [rounds] in Rn. remember (Z.max (E - prec c + 1) (Emin c - prec c + 1)) as q eqn:Eq. destruct Rn as (R1 & R2). pose proof (ten_pos q) as Tq. pose proof (ten_pos (- q)) as Tq'.
  rewrite abs_scaled in O. destruct s.
  - right. destruct T as (i & e & -> & C & N & Ee). exists true, i, e. split; [reflexivity|]. split; [assumption|]. split; [now apply largest_holds|].
    assert (Xl : (x <= - ten (Emax c + 1))%Q).
    { assert (n <= 0). { assert (H : (inject_Z n < inject_Z 0 + 1)%Q) by (change (inject_Z 0) with 0%Q; nra). now apply inject_lt1. } rewrite Z.abs_neq in O by assumption. rewrite inject_Z_opp in O.
      apply (unit_ge x) in R1. lra. }
    assert (Vr : (value true i e == - (inject_Z (10 ^ prec c - 1) * ten (Emax c - prec c + 1)))%Q) by (rewrite value_sgn; cbn [sgn]; rewrite N, Ee; reflexivity).
    assert (All : forall v, holds c v -> (value true i e <= v)%Q) by (intros v H; pose proof (holds_max c v V H) as B; rewrite Qabs_Qle_condition in B; lra).
    assert (Lr : (inject_Z (10 ^ prec c - 1) * ten (Emax c - prec c + 1) < ten (Emax c + 1))%Q).
    { rewrite (ten_as (Emax c + 1) (Emax c - prec c + 1)) by lia. rewrite scaled_lt. replace (Emax c + 1 - (Emax c - prec c + 1)) with (prec c) by lia. lia. }
    split; [lra|]. split; [intros v H _; now apply All|]. intros _ v H. specialize (All v H). lra.
  - left. split; [exact T|]. split; [exact I|]. intros v H. destruct (Qlt_le_dec v x) as [|G]; [assumption|exfalso].
    assert (Nv : (inject_Z n * ten q <= v)%Q).
    { destruct (between c x v E V H L) as (k & K). rewrite <- Eq in K. assert (Kx : (x <= inject_Z k * ten q /\ inject_Z k * ten q <= v)%Q) by (destruct K as [(K1 & K2)|(K1 & K2)]; lra).
      destruct Kx as (K1 & K2). apply (Qle_trans _ _ _ (proj2 (scaled_le _ _ _) (inject_lt1 n k ltac:(apply unit_ge in K1; lra))) K2). }
    assert (n > 0). { assert (H0 : (inject_Z 0 < inject_Z n)%Q) by (change (inject_Z 0) with 0%Q; nra). rewrite <- Zlt_Qlt in H0. lia. }
    rewrite Z.abs_eq in O by lia. destruct H as (_ & _ & _ & _ & _ & B). rewrite Qabs_pos in B by lra. lra.
Qed.
Lemma floor_cases : forall c x r sigs, valid c -> rounded c x r sigs -> rounding c = FLOOR ->
  (r = Inf true /\ In Overflow sigs /\ forall v, holds c v -> (x < v)%Q) \/
  (exists s i e, r = Fin s i e /\ coefficient i /\ holds c (value s i e) /\ (value s i e <= x)%Q /\ (forall v, holds c v -> v <= x -> v <= value s i e)%Q /\
     (In Overflow sigs -> forall v, holds c v -> (v < x)%Q)).
Proof.
  intros c x r sigs V R M. pose proof V as (P1 & Em & EM). pose proof R as (E & n & L & Rn & (s & Sx & [(O & T & I)|(O & NI & i & e & -> & Ft & Vv)]) & _).
  2:{ right. exists s, i, e. split; [reflexivity|]. split; [exact (proj1 Ft)|]. split; [exact (rounded_holds c x s i e sigs V R NI)|]. destruct (floor_greatest c x s i e sigs V R NI M) as (A & B). split; [exact A|]. split; [exact B|]. intro; contradiction. }
  unfold too_large in T. rewrite M in *. cbn [rounds] in Rn. remember (Z.max (E - prec c + 1) (Emin c - prec c + 1)) as q eqn:Eq. destruct Rn as (R1 & R2). pose proof (ten_pos q) as Tq. pose proof (ten_pos (- q)) as Tq'.
  rewrite abs_scaled in O. destruct s.
  - left. split; [exact T|]. split; [exact I|]. intros v H. destruct (Qlt_le_dec x v) as [|G]; [assumption|exfalso].
    assert (Nv : (v <= inject_Z n * ten q)%Q).
    { destruct (between c x v E V H L) as (k & K). rewrite <- Eq in K. assert (Kx : (v <= inject_Z k * ten q /\ inject_Z k * ten q <= x)%Q) by (destruct K as [(K1 & K2)|(K1 & K2)]; lra).
      destruct Kx as (K1 & K2). apply (Qle_trans _ _ _ K1). apply scaled_le. apply inject_lt1. apply unit_le in K2. lra. }
    assert (n < 0). { assert (H0 : (inject_Z n < inject_Z 0)%Q) by (change (inject_Z 0) with 0%Q; nra). rewrite <- Zlt_Qlt in H0. lia. }
    rewrite Z.abs_neq in O by lia. rewrite inject_Z_opp in O. destruct H as (_ & _ & _ & _ & _ & B). rewrite Qabs_neg in B by lra. lra.
  - right. destruct T as (i & e & -> & C & N & Ee). exists false, i, e. split; [reflexivity|]. split; [assumption|]. split; [now apply largest_holds|].
    assert (Xl : (ten (Emax c + 1) <= x)%Q).
    { assert (0 <= n). { assert (H : (inject_Z 0 < inject_Z n + 1)%Q) by (change (inject_Z 0) with 0%Q; nra). now apply inject_lt1. } rewrite Z.abs_eq in O by assumption.
      apply (unit_le x) in R1. lra. }
    assert (Vr : (value false i e == inject_Z (10 ^ prec c - 1) * ten (Emax c - prec c + 1))%Q) by (rewrite value_sgn; cbn [sgn]; rewrite N, Ee; reflexivity).
    assert (All : forall v, holds c v -> (v <= value false i e)%Q) by (intros v H; pose proof (holds_max c v V H) as B; rewrite Qabs_Qle_condition in B; lra).
    assert (Lr : (inject_Z (10 ^ prec c - 1) * ten (Emax c - prec c + 1) < ten (Emax c + 1))%Q).
    { rewrite (ten_as (Emax c + 1) (Emax c - prec c + 1)) by lia. rewrite scaled_lt. replace (Emax c + 1 - (Emax c - prec c + 1)) with (prec c) by lia. lia. }
    split; [lra|]. split; [intros v H _; now apply All|]. intros _ v H. specialize (All v H). lra.
Qed.

(** Only Overflow may be trapped. *)
Definition traps_overflow_at_most (c : ctx) : Prop := forall s, traps c s = true -> s = Overflow \/ s = InvalidOperation \/ s = DivisionByZero \/ s = FloatOperation.
Lemma report_overflow : forall c sigs r f, in_order sigs -> traps_overflow_at_most c ->
  (fst (report c sigs r f) = Ret r \/ fst (report c sigs r f) = Raise Overflow /\ traps c Overflow = true /\ In Overflow sigs).
Proof.
  intros c sigs r f (has & ->) T. cbn [filter].
  assert (N : forall s, s <> Overflow -> s <> InvalidOperation -> s <> DivisionByZero -> s <> FloatOperation -> traps c s = false).
  { intros s A B C D. destruct (traps c s) eqn:H; [|reflexivity]. destruct (T s H) as [|[|[|]]]; contradiction. }
  assert (K : forall l g, Forall (fun s => traps c s = false) l -> fst (report c l r g) = Ret r).
  { induction l as [|a l IH]; intros g F; [reflexivity|]. inversion F; subst. cbn [report]. rewrite H1. now apply IH. }
  assert (F : forall h : signal -> bool, Forall (fun s => traps c s = false) (filter h [Underflow; Subnormal; Inexact; Rounded; Clamped])).
  { intro h. rewrite Forall_forall. intros s I. apply filter_In in I. destruct I as (I & _). apply N; intros ->; cbn in I; intuition discriminate. }
  destruct (has Overflow) eqn:H.
  - cbn [report]. destruct (traps c Overflow) eqn:O; [right; cbn; auto|]. left. apply K. exact (F has).
  - left. apply K. exact (F has).
Qed.

Lemma tiny_gap : forall c x v, holds c x -> holds c v -> (x < v)%Q -> (x + ten (Emin c - prec c + 1 - 1) < v)%Q.
Proof.
  intros c x v Hx Hv L. destruct (holds_units c x Hx) as (a & A). destruct (holds_units c v Hv) as (b & B). rewrite A, B in *. rewrite scaled_lt in L.
  remember (Emin c - prec c + 1) as t. assert (G : (inject_Z a * ten t + ten t <= inject_Z b * ten t)%Q).
  { setoid_replace (inject_Z a * ten t + ten t)%Q with (inject_Z (a + 1) * ten t)%Q by (rewrite inject_Z_plus; change (inject_Z 1) with 1%Q; ring). rewrite scaled_le. lia. }
  assert (T : (ten (t - 1) < ten t)%Q) by (apply (proj1 (ten_lt _ _)); lia). lra.
Qed.
Lemma tiny_value : forall e, Qeq (value false [1] e) (ten e).
Proof. intro e. unfold value. cbn. ring. Qed.
Lemma one_coefficient : coefficient [1].
Proof. split; [repeat constructor; unfold is_digit; lia|]. split; [discriminate|cbn; lia]. Qed.
Lemma zero_holds : forall c x, valid c -> (x == 0)%Q -> holds c x.
Proof.
  intros c x (P1 & Em & EM) H. exists 0, 0. split; [rewrite H; ring|]. split; [pose proof (pow10_pos (prec c)); lia|]. split; [lia|]. rewrite H. apply ten_pos.
Qed.
Lemma bind_split : forall {A} (m : M A) (k : A -> M A) f, (exists r, fst (m f) = Ret r) \/ (exists s, fst (m f) = Raise s) ->
  (forall r, fst (m f) = Ret r -> exists g, bind m k f = k r g) /\ (forall s, fst (m f) = Raise s -> fst (bind m k f) = Raise s).
Proof.
  intros A m k f H. unfold bind. destruct (m f) as [o g] eqn:E. cbn [fst] in *. split.
  - intros r ->. now exists g.
  - intros s ->. reflexivity.
Qed.


Section Next.
Variables (c : ctx) (s : bool) (i : list Z) (e : Z).
Hypotheses (V : valid c) (C : coefficient i) (Nat_ : native c = false) (T : traps_overflow_at_most c).
Let x := value s i e.

Theorem next_plus_ok : forall f, exists r, next_above c x r /\
  (next_plus c (Fin s i e) f = (Ret r, f) \/
   next_plus c (Fin s i e) f = (Raise Overflow, f) /\ traps c Overflow = true /\ (r = Inf false \/ forall v, holds c v -> (x < v)%Q)).
Proof.
  intro f. unfold next_plus. rewrite no_nans by (reflexivity || exact I). unfold next_by. rewrite Nat_. cbv zeta.
  remember (with_rounding c CEILING) as c' eqn:Ec. assert (V' : valid c') by (subst c'; exact V). assert (M' : rounding c' = CEILING) by (subst c'; reflexivity).
  assert (H' : forall v, holds c' v <-> holds c v) by (subst c'; intro; reflexivity). assert (T' : traps_overflow_at_most c') by (subst c'; exact T).
  assert (Tr : traps c' = traps c) by (subst c'; reflexivity). assert (Et : Etiny c' = Emin c - prec c + 1) by (subst c'; reflexivity).
  destruct (fix_delivers c' s i e x V' C (Qeq_refl _)) as (D0 & D1).
  (* the second step, when the first returns [x] itself *)
  assert (Second : forall g, holds c x -> exists r, next_above c x r /\
    (fst (add c' (Fin s i e) (Fin false [1] (Etiny c' - 1)) g) = Ret r \/
     fst (add c' (Fin s i e) (Fin false [1] (Etiny c' - 1)) g) = Raise Overflow /\ traps c Overflow = true /\ (r = Inf false \/ forall v, holds c v -> (x < v)%Q))).
  { intros g Hx. assert (Sx : Qeq (x + value false [1] (Etiny c' - 1)) (x + ten (Emin c - prec c + 1 - 1))) by (rewrite tiny_value, Et; reflexivity).
    pose proof (delivers_eq _ _ _ _ _ _ Sx (add_delivers c' s i e false [1] (Etiny c' - 1) V' C one_coefficient)) as (_ & A). rewrite Et in *.
    pose proof (ten_pos (Emin c - prec c + 1 - 1)) as Tp. remember (ten (Emin c - prec c + 1 - 1)) as t eqn:Ett.
    destruct A as (r & sigs & Fr & R & O & _).
    { intro Z0. destruct (holds_units c x Hx) as (k & K). assert (H0 : holds c 0%Q) by (apply zero_holds; [exact V|reflexivity]). pose proof (tiny_gap c x 0%Q Hx H0 ltac:(lra)) as Q0. rewrite <- Ett in Q0. lra. }
    assert (NA : next_above c x r /\ (In Overflow sigs -> r = Inf false)).
    { destruct (ceiling_cases c' _ r sigs V' R M') as [(-> & I & B)|(s2 & i2 & e2 & -> & C2 & H2 & B1 & B2 & B3)].
      - split; [|auto]. right. split; [reflexivity|]. intros v Hv. destruct (Qlt_le_dec x v) as [G|G]; [|exact G]. pose proof (tiny_gap c x v Hx Hv G). rewrite <- Ett in H. specialize (B v (proj2 (H' v) Hv)). lra.
      - split; [left; exists s2, i2, e2; split; [reflexivity|]; split; [assumption|]; split; [now apply H'|]; split; [lra|]; intros v Hv G; apply B2; [now apply H'|]; pose proof (tiny_gap c x v Hx Hv G) as Q; rewrite <- Ett in Q; lra|].
        intro I. exfalso. specialize (B3 I x (proj2 (H' x) Hx)). lra. }
    destruct NA as (NA & NO). exists r. split; [exact NA|]. rewrite Fr. destruct (report_overflow c' sigs r g O T') as [E|(E & E2 & E3)]; [now left|]. right. rewrite <- Tr. auto. }
  destruct (Qeq_dec x 0) as [X0|X0].
  - destruct (D0 X0) as (e' & F & _). assert (Or : in_order (if e' =? e then [] else [Clamped])) by (destruct (e' =? e); [exists (fun _ => false); reflexivity|exists (fun y => match y with Clamped => true | _ => false end); reflexivity]).
    assert (Hx : holds c x) by (now apply zero_holds).
    destruct (report_overflow c' _ (Fin s [0] e') f Or T') as [E|(E & _ & I)]; [|exfalso; destruct (e' =? e); cbn in I; intuition discriminate]. rewrite <- F in E.
    unfold on_copy, bind. destruct (fix_ c' (Fin s i e) f) as [o g] eqn:Eo. cbn [fst] in E. subst o.
    assert (Cm : (cmp (Fin s [0] e') (Fin s i e) =? 0) = true). { apply cmp_zero; [apply coefficient0|assumption|]. fold x. rewrite X0. apply value_zero; [apply coefficient0|reflexivity]. }
    rewrite Cm. cbn [negb]. destruct (Second g Hx) as (r & NA & [E|(E & E2)]); exists r; (split; [exact NA|]); rewrite E; auto.
  - destruct (D1 X0) as (r0 & sigs & F & R & O & _).
    unfold on_copy, bind. pose proof (report_overflow c' sigs r0 f O T') as K. rewrite <- F in K. rewrite Tr in K.
    destruct (ceiling_cases c' x r0 sigs V' R M') as [(-> & I & B)|(s2 & i2 & e2 & -> & C2 & H2 & B1 & B2 & B3)].
    + exists (Inf false). split; [right; split; [reflexivity|]; intros v Hv; apply Qlt_le_weak, B; now apply H'|]. destruct (fix_ c' (Fin s i e) f) as [o g] eqn:Eo. cbn [fst] in K. destruct K as [->|(-> & K2 & _)]; [|right; auto].
      left. cbn [cmp isinfinity]. change (1 =? 0) with false. cbn [negb fst]. cbn. reflexivity.
    + destruct (Qeq_dec (value s2 i2 e2) x) as [Eq|Ne].
      * assert (Hx : holds c x). { destruct H2 as (n & q & Q1 & Q2 & Q3 & Q4). apply H'. exists n, q. rewrite <- Eq. auto. }
        assert (NO : ~ In Overflow sigs) by (intro I; specialize (B3 I x (proj2 (H' x) Hx)); lra).
        destruct K as [K|(_ & _ & K)]; [|contradiction]. destruct (fix_ c' (Fin s i e) f) as [o g] eqn:Eo. cbn [fst] in K. subst o.
        assert (Cm : (cmp (Fin s2 i2 e2) (Fin s i e) =? 0) = true) by (now apply cmp_zero). rewrite Cm. cbn [negb].
        destruct (Second g Hx) as (r & NA & [E|(E & E2)]); exists r; (split; [exact NA|]); rewrite E; auto.
      * exists (Fin s2 i2 e2). split.
        { left. exists s2, i2, e2. split; [reflexivity|]. split; [assumption|]. split; [now apply H'|]. split; [apply Qle_lt_or_eq in B1; destruct B1 as [B1|B1]; [exact B1|exfalso; apply Ne; now symmetry]|]. intros v Hv G. apply B2; [now apply H'|lra]. }
        destruct (fix_ c' (Fin s i e) f) as [o g] eqn:Eo. cbn [fst] in K. destruct K as [->|(-> & K2 & K3)].
        -- left. assert (Cm : (cmp (Fin s2 i2 e2) (Fin s i e) =? 0) = false). { destruct (_ =? 0) eqn:Q; [|reflexivity]. apply cmp_zero in Q; auto. contradiction. } rewrite Cm. reflexivity.
        -- right. split; [reflexivity|]. split; [assumption|]. right. intros v Hv. apply (B3 K3). now apply H'.
Qed.
Theorem next_minus_ok : forall f, exists r, next_below c x r /\
  (next_minus c (Fin s i e) f = (Ret r, f) \/
   next_minus c (Fin s i e) f = (Raise Overflow, f) /\ traps c Overflow = true /\ (r = Inf true \/ forall v, holds c v -> (v < x)%Q)).
Proof.
  intro f. unfold next_minus. rewrite no_nans by (reflexivity || exact I). unfold next_by. rewrite Nat_. cbv zeta.
  remember (with_rounding c FLOOR) as c' eqn:Ec. assert (V' : valid c') by (subst c'; exact V). assert (M' : rounding c' = FLOOR) by (subst c'; reflexivity).
  assert (H' : forall v, holds c' v <-> holds c v) by (subst c'; intro; reflexivity). assert (T' : traps_overflow_at_most c') by (subst c'; exact T).
  assert (Tr : traps c' = traps c) by (subst c'; reflexivity). assert (Et : Etiny c' = Emin c - prec c + 1) by (subst c'; reflexivity).
  destruct (fix_delivers c' s i e x V' C (Qeq_refl _)) as (D0 & D1).
  (* the second step, when the first returns [x] itself *)
  assert (Second : forall g, holds c x -> exists r, next_below c x r /\
    (fst (sub c' (Fin s i e) (Fin false [1] (Etiny c' - 1)) g) = Ret r \/
     fst (sub c' (Fin s i e) (Fin false [1] (Etiny c' - 1)) g) = Raise Overflow /\ traps c Overflow = true /\ (r = Inf true \/ forall v, holds c v -> (v < x)%Q))).
  { intros g Hx. assert (Sx : Qeq (x - value false [1] (Etiny c' - 1)) (x - ten (Emin c - prec c + 1 - 1))) by (rewrite tiny_value, Et; reflexivity).
    pose proof (delivers_eq _ _ _ _ _ _ Sx (sub_delivers c' s i e false [1] (Etiny c' - 1) V' C one_coefficient)) as (_ & A). rewrite Et in *.
    pose proof (ten_pos (Emin c - prec c + 1 - 1)) as Tp. remember (ten (Emin c - prec c + 1 - 1)) as t eqn:Ett.
    destruct A as (r & sigs & Fr & R & O & _).
    { intro Z0. destruct (holds_units c x Hx) as (k & K). assert (H0 : holds c 0%Q) by (apply zero_holds; [exact V|reflexivity]). pose proof (tiny_gap c 0%Q x H0 Hx ltac:(lra)) as Q0. rewrite <- Ett in Q0. lra. }
    assert (NA : next_below c x r /\ (In Overflow sigs -> r = Inf true)).
    { destruct (floor_cases c' _ r sigs V' R M') as [(-> & I & B)|(s2 & i2 & e2 & -> & C2 & H2 & B1 & B2 & B3)].
      - split; [|auto]. right. split; [reflexivity|]. intros v Hv. destruct (Qlt_le_dec v x) as [G|G]; [|exact G]. pose proof (tiny_gap c v x Hv Hx G). rewrite <- Ett in H. specialize (B v (proj2 (H' v) Hv)). lra.
      - split; [left; exists s2, i2, e2; split; [reflexivity|]; split; [assumption|]; split; [now apply H'|]; split; [lra|]; intros v Hv G; apply B2; [now apply H'|]; pose proof (tiny_gap c v x Hv Hx G) as Q; rewrite <- Ett in Q; lra|].
        intro I. exfalso. specialize (B3 I x (proj2 (H' x) Hx)). lra. }
    destruct NA as (NA & NO). exists r. split; [exact NA|]. rewrite Fr. destruct (report_overflow c' sigs r g O T') as [E|(E & E2 & E3)]; [now left|]. right. rewrite <- Tr. auto. }
  destruct (Qeq_dec x 0) as [X0|X0].
  - destruct (D0 X0) as (e' & F & _). assert (Or : in_order (if e' =? e then [] else [Clamped])) by (destruct (e' =? e); [exists (fun _ => false); reflexivity|exists (fun y => match y with Clamped => true | _ => false end); reflexivity]).
    assert (Hx : holds c x) by (now apply zero_holds).
    destruct (report_overflow c' _ (Fin s [0] e') f Or T') as [E|(E & _ & I)]; [|exfalso; destruct (e' =? e); cbn in I; intuition discriminate]. rewrite <- F in E.
    unfold on_copy, bind. destruct (fix_ c' (Fin s i e) f) as [o g] eqn:Eo. cbn [fst] in E. subst o.
    assert (Cm : (cmp (Fin s [0] e') (Fin s i e) =? 0) = true). { apply cmp_zero; [apply coefficient0|assumption|]. fold x. rewrite X0. apply value_zero; [apply coefficient0|reflexivity]. }
    rewrite Cm. cbn [negb]. destruct (Second g Hx) as (r & NA & [E|(E & E2)]); exists r; (split; [exact NA|]); rewrite E; auto.
  - destruct (D1 X0) as (r0 & sigs & F & R & O & _).
    unfold on_copy, bind. pose proof (report_overflow c' sigs r0 f O T') as K. rewrite <- F in K. rewrite Tr in K.
    destruct (floor_cases c' x r0 sigs V' R M') as [(-> & I & B)|(s2 & i2 & e2 & -> & C2 & H2 & B1 & B2 & B3)].
    + exists (Inf true). split; [right; split; [reflexivity|]; intros v Hv; apply Qlt_le_weak, B; now apply H'|]. destruct (fix_ c' (Fin s i e) f) as [o g] eqn:Eo. cbn [fst] in K. destruct K as [->|(-> & K2 & _)]; [|right; auto].
      left. cbn [cmp isinfinity]. change (-1 =? 0) with false. cbn [negb fst]. cbn. reflexivity.
    + destruct (Qeq_dec (value s2 i2 e2) x) as [Eq|Ne].
      * assert (Hx : holds c x). { destruct H2 as (n & q & Q1 & Q2 & Q3 & Q4). apply H'. exists n, q. rewrite <- Eq. auto. }
        assert (NO : ~ In Overflow sigs) by (intro I; specialize (B3 I x (proj2 (H' x) Hx)); lra).
        destruct K as [K|(_ & _ & K)]; [|contradiction]. destruct (fix_ c' (Fin s i e) f) as [o g] eqn:Eo. cbn [fst] in K. subst o.
        assert (Cm : (cmp (Fin s2 i2 e2) (Fin s i e) =? 0) = true) by (now apply cmp_zero). rewrite Cm. cbn [negb].
        destruct (Second g Hx) as (r & NA & [E|(E & E2)]); exists r; (split; [exact NA|]); rewrite E; auto.
      * exists (Fin s2 i2 e2). split.
        { left. exists s2, i2, e2. split; [reflexivity|]. split; [assumption|]. split; [now apply H'|]. split; [apply Qle_lt_or_eq in B1; destruct B1 as [B1|B1]; [exact B1|exfalso; apply Ne; exact B1]|]. intros v Hv G. apply B2; [now apply H'|lra]. }
        destruct (fix_ c' (Fin s i e) f) as [o g] eqn:Eo. cbn [fst] in K. destruct K as [->|(-> & K2 & K3)].
        -- left. assert (Cm : (cmp (Fin s2 i2 e2) (Fin s i e) =? 0) = false). { destruct (_ =? 0) eqn:Q; [|reflexivity]. apply cmp_zero in Q; auto. contradiction. } rewrite Cm. reflexivity.
        -- right. split; [reflexivity|]. split; [assumption|]. right. intros v Hv. apply (B3 K3). now apply H'.
Qed.
End Next.
