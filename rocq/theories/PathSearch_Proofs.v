From Coq Require Import ZArith List Bool Lia ZifyBool ZifyNat Sorted.
From Verif Require Import Py PathSearch_Model PathSearch_Spec.
Import ListNotations.
Open Scope Z_scope.
Ltac Zify.zify_post_hook ::= Z.div_mod_to_equations.

Lemma meets_below c t s : meets (below c t) s <-> meets c s /\ s < t.
Proof.
  unfold meets, below. cbn. destruct (hi c) as [h|]; split.
  - intros [A B]. specialize (B _ eq_refl). repeat split; auto; intros; try lia. injection H as <-. lia.
  - intros [[A B] C]. specialize (B _ eq_refl). split; auto. intros x [= <-]. lia.
  - intros [A B]. specialize (B _ eq_refl). repeat split; auto; intros; try lia. discriminate.
  - intros [[A B] C]. split; auto. intros x [= <-]. lia.
Qed.
Lemma meets_at_least c t s : meets (at_least c t) s <-> meets c s /\ t <= s.
Proof.
  unfold meets, at_least. cbn. destruct (lo c) as [h|]; split.
  - intros [B A]. specialize (B _ eq_refl). repeat split; auto; intros; try lia. injection H as <-. lia.
  - intros [[B A] C]. specialize (B _ eq_refl). split; auto. intros x [= <-]. lia.
  - intros [B A]. specialize (B _ eq_refl). repeat split; auto; intros; try lia. discriminate.
  - intros [[B A] C]. split; auto. intros x [= <-]. lia.
Qed.

Section Path.
Variable sat : cons -> bool.
Variable scores : Z -> Prop.
Hypothesis D : decides sat scores.
Definition adm (c : cons) (s : Z) : Prop := scores s /\ meets c s.
Definition least_adm (c : cons) (m : Z) : Prop := adm c m /\ forall s, adm c s -> m <= s.
Definition pinned (c : cons) (m : Z) : Prop := forall s, adm c s <-> s = m.

Lemma below_lt c t m : least_adm c m -> m < t -> prefer_below sat c t = (true, below c t) /\ least_adm (below c t) m.
Proof.
  intros [[A B] L] H. unfold prefer_below. assert (E : sat (below c t) = true).
  { apply D. exists m. rewrite meets_below. auto. }
  rewrite E. split; [reflexivity|]. split; [split; [assumption|rewrite meets_below; auto]|].
  intros s [S M]. rewrite meets_below in M. apply L. split; tauto.
Qed.
Lemma below_ge c t m : least_adm c m -> t <= m -> prefer_below sat c t = (false, at_least c t) /\ least_adm (at_least c t) m.
Proof.
  intros [[A B] L] H. unfold prefer_below. assert (E : sat (below c t) = false).
  { apply not_true_is_false. intro E. apply D in E as (s & S & M). rewrite meets_below in M.
    assert (m <= s) by (apply L; split; tauto). lia. }
  rewrite E. split; [reflexivity|]. split; [split; [assumption|rewrite meets_at_least; auto]|].
  intros s [S M]. rewrite meets_at_least in M. apply L. split; tauto.
Qed.
Lemma bisect_some n : forall fuel c kmin kmax test m, (Z.to_nat (kmax - kmin) <= n)%nat -> (n < fuel)%nat ->
  kmin < test <= kmax -> least_adm c m -> kmin <= m -> (forall s, adm c s -> s <= kmax) ->
  exists c', bisect sat fuel c kmin (Some kmax) test = Ok (m, c') /\ pinned c' m.
Proof.
  induction n as [|n IH]; intros fuel c kmin kmax test m N F T L K B; [lia|].
  destruct fuel as [|fuel]; [lia|]. cbn [bisect]. destruct (Z.lt_ge_cases m test) as [C|C].
  - destruct (below_lt c test m L C) as [-> L']. cbn iota beta zeta.
    assert (B' : forall s, adm (below c test) s -> s <= test - 1) by (intros s [S M]; rewrite meets_below in M; lia).
    assert (m <= test - 1) by lia. destruct (kmin =? test - 1) eqn:E.
    + exists (below c test). assert (m = kmin) as -> by lia. split; [reflexivity|]. intro s. split.
      * intro A. specialize (B' s A). destruct L' as [_ L']. specialize (L' s A). lia.
      * intros ->. apply L'.
    + apply (IH fuel (below c test)); auto; lia.
  - destruct (below_ge c test m L C) as [-> L']. cbn iota beta zeta.
    assert (B' : forall s, adm (at_least c test) s -> s <= kmax) by (intros s [S M]; rewrite meets_at_least in M; apply B; split; tauto).
    assert (m <= kmax) by (apply B'; apply L'). destruct (test =? kmax) eqn:E.
    + exists (at_least c test). assert (m = test) as -> by lia. split; [reflexivity|]. intro s. split.
      * intro A. specialize (B' s A). destruct L' as [_ L']. specialize (L' s A). lia.
      * intros ->. apply L'.
    + apply (IH fuel (at_least c test)); auto; lia.
Qed.
Lemma bisect_none n : forall c kmin test m, (Z.to_nat (m - test + 1) <= n)%nat -> 1 <= test -> kmin < test ->
  least_adm c m -> kmin <= m ->
  exists N, forall fuel, (N <= fuel)%nat -> exists c', bisect sat fuel c kmin None test = Ok (m, c') /\ pinned c' m.
Proof.
  induction n as [|n IH]; intros c kmin test m Hn T1 T2 L K; destruct (Z.lt_ge_cases m test) as [C|C]; try lia.
  1,2: (exists (S (S (Z.to_nat (test - 1 - kmin)))); intros fuel F; destruct fuel as [|fuel]; [lia|]; cbn [bisect];
    destruct (below_lt c test m L C) as [-> L']; cbn iota beta zeta;
    assert (B' : forall s, adm (below c test) s -> s <= test - 1) by (intros s [S M]; rewrite meets_below in M; lia);
    destruct (kmin =? test - 1) eqn:E;
    [exists (below c test); assert (m = kmin) as -> by lia; split; [reflexivity|]; intro s; split;
      [intro A; specialize (B' s A); destruct L' as [_ L']; specialize (L' s A); lia|intros ->; apply L']
    |apply (bisect_some (Z.to_nat (test - 1 - kmin))); auto; lia]).
  destruct (below_ge c test m L C) as [E L'].
  destruct (IH (at_least c test) test (test * 100) m ltac:(lia) ltac:(lia) ltac:(lia) L' C) as (N & HN).
  exists (S N). intros fuel F. destruct fuel as [|fuel]; [lia|]. cbn [bisect]. rewrite E. cbn iota beta zeta. apply HN. lia.
Qed.
Lemma bisect_best b c m : least_adm c m -> 0 <= m -> 1 <= b -> (forall s, adm c s -> s < b) ->
  exists N, forall fuel, (N <= fuel)%nat -> exists c', bisect sat fuel c 0 (Some b) (b / 2) = Ok (m, c') /\ pinned c' m.
Proof.
  intros L M B H. exists (S (S (Z.to_nat b))). intros fuel F. destruct (Z.eq_dec b 1) as [->|].
  - destruct fuel as [|fuel]; [lia|]. cbn [bisect]. change (1 / 2) with 0.
    destruct (below_ge c 0 m L M) as [-> L']. cbn iota beta zeta. change (0 =? 1) with false. cbn iota.
    change ((0 + 1 + 1) / 2) with 1. apply (bisect_some 1); auto; try lia.
    intros s [S A]. rewrite meets_at_least in A. assert (s < 1) by (apply H; split; tauto). lia.
  - apply (bisect_some (Z.to_nat b)); auto; try lia. intros s A. specialize (H s A). lia.
Qed.

(** The least nonnegative score, if there is a nonnegative score at all *)
Lemma least_exists c x : adm c x -> 0 <= x -> (forall s, adm c s -> 0 <= s) -> exists m, least_adm c m.
Proof.
  intros A X P.
  assert (H : forall n x, (Z.to_nat x <= n)%nat -> adm c x -> 0 <= x -> exists m, least_adm c m).
  { induction n as [|n IH]; intros y N Ay Y.
    - exists y. split; [assumption|]. intros s As. specialize (P s As). lia.
    - destruct (sat (below c y)) eqn:E.
      + apply D in E as (s & S & M). rewrite meets_below in M. assert (As : adm c s) by (split; tauto).
        specialize (P s As). apply (IH s); auto. lia.
      + exists y. split; [assumption|]. intros s [S M]. destruct (Z.lt_ge_cases s y); [|assumption].
        assert (sat (below c y) = true) by (apply D; exists s; rewrite meets_below; auto). congruence. }
  exact (H _ x (le_n _) A X).
Qed.
Lemma one_path_ok best : (forall b, best = Some b -> 0 <= b) ->
  exists N, forall fuel, (N <= fuel)%nat ->
    (exists m c, one_path sat fuel best = Ok (Some (m, c)) /\ least scores m /\ pinned c m /\ forall b, best = Some b -> m < b) \/
    (one_path sat fuel best = Ok None /\ forall s, scores s -> 0 <= s -> exists b, best = Some b /\ b <= s).
Proof.
  intro HB. unfold one_path, prefer_at_least. set (c0 := mkCons None None).
  assert (M0 : forall s, meets c0 s) by (intro s; split; discriminate).
  destruct (sat (at_least c0 0)) eqn:E.
  2:{ exists 0%nat. intros fuel _. right. split; [reflexivity|]. intros s S P. exfalso.
      assert (sat (at_least c0 0) = true); [|congruence]. apply D. exists s. rewrite meets_at_least. auto. }
  apply D in E as (x & Sx & Mx). rewrite meets_at_least in Mx.
  set (c1 := at_least c0 0).
  assert (A1 : forall s, adm c1 s <-> scores s /\ 0 <= s).
  { intro s. unfold adm, c1. rewrite meets_at_least. specialize (M0 s). tauto. }
  destruct (least_exists c1 x) as (m & L); [apply A1; tauto|tauto|intros s A; apply A1 in A; tauto|].
  assert (LS : least scores m).
  { destruct L as [A L]. apply A1 in A. repeat split; try tauto. intros s S P. apply L, A1. auto. }
  clearbody c1. destruct best as [b|].
  - destruct (Z.lt_ge_cases m b) as [C|C].
    + destruct (below_lt c1 b m L C) as [EP L'].
      destruct (bisect_best b (below c1 b) m L') as (N & HN); [apply LS|destruct LS; lia|intros s [_ M]; rewrite meets_below in M; tauto|].
      exists N. intros fuel F. left. destruct (HN fuel F) as (c' & EB & P). rewrite EP. cbn iota beta zeta. rewrite EB.
      exists m, c'. split; [reflexivity|]. split; [assumption|]. split; [assumption|]. now intros b' [= <-].
    + destruct (below_ge c1 b m L C) as [EP L']. exists 0%nat. intros fuel _. right. rewrite EP. cbn iota beta zeta. split; [reflexivity|].
      intros s S P. exists b. split; [reflexivity|]. destruct LS as (_ & _ & LS). specialize (LS s S P). lia.
  - destruct (bisect_none (Z.to_nat (m - 1000 + 1)) c1 0 1000 m) as (N & HN); auto; try lia; [apply LS|].
    exists N. intros fuel F. left. destruct (HN fuel F) as (c' & EB & P). cbn iota beta zeta. rewrite EB.
    exists m, c'. split; [reflexivity|]. split; [assumption|]. split; [assumption|]. discriminate.
Qed.
End Path.

(** *** All paths *)
Lemma search_ok paths : Forall2 decides (map fst paths) (map snd paths) -> forall best shown,
  (forall b, best = Some b -> 0 <= b) ->
  (match shown with [] => True | x :: _ => best = Some x end) -> StronglySorted Z.lt shown ->
  exists N, forall fuel, (N <= fuel)%nat -> exists b l, search fuel (map fst paths) best shown = Ok (b, l) /\
    best_of (fun s => best = Some s \/ Exists (fun p => snd p s) paths) b /\ StronglySorted Z.lt l /\
    match l with [] => True | x :: _ => b = Some x end.
Proof.
  induction paths as [|[sat scores] paths IH]; intros HD best shown HB HS SS; cbn [map search fst].
  - exists 0%nat. intros fuel _. exists best, shown. repeat split; auto. unfold best_of. destruct best as [b|].
    + repeat split; auto. intros s [[= ->]|H] _; [lia|inversion H].
    + intros s [H|H]; [discriminate|inversion H].
  - cbn [map fst snd] in HD. inversion HD as [|? ? ? ? D HD']; subst.
    destruct (one_path_ok sat scores D best HB) as (N1 & H1).
    (* the outcome does not depend on how much fuel there is *)
    destruct (H1 N1 (le_n _)) as [(m & c0 & E1 & L1 & P1 & B1)|(E1 & B1)].
    + assert (U : forall fuel, (N1 <= fuel)%nat -> exists c, one_path sat fuel best = Ok (Some (m, c))).
      { intros fuel F. destruct (H1 fuel F) as [(m' & c & E & L & _)|(E & B)].
        - exists c. replace m with m'; [assumption|]. destruct L as (A & B & C), L1 as (A' & B' & C').
          specialize (C _ B' A'). specialize (C' _ B A). lia.
        - exfalso. destruct L1 as (A' & B' & _). destruct (B _ B' A') as (b & Eb & Hb). specialize (B1 b Eb). lia. }
      assert (SS' : StronglySorted Z.lt (m :: shown)).
      { constructor; [assumption|]. destruct shown as [|x shown]; [constructor|]. specialize (B1 x HS).
        inversion SS; subst. constructor; [lia|]. eapply Forall_impl; [|eassumption]. cbn. lia. }
      destruct (m =? 0) eqn:Z.
      * exists N1. intros fuel F. destruct (U fuel F) as (c & ->). cbn [bind]. rewrite Z. cbn iota. exists (Some m), (m :: shown).
        repeat split; auto; try lia. right. constructor. cbn. apply L1.
      * destruct (IH HD' (Some m) (m :: shown)) as (N2 & H2); [intros b [= <-]; apply L1|reflexivity|assumption|].
        exists (Nat.max N1 N2). intros fuel F. destruct (U fuel ltac:(lia)) as (c & ->). cbn [bind]. rewrite Z.
        destruct (H2 fuel ltac:(lia)) as (b & l & -> & L & S & X). exists b, l. split; [reflexivity|]. split; [|auto].
        unfold best_of in *. destruct b as [b|].
        -- destruct L as (A & B & C). repeat split; auto.
           ++ destruct B as [[= <-]|B]; right; [constructor; cbn; apply L1|now apply Exists_cons_tl].
           ++ intros s [Es|Es] Ps.
              ** specialize (B1 s Es). assert (b <= m) by (apply C; [auto|apply L1]). lia.
              ** inversion Es as [? ? Hs|? ? Hs]; subst; [|apply C; auto]. cbn in Hs.
                 assert (b <= m) by (apply C; [auto|apply L1]). destruct L1 as (_ & _ & L1). specialize (L1 s Hs Ps). lia.
        -- exfalso. specialize (L m (or_introl eq_refl)). destruct L1. lia.
    + assert (U : forall fuel, (N1 <= fuel)%nat -> one_path sat fuel best = Ok None).
      { intros fuel F. destruct (H1 fuel F) as [(m' & c & E & L & _ & B)|(E & _)]; [|assumption].
        exfalso. destruct L as (A' & B' & _). destruct (B1 _ B' A') as (b & Eb & Hb). specialize (B b Eb). lia. }
      destruct (IH HD' best shown HB HS SS) as (N2 & H2).
      exists (Nat.max N1 N2). intros fuel F. rewrite U by lia. cbn [bind].
      destruct (H2 fuel ltac:(lia)) as (b & l & -> & L & S & X). exists b, l. split; [reflexivity|]. split; [|auto].
      unfold best_of in *. destruct b as [b|].
      * destruct L as (A & B & C). repeat split; auto.
        -- destruct B as [B|B]; [auto|right; now apply Exists_cons_tl].
        -- intros s [Es|Es] Ps; [apply C; auto|]. inversion Es as [? ? Hs|? ? Hs]; subst; [|apply C; auto]. cbn in Hs.
           destruct (B1 s Hs Ps) as (b' & Eb & Hb). assert (b <= b') by (apply C; auto). lia.
      * intros s [Es|Es]; [apply L; auto|]. inversion Es as [? ? Hs|? ? Hs]; subst; [|apply L; auto]. cbn in Hs.
        destruct (Z.lt_ge_cases s 0); [assumption|]. destruct (B1 s Hs) as (b' & Eb & Hb); [lia|].
        specialize (L b' (or_introl Eb)). specialize (HB b' Eb). lia.
Qed.
