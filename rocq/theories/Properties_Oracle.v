(** C156, C157: the heuristics that choose between open branches. *)
From Coq Require Import ZArith QArith Qround List Bool Lia ZifyBool ZifyNat Lqa.
From Verif Require Import Py Oracle_Model Oracle_Spec Oracle_Proofs.
Import ListNotations.
Open Scope Z_scope.
Open Scope list_scope.

Section Coverage.
Variable cond : Type.

Definition cov_event (e : event cond) (s : cov) : res cov :=
  match e with
  | EPre r1 r2 => cov_pre r1 r2 s
  | EDecide b p => Ok (snd (cov_decide cond b p s))
  | EPost p => cov_post p s
  end.
Fixpoint cov_run (es : list (event cond)) (s : cov) : res cov :=
  match es with [] => Ok s | e :: r => do s' <- cov_event e s; cov_run r s' end.

Lemma cov_run_app : forall es1 es2 s,
  cov_run (es1 ++ es2) s = do s' <- cov_run es1 s; cov_run es2 s'.
Proof.
  induction es1 as [|e es1 IH]; intros es2 s; [reflexivity|]. cbn [app cov_run].
  destruct (cov_event e s); cbn [bind]; [apply IH|reflexivity].
Qed.

Lemma paths_of_snoc : forall es (e : event cond),
  paths_of (es ++ [e]) = paths_of [e] ++ paths_of es.
Proof.
  induction es as [|x es IH]; intros e; [cbn [app]; rewrite app_nil_r; reflexivity|].
  cbn [app]. destruct x; cbn [paths_of] in *; rewrite IH; [reflexivity|reflexivity|].
  rewrite app_assoc. reflexivity.
Qed.
Lemma objects_in_snoc : forall es (e : event cond),
  objects_in (es ++ [e]) = objects_in [e] ++ objects_in es.
Proof.
  induction es as [|x es IH]; intros e; [cbn [app]; rewrite app_nil_r; reflexivity|].
  cbn [app]. destruct x; cbn [objects_in] in *; rewrite IH; [reflexivity| |];
    rewrite app_assoc; reflexivity.
Qed.

Lemma cov_decide_state : forall b p s, 0 < fst (b_obj cond b) ->
  snd (cov_decide cond b p s) = s \/
  snd (cov_decide cond b p s) = snd (internalize (b_obj cond b) s).
Proof.
  intros b p s P. unfold cov_decide.
  destruct p as [q|]; [destruct (fixed (Some q)); [left; reflexivity|]|cbn [fixed]];
    right; destruct (internalize (b_obj cond b) s) as [u s1]; destruct (get u (probs s1)); reflexivity.
Qed.

Lemma event_safe : forall e s, proper_event e -> safe s ->
  exists s', cov_event e s = Ok s' /\ safe s'.
Proof.
  intros e s PE S. destruct e as [r1 r2|b p|p]; cbn [cov_event proper_event] in *.
  - destruct PE as [R0 R1]. destruct (cov_pre_ok r1 r2 s R0 R1 S) as [ps [E W]].
    rewrite E. eexists. split; [reflexivity|].
    destruct S as [S1 [S2 [S3 [S4 S5]]]].
    split; [exact S1|]. split; [exact S2|]. split; [exact S3|]. split; [exact S4|].
    cbn [probs]. intros u q G. destruct W as [->|[l [ks [_ [Gp _]]]]]; [discriminate|].
    rewrite Gp in G. destruct (0 <? u); [|discriminate]. exact (dprob_values _ _ _ G).
  - eexists. split; [reflexivity|].
    destruct (cov_decide_state b p s PE) as [Y|Y]; rewrite Y; [exact S|].
    destruct (internalize (b_obj cond b) s) as [u s1] eqn:EI.
    apply (internalize_safe _ _ _ _ S PE EI).
  - destruct (post_loop_safe p [] [] s PE S) as [s' [E [S' _]]]; [intros k []|].
    unfold cov_post. rewrite E. cbn [bind]. eexists. split; [reflexivity|].
    destruct S' as [S1 [S2 [S3 [S4 S5]]]].
    split; [exact S1|]. split; [exact S2|]. split; [exact S3|]. split; [exact S4|exact S5].
Qed.

Lemma run_safe : forall es s, Forall proper_event es -> safe s ->
  exists s', cov_run es s = Ok s' /\ safe s'.
Proof.
  induction es as [|e es IH]; intros s F S; [exists s; split; [reflexivity|exact S]|].
  inversion F as [|? ? P F']; subst. cbn [cov_run].
  destruct (event_safe e s P S) as [s1 [E S1]]. rewrite E. cbn [bind]. apply IH; assumption.
Qed.

(** The first part of C156: whatever the paths so far, the heuristic does not fail; its
    answer is a probability; a decision that the engine has fixed stays fixed, and one
    that it has not fixed stays open. *)
Theorem C156_coverage_safe : forall (es : list (event cond)) b p,
  Forall proper_event es -> 0 < fst (b_obj cond b) ->
  (forall q, p = Some q -> probability q) ->
  exists s, cov_run es cov0 = Ok s /\
    let q := fst (cov_decide cond b p s) in
    probability q /\
    (forall e, p = Some e -> (e == 0 \/ e == 1)%Q -> q = e) /\
    ((forall e, p = Some e -> 0 < e /\ e < 1)%Q -> (0 < q /\ q < 1)%Q).
Proof.
  intros es b p F P PR. destruct (run_safe es cov0 F safe0) as [s [E S]].
  exists s. split; [exact E|]. cbn zeta. unfold cov_decide.
  assert (FX : forall q, fixed (Some q) = true <-> (q == 0 \/ q == 1)%Q).
  { intros q. cbn [fixed]. rewrite orb_true_iff, !Qeq_bool_iff. tauto. }
  destruct (internalize (b_obj cond b) s) as [u s1] eqn:EI.
  destruct (internalize_safe _ _ _ _ S P EI) as [Pu [S1 _]].
  assert (V : forall t, get u (probs s1) = Some t ->
    (0 < (if b_pos cond b then t else 1 - t) /\ (if b_pos cond b then t else 1 - t) < 1)%Q).
  { intros t G. destruct S1 as [_ [_ [_ [_ S5]]]].
    destruct (S5 u t G) as [X|[X|X]]; subst t; destruct (b_pos cond b);
      (split; [unfold Qlt|unfold Qlt]; cbn; lia). }
  destruct p as [e|].
  - destruct (fixed (Some e)) eqn:FE.
    + cbn [fst]. split; [exact (PR e eq_refl)|]. split.
      * intros e' [= <-] _. reflexivity.
      * intros H. exact (H e eq_refl).
    + assert (NF : ~ (e == 0 \/ e == 1)%Q) by (intros H; apply FX in H; congruence).
      destruct (get u (probs s1)) as [t|] eqn:G; cbn [fst].
      * destruct (V t eq_refl) as [V0 V1]. split; [split; lra|]. split.
        { intros e' [= <-] H. contradiction. }
        { intros _. split; assumption. }
      * split; [exact (PR e eq_refl)|]. split.
        { intros e' [= <-] H. contradiction. }
        { intros H. exact (H e eq_refl). }
  - cbn [fixed]. destruct (get u (probs s1)) as [t|] eqn:G; cbn [fst].
    + destruct (V t eq_refl) as [V0 V1]. split; [split; lra|]. split; [discriminate|].
      intros _. split; assumption.
    + split; [split; lra|]. split; [discriminate|]. intros _. split; lra.
Qed.

(* ---- the bias *)
Definition whole (es : list (event cond)) (s : cov) : Prop :=
  safe s /\ ids_ok (objects_in es) s /\ led_ok (paths_of es) s /\
  (forall l, visits_of (visits s) l = times (paths_of es) l) /\
  (forall l, In l (map fst (summ s)) -> exists p, In p (paths_of es) /\ In l (seen p)).

Lemma decide_whole : forall b p s objs,
  ids_ok objs s -> unshared (b_obj cond b :: objs) -> 0 < fst (b_obj cond b) ->
  let s' := snd (cov_decide cond b p s) in
  ids_ok (b_obj cond b :: objs) s' /\ ids_grow s s' /\ same_but_ids s s'.
Proof.
  intros b p s objs I U P. cbn zeta.
  destruct (cov_decide_state b p s P) as [Y|Y]; rewrite Y.
  - split; [apply (ids_ok_sub objs); [exact I|intros x H; right; exact H]|].
    split; [intros t u G; exact G|]. split; [reflexivity|]. split; [reflexivity|].
    split; reflexivity.
  - destruct (internalize (b_obj cond b) s) as [u s1] eqn:EI.
    destruct (internalize_ok objs _ s u s1 I U P EI) as [A [B [C _]]].
    cbn [snd]. split; [exact A|]. split; [exact B|exact C].
Qed.

Lemma run_whole : forall es,
  Forall proper_event es -> unshared (objects_in es) ->
  exists s, cov_run es cov0 = Ok s /\ whole es s.
Proof.
  induction es as [|e es IH] using rev_ind; intros F U.
  - exists cov0. split; [reflexivity|]. split; [apply safe0|].
    split; [split; [discriminate|discriminate]|]. split; [|split].
    + split; [intros l t v [p [[] _]]|]. intros l k. split; [intros []|].
      intros [t [v [[p [[] _]] _]]].
    + reflexivity.
    + intros l [].
  - apply Forall_app in F. destruct F as [F FE]. inversion FE as [|? ? PE _]; subst.
    rewrite objects_in_snoc in U.
    destruct IH as [s [E [S [I [L [V K]]]]]]; [exact F| |].
    { apply (unshared_sub _ _ U). intros x H. apply in_app_iff. right. exact H. }
    rewrite cov_run_app, E. cbn [bind cov_run].
    destruct (event_safe e s PE S) as [s' [E' S']]. rewrite E'. cbn [bind].
    exists s'. split; [reflexivity|]. unfold whole.
    rewrite paths_of_snoc, objects_in_snoc. split; [exact S'|].
    destruct e as [r1 r2|b p|p]; cbn [cov_event paths_of objects_in app] in *.
    + destruct PE as [R0 R1]. destruct (cov_pre_ok r1 r2 s R0 R1 S) as [ps [Ep _]].
      rewrite Ep in E'. injection E' as <-.
      split; [exact I|]. split; [exact L|]. split; [exact V|exact K].
    + injection E' as <-.
      destruct (decide_whole b p s (objects_in es) I) as [A [G [Z1 [Z2 [Z3 Z4]]]]]; [exact U|exact PE|].
      split; [exact A|]. split; [exact (led_ok_grow _ s _ L G Z3)|].
      rewrite Z1, Z3. split; [exact V|exact K].
    + destruct (post_loop_ok p [] (paths_of es) (objects_in es) [] [] s)
        as [s1 [EL [I1 [L1 [F1 [F2 [F3 F4]]]]]]].
      * intros x [].
      * exact PE.
      * exact U.
      * exact I.
      * split; [|split].
        { intros l. split; [intros []|intros [x [[] _]]]. }
        { intros t v [x [[] _]]. }
        { intros k. split; [intros []|intros [t [v [[x [[] _]] _]]]]. }
      * apply (led_cong (paths_of es)); [|exact L].
        intros l t v. rewrite led_cons. pose proof (led_nil l t v). tauto.
      * destruct (post_loop_safe p [] [] s PE S) as [s2 [EL2 [_ K2]]]; [intros k []|].
        rewrite EL in EL2. injection EL2 as <-.
        unfold cov_post in E'. rewrite EL in E'. cbn [bind app] in E'. injection E' as <-.
        split; [exact I1|]. split; [exact L1|]. split.
        { intros l. cbn [visits]. rewrite count_visits, F1, V. unfold times.
          cbn [flat_map]. rewrite count_occ_app. lia. }
        { intros l H. cbn [summ] in H. destruct (K2 l H) as [H'|H'].
          - destruct (K l H') as [q [Iq Hq]]. exists q. split; [right; exact Iq|exact Hq].
          - exists p. split; [left; reflexivity|exact H']. }
Qed.

Definition is_decide (e : event cond) : Prop :=
  match e with EDecide _ _ => True | _ => False end.

Lemma decides_keep : forall ds s s' objs,
  Forall is_decide ds -> Forall proper_event ds -> unshared (objects_in ds ++ objs) ->
  ids_ok objs s -> cov_run ds s = Ok s' ->
  ids_ok (objects_in ds ++ objs) s' /\ ids_grow s s' /\ same_but_ids s s'.
Proof.
  induction ds as [|e ds IH] using rev_ind; intros s s' objs D F U I R.
  - injection R as <-. split; [exact I|]. split; [intros t u G; exact G|].
    split; [reflexivity|]. split; [reflexivity|]. split; reflexivity.
  - apply Forall_app in D. destruct D as [D DE]. inversion DE as [|? ? De _]; subst.
    apply Forall_app in F. destruct F as [F FE]. inversion FE as [|? ? PE _]; subst.
    destruct e as [r1 r2|b p|p]; [destruct De| |destruct De].
    rewrite objects_in_snoc in *. cbn [objects_in app] in *.
    rewrite cov_run_app in R. destruct (cov_run ds s) as [s1|x] eqn:R1; [|discriminate].
    cbn [bind cov_run cov_event] in R. injection R as <-.
    destruct (IH s s1 objs D F) as [I1 [G1 [A1 [A2 [A3 A4]]]]]; auto.
    { apply (unshared_sub _ _ U). intros x H. right. exact H. }
    destruct (decide_whole b p s1 _ I1 U PE) as [I2 [G2 [B1 [B2 [B3 B4]]]]].
    split; [exact I2|]. split; [intros t u G; exact (G2 _ _ (G1 _ _ G))|].
    split; [congruence|]. split; [congruence|]. split; congruence.
Qed.

(** The second part of C156.  Let any sequence of paths have been searched, and a path
    begin.  Then either there is no bias, or the heuristic aims at some location [l] that
    an earlier path has passed, and it answers every later question of that path by what
    it saw: if the condition was only ever true before [l] was first reached, then "true"
    gets 90%; if it was only ever false, 10%; if both, 25%; else the engine's
    probability, or 25%.  A question about the negation gets the complement.  If the
    random number is small enough, [l] is passed least often of all locations known.
    This needs that no two objects that hold different conditions had the same id(). *)
Theorem C156_bias_partial : forall (es ds : list (event cond)) r1 r2 s0 s1 s2,
  Forall proper_event es -> Forall proper_event ds -> Forall is_decide ds ->
  (0 <= r2)%Q -> (r2 < 1)%Q ->
  unshared (objects_in ds ++ objects_in es) ->
  cov_run es cov0 = Ok s0 -> cov_pre r1 r2 s0 = Ok s1 -> cov_run ds s1 = Ok s2 ->
  let default (p : option Q) := match p with Some e => e | None => 1 # 4 end in
  (forall b p, fixed p = false -> 0 < fst (b_obj cond b) ->
     fst (cov_decide cond b p s2) = default p) \/
  exists l,
    (exists path, In path (paths_of es) /\ In l (seen path)) /\
    ((r2 * inject_Z (Z.of_nat (length (summ s0))) < 1)%Q ->
     forall l' t v, led (paths_of es) l' t v ->
       (times (paths_of es) l <= times (paths_of es) l')%nat) /\
    forall b p, fixed p = false -> 0 < fst (b_obj cond b) ->
      unshared (b_obj cond b :: objects_in ds ++ objects_in es) ->
      exists q, bias (paths_of es) l (snd (b_obj cond b)) q /\
        fst (cov_decide cond b p s2) =
        match q with
        | Some t => (if b_pos cond b then t else 1 - t)%Q
        | None => default p
        end.
Proof.
  intros es ds r1 r2 s0 s1 s2 F FD D R0 R1 U E0 E1 E2. cbn zeta.
  destruct (run_whole es F) as [s0' [E0' [S [I [[K C] [V KN]]]]]].
  { apply (unshared_sub _ _ U). intros x H. apply in_app_iff. right. exact H. }
  rewrite E0 in E0'. injection E0' as <-.
  destruct (cov_pre_ok r1 r2 s0 R0 R1 S) as [ps [Ep W]]. rewrite Ep in E1. injection E1 as <-.
  assert (I1 : ids_ok (objects_in es)
           (mkCov (visits s0) (iters s0) (summ s0) ps (expr_id s0) (id_id s0))) by exact I.
  destruct (decides_keep ds _ s2 (objects_in es) D FD U I1 E2) as [I2 [G2 [Z1 [Z2 [Z3 Z4]]]]].
  cbn [probs summ] in Z3, Z4.
  assert (S2 : safe s2).
  { assert (P1 : proper_event (@EPre cond r1 r2)) by (split; assumption).
    destruct (event_safe _ s0 P1 S) as [s1' [Ex Sx]]. cbn [cov_event] in Ex.
    rewrite Ep in Ex. injection Ex as <-.
    destruct (run_safe ds _ FD Sx) as [s2' [Ey Sy]]. rewrite E2 in Ey. injection Ey as <-.
    exact Sy. }
  assert (DEC : forall b p, fixed p = false -> 0 < fst (b_obj cond b) ->
    forall u s3, internalize (b_obj cond b) s2 = (u, s3) ->
    fst (cov_decide cond b p s2) =
      match get u ps with
      | Some t => (if b_pos cond b then t else 1 - t)%Q
      | None => match p with Some e => e | None => 1 # 4 end
      end).
  { intros b p Fx P u s3 EI. unfold cov_decide. rewrite EI.
    assert (Pp : probs s3 = ps).
    { rewrite <- Z4. unfold internalize in EI. destruct (b_obj cond b) as [a e].
      destruct (truthy (get a (id_id s2))); [injection EI as <- <-; reflexivity|].
      destruct (truthy (get e (expr_id s2))); injection EI as <- <-; reflexivity. }
    destruct p as [q|]; rewrite ?Fx, Pp; destruct (get u ps); reflexivity. }
  destruct W as [->|[l [ks [Il [Gp M]]]]].
  - left. intros b p Fx P. destruct (internalize (b_obj cond b) s2) as [u s3] eqn:EI.
    rewrite (DEC b p Fx P u s3 EI). reflexivity.
  - right. exists l.
    assert (Gl : get l (summ s0) = Some ks).
    { apply In_get; [|exact Il]. apply S. }
    assert (Sl : sm s0 l = ks) by (unfold sm; rewrite Gl; reflexivity).
    split; [apply KN; apply in_map_iff; exists (l, ks); split; [reflexivity|exact Il]|].
    split.
    { intros R l' t v L'. rewrite <- !V.
      destruct (K _ _ _ L') as [u Hu].
      assert (In (sgn v u) (sm s0 l')).
      { apply C. exists t, v. split; [exact L'|]. exists u. split; [exact Hu|reflexivity]. }
      unfold sm in H. destruct (get l' (summ s0)) as [ks'|] eqn:G'; [|destruct H].
      apply get_In in G'. exact (M R _ G'). }
    intros b p Fx P Ub. destruct (internalize (b_obj cond b) s2) as [u s3] eqn:EI.
    rewrite (DEC b p Fx P u s3 EI), Gp.
    destruct (internalize_ok _ _ _ _ _ I2 Ub P EI) as [I3 [G3 [_ Gu]]].
    assert (Pu : 0 < u) by (apply (internalize_safe _ _ _ _ S2 P EI)).
    destruct (Z.ltb_spec 0 u); [|lia].
    set (t := snd (b_obj cond b)) in *.
    assert (MEM : forall v, mem (sgn v u) ks = true <-> led (paths_of es) l t v).
    { intros v. rewrite mem_In, <- Sl, C. split.
      - intros [t' [v' [L' [u' [Gu' Ek]]]]].
        assert (Pu' : 0 < u') by exact (proj1 S _ _ Gu').
        assert (u' = u /\ v' = v).
        { destruct v, v'; cbn [sgn] in Ek; split; try lia; try reflexivity. }
        destruct H0 as [-> ->].
        assert (t' = t).
        { apply (ids_inj _ s3 t' t u I3 Ub); [|exact Gu]. apply G3, G2. exact Gu'. }
        subst t'. exact L'.
      - intros L'. destruct (K _ _ _ L') as [u' Hu'].
        exists t, v. split; [exact L'|]. exists u'. split; [exact Hu'|].
        assert (Hx : get t (expr_id s3) = Some u') by (apply G3, G2; exact Hu').
        rewrite Gu in Hx. injection Hx as ->. reflexivity. }
    pose proof (MEM true) as MT. pose proof (MEM false) as MF. cbn [sgn] in MT, MF.
    unfold delta_of, bias.
    destruct (mem u ks); destruct (mem (- u) ks); cbn [option_map].
    + exists (Some (1 # 4)). split; [|reflexivity].
      right. right. left. split; [tauto|]. split; [tauto|reflexivity].
    + exists (Some (9 # 10)). split; [|reflexivity].
      left. split; [tauto|]. split; [|reflexivity]. intros H'. apply MF in H'. discriminate.
    + exists (Some (1 # 10)). split; [|reflexivity].
      right. left. split; [intros H'; apply MT in H'; discriminate|]. split; [tauto|reflexivity].
    + exists None. split; [|reflexivity].
      right. right. right. split; [intros H'; apply MT in H'; discriminate|].
      split; [intros H'; apply MF in H'; discriminate|reflexivity].
Qed.
End Coverage.
Print Assumptions C156_coverage_safe.
Print Assumptions C156_bias_partial.

(** A run: one path asked condition 5 at location 1 (true), then reached location 2 and
    asked condition 6 there.  The next path aims at location 2 and prefers 5 true. *)
Definition first_path : list step :=
  [SNode 1 false true (100, 5) NPos; SNode 2 false false (101, 6) NNeg].
Definition ask (a t : Z) (pos : bool) : branch unit := mkBranch unit 1 pos (a, t) tt.
Example C156_bias_example :
  led [first_path] 2 5 true /\ ~ led [first_path] 2 5 false /\
  exists s0 s1,
    cov_run unit [EPost first_path; EPost first_path; EPost first_path] cov0 = Ok s0 /\
    cov_pre 0 (3 # 4) s0 = Ok s1 /\
    fst (cov_decide unit (ask 102 5 true) None s1) = (9 # 10)%Q /\
    fst (cov_decide unit (ask 102 5 false) None s1) = (1 - (9 # 10))%Q /\
    fst (cov_decide unit (ask 102 7 true) None s1) = (1 # 4)%Q.
Proof.
  split; [|split].
  - exists first_path. split; [left; reflexivity|].
    exists [SNode 1 false true (100, 5) NPos], (SNode 2 false false (101, 6) NNeg), [],
      false, (101, 6), NNeg.
    split; [reflexivity|]. split; [reflexivity|]. split; [|split].
    + intros x [<-|[]] [mv [pos [o [n E]]]]. discriminate.
    + intros x [<-|[]] [l [mv [pos [o E]]]]. discriminate.
    + eexists. split; [left; reflexivity|]. exists 1, false, true, 100. left. split; reflexivity.
  - intros [p [[<-|[]] [pre [s [post [pos [o [n [E [Es [F [D [x [I W]]]]]]]]]]]]]].
    unfold first_path in E. destruct pre as [|y [|z pre]].
    + destruct I.
    + injection E as E1 E2 E3. subst y. destruct I as [X|[]]. subst x.
      destruct W as [l [mv [q [a [[X V]|[X V]]]]]]; injection X; intros; subst; discriminate.
    + injection E as E1 E2 E3. destruct pre; discriminate.
  - eexists. eexists. split; [vm_compute; reflexivity|]. split; [vm_compute; reflexivity|].
    split; [vm_compute; reflexivity|]. split; vm_compute; reflexivity.
Qed.

(** Without the assumption about id() the bias is wrong.  An object at address 102 held
    condition 5 and was freed; condition 8, which no path has asked before, is then held
    by an object at the same address: it is taken for condition 5 and biased. *)
Theorem C156_id_refuted : exists (es ds : list (event unit)) s0 s1 s2 b,
  Forall proper_event es /\ Forall proper_event ds /\ Forall (is_decide unit) ds /\
  cov_run unit es cov0 = Ok s0 /\ cov_pre 0 (3 # 4) s0 = Ok s1 /\ cov_run unit ds s1 = Ok s2 /\
  (forall l v, ~ led (paths_of es) l (snd (b_obj unit b)) v) /\
  0 < fst (b_obj unit b) /\
  fst (cov_decide unit b None s2) = (9 # 10)%Q.
Proof.
  exists [EPost first_path; EPost first_path; EPost first_path],
    [EDecide (ask 102 5 true) None].
  eexists. eexists. eexists. exists (ask 102 8 true).
  assert (P : Forall proper_step first_path).
  { constructor; [split; [reflexivity|discriminate]|].
    constructor; [split; [reflexivity|discriminate]|constructor]. }
  split; [constructor; [exact P|constructor; [exact P|constructor; [exact P|constructor]]]|].
  split; [constructor; [reflexivity|constructor]|].
  split; [constructor; [exact I|constructor]|].
  split; [vm_compute; reflexivity|]. split; [vm_compute; reflexivity|].
  split; [vm_compute; reflexivity|].
  split; [|split; [reflexivity|vm_compute; reflexivity]].
  intros l v [p [Ip [pre [s [post [pos [o [n [E [Es [F [D [x [Ix W]]]]]]]]]]]]]].
  assert (Hp : p = first_path) by (destruct Ip as [H|[H|[H|[]]]]; auto). rewrite Hp in E.
  assert (Ix' : In x first_path) by (rewrite E; apply in_app_iff; left; exact Ix).
  destruct Ix' as [<-|[<-|[]]]; destruct W as [l' [mv [q [a [[X V]|[X V]]]]]]; cbn in X; discriminate.
Qed.
Print Assumptions C156_id_refuted.

(* ------------------------------------------------------------------ C157 *)
Section Compose.
Variable cond : Type.
Variable neg : cond -> cond.
Notation oracle := (oracle cond).
Notation decide := (decide cond neg).

(** A well-formed oracle: lists to rotate over are not empty, their index is in range. *)
Fixpoint good (o : oracle) : Prop :=
  match o with
  | OCoverage _ s => safe s
  | OBreadth _ | ONegative _ => True
  | OConstrained _ i _ => good i
  | ORotating _ os i =>
      os <> [] /\ -1 <= i < Z.of_nat (length os) /\
      (fix go (l : list oracle) : Prop :=
         match l with [] => True | x :: r => good x /\ go r end) os
  end.
Definition goods (l : list oracle) : Prop := Forall good l.
Lemma goods_go : forall l,
  (fix go (l : list oracle) : Prop :=
     match l with [] => True | x :: r => good x /\ go r end) l <-> goods l.
Proof.
  induction l as [|x l IH]; [split; [constructor|trivial]|]. rewrite IH. split.
  - intros [A B]. constructor; assumption.
  - intros H. inversion H; subst. split; assumption.
Qed.

Fixpoint oracle_rect' (P : oracle -> Prop)
  (H1 : forall s, P (OCoverage cond s)) (H2 : P (OBreadth cond)) (H3 : P (ONegative cond))
  (H4 : forall i es, P i -> P (OConstrained cond i es))
  (H5 : forall os i, Forall P os -> P (ORotating cond os i)) (o : oracle) : P o :=
  match o with
  | OCoverage _ s => H1 s
  | OBreadth _ => H2
  | ONegative _ => H3
  | OConstrained _ i es => H4 i es (oracle_rect' P H1 H2 H3 H4 H5 i)
  | ORotating _ os i =>
      H5 os i ((fix go (l : list oracle) : Forall P l :=
                  match l with
                  | [] => Forall_nil P
                  | x :: r => Forall_cons x (oracle_rect' P H1 H2 H3 H4 H5 x) (go r)
                  end) os)
  end.

Lemma place_ok : forall n i, (0 < n)%nat -> -1 <= i < Z.of_nat n ->
  exists k, place n i = Some k /\ (k < n)%nat.
Proof.
  intros n i N B. unfold place. destruct (Z.ltb_spec i 0).
  - destruct (Z.leb_spec 0 (i + Z.of_nat n)); [|lia].
    destruct (Z.ltb_spec (i + Z.of_nat n) (Z.of_nat n)); [|lia].
    eexists. split; [reflexivity|]. lia.
  - destruct (Z.leb_spec 0 i); [|lia]. destruct (Z.ltb_spec i (Z.of_nat n)); [|lia].
    eexists. split; [reflexivity|]. lia.
Qed.

Lemma pre_good : forall r1 r2, (0 <= r2)%Q -> (r2 < 1)%Q -> forall o, good o ->
  exists o', pre_path cond r1 r2 o = Ok o' /\ good o'.
Proof.
  intros r1 r2 R0 R1. apply (oracle_rect' (fun o => good o -> exists o', pre_path cond r1 r2 o = Ok o' /\ good o')).
  - intros s G. destruct (event_safe cond (EPre r1 r2) s (conj R0 R1) G) as [s' [E S]].
    cbn [cov_event] in E. cbn [pre_path]. rewrite E. exists (OCoverage cond s').
    split; [reflexivity|exact S].
  - intros G. exists (OBreadth cond). split; [reflexivity|exact G].
  - intros G. exists (ONegative cond). split; [reflexivity|exact G].
  - intros i es IH G. destruct (IH G) as [i' [E G']]. cbn [pre_path]. rewrite E.
    exists (OConstrained cond i' []). split; [reflexivity|exact G'].
  - intros os i IH [N [B G]]. apply goods_go in G.
    assert (X : exists os', (fix go (l : list oracle) : res (list oracle) :=
                 match l with
                 | [] => Ok []
                 | x :: r => do x' <- pre_path cond r1 r2 x; do r' <- go r; Ok (x' :: r')
                 end) os = Ok os' /\ goods os' /\ length os' = length os).
    { clear N B. induction os as [|x os IHos]; [exists []; split; [reflexivity|split; [constructor|reflexivity]]|].
      inversion IH as [|? ? Hx Hr]; subst. inversion G as [|? ? Gx Gr]; subst.
      destruct (Hx Gx) as [x' [Ex Gx']]. destruct (IHos Hr Gr) as [r' [Er [Gr' L]]].
      exists (x' :: r'). rewrite Ex. cbn [bind]. rewrite Er.
      split; [reflexivity|]. split; [constructor; assumption|cbn [length]; lia]. }
    destruct X as [os' [E [G' L]]]. cbn [pre_path]. destruct os as [|x0 os0]; [congruence|].
    set (os := x0 :: os0) in *. clearbody os. rewrite E. cbn [bind].
    eexists. split; [reflexivity|]. assert (length os <> O) by (destruct os; [congruence|discriminate]).
    cbn [good]. split; [intros ->; cbn in L; lia|]. split.
    + rewrite L. pose proof (Z.mod_pos_bound (i + 1) (Z.of_nat (length os))). lia.
    + apply goods_go. exact G'.
Qed.

Lemma post_good : forall p, Forall proper_step p -> forall o, good o ->
  exists o', post_path cond p o = Ok o' /\ good o'.
Proof.
  intros p PP. apply (oracle_rect' (fun o => good o -> exists o', post_path cond p o = Ok o' /\ good o')).
  - intros s G. destruct (event_safe cond (EPost p) s PP G) as [s' [E S]].
    cbn [cov_event] in E. cbn [post_path]. rewrite E. exists (OCoverage cond s').
    split; [reflexivity|exact S].
  - intros G. exists (OBreadth cond). split; [reflexivity|exact G].
  - intros G. exists (ONegative cond). split; [reflexivity|exact G].
  - intros i es IH G. destruct (IH G) as [i' [E G']]. cbn [post_path]. rewrite E.
    exists (OConstrained cond i' es). split; [reflexivity|exact G'].
  - intros os i IH [N [B G]]. apply goods_go in G.
    assert (X : exists os', (fix go (l : list oracle) : res (list oracle) :=
                 match l with
                 | [] => Ok []
                 | x :: r => do x' <- post_path cond p x; do r' <- go r; Ok (x' :: r')
                 end) os = Ok os' /\ goods os' /\ length os' = length os).
    { clear N B. induction os as [|x os IHos]; [exists []; split; [reflexivity|split; [constructor|reflexivity]]|].
      inversion IH as [|? ? Hx Hr]; subst. inversion G as [|? ? Gx Gr]; subst.
      destruct (Hx Gx) as [x' [Ex Gx']]. destruct (IHos Hr Gr) as [r' [Er [Gr' L]]].
      exists (x' :: r'). rewrite Ex. cbn [bind]. rewrite Er.
      split; [reflexivity|]. split; [constructor; assumption|cbn [length]; lia]. }
    destruct X as [os' [E [G' L]]]. cbn [post_path]. rewrite E. cbn [bind].
    eexists. split; [reflexivity|]. cbn [good].
    split; [intros ->; destruct os; [congruence|discriminate]|].
    split; [rewrite L; exact B|]. apply goods_go. exact G'.
Qed.

Lemma bfs_probability : forall w b p, (forall q, p = Some q -> probability q) ->
  probability (bfs_decide cond w b p).
Proof.
  intros w b p PR. unfold bfs_decide. destruct (counts cond w (b_loc cond b)) as [x y].
  destruct (xorb _ _ && _); [destruct (negb _); split; lra|].
  assert (P : probability (match p with Some q => q | None => 1 # 4 end)).
  { destruct p as [q|]; [exact (PR q eq_refl)|split; lra]. }
  destruct (fixed _); [exact P|]. destruct P as [P0 P1].
  set (q := match p with Some q => q | None => 1 # 4 end) in *. clearbody q.
  destruct (_ <? _)%nat; [split; unfold Qdiv; change (/ 2)%Q with (1 # 2)%Q; lra|].
  destruct (_ <? _)%nat; split; unfold Qdiv; try change (/ 2)%Q with (1 # 2)%Q; lra.
Qed.


Lemma cov_decide_good : forall b p s, safe s -> 0 < fst (b_obj cond b) ->
  (forall q, p = Some q -> probability q) ->
  probability (fst (cov_decide cond b p s)) /\ safe (snd (cov_decide cond b p s)) /\
  (forall q, p = Some q -> fixed p = true -> fst (cov_decide cond b p s) = q).
Proof.
  intros b p s S P PR. split; [|split].
  - unfold cov_decide. destruct (internalize (b_obj cond b) s) as [u s1] eqn:EI.
    destruct (internalize_safe _ _ _ _ S P EI) as [_ [[_ [_ [_ [_ S5]]]] _]].
    destruct p as [q|].
    + destruct (fixed (Some q)); [exact (PR q eq_refl)|].
      destruct (get u (probs s1)) as [t|] eqn:G; [|exact (PR q eq_refl)].
      destruct (S5 u t G) as [X|[X|X]]; subst t; destruct (b_pos cond b); split; cbn [fst]; lra.
    + cbn [fixed]. destruct (get u (probs s1)) as [t|] eqn:G; [|split; cbn [fst]; lra].
      destruct (S5 u t G) as [X|[X|X]]; subst t; destruct (b_pos cond b); split; cbn [fst]; lra.
  - destruct (cov_decide_state cond b p s P) as [Y|Y]; rewrite Y; [exact S|].
    destruct (internalize (b_obj cond b) s) as [u s1] eqn:EI.
    apply (internalize_safe _ _ _ _ S P EI).
  - intros q -> F. unfold cov_decide. rewrite F. reflexivity.
Qed.

(** The preferences that could play a part in an answer. *)
Fixpoint preferences (o : oracle) (es : list cond) : Prop :=
  match o with
  | OConstrained _ i es' => es = es' \/ preferences i es
  | ORotating _ os _ =>
      (fix go (l : list oracle) : Prop :=
         match l with [] => False | x :: r => preferences x es \/ go r end) os
  | _ => False
  end.

(** C157, first part.  Any composition of the oracles, in any state that the hooks can
    produce: the hooks and decide do not fail, the answer is a probability, and an answer
    fixed by the engine (0 or 1) stands, unless there are preferences which one of the
    ways excludes. *)
Definition answer_ok (w : world cond) (b : branch cond) (p : option Q) (o : oracle) (q : Q) : Prop :=
  probability q /\
  (forall e, p = Some e -> fixed p = true -> q = e \/
     exists es, preferences o es /\ es <> [] /\
       (possible cond w (b_expr cond b :: es) = false \/
        possible cond w (neg (b_expr cond b) :: es) = false)).

Lemma decide_good : forall w b p,
  0 < fst (b_obj cond b) -> (forall q, p = Some q -> probability q) ->
  forall o, good o ->
  exists q o', decide w b p o = Ok (q, o') /\ good o' /\ answer_ok w b p o q.
Proof.
  intros w b p P PR.
  apply (oracle_rect' (fun o => good o ->
    exists q o', decide w b p o = Ok (q, o') /\ good o' /\ answer_ok w b p o q)).
  - intros s G. destruct (cov_decide_good b p s G P PR) as [A [B C]].
    cbn [Oracle_Model.decide]. destruct (cov_decide cond b p s) as [q s'].
    exists q, (OCoverage cond s'). split; [reflexivity|]. split; [exact B|].
    split; [exact A|]. intros e E F. left. exact (C e E F).
  - intros G. exists (bfs_decide cond w b p), (OBreadth cond). split; [reflexivity|].
    split; [exact G|]. split; [apply bfs_probability; exact PR|]. intros e -> F. left.
    unfold bfs_decide. destruct (counts cond w (b_loc cond b)). rewrite F, andb_false_r.
    reflexivity.
  - intros G. exists (negative_decide p), (ONegative cond). split; [reflexivity|].
    split; [exact G|]. split.
    + unfold negative_decide. destruct p as [q|]; [exact (PR q eq_refl)|split; lra].
    + intros e -> F. left. reflexivity.
  - intros i es IH G. destruct (IH G) as [q [i' [E [G' [A B]]]]].
    cbn [Oracle_Model.decide]. rewrite E. cbn [bind]. eexists. exists (OConstrained cond i' es).
    split; [reflexivity|]. split; [exact G'|].
    assert (B' : forall e, p = Some e -> fixed p = true -> q = e \/
      exists es0, preferences (OConstrained cond i es) es0 /\ es0 <> [] /\
       (possible cond w (b_expr cond b :: es0) = false \/
        possible cond w (neg (b_expr cond b) :: es0) = false)).
    { intros e Ee F. destruct (B e Ee F) as [X|[es0 [X Y]]]; [left; exact X|right].
      exists es0. split; [right; exact X|exact Y]. }
    destruct es as [|e0 es0] eqn:Ees; [split; assumption|]. rewrite <- Ees in *.
    assert (N : es <> []) by (rewrite Ees; discriminate).
    destruct (possible cond w (b_expr cond b :: es)) eqn:P1; cbn [negb].
    + destruct (possible cond w (neg (b_expr cond b) :: es)) eqn:P2; cbn [negb].
      * split; assumption.
      * split; [split; lra|]. intros e Ee F. right. exists es.
        split; [left; reflexivity|]. split; [exact N|right; exact P2].
    + split; [split; lra|]. intros e Ee F. right. exists es.
      split; [left; reflexivity|]. split; [exact N|left; exact P1].
  - intros os i IH [N [B G]]. apply goods_go in G.
    destruct (place_ok (length os) i) as [k [Ek Lk]]; [destruct os; [congruence|cbn; lia]|exact B|].
    assert (X : forall os k, Forall (fun o => good o ->
        exists q o', decide w b p o = Ok (q, o') /\ good o' /\ answer_ok w b p o q) os ->
      goods os -> (k < length os)%nat ->
      exists q os',
       (fix at_ (l : list oracle) (k : nat) : res (Q * list oracle) :=
          match l, k with
          | [], _ => Err IndexError
          | x :: r, O =>
              do y <- decide w b p x; let (q, x') := y : Q * oracle in Ok (q, x' :: r)
          | x :: r, S k' =>
              do y <- at_ r k'; let (q, r') := y : Q * list oracle in Ok (q, x :: r')
          end) os k = Ok (q, os') /\ goods os' /\ length os' = length os /\
       exists o, In o os /\ answer_ok w b p o q).
    { clear. induction os as [|x os IHos]; intros k IH G L; [cbn in L; lia|].
      inversion IH as [|? ? Hx Hr]; subst. inversion G as [|? ? Gx Gr]; subst.
      destruct k as [|k].
      - destruct (Hx Gx) as [q [x' [E [G' A]]]]. exists q, (x' :: os). rewrite E.
        split; [reflexivity|]. split; [constructor; assumption|]. split; [reflexivity|].
        exists x. split; [left; reflexivity|exact A].
      - cbn [length] in L. destruct (IHos k Hr Gr) as [q [r' [E [G' [L' [o [I A]]]]]]]; [lia|].
        exists q, (x :: r'). rewrite E. split; [reflexivity|].
        split; [constructor; assumption|]. split; [cbn [length]; lia|].
        exists o. split; [right; exact I|exact A]. }
    destruct (X os k IH G Lk) as [q [os' [E [G' [L' [o [I A]]]]]]].
    cbn [Oracle_Model.decide]. rewrite Ek, E. cbn [bind].
    exists q, (ORotating cond os' i). split; [reflexivity|]. split.
    + cbn [good]. split; [intros ->; destruct os; [congruence|discriminate]|].
      split; [rewrite L'; exact B|]. apply goods_go. exact G'.
    + destruct A as [A1 A2]. split; [exact A1|]. intros e Ee F.
      destruct (A2 e Ee F) as [Y|[es [Y1 Y2]]]; [left; exact Y|right].
      exists es. split; [|exact Y2]. cbn [preferences].
      clear -I Y1. induction os as [|x os IHos]; [destruct I|].
      destruct I as [->|I]; [left; exact Y1|right; exact (IHos I)].
Qed.

(** Everything that can happen to an oracle. *)
Inductive reached (start : oracle) : oracle -> Prop :=
| R_start : reached start start
| R_pre : forall o o' r1 r2, reached start o -> (0 <= r2)%Q -> (r2 < 1)%Q ->
    pre_path cond r1 r2 o = Ok o' -> reached start o'
| R_post : forall o o' p, reached start o -> Forall proper_step p ->
    post_path cond p o = Ok o' -> reached start o'
| R_prefer : forall o e, reached start o -> reached start (prefer cond e o)
| R_decide : forall o o' w b p q, reached start o -> 0 < fst (b_obj cond b) ->
    (forall q, p = Some q -> probability q) ->
    decide w b p o = Ok (q, o') -> reached start o'.

(** An oracle as constructed. *)
Fixpoint fresh (o : oracle) : Prop :=
  match o with
  | OCoverage _ s => s = cov0
  | OBreadth _ | ONegative _ => True
  | OConstrained _ i es => es = [] /\ fresh i
  | ORotating _ os i =>
      os <> [] /\ i = -1 /\
      (fix go (l : list oracle) : Prop :=
         match l with [] => True | x :: r => fresh x /\ go r end) os
  end.

Lemma fresh_good : forall o, fresh o -> good o.
Proof.
  apply (oracle_rect' (fun o => fresh o -> good o)).
  - intros s ->. exact safe0.
  - trivial.
  - trivial.
  - intros i es IH [_ F]. exact (IH F).
  - intros os i IH [N [-> F]]. cbn [good]. split; [exact N|]. split; [lia|].
    clear N. induction os as [|x os IHos]; [exact I|].
    inversion IH as [|? ? Hx Hr]; subst. destruct F as [F1 F2].
    split; [exact (Hx F1)|exact (IHos Hr F2)].
Qed.

Lemma reached_good : forall start o, fresh start -> reached start o -> good o.
Proof.
  intros start o F R. induction R as [|o o' r1 r2 R IH R0 R1 E|o o' p R IH PP E|o e R IH|o o' w b p q R IH P PR E].
  - exact (fresh_good _ F).
  - destruct (pre_good r1 r2 R0 R1 o IH) as [x [Ex G]]. congruence.
  - destruct (post_good p PP o IH) as [x [Ex G]]. congruence.
  - destruct o; exact IH.
  - destruct (decide_good w b p P PR o IH) as [q' [x [Ex [G _]]]]. congruence.
Qed.

Theorem C157_answers : forall start o, fresh start -> reached start o ->
  (forall r1 r2, (0 <= r2)%Q -> (r2 < 1)%Q -> exists o', pre_path cond r1 r2 o = Ok o') /\
  (forall path, Forall proper_step path -> exists o', post_path cond path o = Ok o') /\
  forall w b p, 0 < fst (b_obj cond b) -> (forall q, p = Some q -> probability q) ->
    exists q o', decide w b p o = Ok (q, o') /\ answer_ok w b p o q.
Proof.
  intros start o F R. pose proof (reached_good start o F R) as G. split; [|split].
  - intros r1 r2 R0 R1. destruct (pre_good r1 r2 R0 R1 o G) as [o' [E _]]. exists o'. exact E.
  - intros p PP. destruct (post_good p PP o G) as [o' [E _]]. exists o'. exact E.
  - intros w b p P PR. destruct (decide_good w b p P PR o G) as [q [o' [E [_ A]]]].
    exists q, o'. split; [exact E|exact A].
Qed.

(** Second part: rotation.  In any [n] consecutive paths, each of the [n] oracles is the
    one in charge in exactly one of them. *)
Fixpoint in_charge (n : nat) (i : Z) (k : nat) : Z :=
  match k with O => i | S k' => (in_charge n i k' + 1) mod Z.of_nat n end.

Lemma pre_index : forall r1 r2 os i o', pre_path cond r1 r2 (ORotating cond os i) = Ok o' ->
  exists os', o' = ORotating cond os' ((i + 1) mod Z.of_nat (length os)) /\ length os' = length os.
Proof.
  intros r1 r2 os i o' H. cbn [pre_path] in H. destruct os as [|x os]; [discriminate|].
  assert (X : forall l os', (fix go (l : list oracle) : res (list oracle) :=
                 match l with
                 | [] => Ok []
                 | x :: r => do x' <- pre_path cond r1 r2 x; do r' <- go r; Ok (x' :: r')
                 end) l = Ok os' -> length os' = length l).
  { clear. induction l as [|x l IH]; intros os' H; [injection H as <-; reflexivity|].
    destruct (pre_path cond r1 r2 x); [|discriminate]. cbn [bind] in H.
    match type of H with bind ?t _ = _ => destruct t as [r'|] eqn:Et end; [|discriminate].
    cbn [bind] in H. injection H as <-.
    cbn [length]. rewrite (IH r' eq_refl). reflexivity. }
  match type of H with bind ?t _ = _ => destruct t as [os'|] eqn:Et end; [|discriminate].
  cbn [bind] in H. injection H as <-.
  exists os'. split; [reflexivity|]. exact (X (x :: os) os' Et).
Qed.

Lemma in_charge_eq : forall n i k, (0 < n)%nat -> (0 < k)%nat ->
  in_charge n i k = (i + Z.of_nat k) mod Z.of_nat n.
Proof.
  intros n i k N K. induction k as [|k IH]; [lia|]. cbn [in_charge]. destruct k as [|k].
  - cbn [in_charge]. reflexivity.
  - rewrite IH by lia. rewrite Zplus_mod_idemp_l. f_equal. lia.
Qed.

Theorem C157_rotation : forall os i r1 r2 o',
  (pre_path cond r1 r2 (ORotating cond os i) = Ok o' ->
   exists os', o' = ORotating cond os' (in_charge (length os) i 1) /\ length os' = length os) /\
  (os <> [] -> forall j, 0 <= j < Z.of_nat (length os) ->
   exists k, (1 <= k <= length os)%nat /\ in_charge (length os) i k = j /\
     forall k', (1 <= k' <= length os)%nat -> in_charge (length os) i k' = j -> k' = k).
Proof.
  intros os i r1 r2 o'. split; [apply pre_index|].
  intros N j J. assert (L : (0 < length os)%nat) by (destruct os; [congruence|cbn; lia]).
  set (n := length os) in *. clearbody n.
  exists (S (Z.to_nat ((j - i - 1) mod Z.of_nat n))).
  pose proof (Z.mod_pos_bound (j - i - 1) (Z.of_nat n)) as MB.
  split; [lia|]. split.
  - rewrite in_charge_eq by lia. rewrite Nat2Z.inj_succ, Z2Nat.id by lia.
    replace (i + Z.succ ((j - i - 1) mod Z.of_nat n)) with ((j - i - 1) mod Z.of_nat n + (i + 1)) by lia.
    rewrite Zplus_mod_idemp_l. replace (j - i - 1 + (i + 1)) with j by lia.
    apply Z.mod_small. lia.
  - intros k' K' E. rewrite in_charge_eq in E by lia. rewrite <- E.
    replace ((i + Z.of_nat k') mod Z.of_nat n - i - 1)
      with ((i + Z.of_nat k') mod Z.of_nat n + (- i - 1)) by lia.
    rewrite Zplus_mod_idemp_l. replace (i + Z.of_nat k' + (- i - 1)) with (Z.of_nat k' - 1) by lia.
    rewrite Z.mod_small by lia. lia.
Qed.

(** Third part: preferences.  [holds m c] says that condition [c] is true of the inputs
    [m]; is_possible is right about whether some inputs satisfy the path so far and a
    conjunction.  If the preferences can be met, the way taken keeps it so. *)
Theorem C157_preferences : forall (M : Type) (path : M -> Prop) (holds : M -> cond -> bool)
    w b p inner es q o' u,
  (forall l, possible cond w l = true <->
     exists m, path m /\ forall c, In c l -> holds m c = true) ->
  (forall m c, holds m (neg c) = negb (holds m c)) ->
  es <> [] ->
  (exists m, path m /\ forall c, In c es -> holds m c = true) ->
  (0 < u)%Q -> (u < 1)%Q ->
  decide w b p (OConstrained cond inner es) = Ok (q, o') ->
  exists m, path m /\ holds m (b_expr cond b) = takes_positive u q /\
    forall c, In c es -> holds m c = true.
Proof.
  intros M path holds w b p inner es q o' u PO HN NE [m0 [Pm Hm]] U0 U1 D.
  cbn [Oracle_Model.decide] in D. destruct (decide w b p inner) as [[q0 i']|]; [|discriminate].
  cbn [bind] in D. destruct es as [|e0 es0] eqn:Ees; [congruence|]. rewrite <- Ees in *.
  injection D as Eq _.
  assert (TP : takes_positive u 1 = true /\ takes_positive u 0 = false).
  { unfold takes_positive. split.
    - apply negb_true_iff. destruct (Qle_bool 1 u) eqn:X; [|reflexivity].
      apply Qle_bool_iff in X. exfalso. lra.
    - apply negb_false_iff. apply Qle_bool_iff. lra. }
  destruct TP as [TP1 TP0].
  destruct (possible cond w (b_expr cond b :: es)) eqn:P1; cbn [negb] in Eq.
  - destruct (possible cond w (neg (b_expr cond b) :: es)) eqn:P2; cbn [negb] in Eq.
    + destruct (takes_positive u q).
      * apply PO in P1. destruct P1 as [m [A B]]. exists m. split; [exact A|].
        split; [apply B; left; reflexivity|]. intros c I. apply B. right. exact I.
      * apply PO in P2. destruct P2 as [m [A B]]. exists m. split; [exact A|].
        split; [|intros c I; apply B; right; exact I].
        specialize (B _ (or_introl eq_refl)). rewrite HN in B. apply negb_true_iff. exact B.
    + subst q. rewrite TP1. apply PO in P1. destruct P1 as [m [A B]]. exists m.
      split; [exact A|]. split; [apply B; left; reflexivity|]. intros c I. apply B. right. exact I.
  - subst q. rewrite TP0. exists m0. split; [exact Pm|]. split; [|exact Hm].
    destruct (holds m0 (b_expr cond b)) eqn:H0; [|reflexivity].
    assert (possible cond w (b_expr cond b :: es) = true); [|congruence].
    apply PO. exists m0. split; [exact Pm|]. intros c [<-|I]; [exact H0|exact (Hm c I)].
Qed.

(** Fourth part: breadth first.  If just one way was ever taken at a location and the
    engine leaves the decision open, the other way is taken now. *)
Theorem C157_breadth : forall w b p u q o',
  fixed p = false -> (0 < u)%Q -> (u < 1)%Q ->
  decide w b p (OBreadth cond) = Ok (q, o') ->
  (forall n, counts cond w (b_loc cond b) = (S n, O) -> takes_positive u q = false) /\
  (forall n, counts cond w (b_loc cond b) = (O, S n) -> takes_positive u q = true).
Proof.
  intros w b p u q o' F U0 U1 D. cbn [Oracle_Model.decide] in D. injection D as Eq _.
  split; intros n E; subst q; unfold bfs_decide; rewrite E, F; cbn; unfold takes_positive.
  - apply negb_false_iff, Qle_bool_iff. lra.
  - apply negb_true_iff. destruct (Qle_bool 1 u) eqn:X; [|reflexivity].
    apply Qle_bool_iff in X. exfalso. lra.
Qed.
End Compose.
Print Assumptions C157_answers.
Print Assumptions C157_rotation.
Print Assumptions C157_preferences.
Print Assumptions C157_breadth.

(** An oracle as the tests of the repository compose them, asked about a boolean that the
    preference wants to be true. *)
Definition sample : oracle bool :=
  ORotating bool [OCoverage bool cov0; OConstrained bool (OBreadth bool) []] (-1).
Definition sample_world : world bool :=
  mkWorld bool (fun _ => (O, O)) (fun l => forallb (fun c => c) l).
Example C157_example :
  fresh bool sample /\
  pre_path bool 0 0 sample = Ok (ORotating bool [OCoverage bool cov0; OConstrained bool (OBreadth bool) []] 0) /\
  decide bool negb sample_world (mkBranch bool 1 true (100, 5) true) (Some 0%Q)
    (OConstrained bool (OBreadth bool) [true])
  = Ok (1%Q, OConstrained bool (OBreadth bool) [true]) /\
  decide bool negb sample_world (mkBranch bool 1 true (100, 5) true) None (OBreadth bool)
  = Ok ((1 # 4)%Q, OBreadth bool).
Proof.
  split; [|split; [reflexivity|split; reflexivity]].
  cbn [fresh sample]. split; [intros H; discriminate H|]. split; [reflexivity|].
  split; [reflexivity|]. split; [|exact I]. split; [reflexivity|exact I].
Qed.

(** What the heuristic remembers of a path: how often each location was reached, and
    for how many paths nothing new was. *)
Fixpoint places (p : list step) : list Z :=
  match p with
  | [] => []
  | SOther :: r => places r
  | SNode loc _ _ _ NDetached :: _ => [loc]
  | SNode loc _ _ _ _ :: r => loc :: places r
  end.

Lemma internalize_frame : forall o s u s',
  internalize o s = (u, s') -> visits s' = visits s /\ iters s' = iters s.
Proof.
  intros [a e] s u s' H. unfold internalize in H.
  destruct (truthy (get a (id_id s))); [injection H as _ <-; split; reflexivity|].
  destruct (truthy (get e (expr_id s))); injection H as _ <-; split; reflexivity.
Qed.

Lemma post_loop_frame : forall p locs conds s ls s1,
  post_loop p locs conds s = Ok (ls, s1) ->
  ls = locs ++ places p /\ visits s1 = visits s /\ iters s1 = iters s.
Proof.
  induction p as [|[|loc mv pos o nxt] p IH]; intros locs conds s ls s1 H; cbn [post_loop places] in *.
  - injection H as <- <-. rewrite app_nil_r. split; [reflexivity|split; reflexivity].
  - exact (IH _ _ _ _ _ H).
  - cbv zeta in H.
    set (s0 := if negb (mem loc locs) && negb mv then summarize loc conds s else s) in H.
    assert (F : visits s0 = visits s /\ iters s0 = iters s).
    { unfold s0. destruct (negb (mem loc locs) && negb mv); split; reflexivity. }
    destruct F as [F1 F2].
    destruct (internalize o s0) as [u s2] eqn:EI.
    destruct (internalize_frame _ _ _ _ EI) as [G1 G2].
    destruct nxt; try discriminate H;
      first
        [ injection H as <- <-; split; [reflexivity|]; split; [exact F1|exact F2]
        | destruct (IH _ _ _ _ _ H) as [A [B C]]; rewrite A, <- app_assoc; cbn [app];
          split; [reflexivity|]; split; congruence ].
Qed.

Lemma put_length : forall (v : list (Z * nat)) k x,
  length (put k x v) = match get k v with Some _ => length v | None => S (length v) end.
Proof.
  induction v as [|[a b] v IH]; intros k x; cbn [put get]; [reflexivity|].
  destruct (k =? a) eqn:E; cbn [length].
  - rewrite ?E. reflexivity.
  - rewrite ?E, IH. destruct (get k v); reflexivity.
Qed.

Lemma count_visits : forall ls v,
  (forall l, visits_of (fold_left count_visit ls v) l = (visits_of v l + count_occ Z.eq_dec ls l)%nat) /\
  (length v <= length (fold_left count_visit ls v))%nat /\
  ((length v < length (fold_left count_visit ls v))%nat <-> exists l, In l ls /\ get l v = None).
Proof.
  induction ls as [|x ls IH]; intros v; cbn [fold_left count_occ].
  - split; [intros l; lia|]. split; [lia|]. split; [lia|]. intros [l [[] _]].
  - destruct (IH (count_visit v x)) as [A [B C]].
    assert (L : length (count_visit v x) = match get x v with Some _ => length v | None => S (length v) end)
      by apply put_length.
    split; [|split].
    + intros l. rewrite A. unfold count_visit at 1. unfold visits_of. rewrite get_put.
      destruct (Z.eq_dec x l) as [E|E].
      * subst l. rewrite Z.eqb_refl. destruct (get x v); lia.
      * destruct (Z.eqb_spec l x) as [E'|_]; [congruence|]. reflexivity.
    + destruct (get x v); lia.
    + destruct (get x v) as [n|] eqn:G.
      * rewrite <- L, C. split.
        -- intros [l [I N]]. exists l. split; [right; exact I|].
           unfold count_visit in N. rewrite get_put in N. destruct (l =? x); [discriminate|exact N].
        -- intros [l [[<-|I] N]]; [congruence|]. exists l. split; [exact I|].
           unfold count_visit. rewrite get_put. destruct (Z.eqb_spec l x) as [->|_]; [congruence|exact N].
      * split; [intros _; exists x; split; [left; reflexivity|exact G]|]. intros _. lia.
Qed.

Theorem C156_discovery : forall p s s',
  cov_post p s = Ok s' ->
  (forall l, visits_of (visits s') l = (visits_of (visits s) l + count_occ Z.eq_dec (places p) l)%nat) /\
  ((exists l, In l (places p) /\ get l (visits s) = None) -> iters s' = O) /\
  ((forall l, In l (places p) -> get l (visits s) <> None) -> iters s' = S (iters s)).
Proof.
  intros p s s' H. unfold cov_post in H.
  destruct (post_loop p [] [] s) as [[ls s1]|e] eqn:E; [|discriminate].
  cbn [bind] in H. injection H as <-.
  destruct (post_loop_frame _ _ _ _ _ _ E) as [-> [V I]]. cbn [app visits iters].
  destruct (count_visits (places p) (visits s1)) as [A [B C]]. rewrite V in *.
  split; [exact A|]. split.
  - intros X. apply C in X. destruct (Nat.ltb_spec (length (visits s)) (length (fold_left count_visit (places p) (visits s)))); [reflexivity|lia].
  - intros X. destruct (Nat.ltb_spec (length (visits s)) (length (fold_left count_visit (places p) (visits s)))) as [Y|_].
    + apply C in Y. destruct Y as [l [J N]]. exfalso. exact (X l J N).
    + rewrite I. reflexivity.
Qed.
Print Assumptions C156_discovery.
Example C156_discovery_example : exists s s',
  cov_post [SNode 1 false true (100, 5) NPos; SNode 2 false false (101, 6) NNeg] cov0 = Ok s /\
  iters s = O /\
  cov_post [SNode 1 false true (100, 5) NPos; SNode 2 false false (101, 6) NNeg] s = Ok s' /\
  iters s' = 1%nat /\ visits s' = [(1, 2%nat); (2, 2%nat)].
Proof. eexists. eexists. cbn. repeat split. Qed.
