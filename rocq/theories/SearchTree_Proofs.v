From Coq Require Import List Bool ZArith Lia.
From Verif Require Import SearchTree_Model SearchTree_Spec.
Import ListNotations.

Section Proofs.
  Variables (Asg Expr VExpr Val : Type).
  Variable holds : Asg -> Expr -> bool.
  Variable veval : Asg -> VExpr -> Val.
  Variable expr_eqb : Expr -> Expr -> bool.
  Hypothesis expr_eqb_spec : forall a b, expr_eqb a b = true <-> a = b.
  Hypothesis val_dec : forall v w : Val, {v = w} + {v <> w}.
  Variable prog : list (ans Val) -> action Expr VExpr.

  Notation node := (node Expr VExpr Val).
  Notation hist := (list (ans Val)).
  Notation pcs := (list (lit Expr VExpr Val)).
  Notation knl := (list (Expr * bool)).
  Notation Agrees := (Agrees Asg Expr VExpr Val holds veval prog).
  Notation Runs := (Runs Asg Expr VExpr Val holds veval prog).
  Notation Safe := (Safe Asg Expr VExpr Val holds veval prog).
  Notation models := (models Asg Expr VExpr Val holds veval).
  Notation truthful := (truthful Asg Expr VExpr Val holds veval).
  Notation detach_ok := (detach_ok Expr VExpr Val prog).
  Notation assume_ok := (assume_ok Asg Expr VExpr Val holds veval prog).
  Notation run := (run Expr VExpr Val expr_eqb prog).
  Notation lookup := (lookup Expr expr_eqb).

  Definition st : Type := (hist * pcs * knl)%type.

  Definition StOk (s : st) : Prop :=
    let '(h, pc, kn) := s in
    (forall a, models pc a -> Agrees a h) /\
    (forall a, Agrees a h -> models pc a \/
       exists x, prog h = ARealize x /\ forall a', models pc a' -> veval a' x <> veval a x) /\
    (forall e b, lookup kn e = Some b -> forall a, models pc a -> holds a e = b).

  (** Silent steps: requests answered without touching the tree. *)
  Inductive Sil1 (det : bool) : st -> st -> Prop :=
  | S_fork h pc kn e b : prog h = AFork e -> lookup kn e = Some b ->
      Sil1 det (h, pc, kn) (ABool b :: h, pc, kn)
  | S_as_new h pc kn e : prog h = AAssume e -> lookup kn e = None ->
      Sil1 det (h, pc, kn) (AUnit :: h, LExpr e true :: pc, (e, true) :: kn)
  | S_as_old h pc kn e : prog h = AAssume e -> lookup kn e = Some true ->
      Sil1 det (h, pc, kn) (AUnit :: h, pc, kn)
  | S_poss h pc kn e b : prog h = APossible e ->
      (b = true <-> exists a, models pc a /\ holds a e = true) ->
      Sil1 det (h, pc, kn) (ABool b :: h, pc, kn)
  | S_det h pc kn : prog h = ADetach -> det = true ->
      Sil1 det (h, pc, kn) (AUnit :: h, pc, kn).

  Inductive Sils (det : bool) : st -> st -> Prop :=
  | Sils_refl s : Sils det s s
  | Sils_step s s1 s2 : Sil1 det s s1 -> Sils det s1 s2 -> Sils det s s2.

  Lemma iff_bool b b' (P : Prop) : (b = true <-> P) -> (b' = true <-> P) -> b = b'.
  Proof.
    intros [H1 H2] [H3 H4]. destruct b, b'; auto.
    symmetry; auto.
  Qed.

  Lemma Sil1_det det s s1 s2 : Sil1 det s s1 -> Sil1 det s s2 -> s1 = s2.
  Proof.
    intros H1 H2; inversion H1; subst; inversion H2; subst; try congruence.
    assert (b = b0); [|congruence].
    assert (e0 = e) by congruence; subst.
    eapply iff_bool; eassumption.
  Qed.

  Notation good := good_status.

  Definition Ok (n : node) (s : st) : Prop :=
    let '(h, pc, _) := s in
    (good (n_status n) -> n_exh n = true /\ forall a, models pc a -> detach_ok -> Safe a h) /\
    (assume_ok -> (exists a, models pc a) -> n_status n = Some Refuted ->
       exists a o, models pc a /\ Runs a h o /\ refuting o).

  Definition cache (n : node) : Prop :=
    match n with
    | Worst _ f p q _ false => worst_exhausted f p q = false
    | Par p q _ false => snd (par_compute p q) = false
    | Detached _ _ x => x = true
    | _ => True
    end.

  Definition forced_ok (f : option bool) (k : kind Expr VExpr Val) (pc : pcs)
             (p q : node) : Prop :=
    match f with
    | None => (exists a, models (klit k true :: pc) a) /\
              (exists a, models (klit k false :: pc) a)
    | Some true => q = Stem /\ forall a, models pc a -> models (klit k true :: pc) a
    | Some false => p = Stem /\ forall a, models pc a -> models (klit k false :: pc) a
    end.

  Fixpoint Inv (n : node) (det : bool) (s : st) {struct n} : Prop :=
    Ok n s /\ cache n /\
    match n with
    | Worst k f p q _ _ =>
        exists h pc kn, Sils det s (h, pc, kn) /\ StOk (h, pc, kn) /\
          forced_ok f k pc p q /\
          match k with
          | KExpr e => prog h = AFork e /\ lookup kn e = None /\
              Inv p det (ABool true :: h, LExpr e true :: pc, (e, true) :: kn) /\
              Inv q det (ABool false :: h, LExpr e false :: pc, (e, false) :: kn)
          | KVal x v => prog h = ARealize x /\
              (exists a, models pc a /\ veval a x = v) /\
              Inv p det (AVal v :: h, LVal x v true :: pc, kn) /\
              Inv q det (h, LVal x v false :: pc, kn)
          end
    | Par p q _ _ =>
        exists h pc kn, Sils det s (h, pc, kn) /\ StOk (h, pc, kn) /\
          prog h = APar /\
          Inv p det (ABool true :: h, pc, kn) /\
          Inv q det (ABool false :: h, pc, kn)
    | _ => True
    end.

  Lemma Inv_Ok n det s : Inv n det s -> Ok n s.
  Proof. destruct n; cbn; tauto. Qed.
  Lemma Inv_cache n det s : Inv n det s -> cache n.
  Proof. destruct n; cbn; tauto. Qed.

  (** *** Preservation of [StOk] *)
  Lemma models_cons l pc a : models (l :: pc) a <-> lit_holds Asg Expr VExpr Val holds veval a l /\ models pc a.
  Proof. split; intro H. inversion H; auto. constructor; tauto. Qed.

  Lemma StOk_init : StOk ([], [], []).
  Proof.
    repeat split.
    - left. constructor.
    - cbn. discriminate.
  Qed.

  Lemma lookup_cons e b kn e' : lookup ((e, b) :: kn) e' =
     if expr_eqb e e' then Some b else lookup kn e'.
  Proof. reflexivity. Qed.

  Lemma kn_push pc kn e b :
    (forall e b, lookup kn e = Some b -> forall a, models pc a -> holds a e = b) ->
    forall e' b', lookup ((e, b) :: kn) e' = Some b' ->
    forall a, models (LExpr e b :: pc) a -> holds a e' = b'.
  Proof.
    intros K e' b' H a M. apply models_cons in M as [L M]. cbn in L.
    rewrite lookup_cons in H. destruct (expr_eqb e e') eqn:Q.
    - apply expr_eqb_spec in Q. congruence.
    - eapply K; eauto.
  Qed.

  Ltac stok_eq H2 :=
    intros a HA; destruct (H2 a HA) as [|[x' [Hx _]]]; [assumption | congruence].

  Lemma StOk_equiv h pc kn : StOk (h, pc, kn) -> (forall x, prog h <> ARealize x) ->
    forall a, models pc a <-> Agrees a h.
  Proof.
    intros (H1 & H2 & _) N a; split; auto.
    intro A. destruct (H2 a A) as [|[x [Hx _]]]; auto. now apply N in Hx.
  Qed.

  Lemma StOk_fork h pc kn e b : StOk (h, pc, kn) -> prog h = AFork e ->
    StOk (ABool b :: h, LExpr e b :: pc, (e, b) :: kn).
  Proof.
    intros S P. assert (Q := StOk_equiv _ _ _ S ltac:(intros; congruence)).
    destruct S as (H1 & H2 & H3). split; [|split].
    - intros a M. apply models_cons in M as [L M]. cbn in L |- *. rewrite P.
      split; [now apply H1 | now rewrite L].
    - intros a A. cbn in A. rewrite P in A. destruct A as [A B]. left.
      apply models_cons. split; [cbn; congruence | now apply Q].
    - eapply kn_push; eauto.
  Qed.

  Lemma StOk_fork_known h pc kn e b : StOk (h, pc, kn) -> prog h = AFork e ->
    lookup kn e = Some b -> StOk (ABool b :: h, pc, kn).
  Proof.
    intros S P L. assert (Q := StOk_equiv _ _ _ S ltac:(intros; congruence)).
    destruct S as (H1 & H2 & H3). split; [|split]; auto.
    - intros a M. cbn. rewrite P. split; [now apply H1 | now rewrite (H3 _ _ L a M)].
    - intros a A. cbn in A. rewrite P in A. destruct A as [A B]. left. now apply Q.
  Qed.

  Lemma StOk_par h pc kn b : StOk (h, pc, kn) -> prog h = APar -> StOk (ABool b :: h, pc, kn).
  Proof.
    intros S P. assert (Q := StOk_equiv _ _ _ S ltac:(intros; congruence)).
    destruct S as (H1 & H2 & H3). split; [|split]; auto.
    - intros a M. cbn. rewrite P. split; auto.
    - intros a A. cbn in A. rewrite P in A. destruct A as [A B]. left. now apply Q.
  Qed.

  Lemma StOk_sil det s s1 : Sil1 det s s1 -> StOk s -> StOk s1.
  Proof.
    intros Hs S. destruct Hs as [h pc kn e b P L | h pc kn e P L | h pc kn e P L | h pc kn e b P L | h pc kn P L].
    - eapply StOk_fork_known; eauto.
    - assert (Q := StOk_equiv _ _ _ S ltac:(intros; congruence)).
      destruct S as (H1 & H2 & H3). split; [|split].
      + intros a M. apply models_cons in M as [L' M]. cbn in *. rewrite P. split; auto.
      + intros a A. cbn in A. rewrite P in A. destruct A as [A B]. left.
        apply models_cons. split; [exact B | now apply Q].
      + eapply kn_push; eauto.
    - assert (Q := StOk_equiv _ _ _ S ltac:(intros; congruence)).
      destruct S as (H1 & H2 & H3). split; [|split]; auto.
      + intros a M. cbn. rewrite P. split; eauto.
      + intros a A. cbn in A. rewrite P in A. left. now apply Q.
    - assert (Q := StOk_equiv _ _ _ S ltac:(intros; congruence)).
      destruct S as (H1 & H2 & H3). split; [|split]; auto.
      + intros a M. cbn. rewrite P. split; eauto.
      + intros a A. cbn in A. rewrite P in A. left. now apply Q.
    - assert (Q := StOk_equiv _ _ _ S ltac:(intros; congruence)).
      destruct S as (H1 & H2 & H3). split; [|split]; auto.
      + intros a M. cbn. rewrite P. split; eauto.
      + intros a A. cbn in A. rewrite P in A. left. now apply Q.
  Qed.

  Lemma StOk_real h pc kn x v : StOk (h, pc, kn) -> prog h = ARealize x ->
    (exists a, models pc a /\ veval a x = v) -> StOk (AVal v :: h, LVal x v true :: pc, kn).
  Proof.
    intros (H1 & H2 & H3) P [a0 [M0 V0]]. split; [|split].
    - intros a M. apply models_cons in M as [L M]. cbn in *. rewrite P. split; auto. congruence.
    - intros a A. cbn in A. rewrite P in A. destruct A as [A B]. injection B as B. left.
      apply models_cons. split; [cbn; congruence|].
      destruct (H2 a A) as [|[y [Hy N]]]; auto.
      assert (y = x) by congruence. subst y. exfalso. apply (N a0 M0). congruence.
    - intros e b L a M. apply models_cons in M as [_ M]. eauto.
  Qed.

  Lemma StOk_notreal h pc kn x v : StOk (h, pc, kn) -> prog h = ARealize x ->
    StOk (h, LVal x v false :: pc, kn).
  Proof.
    intros (H1 & H2 & H3) P. split; [|split].
    - intros a M. apply models_cons in M as [_ M]. auto.
    - intros a A. destruct (H2 a A) as [M|[y [Hy N]]].
      + destruct (val_dec (veval a x) v) as [E|E].
        * right. exists x. split; auto. intros a' M'. apply models_cons in M' as [L _].
          cbn in L. congruence.
        * left. apply models_cons. split; auto.
      + right. exists y. split; auto. intros a' M'. apply models_cons in M' as [_ M']. auto.
    - intros e b L a M. apply models_cons in M as [_ M]. eauto.
  Qed.

  (** *** Moving [Ok] and [Inv] along silent steps *)
  Lemma poss_equiv h pc kn e : StOk (h, pc, kn) -> prog h = APossible e ->
    (exists a, models pc a /\ holds a e = true) <-> (exists a, Agrees a h /\ holds a e = true).
  Proof.
    intros S P. assert (Q := StOk_equiv _ _ _ S ltac:(intros; congruence)).
    split; intros [a [A B]]; exists a; split; auto; now apply Q.
  Qed.

  Lemma Ok_back det s s1 n : Sil1 det s s1 -> StOk s -> Ok n s1 -> Ok n s.
  Proof.
    intros Hs S. assert (S1 := StOk_sil _ _ _ Hs S).
    destruct Hs as [h pc kn e b P L | h pc kn e P L | h pc kn e P L | h pc kn e b P L | h pc kn P L];
      intros [G B]; assert (Q := StOk_equiv _ _ _ S ltac:(intros; congruence));
      split; cbn in S1.
    - intro g. destruct (G g) as [X Y]. split; auto. intros a M D.
      destruct (Y a M D) as [o [R F]]. exists o. split; auto.
      eapply R_fork; eauto. destruct S as (_ & _ & H3). now rewrite (H3 _ _ L a M).
    - intros AO ex r. destruct (B AO ex r) as (a & o & M & R & F). exists a, o. repeat split; auto.
      eapply R_fork; eauto. destruct S as (_ & _ & H3). now rewrite (H3 _ _ L a M).
    - intro g. destruct (G g) as [X Y]. split; auto. intros a M D.
      destruct (holds a e) eqn:He.
      + destruct (Y a) as [o [R F]]; auto. { apply models_cons; split; auto. }
        exists o. split; auto. eapply R_assume; eauto.
      + exists (Excluded). split; [eapply R_excl; eauto | exact I].
    - intros AO [a0 M0] r.
      destruct (AO a0 h e) as [a1 [A1 H1]]; auto. { now apply Q. }
      destruct (B AO) as (a & o & M & R & F); auto.
      { exists a1. apply models_cons. split; auto. now apply Q. }
      apply models_cons in M as [He M]. exists a, o. repeat split; auto. eapply R_assume; eauto.
    - intro g. destruct (G g) as [X Y]. split; auto. intros a M D.
      destruct (Y a M D) as [o [R F]]. exists o. split; auto.
      eapply R_assume; eauto. destruct S as (_ & _ & H3). now rewrite (H3 _ _ L a M).
    - intros AO ex r. destruct (B AO ex r) as (a & o & M & R & F). exists a, o. repeat split; auto.
      eapply R_assume; eauto. destruct S as (_ & _ & H3). now rewrite (H3 _ _ L a M).
    - intro g. destruct (G g) as [X Y]. split; auto. intros a M D.
      destruct (Y a M D) as [o [R F]]. exists o. split; auto.
      eapply R_poss; eauto. rewrite L. eapply poss_equiv; eauto.
    - intros AO ex r. destruct (B AO ex r) as (a & o & M & R & F). exists a, o. repeat split; auto.
      eapply R_poss; eauto. rewrite L. eapply poss_equiv; eauto.
    - intro g. destruct (G g) as [X Y]. split; auto. intros a M D.
      destruct (Y a M D) as [o [R F]]. exists o. split; auto. eapply R_detach; eauto.
    - intros AO ex r. destruct (B AO ex r) as (a & o & M & R & F). exists a, o. repeat split; auto.
      eapply R_detach; eauto.
  Qed.

  Lemma Inv_back det s s1 n : Sil1 det s s1 -> StOk s -> Inv n det s1 -> Inv n det s.
  Proof.
    intros Hs S I. assert (O := Ok_back _ _ _ n Hs S (Inv_Ok _ _ _ I)).
    destruct n; cbn [Inv cache] in I |- *; destruct I as (_ & C & X);
      (split; [exact O|]); (split; [exact C|]); auto;
      destruct X as (h & pc & kn & T & R); exists h, pc, kn; (split; [|exact R]);
      econstructor; eauto.
  Qed.

  Lemma Ok_fwd det s s1 n : Sil1 det s s1 -> StOk s -> n_exh n = false -> Ok n s -> Ok n s1.
  Proof.
    intros Hs S X.
    destruct Hs as [h pc kn e b P L | h pc kn e P L | h pc kn e P L | h pc kn e b P L | h pc kn P L];
      intros [G B]; (split; [intro g; destruct (G g); congruence|]); intros AO [a0 M0] r.
    - destruct (B AO ltac:(eauto) r) as (a & o & M & R & F). exists a, o. repeat split; auto.
      destruct S as (_ & _ & H3). inversion R; subst; try congruence; cbn in F.
      assert (e0 = e) by congruence. subst. now rewrite (H3 _ _ L a M) in *.
    - destruct (B AO) as (a & o & M & R & F); auto.
      { apply models_cons in M0 as [_ M0]. eauto. }
      exists a, o. inversion R; subst; try congruence; cbn in F; try tauto.
      assert (e0 = e) by congruence. subst. repeat split; auto. apply models_cons; split; auto.
    - destruct (B AO ltac:(eauto) r) as (a & o & M & R & F). exists a, o. repeat split; auto.
      inversion R; subst; try congruence; cbn in F; tauto.
    - destruct (B AO ltac:(eauto) r) as (a & o & M & R & F). exists a, o. repeat split; auto.
      inversion R; subst; try congruence.
      assert (e0 = e) by congruence. subst.
      assert (Q := poss_equiv _ _ _ _ S P).
      assert (b0 = b); [|congruence].
      eapply iff_bool; [eassumption|]. rewrite L. exact Q.
    - destruct (B AO ltac:(eauto) r) as (a & o & M & R & F). exists a, o. repeat split; auto.
      inversion R; subst; try congruence.
  Qed.

  (** Is the next request of [s] answered silently? *)
  Definition halting (s : st) : Prop := forall det s1, ~ Sil1 det s s1.

  Lemma Sils_first det s s1 s2 : Sil1 det s s1 -> Sils det s s2 ->
    s = s2 \/ Sils det s1 s2.
  Proof.
    intros H1 H2. inversion H2; subst; auto. right.
    now rewrite (Sil1_det _ _ _ _ H1 H).
  Qed.

  Lemma no_sil_fork det h pc kn e s1 : prog h = AFork e -> lookup kn e = None ->
    ~ Sil1 det (h, pc, kn) s1.
  Proof. intros P L H; inversion H; subst; congruence. Qed.
  Lemma no_sil_real det h pc kn x s1 : prog h = ARealize x -> ~ Sil1 det (h, pc, kn) s1.
  Proof. intros P H; inversion H; subst; congruence. Qed.
  Lemma no_sil_par det h pc kn s1 : prog h = APar -> ~ Sil1 det (h, pc, kn) s1.
  Proof. intros P H; inversion H; subst; congruence. Qed.

  Lemma Inv_fwd det s s1 n : Sil1 det s s1 -> StOk s -> n_exh n = false ->
    Inv n det s -> Inv n det s1.
  Proof.
    intros Hs S X I. assert (O := Ok_fwd _ _ _ n Hs S X (Inv_Ok _ _ _ I)).
    destruct n as [ | r | k f p q r x | p q r x | c r x]; cbn [Inv cache] in I |- *;
      destruct I as (_ & C & Y); (split; [exact O|]); (split; [exact C|]); auto.
    - destruct Y as (h & pc & kn & T & R). exists h, pc, kn. split; [|exact R].
      destruct (Sils_first _ _ _ _ Hs T) as [->|]; auto. exfalso.
      destruct R as (_ & _ & R). destruct k.
      + destruct R as (P & L & _). eapply no_sil_fork; eauto.
      + destruct R as (P & _). eapply no_sil_real; eauto.
    - destruct Y as (h & pc & kn & T & R). exists h, pc, kn. split; [|exact R].
      destruct (Sils_first _ _ _ _ Hs T) as [->|]; auto. exfalso.
      destruct R as (_ & P & _). eapply no_sil_par; eauto.
  Qed.

  (** *** Merging children *)
  Lemma good_cases s : good s \/ s = Some Unknown \/ s = Some Refuted.
  Proof. destruct s as [[]|]; unfold good; auto. Qed.

  Lemma status_eqb_spec a b : status_eqb a b = true <-> a = b.
  Proof.
    destruct a as [[]|], b as [[]|]; cbn; split; intro H; try reflexivity; try discriminate.
  Qed.

  (** What [Ok] says about a node in terms of an arbitrary set [A] of assignments,
      a property [Sf] of assignments and existence [Bd] of a refuting run. *)
  Definition OkP (n : node) (GoodP BadP : Prop) : Prop :=
    (good (n_status n) -> n_exh n = true /\ GoodP) /\ (n_status n = Some Refuted -> BadP).

  Lemma merge_res l x (n : node) : let '(r, y) := merge l x n in
     y = (if n_exh n then x else false) /\
     (good (a_status r) -> good (a_status l) /\ good (n_status n)) /\
     (a_status r = Some Refuted -> a_status l = Some Refuted \/ n_status n = Some Refuted).
  Proof.
    unfold merge, n_status, good, good_status.
    destruct (a_status l) as [[]|] eqn:L, (a_status (n_res n)) as [[]|] eqn:R; cbn;
      rewrite ?L, ?R; repeat split; auto; try discriminate;
      intuition discriminate.
  Qed.

  Lemma worst_ok k f (p q : node) (Gp Gq Bp Bq G B : Prop) r x :
    worst_compute f p q = (r, x) ->
    OkP p Gp Bp -> OkP q Gq Bq ->
    match f with
    | None => (Gp -> Gq -> G) /\ (Bp -> B) /\ (Bq -> B)
    | Some true => q = Stem /\ (Gp -> G) /\ (Bp -> B)
    | Some false => p = Stem /\ (Gq -> G) /\ (Bq -> B)
    end ->
    OkP (Worst k f p q r x) G B.
  Proof.
    intros W [Gp1 Bp1] [Gq1 Bq1] F. unfold OkP, n_status. cbn [n_res n_exh].
    unfold worst_compute in W.
    destruct (status_eqb (n_status p) (Some Refuted)) eqn:Ep.
    { apply status_eqb_spec in Ep. cbn [orb] in W. injection W as <- <-.
      fold (n_status p). rewrite Ep. split. { intros [|]; discriminate. }
      intros _. destruct f as [[]|].
      - destruct F as (_ & _ & F). auto.
      - destruct F as (-> & _). discriminate Ep.
      - destruct F as (_ & F & _). auto. }
    cbn [orb] in W. destruct f as [[]|].
    { injection W as <- <-. destruct F as (-> & FG & FB). fold (n_status p).
      unfold worst_exhausted. split.
      - intro g. destruct (Gp1 g) as [X Y]. rewrite X. split; [|auto].
        cbn. now rewrite ?orb_true_r.
      - auto. }
    { destruct F as (-> & FG & FB). rewrite orb_true_r in W. injection W as <- <-.
      fold (n_status q). unfold worst_exhausted. split.
      - intro g. destruct (Gq1 g) as [X Y]. rewrite X. split; [|auto].
        cbn. now rewrite ?orb_true_r.
      - auto. }
    destruct F as (FG & FBp & FBq).
    destruct (status_eqb (n_status q) (Some Refuted)) eqn:Eq.
    { apply status_eqb_spec in Eq. cbn [orb] in W. injection W as <- <-.
      fold (n_status q). rewrite Eq. split. { intros [|]; discriminate. } auto. }
    cbn [orb] in W. pose proof (merge_res (n_res p) (n_exh p) q) as M. rewrite W in M.
    destruct M as (-> & MG & MB). split.
    - intro g. destruct (MG g) as [gp gq]. destruct (Gp1 gp) as [Xp Yp], (Gq1 gq) as [Xq Yq].
      rewrite Xp, Xq. auto.
    - intro b. destruct (MB b) as [b'|b'].
      + fold (n_status p) in b'. rewrite b' in Ep. discriminate.
      + rewrite b' in Eq. discriminate.
  Qed.

  Lemma worst_cache f (p q : node) : (f = None \/ f = Some true \/ f = Some false) ->
    snd (worst_compute f p q) = false -> worst_exhausted f p q = false.
  Proof.
    intros _. unfold worst_compute.
    destruct (status_eqb (n_status p) (Some Refuted)); [cbn; auto|].
    destruct f as [[]|]; cbn [orb snd]; auto.
    - now rewrite orb_true_r.
    - destruct (status_eqb (n_status q) (Some Refuted)); cbn [orb]; [auto|].
      pose proof (merge_res (n_res p) (n_exh p) q) as M.
      destruct (merge (n_res p) (n_exh p) q) as [r y]. destruct M as (-> & _).
      cbn [snd]. unfold worst_exhausted. destruct (n_exh p), (n_exh q); cbn; congruence.
  Qed.

  Lemma par_ok (p q : node) (Gp Gq Bp Bq G B : Prop) r x :
    par_compute p q = (r, x) ->
    OkP p Gp Bp -> OkP q Gq Bq ->
    (Gp -> G) -> (Gq -> G) -> (Bp -> B) -> (Bq -> B) ->
    OkP (Par p q r x) G B.
  Proof.
    intros W [Gp1 Bp1] [Gq1 Bq1] F1 F2 F3 F4. unfold OkP, n_status. cbn [n_res n_exh].
    unfold par_compute in W.
    destruct (n_exh p) eqn:Xp; cbn [andb] in W.
    { destruct (status_eqb (n_status p) (Some Unknown)) eqn:U; cbn [negb] in W.
      2:{ injection W as <- <-. fold (n_status p). split; auto. intro g. destruct (Gp1 g). auto. }
      destruct (n_exh q && negb (status_eqb (n_status q) (Some Unknown))) eqn:V.
      { injection W as <- <-. fold (n_status q). split; auto. intro g. destruct (Gq1 g). auto. }
      pose proof (merge_res (n_res p) (n_exh q) q) as M. rewrite W in M.
      destruct M as (-> & MG & MB). split.
      - intro g. destruct (MG g) as [gp gq]. fold (n_status p) in gp.
        apply status_eqb_spec in U. rewrite U in gp. destruct gp; discriminate.
      - intro b. destruct (MB b); auto. }
    destruct (n_exh q && negb (status_eqb (n_status q) (Some Unknown))) eqn:V.
    { injection W as <- <-. fold (n_status q). split; auto. intro g. destruct (Gq1 g). auto. }
    pose proof (merge_res (n_res p) false q) as M. rewrite W in M.
    destruct M as (-> & MG & MB). split.
    - intro g. destruct (MG g) as [gp gq]. fold (n_status p) in gp. destruct (Gp1 gp). congruence.
    - intro b. destruct (MB b); auto.
  Qed.

  Definition GoodS (s : st) : Prop :=
    let '(h, pc, _) := s in forall a, models pc a -> detach_ok -> Safe a h.
  Definition BadS (s : st) : Prop :=
    let '(h, pc, _) := s in assume_ok -> (exists a, models pc a) ->
      exists a o, models pc a /\ Runs a h o /\ refuting o.

  Lemma Ok_OkP n s : Ok n s <-> OkP n (GoodS s) (BadS s).
  Proof.
    destruct s as [[h pc] kn]. unfold Ok, OkP, GoodS, BadS. firstorder.
  Qed.

  Lemma Inv_finish n det s r : Inv n det s -> (good (a_status r) -> GoodS s) ->
    (a_status r = Some Refuted -> BadS s) -> Inv (finish n r) det s.
  Proof.
    intros I G B.
    destruct n as [ | r0 | k f p q r0 x | p q r0 x | c r0 x]; cbn [Inv finish cache] in *;
      destruct I as (_ & C & Y); (split; [|split; [|exact Y]]); auto;
      apply Ok_OkP; split; cbn; auto.
  Qed.

  Lemma Sils_here det s s' : (forall s1, ~ Sil1 det s s1) -> Sils det s s' -> s = s'.
  Proof. intros N H. destruct H; auto. exfalso; eapply N; eauto. Qed.

  Definition Post (o : out Expr VExpr Val) (det : bool) (s : st) : Prop :=
    Inv (o_node o) det s /\
    (o_leaf o = A_unknown \/ o_leaf o = A_internal \/ prog (o_hist o) = ADone (o_leaf o)) /\
    (exists l, o_hist o = l ++ fst (fst s)) /\
    (assume_ok -> (exists a, models (snd (fst s)) a) ->
       exists a, models (snd (fst s)) a /\ models (o_pc o) a /\ Agrees a (o_hist o) /\
         (a_status (o_leaf o) <> Some Unknown -> Runs a (fst (fst s)) (Ended (o_leaf o)))).

  Lemma Post_unknown_n n n' det h pc kn : StOk (h, pc, kn) -> Inv n det (h, pc, kn) ->
    n' = n \/ n' = finish n A_unknown ->
    Post (mkOut n' A_unknown h pc) det (h, pc, kn).
  Proof.
    intros S I N. split; [|split; [|split]]; cbn.
    - destruct N as [->| ->]; auto. apply Inv_finish; auto; cbn; [intros [|]; discriminate|discriminate].
    - auto.
    - now exists [].
    - intros _ [a M]. exists a. repeat split; auto; [|intro U; now destruct U].
      destruct S as (H1 & _). auto.
  Qed.

  Lemma Post_unknown n det h pc kn : StOk (h, pc, kn) -> Inv n det (h, pc, kn) ->
    Post (stop n A_unknown h pc) det (h, pc, kn).
  Proof. intros; eapply Post_unknown_n; eauto. Qed.

  Lemma Post_internal n det h pc kn : Inv n det (h, pc, kn) ->
    (assume_ok -> (exists a, models pc a) -> False) ->
    Post (stop n A_internal h pc) det (h, pc, kn).
  Proof.
    intros I F. split; [|split; [|split]]; cbn.
    - apply Inv_finish; auto; cbn; [intros [|]; discriminate|].
      intros _ AO M. destruct (F AO M).
    - auto.
    - now exists [].
    - intros AO M. destruct (F AO M).
  Qed.

  (** A silent step before a run. *)
  Lemma Post_sil o det s s1 : Sil1 det s s1 -> StOk s -> Post o det s1 -> Post o det s.
  Proof.
    intros Hs S (I & G & L & B). split; [|split; [|split]]; auto.
    - eapply Inv_back; eauto.
    - destruct L as [l ->]. destruct Hs; cbn;
        match goal with |- exists _, l ++ ?x :: ?h = _ => exists (l ++ [x]) end;
        now rewrite <- app_assoc.
    - intros AO [a0 M0].
      assert (Q : forall h pc kn, s = (h, pc, kn) -> (forall x, prog h <> ARealize x) ->
                  forall a, models pc a <-> Agrees a h).
      { intros; subst. eapply StOk_equiv; eauto. }
      assert (S' := S).
      destruct Hs as [h pc kn e b P L' | h pc kn e P L' | h pc kn e P L' | h pc kn e b P L' | h pc kn P L'];
        cbn [fst snd] in *; specialize (Q _ _ _ eq_refl ltac:(intros; congruence));
        destruct S' as (H1 & H2 & H3).
      + destruct (B AO) as (a & M & M' & A & R); eauto. exists a. repeat split; auto.
        intro r. eapply R_fork; eauto. rewrite (H3 _ _ L' a M). auto.
      + destruct (AO a0 h e) as [a1 [A1 E1]]; auto.
        destruct (B AO) as (a & M & M' & A & R); eauto.
        { exists a1. apply models_cons. split; auto. now apply Q. }
        apply models_cons in M as [He M]. exists a. repeat split; auto.
        intro r. eapply R_assume; eauto.
      + destruct (B AO) as (a & M & M' & A & R); eauto. exists a. repeat split; auto.
        intro r. eapply R_assume; eauto.
      + destruct (B AO) as (a & M & M' & A & R); eauto. exists a. repeat split; auto.
        intro r. eapply R_poss; eauto. rewrite L'. eapply poss_equiv; eauto.
      + destruct (B AO) as (a & M & M' & A & R); eauto. exists a. repeat split; auto.
        intro r. eapply R_detach; eauto.
  Qed.

  Lemma worst_choose_ok E h pc f (p q : node) : worst_exhausted f p q = false ->
    exists b, worst_choose Expr VExpr Val E h pc f p q = Some b /\
      n_exh (if b then p else q) = false /\ (f = None \/ f = Some b).
  Proof.
    unfold worst_exhausted, worst_choose, rand_choose. intro W.
    destruct f as [[]|].
    - exists true. repeat split; auto. destruct (n_exh p); auto. rewrite orb_true_r in W. discriminate.
    - exists false. repeat split; auto. destruct (n_exh q); auto. rewrite !orb_true_r in W. discriminate.
    - destruct (n_exh p) eqn:Hp, (n_exh q) eqn:Hq; cbn in W; try discriminate.
      + exists false. auto.
      + exists true; auto.
      + exists (e_rand E h pc). destruct (e_rand E h pc); auto.
  Qed.

  Lemma par_side (p q : node) : snd (par_compute p q) = false ->
    exists b : bool, n_exh (if b then p else q) = false.
  Proof.
    intro W.
    destruct (n_exh p) eqn:Hp, (n_exh q) eqn:Hq; try (now exists true); try (now exists false).
    exfalso. unfold par_compute in W. rewrite Hp, Hq in W. cbn [andb] in W.
    destruct (status_eqb (n_status p) (Some Unknown)); cbn in W; [|discriminate].
    destruct (status_eqb (n_status q) (Some Unknown)); cbn in W; [|discriminate].
    pose proof (merge_res (n_res p) true q) as M.
    destruct (merge (n_res p) true q) as [r y]. destruct M as (-> & _).
    rewrite Hq in W. discriminate.
  Qed.

  Lemma rand_choose_ok E h pc (p q : node) : snd (par_compute p q) = false ->
    exists b, rand_choose Expr VExpr Val E h pc p q = Some b /\
      n_exh (if b then p else q) = false.
  Proof.
    intro W. unfold rand_choose.
    destruct (n_exh p) eqn:Hp, (n_exh q) eqn:Hq.
    - exfalso. unfold par_compute in W. rewrite Hp, Hq in W. cbn [andb] in W.
      destruct (status_eqb (n_status p) (Some Unknown)); cbn in W; [|discriminate].
      destruct (status_eqb (n_status q) (Some Unknown)); cbn in W; [|discriminate].
      pose proof (merge_res (n_res p) true q) as M.
      destruct (merge (n_res p) true q) as [r y]. destruct M as (-> & _).
      rewrite Hq in W. discriminate.
    - exists false; auto.
    - exists true; auto.
    - exists (e_rand E h pc). destruct (e_rand E h pc); auto.
  Qed.

  (** The child states of a two-way node at state [(h, pc, kn)]. *)
  Definition branch (k : kind Expr VExpr Val) (b : bool) (s : st) : st :=
    let '(h, pc, kn) := s in
    match k with
    | KExpr e => (ABool b :: h, LExpr e b :: pc, (e, b) :: kn)
    | KVal x v => if b then (AVal v :: h, LVal x v true :: pc, kn)
                  else (h, LVal x v false :: pc, kn)
    end.

  Definition at_kind (k : kind Expr VExpr Val) (s : st) : Prop :=
    let '(h, pc, kn) := s in
    match k with
    | KExpr e => prog h = AFork e /\ lookup kn e = None
    | KVal x v => prog h = ARealize x /\ exists a, models pc a /\ veval a x = v
    end.

  Lemma branch_StOk k b s : StOk s -> at_kind k s -> StOk (branch k b s).
  Proof.
    destruct s as [[h pc] kn], k as [e|x v]; intros S A; cbn in A |- *.
    - apply StOk_fork; tauto.
    - destruct A as [P X]. destruct b; [apply StOk_real | apply StOk_notreal]; auto.
  Qed.

  Lemma branch_runs k b h pc kn a o : at_kind k (h, pc, kn) ->
    models (snd (fst (branch k b (h, pc, kn)))) a ->
    Runs a (fst (fst (branch k b (h, pc, kn)))) o -> Runs a h o.
  Proof.
    destruct k as [e|x v]; cbn; intros [P X] M R.
    - apply models_cons in M as [L M]. cbn in L. subst b. eapply R_fork; eauto.
    - destruct b; cbn in *; auto.
      apply models_cons in M as [L M]. cbn in L. subst v. eapply R_real; eauto.
  Qed.

  Lemma branch_pc k b h pc kn : snd (fst (branch k b (h, pc, kn))) = klit k b :: pc.
  Proof. destruct k; cbn; auto. now destruct b. Qed.

  Lemma klit_dec k pc a : models pc a -> models (klit k true :: pc) a \/ models (klit k false :: pc) a.
  Proof.
    intro M. destruct k as [e|x v].
    - destruct (holds a e) eqn:H; [left|right]; apply models_cons; auto.
    - destruct (val_dec (veval a x) v); [left|right]; apply models_cons; auto.
  Qed.

  Lemma branch_good k b s : at_kind k s -> GoodS (branch k b s) ->
    forall a, models (klit k b :: snd (fst s)) a -> detach_ok -> Safe a (fst (fst s)).
  Proof.
    destruct s as [[h pc] kn]. intros A G a M D. cbn [fst snd] in *.
    assert (G' : forall a, models (snd (fst (branch k b (h, pc, kn)))) a -> detach_ok ->
                 Safe a (fst (fst (branch k b (h, pc, kn))))).
    { destruct (branch k b (h, pc, kn)) as [[h' pc'] kn']. exact G. }
    rewrite branch_pc in G'. destruct (G' a M D) as [o [R F]]. exists o. split; auto.
    eapply branch_runs with (b := b); eauto. now rewrite branch_pc.
  Qed.

  Lemma branch_bad k b s : at_kind k s -> BadS (branch k b s) ->
    assume_ok -> (exists a, models (klit k b :: snd (fst s)) a) ->
    exists a o, models (snd (fst s)) a /\ Runs a (fst (fst s)) o /\ refuting o.
  Proof.
    destruct s as [[h pc] kn]. intros A G AO M. cbn [fst snd] in *.
    assert (G' : assume_ok -> (exists a, models (snd (fst (branch k b (h, pc, kn)))) a) ->
       exists a o, models (snd (fst (branch k b (h, pc, kn)))) a /\
          Runs a (fst (fst (branch k b (h, pc, kn)))) o /\ refuting o).
    { destruct (branch k b (h, pc, kn)) as [[h' pc'] kn']. exact G. }
    assert (R := branch_runs k b h pc kn).
    rewrite branch_pc in G', R. destruct (G' AO M) as (a & o & M' & R' & F). exists a, o.
    split; [apply models_cons in M'; tauto|]. split; auto.
  Qed.

  Lemma Inv_worst_intro k f p q res det s :
    StOk s -> at_kind k s -> forced_ok f k (snd (fst s)) p q ->
    Inv p det (branch k true s) -> Inv q det (branch k false s) ->
    Inv (upd_worst k f p q res false) det s.
  Proof.
    intros S A F Ip Iq. unfold upd_worst.
    destruct (worst_compute f p q) as [r y] eqn:W.
    cbn [Inv]. split; [|split].
    - apply Ok_OkP. apply (worst_ok k f p q _ _ _ _ (GoodS s) (BadS s) r y W
         (proj1 (Ok_OkP _ _) (Inv_Ok _ _ _ Ip)) (proj1 (Ok_OkP _ _) (Inv_Ok _ _ _ Iq))).
      assert (GG := fun b => branch_good k b s A). assert (BB := fun b => branch_bad k b s A).
      destruct s as [[h pc] kn]; cbn [fst snd] in *.
      destruct f as [[]|]; destruct F as [F1 F2].
      + split; auto. split.
        * intros G a M D. eapply (GG true); eauto.
        * intros B AO [a M]. eapply (BB true); eauto.
      + split; auto. split.
        * intros G a M D. eapply (GG false); eauto.
        * intros B AO [a M]. eapply (BB false); eauto.
      + split; [|split].
        * intros G1 G2 a M D. destruct (klit_dec k _ _ M); [eapply (GG true)|eapply (GG false)]; eauto.
        * intros B AO _. eapply (BB true); eauto.
        * intros B AO _. eapply (BB false); eauto.
    - cbn [cache]. destruct y; auto. apply worst_cache; [destruct f as [[]|]; auto|].
      now rewrite W.
    - destruct s as [[h pc] kn]. exists h, pc, kn. split; [constructor|]. split; [exact S|].
      split; [exact F|]. destruct k; cbn in *; tauto.
  Qed.

  Lemma grow_forced_ok E pc k f : truthful E ->
    grow_forced Expr VExpr Val E pc k = Some f -> forced_ok f k pc Stem Stem.
  Proof.
    intros T H. unfold grow_forced in H.
    destruct (e_sat E (klit k false :: pc)) eqn:S1.
    - destruct (e_sat E (klit k true :: pc)) eqn:S2; inversion H; subst; cbn.
      + split; eapply t_sat; eauto.
      + split; auto. intros a M. destruct (klit_dec k _ _ M) as [N|]; auto.
        exfalso. eapply t_unsat; eauto.
    - inversion H; subst; cbn. split; auto. intros a M. destruct (klit_dec k _ _ M) as [|N]; auto.
      exfalso. eapply t_unsat; eauto.
    - discriminate.
  Qed.

  Lemma Post_worst k f p q res det s b o :
    StOk s -> at_kind k s -> forced_ok f k (snd (fst s)) p q ->
    Inv p det (branch k true s) -> Inv q det (branch k false s) ->
    f = None \/ f = Some b ->
    Post o det (branch k b s) ->
    Post (mkOut (if b then upd_worst k f (o_node o) q res false
                 else upd_worst k f p (o_node o) res false)
                (o_leaf o) (o_hist o) (o_pc o)) det s.
  Proof.
    intros S A F Ip Iq Fb (I & G & L & B). split; [|split; [|split]]; cbn [o_node o_leaf o_hist o_pc].
    - assert (forced_ok f k (snd (fst s)) (if b then o_node o else p) (if b then q else o_node o)).
      { destruct Fb as [->| ->]; [exact F|]. destruct b; exact F. }
      destruct b; apply Inv_worst_intro; auto.
    - exact G.
    - destruct L as [l ->]. destruct s as [[h pc] kn]. destruct k as [e|x v]; cbn.
      + exists (l ++ [ABool b]). now rewrite <- app_assoc.
      + destruct b; cbn; [exists (l ++ [AVal v]); now rewrite <- app_assoc | now exists l].
    - intros AO [a0 M0]. destruct s as [[h pc] kn]; cbn [fst snd] in *.
      assert (R := branch_runs k b h pc kn). rewrite branch_pc in B, R.
      destruct (B AO) as (a & M & M' & Ag & RR).
      { destruct Fb as [-> | ->]; cbn in F.
        - destruct b; tauto.
        - destruct b; exists a0; apply F; auto. }
      exists a. split; [apply models_cons in M; tauto|]. split; auto.
  Qed.

  Lemma Inv_par_intro p q res det h pc kn :
    StOk (h, pc, kn) -> prog h = APar ->
    Inv p det (ABool true :: h, pc, kn) -> Inv q det (ABool false :: h, pc, kn) ->
    Inv (upd_par p q res false) det (h, pc, kn).
  Proof.
    intros S A Ip Iq. unfold upd_par.
    destruct (par_compute p q) as [r y] eqn:W.
    cbn [Inv]. split; [|split].
    - apply Ok_OkP. apply (par_ok p q _ _ _ _ (GoodS (h, pc, kn)) (BadS (h, pc, kn)) r y W
         (proj1 (Ok_OkP _ _) (Inv_Ok _ _ _ Ip)) (proj1 (Ok_OkP _ _) (Inv_Ok _ _ _ Iq)));
        unfold GoodS, BadS.
      + intros G a M D. destruct (G a M D) as [o [R F]]. exists o. split; auto. eapply R_par; eauto.
      + intros G a M D. destruct (G a M D) as [o [R F]]. exists o. split; auto. eapply R_par; eauto.
      + intros B AO X. destruct (B AO X) as (a & o & M & R & F). exists a, o. repeat split; auto.
        eapply R_par; eauto.
      + intros B AO X. destruct (B AO X) as (a & o & M & R & F). exists a, o. repeat split; auto.
        eapply R_par; eauto.
    - cbn [cache]. destruct y; auto. now rewrite W.
    - exists h, pc, kn. split; [constructor|]. tauto.
  Qed.

  Lemma Post_par p q res det h pc kn b o :
    StOk (h, pc, kn) -> prog h = APar ->
    Inv p det (ABool true :: h, pc, kn) -> Inv q det (ABool false :: h, pc, kn) ->
    Post o det (ABool b :: h, pc, kn) ->
    Post (mkOut (if b then upd_par (o_node o) q res false else upd_par p (o_node o) res false)
                (o_leaf o) (o_hist o) (o_pc o)) det (h, pc, kn).
  Proof.
    intros S A Ip Iq (I & G & L & B). split; [|split; [|split]]; cbn [o_node o_leaf o_hist o_pc].
    - destruct b; apply Inv_par_intro; auto.
    - exact G.
    - destruct L as [l ->]. exists (l ++ [ABool b]). cbn. now rewrite <- app_assoc.
    - intros AO X. destruct (B AO X) as (a & M & M' & Ag & RR). cbn in *. exists a.
      repeat split; auto. intro r. eapply R_par; eauto.
  Qed.

  Lemma Inv_Stem det s : Inv Stem det s.
  Proof.
    cbn. split; [|auto]. apply Ok_OkP. split; cbn; [intros [|]; discriminate | discriminate].
  Qed.

  Lemma run_post fuel : forall E n h pc kn det,
    truthful E -> StOk (h, pc, kn) -> Inv n det (h, pc, kn) -> n_exh n = false ->
    Post (run fuel E n h pc kn det) det (h, pc, kn).
  Proof.
    induction fuel as [|fuel IH]; intros E n h pc kn det T S I X; cbn [SearchTree_Model.run].
    { now apply Post_unknown. }
    destruct (e_abort E h pc) as [[]|] eqn:Ab.
    { now apply Post_unknown. }
    { eapply Post_unknown_n; eauto. }
    clear Ab. destruct (prog h) as [e|x| |e|e| |r] eqn:P.
    - (* fork *)
      destruct (lookup kn e) as [b|] eqn:L.
      { assert (Hs : Sil1 det (h, pc, kn) (ABool b :: h, pc, kn)) by (econstructor; eauto).
        eapply Post_sil; eauto. apply IH; auto. eapply StOk_sil; eauto. eapply Inv_fwd; eauto. }
      assert (N : forall s1, ~ Sil1 det (h, pc, kn) s1) by (intros s1; eapply no_sil_fork; eauto).
      assert (A : at_kind (KExpr e) (h, pc, kn)) by (split; auto).
      assert (Go : forall f p q res, forced_ok f (KExpr e) pc p q ->
                Inv p det (branch (KExpr e) true (h, pc, kn)) ->
                Inv q det (branch (KExpr e) false (h, pc, kn)) ->
                worst_exhausted f p q = false ->
          Post match worst_choose Expr VExpr Val E h pc f p q with
               | Some b =>
                 let o := run fuel E (if b then p else q) (ABool b :: h) (LExpr e b :: pc)
                              ((e, b) :: kn) det in
                  mkOut (if b then upd_worst (KExpr e) f (o_node o) q res false
                     else upd_worst (KExpr e) f p (o_node o) res false)
                    (o_leaf o) (o_hist o) (o_pc o)
               | None => stop (Worst (KExpr e) f p q res false) A_internal h pc
               end det (h, pc, kn)).
      { intros f p q res F Ip Iq W.
        destruct (worst_choose_ok E h pc f p q W) as (b & -> & Xc & Fb).
        cbv zeta. apply Post_worst; auto. apply IH; auto.
        - apply (branch_StOk (KExpr e) b (h, pc, kn)); auto.
        - destruct b; auto. }
      destruct n as [ | r | k f p q r x | p q r x | c r x]; cbn [n_exh] in X; try discriminate.
      + destruct (grow_forced Expr VExpr Val E pc (KExpr e)) as [f|] eqn:Gf.
        * apply Go; auto using Inv_Stem. eapply grow_forced_ok; eauto. now destruct f as [[]|].
        * now apply Post_unknown.
      + subst x. cbn [Inv] in I. destruct I as (O & C & h' & pc' & kn' & Si & S' & F & Y).
        apply Sils_here in Si; auto. injection Si as <- <- <-.
        destruct k as [e'|x' v'].
        * destruct Y as (P' & L' & Ip & Iq). assert (e' = e) by congruence. subst e'.
          assert (E1 : expr_eqb e e = true) by now apply expr_eqb_spec. rewrite E1.
          apply Go; auto.
        * destruct Y as (P' & _). congruence.
      + subst x. cbn [Inv] in I. destruct I as (O & C & h' & pc' & kn' & Si & S' & P' & _).
        apply Sils_here in Si; auto. injection Si as <- <- <-. congruence.
      + subst x. cbn [Inv cache] in I. destruct I as (_ & C & _). discriminate.
    - (* realize *)
      assert (N : forall s1, ~ Sil1 det (h, pc, kn) s1) by (intros s1; eapply no_sil_real; eauto).
      assert (Go : forall v f p q res, (exists a, models pc a /\ veval a x = v) ->
                forced_ok f (KVal x v) pc p q ->
                Inv p det (branch (KVal x v) true (h, pc, kn)) ->
                Inv q det (branch (KVal x v) false (h, pc, kn)) ->
                worst_exhausted f p q = false ->
          Post match worst_choose Expr VExpr Val E h pc f p q with
               | Some b =>
                 let o := (let pc' := LVal x v b :: pc in
                   let h' := if b then AVal v :: h else h in
                   match (if det then e_sat E pc' else Sat) with
                   | UnkSat => stop (if b then p else q) A_unknown h' pc'
                   | Unsat => stop (if b then p else q) A_internal h' pc'
                   | Sat => run fuel E (if b then p else q) h' pc' kn det
                   end) in
                  mkOut (if b then upd_worst (KVal x v) f (o_node o) q res false
                     else upd_worst (KVal x v) f p (o_node o) res false)
                    (o_leaf o) (o_hist o) (o_pc o)
               | None => stop (Worst (KVal x v) f p q res false) A_internal h pc
               end det (h, pc, kn)).
      { intros v f p q res V F Ip Iq W.
        assert (A : at_kind (KVal x v) (h, pc, kn)) by (split; auto).
        destruct (worst_choose_ok E h pc f p q W) as (b & -> & Xc & Fb).
        cbv zeta. apply Post_worst; auto.
        assert (Ic : Inv (if b then p else q) det (branch (KVal x v) b (h, pc, kn)))
          by (destruct b; auto).
        assert (Sc := branch_StOk (KVal x v) b _ S A).
        assert (Bs : branch (KVal x v) b (h, pc, kn) =
                     ((if b then AVal v :: h else h), LVal x v b :: pc, kn))
          by (destruct b; reflexivity).
        rewrite Bs in *.
        destruct (if det then e_sat E (LVal x v b :: pc) else Sat) eqn:Dq.
        - apply IH; auto.
        - apply Post_internal; auto. intros _ [a M]. destruct det; [|discriminate].
          eapply t_unsat; eauto.
        - now apply Post_unknown. }
      destruct n as [ | r | k f p q r y | p q r y | c r y]; cbn [n_exh] in X; try discriminate.
      + destruct (e_sat E pc) eqn:Sq.
        * destruct (grow_forced Expr VExpr Val E pc (KVal x (e_model E pc x))) as [f|] eqn:Gf.
          -- apply Go; auto using Inv_Stem. eapply t_model; eauto. eapply grow_forced_ok; eauto.
             now destruct f as [[]|].
          -- now apply Post_unknown.
        * apply Post_internal; auto. intros _ [a M]. eapply t_unsat; eauto.
        * now apply Post_unknown.
      + subst y. cbn [Inv] in I. destruct I as (O & C & h' & pc' & kn' & Si & S' & F & Y).
        apply Sils_here in Si; auto. injection Si as <- <- <-.
        destruct k as [e'|x' v'].
        * destruct Y as (P' & _). congruence.
        * destruct Y as (P' & V & Ip & Iq). assert (x' = x) by congruence. subst x'.
          apply Go; auto.
      + subst y. cbn [Inv] in I. destruct I as (O & C & h' & pc' & kn' & Si & S' & P' & _).
        apply Sils_here in Si; auto. injection Si as <- <- <-. congruence.
      + subst y. cbn [Inv cache] in I. destruct I as (_ & C & _). discriminate.
    - (* parallel *)
      assert (N : forall s1, ~ Sil1 det (h, pc, kn) s1) by (intros s1; eapply no_sil_par; eauto).
      assert (Go : forall p q res,
                Inv p det (ABool true :: h, pc, kn) ->
                Inv q det (ABool false :: h, pc, kn) ->
                snd (par_compute p q) = false ->
          Post match rand_choose Expr VExpr Val E h pc p q with
               | Some b =>
                 let o := run fuel E (if b then p else q) (ABool b :: h) pc kn det in
                  mkOut (if b then upd_par (o_node o) q res false
                     else upd_par p (o_node o) res false)
                    (o_leaf o) (o_hist o) (o_pc o)
               | None => stop (Par p q res false) A_internal h pc
               end det (h, pc, kn)).
      { intros p q res Ip Iq W.
        destruct (rand_choose_ok E h pc p q W) as (b & -> & Xc).
        cbv zeta. apply Post_par; auto. apply IH; auto.
        - apply StOk_par; auto.
        - destruct b; auto. }
      destruct n as [ | r | k f p q r y | p q r y | c r y]; cbn [n_exh] in X; try discriminate.
      + apply Go; auto using Inv_Stem.
      + subst y. cbn [Inv] in I. destruct I as (O & C & h' & pc' & kn' & Si & S' & F & Y).
        apply Sils_here in Si; auto. injection Si as <- <- <-.
        destruct k; destruct Y as (P' & _); congruence.
      + subst y. cbn [Inv] in I. destruct I as (O & C & h' & pc' & kn' & Si & S' & P' & Ip & Iq).
        apply Sils_here in Si; auto. injection Si as <- <- <-. apply Go; auto.
      + subst y. cbn [Inv cache] in I. destruct I as (_ & C & _). discriminate.
    - (* assume *)
      destruct (lookup kn e) as [[]|] eqn:L.
      + assert (Hs : Sil1 det (h, pc, kn) (AUnit :: h, pc, kn)) by (eapply S_as_old; eauto).
        eapply Post_sil; eauto. apply IH; auto. eapply StOk_sil; eauto. eapply Inv_fwd; eauto.
      + apply Post_internal; auto. intros AO [a M].
        assert (Q := StOk_equiv _ _ _ S ltac:(intros; congruence)).
        destruct (AO a h e) as [a' [A' H']]; auto. { now apply Q. }
        destruct S as (_ & _ & H3). rewrite (H3 _ _ L a') in H'; [discriminate|]. now apply Q.
      + assert (Hs : Sil1 det (h, pc, kn) (AUnit :: h, LExpr e true :: pc, (e, true) :: kn))
          by (eapply S_as_new; eauto).
        eapply Post_sil; eauto. apply IH; auto. eapply StOk_sil; eauto. eapply Inv_fwd; eauto.
    - (* possible *)
      destruct (e_sat E (LExpr e true :: pc)) eqn:Sq.
      + assert (Hs : Sil1 det (h, pc, kn) (ABool true :: h, pc, kn)).
        { eapply S_poss; eauto. split; auto. intros _.
          destruct (t_sat _ _ _ _ _ _ _ T _ Sq) as [a M]. apply models_cons in M. exists a. tauto. }
        eapply Post_sil; eauto. apply IH; auto. eapply StOk_sil; eauto. eapply Inv_fwd; eauto.
      + assert (Hs : Sil1 det (h, pc, kn) (ABool false :: h, pc, kn)).
        { eapply S_poss; eauto. split; [discriminate|]. intros [a [M He]]. exfalso.
          eapply t_unsat; eauto. apply models_cons; eauto. }
        eapply Post_sil; eauto. apply IH; auto. eapply StOk_sil; eauto. eapply Inv_fwd; eauto.
      + now apply Post_unknown.
    - (* detach *)
      destruct det.
      { assert (Hs : Sil1 true (h, pc, kn) (AUnit :: h, pc, kn)) by (eapply S_det; eauto).
        eapply Post_sil; eauto. apply IH; auto. eapply StOk_sil; eauto. eapply Inv_fwd; eauto. }
      destruct n as [ | r | k f p q r x | p q r x | c r x]; cbn [n_exh] in X; try discriminate.
      + assert (Hs : Sil1 true (h, pc, kn) (AUnit :: h, pc, kn)) by (eapply S_det; eauto).
        assert (S' := StOk_sil _ _ _ Hs S).
        assert (Po := IH E Stem (AUnit :: h) pc kn true T S' (Inv_Stem _ _) eq_refl).
        assert (Im : forall r, prog (AUnit :: h) = ADone r ->
                     good (a_status (o_leaf (run fuel E Stem (AUnit :: h) pc kn true))) ->
                     o_leaf (run fuel E Stem (AUnit :: h) pc kn true) = r).
        { intros r Pr. destruct fuel; cbn [SearchTree_Model.run].
          - cbn. intros [|]; discriminate.
          - destruct (e_abort E (AUnit :: h) pc) as [[]|]; cbn; try (intros [|]; discriminate).
            rewrite Pr. auto. }
        set (o := run fuel E Stem (AUnit :: h) pc kn true) in *. clearbody o.
        destruct Po as (I' & G & L & B). cbn [fst snd] in *.
        split; [|split; [|split]]; cbn [o_node o_leaf o_hist o_pc fst snd].
        * cbn [Inv cache]. split; [|auto]. apply Ok_OkP. split; cbn [n_status n_res n_exh].
          -- intro g. split; auto. intros a M D. destruct L as [l L].
             destruct (D h P) as [[r Pr]|D'].
             ++ exists (Ended r). split; [eapply R_detach; eauto; now apply R_done|].
                cbn. now rewrite <- (Im r Pr g).
             ++ exfalso. apply (D' l (o_leaf o)); auto. rewrite <- L.
                change (good (a_status (o_leaf o))) in g.
                destruct G as [G|[G|G]]; auto; rewrite G in g; destruct g; discriminate.
          -- intros r AO X'. destruct (B AO X') as (a & M & M' & Ag & R).
             exists a, (Ended (o_leaf o)). repeat split; auto. eapply R_detach; eauto.
             apply R. change (a_status (o_leaf o) = Some Refuted) in r. rewrite r. discriminate.
        * exact G.
        * destruct L as [l ->]. exists (l ++ [AUnit]). now rewrite <- app_assoc.
        * intros AO X'. destruct (B AO X') as (a & M & M' & Ag & R). exists a. repeat split; auto.
          intro r. eapply R_detach; eauto.
      + subst x. cbn [Inv] in I. destruct I as (O & C & h' & pc' & kn' & Si & S' & F & Y).
        apply Sils_here in Si; [|intros s1 Hs; inversion Hs; subst; congruence].
        injection Si as <- <- <-. destruct k; destruct Y as (P' & _); congruence.
      + subst x. cbn [Inv] in I. destruct I as (O & C & h' & pc' & kn' & Si & S' & P' & _).
        apply Sils_here in Si; [|intros s1 Hs; inversion Hs; subst; congruence].
        injection Si as <- <- <-. congruence.
      + subst x. cbn [Inv cache] in I. destruct I as (_ & C & _). discriminate.
    - (* done *)
      split; [|split; [|split]]; cbn [stop o_node o_leaf o_hist o_pc fst snd].
      + apply Inv_finish; auto.
        * intros g a M D. exists (Ended r). split; [now apply R_done | exact g].
        * intros b AO [a M]. exists a, (Ended r). repeat split; auto. now apply R_done.
      + auto.
      + now exists [].
      + intros AO [a M]. exists a. repeat split; auto; [|intros _; now apply R_done].
        destruct S as (H1 & _). auto.
  Qed.

  (** *** The whole search *)
  Notation search := (search Expr VExpr Val expr_eqb prog).
  Notation iteration := (iteration Expr VExpr Val expr_eqb prog).

  Definition s0 : st := ([], [], []).

  Lemma search_inv sched : forall t, Forall (fun fe => truthful (snd fe)) sched ->
    Inv t false s0 -> Inv (search sched t) false s0.
  Proof.
    induction sched as [|[fuel E] rest IH]; intros t F I; cbn; auto.
    inversion F; subst. destruct (n_exh t) eqn:X; cbn [orb]; auto.
    destruct (status_eqb (n_status t) (Some Refuted)); auto.
    apply IH; auto. unfold SearchTree_Model.iteration.
    apply run_post; auto. apply StOk_init.
  Qed.

  Lemma confirmed_sound sched : Forall (fun fe => truthful (snd fe)) sched -> detach_ok ->
    good (n_status (search sched Stem)) ->
    n_exh (search sched Stem) = true /\ forall a, Safe a [].
  Proof.
    intros F D G. destruct (Inv_Ok _ _ _ (search_inv sched Stem F (Inv_Stem _ _))) as [H _].
    destruct (H G) as [X Y]. split; auto. intro a. apply Y; auto. constructor.
  Qed.

  Lemma Runs_det : no_par Expr VExpr Val prog -> forall a h o1, Runs a h o1 ->
    forall o2, Runs a h o2 -> o1 = o2.
  Proof.
    intros NP a h o1 R. induction R as [h r P|h e o P R IH|h x o P R IH|h e o P He R IH|h e P He|h b o P R IH|h e b o P B R IH|h o P R IH];
      intros o2 R2; inversion R2; subst; try congruence.
    - apply IH. assert (e0 = e) by congruence. now subst.
    - apply IH. assert (x0 = x) by congruence. now subst.
    - apply IH; auto.
    - apply IH. assert (e0 = e) by congruence. subst.
      assert (b0 = b) by (eapply iff_bool; eassumption). now subst.
    - apply IH; auto.
  Qed.

  Lemma confirmed_sound_nopar sched : Forall (fun fe => truthful (snd fe)) sched -> detach_ok ->
    no_par Expr VExpr Val prog ->
    good (n_status (search sched Stem)) ->
    forall a, (exists o, Runs a [] o) /\ forall o, Runs a [] o -> fine o.
  Proof.
    intros F D NP G a. destruct (confirmed_sound sched F D G) as [_ H].
    destruct (H a) as [o [R Fi]]. split; [eauto|]. intros o' R'.
    now rewrite (Runs_det NP a [] o' R' o R).
  Qed.

  Lemma refuted_sound sched : Forall (fun fe => truthful (snd fe)) sched -> assume_ok ->
    inhabited Asg ->
    n_status (search sched Stem) = Some Refuted ->
    exists a o, Runs a [] o /\ refuting o.
  Proof.
    intros F AO [a0] R. destruct (Inv_Ok _ _ _ (search_inv sched Stem F (Inv_Stem _ _))) as [_ H].
    destruct (H AO) as (a & o & _ & Ru & Re); eauto. exists a0. constructor.
  Qed.

  (** Each single execution is consistent with some assignment. *)
  Lemma path_consistent sched fuel E : Forall (fun fe => truthful (snd fe)) sched ->
    truthful E -> assume_ok -> inhabited Asg ->
    n_exh (search sched Stem) = false ->
    let o := iteration fuel E (search sched Stem) in
    exists a, Agrees a (o_hist o) /\ models (o_pc o) a.
  Proof.
    intros F T AO [a0] X o.
    destruct (run_post fuel E _ _ _ _ _ T StOk_init
                (search_inv sched Stem F (Inv_Stem _ _)) X) as (_ & _ & _ & B).
    destruct (B AO) as (a & _ & M & A & _). { exists a0; constructor. }
    exists a. auto.
  Qed.

  (** *** Shape of the tree transformation made by one iteration *)
  Inductive Tr : node -> node -> Prop :=
  | Tr_unknown n : Tr n (finish n A_unknown)
  | Tr_same n : Tr n n
  | Tr_leaf r : Tr Stem (Leaf r)
  | Tr_detach c r : Tr Stem c -> Tr Stem (Detached c r true)
  | Tr_worst k f p q res (b : bool) c : worst_exhausted f p q = false ->
      n_exh (if b then p else q : node) = false -> (f = None \/ f = Some b) ->
      Tr (if b then p else q) c ->
      Tr (Worst k f p q res false)
         (if b then upd_worst k f c q res false else upd_worst k f p c res false)
  | Tr_grow k (f : option bool) (b : bool) c : (f = None \/ f = Some b) -> Tr Stem c ->
      Tr Stem (if b then upd_worst k f c Stem A_ignore false
               else upd_worst k f Stem c A_ignore false)
  | Tr_par p q res (b : bool) c : snd (par_compute p q) = false ->
      n_exh (if b then p else q : node) = false ->
      Tr (if b then p else q) c ->
      Tr (Par p q res false)
         (if b then upd_par c q res false else upd_par p c res false)
  | Tr_gpar (b : bool) c : Tr Stem c ->
      Tr Stem (if b then upd_par c Stem A_ignore false else upd_par Stem c A_ignore false).

  Lemma Inv_worst_elim det h pc kn k f p q res : 
    (forall s1, ~ Sil1 det (h, pc, kn) s1) -> Inv (Worst k f p q res false) det (h, pc, kn) ->
    at_kind k (h, pc, kn) /\ forced_ok f k pc p q /\
    Inv p det (branch k true (h, pc, kn)) /\ Inv q det (branch k false (h, pc, kn)) /\
    worst_exhausted f p q = false.
  Proof.
    intros N I. cbn [Inv] in I. destruct I as (O & C & h' & pc' & kn' & Si & S' & F & Y).
    apply Sils_here in Si; auto. injection Si as <- <- <-. cbn in C.
    destruct k; cbn; tauto.
  Qed.

  Lemma Inv_par_elim det h pc kn p q res : 
    (forall s1, ~ Sil1 det (h, pc, kn) s1) -> Inv (Par p q res false) det (h, pc, kn) ->
    prog h = APar /\ Inv p det (ABool true :: h, pc, kn) /\
    Inv q det (ABool false :: h, pc, kn) /\ snd (par_compute p q) = false.
  Proof.
    intros N I. cbn [Inv] in I. destruct I as (O & C & h' & pc' & kn' & Si & S' & Y).
    apply Sils_here in Si; auto. injection Si as <- <- <-. cbn in C. tauto.
  Qed.

  (** Every outcome of [run] is one of the cases below; used for the next lemmas. *)
  Lemma run_tr fuel : forall E n h pc kn det,
    truthful E -> StOk (h, pc, kn) -> Inv n det (h, pc, kn) -> n_exh n = false ->
    Tr n (o_node (run fuel E n h pc kn det)).
  Proof.
    induction fuel as [|fuel IH]; intros E n h pc kn det T S I X; cbn [SearchTree_Model.run].
    { apply Tr_unknown. }
    destruct (e_abort E h pc) as [[]|] eqn:Ab.
    { apply Tr_unknown. }
    { apply Tr_same. }
    clear Ab. destruct (prog h) as [e|x| |e|e| |r] eqn:P.
    - destruct (lookup kn e) as [b|] eqn:L.
      { assert (Hs : Sil1 det (h, pc, kn) (ABool b :: h, pc, kn)) by (econstructor; eauto).
        apply IH; auto. eapply StOk_sil; eauto. eapply Inv_fwd; eauto. }
      assert (N : forall s1, ~ Sil1 det (h, pc, kn) s1) by (intros s1; eapply no_sil_fork; eauto).
      destruct n as [ | r | k f p q r x | p q r x | c r x]; cbn [n_exh] in X; try discriminate.
      + destruct (grow_forced Expr VExpr Val E pc (KExpr e)) as [f|] eqn:Gf; [|apply Tr_unknown].
        destruct (worst_choose_ok E h pc f Stem Stem) as (b & -> & Xc & Fb).
        { now destruct f as [[]|]. }
        cbv zeta. cbn [o_node].
        replace (if b then Stem else Stem) with (Stem : node) by now destruct b.
        apply Tr_grow; auto. apply IH; auto using Inv_Stem.
        apply (branch_StOk (KExpr e) b (h, pc, kn)); auto. now split.
      + subst x. destruct (Inv_worst_elim _ _ _ _ _ _ _ _ _ N I) as (A & F & Ip & Iq & W).
        destruct k as [e'|x' v']; [|destruct A; congruence].
        destruct A as [P' L']. assert (e' = e) by congruence. subst e'.
        assert (E1 : expr_eqb e e = true) by now apply expr_eqb_spec. rewrite E1.
        destruct (worst_choose_ok E h pc f p q W) as (b & -> & Xc & Fb).
        cbv zeta. cbn [o_node]. apply Tr_worst; auto. apply IH; auto.
        * apply (branch_StOk (KExpr e) b (h, pc, kn)); auto. now split.
        * destruct b; auto.
      + subst x. destruct (Inv_par_elim _ _ _ _ _ _ _ N I). congruence.
      + subst x. cbn [Inv cache] in I. destruct I as (_ & C & _). discriminate.
    - assert (N : forall s1, ~ Sil1 det (h, pc, kn) s1) by (intros s1; eapply no_sil_real; eauto).
      destruct n as [ | r | k f p q r y | p q r y | c r y]; cbn [n_exh] in X; try discriminate.
      + destruct (e_sat E pc) eqn:Sq; [|apply Tr_leaf|apply Tr_unknown].
        destruct (grow_forced Expr VExpr Val E pc (KVal x (e_model E pc x))) as [f|] eqn:Gf; [|apply Tr_unknown].
        destruct (worst_choose_ok E h pc f Stem Stem) as (b & -> & Xc & Fb).
        { now destruct f as [[]|]. }
        cbv zeta. cbn [o_node].
        replace (if b then Stem else Stem) with (Stem : node) by now destruct b.
        apply Tr_grow; auto.
        assert (A : at_kind (KVal x (e_model E pc x)) (h, pc, kn)).
        { split; auto. eapply t_model; eauto. }
        assert (Sc := branch_StOk _ b _ S A).
        destruct (if det then e_sat E (LVal x (e_model E pc x) b :: pc) else Sat);
          [|apply Tr_leaf|apply Tr_unknown].
        apply IH; auto using Inv_Stem. destruct b; exact Sc.
      + subst y. destruct (Inv_worst_elim _ _ _ _ _ _ _ _ _ N I) as (A & F & Ip & Iq & W).
        destruct k as [e'|x' v']; [destruct A; congruence|].
        assert (A' := A). destruct A' as [P' V]. assert (x' = x) by congruence. subst x'.
        destruct (worst_choose_ok E h pc f p q W) as (b & -> & Xc & Fb).
        cbv zeta. cbn [o_node]. apply Tr_worst; auto.
        assert (Ic : Inv (if b then p else q) det (branch (KVal x v') b (h, pc, kn)))
          by (destruct b; auto).
        assert (Sc := branch_StOk (KVal x v') b _ S A).
        assert (Bs : branch (KVal x v') b (h, pc, kn) =
                     ((if b then AVal v' :: h else h), LVal x v' b :: pc, kn))
          by (destruct b; reflexivity).
        rewrite Bs in *.
        destruct (if det then e_sat E (LVal x v' b :: pc) else Sat) eqn:Dq.
        * apply IH; auto.
        * exfalso. destruct det; [|discriminate].
          (* the branch taken is satisfiable *)
          destruct V as [a0 [M0 V0]].
          assert (Hsat : exists a, models (LVal x v' b :: pc) a).
          { destruct Fb as [-> | ->]; cbn in F.
            - destruct b; tauto.
            - destruct b; exists a0; apply F; auto. }
          destruct Hsat as [a M]. eapply t_unsat; eauto.
        * apply Tr_unknown.
      + subst y. destruct (Inv_par_elim _ _ _ _ _ _ _ N I). congruence.
      + subst y. cbn [Inv cache] in I. destruct I as (_ & C & _). discriminate.
    - assert (N : forall s1, ~ Sil1 det (h, pc, kn) s1) by (intros s1; eapply no_sil_par; eauto).
      destruct n as [ | r | k f p q r y | p q r y | c r y]; cbn [n_exh] in X; try discriminate.
      + destruct (rand_choose_ok E h pc Stem Stem eq_refl) as (b & -> & Xc).
        cbv zeta. cbn [o_node].
        replace (if b then Stem else Stem) with (Stem : node) by now destruct b.
        apply Tr_gpar; auto. apply IH; auto using Inv_Stem. now apply StOk_par.
      + subst y. destruct (Inv_worst_elim _ _ _ _ _ _ _ _ _ N I) as (A & _).
        destruct k; destruct A; congruence.
      + subst y. destruct (Inv_par_elim _ _ _ _ _ _ _ N I) as (A & Ip & Iq & W).
        destruct (rand_choose_ok E h pc p q W) as (b & -> & Xc).
        cbv zeta. cbn [o_node]. apply Tr_par; auto. apply IH; auto.
        * now apply StOk_par.
        * destruct b; auto.
      + subst y. cbn [Inv cache] in I. destruct I as (_ & C & _). discriminate.
    - destruct (lookup kn e) as [[]|] eqn:L.
      + assert (Hs : Sil1 det (h, pc, kn) (AUnit :: h, pc, kn)) by (eapply S_as_old; eauto).
        apply IH; auto. eapply StOk_sil; eauto. eapply Inv_fwd; eauto.
      + destruct n as [ | r | k f p q r y | p q r y | c r y]; cbn [n_exh] in X; try discriminate.
        * apply Tr_leaf.
        * subst y. cbn [stop o_node finish].
          assert (N : forall s1, ~ Sil1 det (h, pc, kn) s1)
            by (intros s1 Hs; inversion Hs; subst; congruence).
          destruct (Inv_worst_elim _ _ _ _ _ _ _ _ _ N I) as (A & _).
          destruct k; destruct A; congruence.
        * subst y.
          assert (N : forall s1, ~ Sil1 det (h, pc, kn) s1)
            by (intros s1 Hs; inversion Hs; subst; congruence).
          destruct (Inv_par_elim _ _ _ _ _ _ _ N I). congruence.
        * subst y. cbn [Inv cache] in I. destruct I as (_ & C & _). discriminate.
      + assert (Hs : Sil1 det (h, pc, kn) (AUnit :: h, LExpr e true :: pc, (e, true) :: kn))
          by (eapply S_as_new; eauto).
        apply IH; auto. eapply StOk_sil; eauto. eapply Inv_fwd; eauto.
    - destruct (e_sat E (LExpr e true :: pc)) eqn:Sq.
      + assert (Hs : Sil1 det (h, pc, kn) (ABool true :: h, pc, kn)).
        { eapply S_poss; eauto. split; auto. intros _.
          destruct (t_sat _ _ _ _ _ _ _ T _ Sq) as [a M]. apply models_cons in M. exists a. tauto. }
        apply IH; auto. eapply StOk_sil; eauto. eapply Inv_fwd; eauto.
      + assert (Hs : Sil1 det (h, pc, kn) (ABool false :: h, pc, kn)).
        { eapply S_poss; eauto. split; [discriminate|]. intros [a [M He]]. exfalso.
          eapply t_unsat; eauto. apply models_cons; eauto. }
        apply IH; auto. eapply StOk_sil; eauto. eapply Inv_fwd; eauto.
      + apply Tr_unknown.
    - destruct det.
      { assert (Hs : Sil1 true (h, pc, kn) (AUnit :: h, pc, kn)) by (eapply S_det; eauto).
        apply IH; auto. eapply StOk_sil; eauto. eapply Inv_fwd; eauto. }
      assert (N : forall s1, ~ Sil1 false (h, pc, kn) s1)
        by (intros s1 Hs; inversion Hs; subst; congruence).
      destruct n as [ | r | k f p q r x | p q r x | c r x]; cbn [n_exh] in X; try discriminate.
      + cbn [o_node]. apply Tr_detach. apply IH; auto using Inv_Stem.
        eapply (StOk_sil true (h, pc, kn)); eauto. eapply S_det; eauto.
      + subst x. destruct (Inv_worst_elim _ _ _ _ _ _ _ _ _ N I) as (A & _).
        destruct k; destruct A; congruence.
      + subst x. destruct (Inv_par_elim _ _ _ _ _ _ _ N I). congruence.
      + subst x. cbn [Inv cache] in I. destruct I as (_ & C & _). discriminate.
    - assert (N : forall s1, ~ Sil1 det (h, pc, kn) s1)
        by (intros s1 Hs; inversion Hs; subst; congruence).
      destruct n as [ | r0 | k f p q r0 x | p q r0 x | c r0 x]; cbn [n_exh] in X; try discriminate.
      + apply Tr_leaf.
      + subst x. destruct (Inv_worst_elim _ _ _ _ _ _ _ _ _ N I) as (A & _).
        destruct k; destruct A; congruence.
      + subst x. destruct (Inv_par_elim _ _ _ _ _ _ _ N I). congruence.
      + subst x. cbn [Inv cache] in I. destruct I as (_ & C & _). discriminate.
  Qed.

  (** *** Exhausted positions never change *)
  Definition no_open_detach (n : node) : Prop :=
    match n with Detached _ _ x => x = true | _ => True end.

  Lemma frozen_refl n : AllPos no_open_detach n -> frozen n n.
  Proof.
    induction n as [ | r | k f p IHp q IHq r x | p IHp q IHq r x | c IHc r x]; cbn; auto.
    - destruct x; [auto|]. tauto.
    - destruct x; [auto|]. tauto.
    - intros [-> _]. auto.
  Qed.

  Lemma frozen_finish n r : AllPos no_open_detach n -> n_exh n = false -> frozen n (finish n r).
  Proof.
    destruct n as [ | r0 | k f p q r0 x | p q r0 x | c r0 x]; cbn; auto; try discriminate.
    - intros H ->. repeat split; apply frozen_refl; tauto.
    - intros H ->. repeat split; apply frozen_refl; tauto.
    - intros [-> _]. discriminate.
  Qed.

  Lemma AllPos_finish (P : node -> Prop) n r : AllPos P n -> P (finish n r) -> n_exh n = false -> AllPos P (finish n r).
  Proof.
    destruct n as [ | r0 | k f p q r0 x | p q r0 x | c r0 x]; cbn; tauto.
  Qed.

  Lemma upd_worst_shape k f (p q : node) res : exists r x, upd_worst k f p q res false = Worst k f p q r x
     /\ worst_compute f p q = (r, x).
  Proof. unfold upd_worst. destruct (worst_compute f p q) as [r x]. eauto. Qed.
  Lemma upd_par_shape (p q : node) res : exists r x, upd_par (Expr:=Expr) (VExpr:=VExpr) (Val:=Val) p q res false = Par p q r x
     /\ par_compute p q = (r, x).
  Proof. unfold upd_par. destruct (par_compute p q) as [r x]. eauto. Qed.

  Lemma Tr_nod n n' : Tr n n' -> n_exh n = false -> AllPos no_open_detach n -> AllPos no_open_detach n'.
  Proof.
    intros H. induction H as [n|n|r|c r H IH|k f p q res b c W Xc Fb H IH|k f b c Fb H IH|p q res b c W Xc H IH|b c H IH]; intros X A.
    - apply AllPos_finish; [auto | destruct n; cbn; auto | auto].
    - auto.
    - cbn; auto.
    - cbn. auto.
    - cbn in A. destruct A as (_ & A1 & A2). destruct b; cbv iota in *.
      + destruct (upd_worst_shape k f c q res) as (r & x & -> & _). cbn. auto.
      + destruct (upd_worst_shape k f p c res) as (r & x & -> & _). cbn. auto.
    - destruct b.
      + destruct (upd_worst_shape k f c Stem A_ignore) as (r & x & -> & _). cbn in *. auto.
      + destruct (upd_worst_shape k f Stem c A_ignore) as (r & x & -> & _). cbn in *. auto.
    - cbn in A. destruct A as (_ & A1 & A2). destruct b; cbv iota in *.
      + destruct (upd_par_shape c q res) as (r & x & -> & _). cbn. auto.
      + destruct (upd_par_shape p c res) as (r & x & -> & _). cbn. auto.
    - destruct b.
      + destruct (upd_par_shape c Stem A_ignore) as (r & x & -> & _). cbn in *. auto.
      + destruct (upd_par_shape Stem c A_ignore) as (r & x & -> & _). cbn in *. auto.
  Qed.

  Lemma Tr_frozen n n' : Tr n n' -> n_exh n = false -> AllPos no_open_detach n -> frozen n n'.
  Proof.
    intros H. induction H as [n|n|r|c r H IH|k f p q res b c W Xc Fb H IH|k f b c Fb H IH|p q res b c W Xc H IH|b c H IH]; intros X A;
      try exact I.
    - apply frozen_finish; auto.
    - apply frozen_refl; auto.
    - cbn in A. destruct A as (_ & A1 & A2). destruct b; cbv iota in *.
      + destruct (upd_worst_shape k f c q res) as (r & x & -> & _). cbn. auto using frozen_refl.
      + destruct (upd_worst_shape k f p c res) as (r & x & -> & _). cbn. auto using frozen_refl.
    - cbn in A. destruct A as (_ & A1 & A2). destruct b; cbv iota in *.
      + destruct (upd_par_shape c q res) as (r & x & -> & _). cbn. auto using frozen_refl.
      + destruct (upd_par_shape p c res) as (r & x & -> & _). cbn. auto using frozen_refl.
  Qed.

  (** *** A position with a positive verdict has nothing open below it *)
  Definition closedQ (n : node) : Prop :=
    good (n_status n) -> n_exh n = true /\ is_open n = false.

  Lemma good_not_unknown s : good s -> status_eqb s (Some Unknown) = false.
  Proof. destruct s as [[]|]; cbn; auto. intros [|]; discriminate. Qed.

  Lemma closed_worst k f (p q : node) r x : closedQ p -> closedQ q ->
    worst_compute f p q = (r, x) -> closedQ (Worst k f p q r x).
  Proof.
    intros Cp Cq W.
    assert (H := worst_ok k f p q (is_open p = false) (is_open q = false) True True
        (is_open (Worst k f p q r x) = false) True r x W (conj Cp (fun _ => I)) (conj Cq (fun _ => I))).
    cbn in H.
    destruct f as [[]|].
    - unfold worst_compute in W. rewrite orb_true_r in W. injection W as <- <-.
      intro g. destruct (Cp g) as [Hx Ho]. cbn. split; auto.
      unfold worst_exhausted. rewrite Hx. now rewrite orb_true_r.
    - unfold worst_compute in W. rewrite orb_false_r, orb_true_r in W.
      destruct (status_eqb (n_status p) (Some Refuted)) eqn:Ep.
      + apply status_eqb_spec in Ep. injection W as <- <-. intro g. unfold n_status in g. cbn in g.
        fold (n_status p) in g. rewrite Ep in g. destruct g; discriminate.
      + injection W as <- <-.
        intro g. destruct (Cq g) as [Hx Ho]. cbn. split; auto.
        unfold worst_exhausted. rewrite Hx. now rewrite !orb_true_r.
    - destruct H as [H _]; [|exact H]. repeat split; auto. intros -> ->. reflexivity.
  Qed.

  Lemma closed_par (p q : node) r x : closedQ p -> closedQ q ->
    par_compute p q = (r, x) -> closedQ (Par p q r x).
  Proof.
    intros Cp Cq W.
    destruct (par_ok p q (is_open p = false) (is_open q = false) True True
        (is_open (Par p q r x) = false) True r x W (conj Cp (fun _ => I)) (conj Cq (fun _ => I))) as [H _];
      auto; cbn.
    - intros ->. reflexivity.
    - intros ->. apply andb_false_r.
  Qed.

  Lemma closed_stem : closedQ Stem.
  Proof. intros [|]; discriminate. Qed.

  Lemma Tr_closed n n' : Tr n n' -> n_exh n = false -> AllPos closedQ n -> AllPos closedQ n'.
  Proof.
    intros H. induction H as [n|n|r|c r H IH|k f p q res b c W Xc Fb H IH|k f b c Fb H IH|p q res b c W Xc H IH|b c H IH]; intros X A.
    - apply AllPos_finish; [auto | destruct n; cbn; intros [|]; discriminate | auto].
    - auto.
    - cbn. split; auto. intro g. cbn. split; auto. now apply good_not_unknown.
    - cbn. split; [|apply IH; cbn; auto].
      intro g. cbn. split; auto. now apply good_not_unknown.
    - cbn [AllPos] in A. destruct A as (_ & A1 & A2). destruct b; cbv iota in *.
      + destruct (upd_worst_shape k f c q res) as (r & x & -> & E). cbn [AllPos].
        split; [|auto]. apply closed_worst; auto.
        * specialize (IH Xc A1). destruct c; cbn in IH; tauto.
        * destruct q; cbn in A2; tauto.
      + destruct (upd_worst_shape k f p c res) as (r & x & -> & E). cbn [AllPos].
        split; [|auto]. apply closed_worst; auto.
        * destruct p; cbn in A1; tauto.
        * specialize (IH Xc A2). destruct c; cbn in IH; tauto.
    - specialize (IH eq_refl A). assert (Cc : closedQ c) by (destruct c; cbn in IH; tauto).
      destruct b.
      + destruct (upd_worst_shape k f c Stem A_ignore) as (r & x & -> & E). cbn [AllPos].
        split; [|split; [auto | split; auto using closed_stem]].
        apply closed_worst; auto using closed_stem.
      + destruct (upd_worst_shape k f Stem c A_ignore) as (r & x & -> & E). cbn [AllPos].
        split; [|split; [split; auto using closed_stem | auto]].
        apply closed_worst; auto using closed_stem.
    - cbn [AllPos] in A. destruct A as (_ & A1 & A2). destruct b; cbv iota in *.
      + destruct (upd_par_shape c q res) as (r & x & -> & E). cbn [AllPos].
        split; [|auto]. apply closed_par; auto.
        * specialize (IH Xc A1). destruct c; cbn in IH; tauto.
        * destruct q; cbn in A2; tauto.
      + destruct (upd_par_shape p c res) as (r & x & -> & E). cbn [AllPos].
        split; [|auto]. apply closed_par; auto.
        * destruct p; cbn in A1; tauto.
        * specialize (IH Xc A2). destruct c; cbn in IH; tauto.
    - specialize (IH eq_refl A). assert (Cc : closedQ c) by (destruct c; cbn in IH; tauto).
      destruct b.
      + destruct (upd_par_shape c Stem A_ignore) as (r & x & -> & E). cbn [AllPos].
        split; [|split; [auto | split; auto using closed_stem]].
        apply closed_par; auto using closed_stem.
      + destruct (upd_par_shape Stem c A_ignore) as (r & x & -> & E). cbn [AllPos].
        split; [|split; [split; auto using closed_stem | auto]].
        apply closed_par; auto using closed_stem.
  Qed.

  Lemma search_ind (P : node -> Prop) sched :
    Forall (fun fe => truthful (snd fe)) sched ->
    P Stem ->
    (forall n n', Tr n n' -> n_exh n = false -> P n -> P n') ->
    P (search sched Stem).
  Proof.
    intros F P0 PS.
    assert (G : forall sched t, Forall (fun fe => truthful (snd fe)) sched ->
       Inv t false s0 -> P t -> P (search sched t)).
    { clear sched F. induction sched as [|[fuel E] rest IH]; intros t F I Pt; cbn; auto.
      inversion F; subst. destruct (n_exh t) eqn:X; cbn [orb]; auto.
      destruct (status_eqb (n_status t) (Some Refuted)); auto.
      assert (S := StOk_init).
      apply IH; auto.
      - apply (run_post fuel E t [] [] [] false); auto.
      - eapply PS; eauto. apply run_tr; auto. }
    apply G; auto using Inv_Stem.
  Qed.

  Lemma search_closed sched : Forall (fun fe => truthful (snd fe)) sched ->
    AllPos closedQ (search sched Stem).
  Proof.
    intro F. apply search_ind; auto. split; auto using closed_stem. apply Tr_closed.
  Qed.

  Lemma iteration_frozen sched fuel E : Forall (fun fe => truthful (snd fe)) sched -> truthful E ->
    n_exh (search sched Stem) = false ->
    frozen (search sched Stem) (o_node (iteration fuel E (search sched Stem))).
  Proof.
    intros F T X. apply Tr_frozen; auto.
    - apply run_tr; auto using StOk_init. apply search_inv; auto using Inv_Stem.
    - apply search_ind; auto. cbn; auto. apply Tr_nod.
  Qed.

  (** *** Termination *)
  Notation Depth := (Depth Expr VExpr Val prog).

  Fixpoint mu (n : node) (d : nat) : nat :=
    if n_exh n then 0 else
    match n, d with
    | Stem, _ => 2 ^ d
    | Worst _ (Some true) p _ _ _, S d => mu p d
    | Worst _ (Some false) _ q _ _, S d => mu q d
    | Worst _ None p q _ _, S d => mu p d + mu q d
    | Par p q _ _, S d => mu p d + mu q d
    | _, _ => 0
    end.

  Lemma mu_exh n d : n_exh n = true -> mu n d = 0.
  Proof. destruct n, d; cbn; intro H; rewrite ?H; auto; discriminate. Qed.

  Lemma pow_pos d : 0 < 2 ^ d.
  Proof. induction d; cbn; lia. Qed.

  Lemma mu_worst_upd k f (p q : node) res D : forall r x, upd_worst k f p q res false = Worst k f p q r x ->
    mu (Worst k f p q r x) (S D) <= match f with Some true => mu p D | Some false => mu q D
                                  | None => mu p D + mu q D end.
  Proof. intros r x _. cbn. destruct x; [lia|]. destruct f as [[]|]; lia. Qed.

  Lemma finish_exh n r : n_exh n = false -> no_open_detach n -> n_exh (finish n r) = true.
  Proof. destruct n; cbn; auto. Qed.

  Definition noun (E : env Expr VExpr Val) : Prop := forall h pc, e_abort E h pc <> Some AbUnattached.

  Lemma mu_finish n r D d h pc kn det : Inv n det (h, pc, kn) -> n_exh n = false ->
    Depth d h -> d <= D -> StOk (h, pc, kn) -> 0 < mu n D -> mu (finish n r) D < mu n D.
  Proof.
    intros I X _ _ _ P. rewrite (mu_exh (finish n r)); auto. apply finish_exh; auto.
    apply Inv_cache in I. destruct n; cbn; auto.
  Qed.

  (** Along a silent step the depth bound goes down. *)
  Lemma Depth_sil det d h pc kn s1 : Depth d h -> Sil1 det (h, pc, kn) s1 ->
    exists d', d = S d' /\ Depth d' (fst (fst s1)).
  Proof.
    intros H Hs. inversion H; subst; inversion Hs; subst; cbn; try congruence;
      try (exists d0; split; auto; fail);
      repeat match goal with
      | Q : _ \/ _ |- _ => destruct Q
      | Q : exists _, _ |- _ => destruct Q
      end; congruence.
  Qed.

  Lemma Depth_sils det s s' : Sils det s s' -> forall d, Depth d (fst (fst s)) ->
    exists d', d' <= d /\ Depth d' (fst (fst s')).
  Proof.
    induction 1 as [s|s s1 s2 H1 H2 IH]; intros d D. eauto.
    destruct s as [[h pc] kn]. destruct (Depth_sil _ _ _ _ _ _ D H1) as (d' & -> & D').
    destruct (IH _ D') as (d2 & L & D2). exists d2. split; auto.
  Qed.

  Lemma Depth_kind k h pc kn d b : at_kind k (h, pc, kn) -> Depth d h ->
    exists d', d = S d' /\ exists e, k = KExpr e /\ Depth d' (ABool b :: h).
  Proof.
    intros A D. destruct k as [e|x v]; destruct A as [P _]; inversion D; subst; try congruence;
      repeat match goal with
      | Q : _ \/ _ |- _ => destruct Q
      | Q : exists _, _ |- _ => destruct Q
      end; try congruence.
    exists d0. split; auto. eauto.
  Qed.

  Lemma mu_pos n : forall det s d D, Inv n det s -> Depth d (fst (fst s)) -> d <= D ->
    n_exh n = false -> 0 < mu n D.
  Proof.
    induction n as [ | r | k f p IHp q IHq r x | p IHp q IHq r x | c IHc r x];
      intros det s d D I Dp L X; cbn [n_exh] in X; try discriminate.
    - destruct D; cbn; auto. pose proof (pow_pos D). cbn in *. lia.
    - subst x. cbn [Inv] in I. destruct I as (O & C & h' & pc' & kn' & Si & S' & F & Y).
      destruct (Depth_sils _ _ _ Si _ Dp) as (d1 & L1 & D1). cbn [fst] in D1.
      destruct k as [e|y v].
      + destruct Y as (P & Lk & Ip & Iq). cbn in C.
        assert (A : at_kind (KExpr e) (h', pc', kn')) by (split; auto).
        destruct (Depth_kind _ _ _ _ _ true A D1) as (d2 & -> & e1 & _ & D2).
        destruct (Depth_kind _ _ _ _ _ false A D1) as (d3 & E3 & e2 & _ & D3).
        assert (d3 = d2) by congruence. subst d3. destruct D as [|D]; [lia|].
        cbn. unfold worst_exhausted in C. destruct f as [[]|].
        * assert (n_exh p = false) by (destruct (n_exh p); auto; rewrite orb_true_r in C; discriminate).
          apply (IHp det (branch (KExpr e) true (h', pc', kn')) d2 D); cbn; auto; lia.
        * assert (n_exh q = false) by (destruct (n_exh q); auto; rewrite !orb_true_r in C; discriminate).
          apply (IHq det (branch (KExpr e) false (h', pc', kn')) d2 D); cbn; auto; lia.
        * destruct (n_exh p) eqn:Xp.
          -- destruct (n_exh q) eqn:Xq; [discriminate|].
             assert (0 < mu q D); [|lia]. apply (IHq det (branch (KExpr e) false (h', pc', kn')) d2 D); cbn; auto; lia.
          -- assert (0 < mu p D); [|lia]. apply (IHp det (branch (KExpr e) true (h', pc', kn')) d2 D); cbn; auto; lia.
      + destruct Y as (P & V & _).
        destruct (Depth_kind (KVal y v) h' pc' kn' _ true (conj P V) D1) as (d2 & -> & e1 & Q & _).
        discriminate.
    - subst x. cbn [Inv] in I. destruct I as (O & C & h' & pc' & kn' & Si & S' & P & Ip & Iq).
      destruct (Depth_sils _ _ _ Si _ Dp) as (d1 & L1 & D1). cbn [fst] in D1.
      assert (D2 : exists d2, d1 = S d2 /\ forall b, Depth d2 (ABool b :: h')).
      { inversion D1; subst; try congruence; [eauto|].
        repeat match goal with
        | Q : _ \/ _ |- _ => destruct Q
        | Q : exists _, _ |- _ => destruct Q
        end; congruence. }
      destruct D2 as (d2 & -> & D2). destruct D as [|D]; [lia|]. cbn [cache] in C.
      destruct (par_side p q C) as (b & Xb).
      cbn. destruct b.
      + assert (0 < mu p D); [|lia]. apply (IHp det (ABool true :: h', pc', kn') d2 D); cbn; auto; lia.
      + assert (0 < mu q D); [|lia]. apply (IHq det (ABool false :: h', pc', kn') d2 D); cbn; auto; lia.
    - subst x. cbn [Inv cache] in I. destruct I as (_ & C & _). discriminate.
  Qed.

  Lemma mu_node_upd f p q res c D b k :
    f = None \/ f = Some b -> mu c D < mu (if b : bool then p else q) D ->
    mu (if b then upd_worst k f c q res false else upd_worst k f p c res false) (S D)
      < mu (Worst k f p q res false) (S D).
  Proof.
    intros Fb L. destruct b; cbv iota in *.
    - destruct (upd_worst_shape k f c q res) as (r & x & -> & _). cbn.
      destruct Fb as [-> | ->]; destruct x; lia.
    - destruct (upd_worst_shape k f p c res) as (r & x & -> & _). cbn.
      destruct Fb as [-> | ->]; destruct x; lia.
  Qed.

  Lemma mu_par_upd p q res c D b :
    mu c D < mu (if b : bool then p else q) D ->
    mu (if b then upd_par c q res false else upd_par p c res false) (S D)
      < mu (Par p q res false) (S D).
  Proof.
    intros L. destruct b; cbv iota in *.
    - destruct (upd_par_shape c q res) as (r & x & -> & _). cbn. destruct x; lia.
    - destruct (upd_par_shape p c res) as (r & x & -> & _). cbn. destruct x; lia.
  Qed.

  Lemma mu_stem_grow k f res D : mu (Worst k f Stem Stem res false) (S D) <= mu Stem (S D).
  Proof.
    cbn -[Nat.pow]. rewrite Nat.pow_succ_r'. destruct f as [[]|], D; cbn -[Nat.pow]; lia.
  Qed.
  Lemma mu_stem_gpar res D : mu (Par Stem Stem res false) (S D) <= mu Stem (S D).
  Proof.
    cbn -[Nat.pow]. rewrite Nat.pow_succ_r'. destruct D; cbn -[Nat.pow]; lia.
  Qed.

  Lemma run_decr fuel : forall E n h pc kn det d D,
    truthful E -> noun E -> StOk (h, pc, kn) -> Inv n det (h, pc, kn) -> n_exh n = false ->
    Depth d h -> d <= D ->
    mu (o_node (run fuel E n h pc kn det)) D < mu n D.
  Proof.
    induction fuel as [|fuel IH]; intros E n h pc kn det d D T NU S I X Dp LD;
      assert (Fin : forall r, mu (finish n r) D < mu n D)
        by (intro r; eapply mu_finish; eauto; eapply mu_pos; eauto);
      cbn [SearchTree_Model.run].
    { apply Fin. }
    destruct (e_abort E h pc) as [[]|] eqn:Ab.
    { apply Fin. }
    { now apply NU in Ab. }
    clear Ab.
    assert (Silent : forall s1, Sil1 det (h, pc, kn) s1 ->
       mu (o_node (run fuel E n (fst (fst s1)) (snd (fst s1)) (snd s1) det)) D < mu n D).
    { intros s1 Hs. destruct (Depth_sil _ _ _ _ _ _ Dp Hs) as (d' & -> & D').
      assert (S1 := StOk_sil _ _ _ Hs S). assert (I1 := Inv_fwd _ _ _ n Hs S X I).
      destruct s1 as [[h1 pc1] kn1]. eapply IH; eauto. lia. }
    destruct (prog h) as [e|x| |e|e| |r] eqn:P.
    - destruct (lookup kn e) as [b|] eqn:L.
      { apply (Silent (ABool b :: h, pc, kn)). eapply S_fork; eauto. }
      assert (N : forall s1, ~ Sil1 det (h, pc, kn) s1) by (intros s1; eapply no_sil_fork; eauto).
      assert (A : at_kind (KExpr e) (h, pc, kn)) by (split; auto).
      assert (DD : exists d2, d = Datatypes.S d2 /\ forall b, Depth d2 (ABool b :: h)).
      { destruct (Depth_kind _ _ _ _ _ true A Dp) as (d2 & -> & e1 & _ & D2).
        destruct (Depth_kind _ _ _ _ _ false A Dp) as (d3 & E3 & e2 & _ & D3).
        injection E3 as <-. exists d2. split; auto. intros []; auto. }
      destruct DD as (d2 & -> & D2). destruct D as [|D]; [lia|].
      destruct n as [ | r | k f p q r x | p q r x | c r x]; cbn [n_exh] in X; try discriminate.
      + destruct (grow_forced Expr VExpr Val E pc (KExpr e)) as [f|] eqn:Gf; [|apply Fin].
        destruct (worst_choose_ok E h pc f Stem Stem) as (b & -> & Xc & Fb).
        { now destruct f as [[]|]. }
        cbv zeta. cbn [o_node].
        replace (if b then Stem else Stem) with (Stem : node) by now destruct b.
        eapply Nat.lt_le_trans; [apply mu_node_upd; [exact Fb|]|apply mu_stem_grow].
        replace (if b then Stem else Stem) with (Stem : node) by now destruct b.
        eapply IH; eauto using Inv_Stem; [|lia].
        apply (branch_StOk (KExpr e) b (h, pc, kn)); auto.
      + subst x. destruct (Inv_worst_elim _ _ _ _ _ _ _ _ _ N I) as (A' & F & Ip & Iq & W).
        destruct k as [e'|x' v']; [|destruct A'; congruence].
        destruct A' as [P' L']. assert (e' = e) by congruence. subst e'.
        assert (E1 : expr_eqb e e = true) by now apply expr_eqb_spec. rewrite E1.
        destruct (worst_choose_ok E h pc f p q W) as (b & -> & Xc & Fb).
        cbv zeta. cbn [o_node]. apply mu_node_upd; auto. eapply IH; eauto; [| |lia].
        * apply (branch_StOk (KExpr e) b (h, pc, kn)); auto.
        * destruct b; auto.
      + subst x. destruct (Inv_par_elim _ _ _ _ _ _ _ N I). congruence.
      + subst x. cbn [Inv cache] in I. destruct I as (_ & C & _). discriminate.
    - exfalso. inversion Dp; subst; try congruence;
        repeat match goal with
        | Q : _ \/ _ |- _ => destruct Q
        | Q : exists _, _ |- _ => destruct Q
        end; congruence.
    - assert (N : forall s1, ~ Sil1 det (h, pc, kn) s1) by (intros s1; eapply no_sil_par; eauto).
      assert (DD : exists d2, d = Datatypes.S d2 /\ forall b, Depth d2 (ABool b :: h)).
      { inversion Dp; subst; try congruence; [eauto|].
        repeat match goal with
        | Q : _ \/ _ |- _ => destruct Q
        | Q : exists _, _ |- _ => destruct Q
        end; congruence. }
      destruct DD as (d2 & -> & D2). destruct D as [|D]; [lia|].
      destruct n as [ | r | k f p q r y | p q r y | c r y]; cbn [n_exh] in X; try discriminate.
      + destruct (rand_choose_ok E h pc Stem Stem eq_refl) as (b & -> & Xc).
        cbv zeta. cbn [o_node].
        replace (if b then Stem else Stem) with (Stem : node) by now destruct b.
        eapply Nat.lt_le_trans; [apply mu_par_upd|apply (mu_stem_gpar A_ignore)].
        replace (if b then Stem else Stem) with (Stem : node) by now destruct b.
        eapply IH; eauto using Inv_Stem; [now apply StOk_par|lia].
      + subst y. destruct (Inv_worst_elim _ _ _ _ _ _ _ _ _ N I) as (A & _).
        destruct k; destruct A; congruence.
      + subst y. destruct (Inv_par_elim _ _ _ _ _ _ _ N I) as (A & Ip & Iq & W).
        destruct (rand_choose_ok E h pc p q W) as (b & -> & Xc).
        cbv zeta. cbn [o_node]. apply mu_par_upd; auto. eapply IH; eauto; [| |lia].
        * now apply StOk_par.
        * destruct b; auto.
      + subst y. cbn [Inv cache] in I. destruct I as (_ & C & _). discriminate.
    - destruct (lookup kn e) as [[]|] eqn:L.
      + apply (Silent (AUnit :: h, pc, kn)). eapply S_as_old; eauto.
      + apply Fin.
      + apply (Silent (AUnit :: h, LExpr e true :: pc, (e, true) :: kn)). eapply S_as_new; eauto.
    - destruct (e_sat E (LExpr e true :: pc)) eqn:Sq.
      + apply (Silent (ABool true :: h, pc, kn)).
        eapply S_poss; eauto. split; auto. intros _.
        destruct (t_sat _ _ _ _ _ _ _ T _ Sq) as [a M]. apply models_cons in M. exists a. tauto.
      + apply (Silent (ABool false :: h, pc, kn)).
        eapply S_poss; eauto. split; [discriminate|]. intros [a [M He]]. exfalso.
        eapply t_unsat; eauto. apply models_cons; eauto.
      + apply Fin.
    - destruct det.
      { apply (Silent (AUnit :: h, pc, kn)). eapply S_det; eauto. }
      assert (0 < mu n D) by (eapply mu_pos; eauto).
      destruct n; cbn [o_node]; rewrite mu_exh; auto.
    - apply Fin.
  Qed.

  Lemma search_terminates_gen d sched : forall t,
    Forall (fun fe => truthful (snd fe) /\ noun (snd fe)) sched ->
    Depth d [] -> Inv t false s0 -> mu t d <= length sched ->
    n_exh (search sched t) = true \/ n_status (search sched t) = Some Refuted.
  Proof.
    induction sched as [|[fuel E] rest IH]; intros t F Dp I L; cbn [SearchTree_Model.search].
    - left. destruct (n_exh t) eqn:X; auto.
      assert (0 < mu t d) by (eapply mu_pos; eauto). cbn in L. lia.
    - inversion F as [|? ? [T NU] F']; subst. cbn [snd] in *.
      destruct (n_exh t) eqn:X; cbn [orb]; auto.
      destruct (status_eqb (n_status t) (Some Refuted)) eqn:R.
      { right. now apply status_eqb_spec. }
      apply IH; auto.
      + apply (run_post fuel E t [] [] [] false); auto using StOk_init.
      + cbn in L. unfold SearchTree_Model.iteration.
        assert (mu (o_node (run fuel E t [] [] [] false)) d < mu t d)
          by (eapply run_decr; eauto using StOk_init). lia.
  Qed.

  Lemma search_terminates d sched :
    Forall (fun fe => truthful (snd fe) /\ noun (snd fe)) sched ->
    Depth d [] -> 2 ^ d <= length sched ->
    n_exh (search sched Stem) = true \/ n_status (search sched Stem) = Some Refuted.
  Proof.
    intros F Dp L. apply (search_terminates_gen d); auto using Inv_Stem.
  Qed.

  (** *** Answers along one path *)
  Lemma Agrees_suffix a l x t : Agrees a (l ++ x :: t) -> Agrees a (x :: t).
  Proof. induction l; cbn [app]; auto. intros [H _]. auto. Qed.

  Lemma same_fork_same_answer sched fuel E : Forall (fun fe => truthful (snd fe)) sched ->
    truthful E -> assume_ok -> inhabited Asg -> n_exh (search sched Stem) = false ->
    forall l1 x t1 l2 y t2 e,
      o_hist (iteration fuel E (search sched Stem)) = l1 ++ x :: t1 ->
      o_hist (iteration fuel E (search sched Stem)) = l2 ++ y :: t2 ->
      prog t1 = AFork e -> prog t2 = AFork e -> x = y.
  Proof.
    intros F T AO Ia X l1 x t1 l2 y t2 e H1 H2 P1 P2.
    destruct (path_consistent sched fuel E F T AO Ia X) as (a & A & _).
    assert (A2 := A). rewrite H1 in A. rewrite H2 in A2.
    apply Agrees_suffix in A, A2. cbn in A, A2. rewrite P1 in A. rewrite P2 in A2.
    destruct A as [_ ->], A2 as [_ ->]. reflexivity.
  Qed.

  Lemma same_realize_same_value sched fuel E : Forall (fun fe => truthful (snd fe)) sched ->
    truthful E -> assume_ok -> inhabited Asg -> n_exh (search sched Stem) = false ->
    forall l1 x t1 l2 y t2 e,
      o_hist (iteration fuel E (search sched Stem)) = l1 ++ x :: t1 ->
      o_hist (iteration fuel E (search sched Stem)) = l2 ++ y :: t2 ->
      prog t1 = ARealize e -> prog t2 = ARealize e -> x = y.
  Proof.
    intros F T AO Ia X l1 x t1 l2 y t2 e H1 H2 P1 P2.
    destruct (path_consistent sched fuel E F T AO Ia X) as (a & A & _).
    assert (A2 := A). rewrite H1 in A. rewrite H2 in A2.
    apply Agrees_suffix in A, A2. cbn in A, A2. rewrite P1 in A. rewrite P2 in A2.
    destruct A as [_ ->], A2 as [_ ->]. reflexivity.
  Qed.
End Proofs.
