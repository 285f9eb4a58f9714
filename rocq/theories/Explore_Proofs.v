From Coq Require Import List Bool ZArith Lia.
From Verif Require Import SearchTree_Model SearchTree_Spec SearchTree_Proofs Verdict_Model Explore_Model Explore_Spec.
Import ListNotations.

(** *** An exhausted tree all of whose paths ended well is good. *)
Section Good.
  Variables (Expr VExpr Val : Type).
  Variable expr_eqb : Expr -> Expr -> bool.
  Variable prog : list (ans Val) -> action Expr VExpr.
  Hypothesis nopar : forall h, prog h <> APar.
  Hypothesis nodet : forall h, prog h <> ADetach.
  Notation node := (node Expr VExpr Val).
  Notation run := (run Expr VExpr Val expr_eqb prog).

  Definition done_good (x : bool) (r : analysis) : Prop :=
    a_status r <> Some Refuted /\ (x = true -> good_status (a_status r)).
  Notation QN := (fun n : node => done_good (n_exh n) (n_res n)).

  Lemma good_done r x : good_status (a_status r) -> done_good x r.
  Proof. intros G. split; auto. destruct G as [G|G]; rewrite G; discriminate. Qed.
  Lemma dg_here (n : node) : AllPos QN n -> done_good (n_exh n) (n_res n).
  Proof. destruct n; cbn; tauto. Qed.
  Lemma dg_finish (n : node) r : AllPos QN n -> good_status (a_status r) -> AllPos QN (finish n r).
  Proof. intros A G. pose proof (good_done r true G). destruct n; cbn in *; tauto. Qed.

  Lemma dg_worst k f (p q : node) r x : done_good x r -> AllPos QN p -> AllPos QN q ->
    AllPos QN (upd_worst k f p q r x).
  Proof.
    intros R A B. unfold upd_worst. destruct x; [cbn; auto|].
    destruct (worst_compute f p q) as [r' x'] eqn:W.
    cbn [AllPos n_exh n_res]. split; [|auto].
    destruct (dg_here p A) as [Np Gp], (dg_here q B) as [Nq Gq].
    unfold worst_compute, worst_exhausted in W.
    assert (Ep : status_eqb (n_status p) (Some Refuted) = false).
    { unfold n_status. destruct (a_status (n_res p)) as [[]|]; cbn; congruence. }
    assert (Eq : status_eqb (n_status q) (Some Refuted) = false).
    { unfold n_status. destruct (a_status (n_res q)) as [[]|]; cbn; congruence. }
    rewrite Ep, Eq in W. unfold done_good.
    destruct f as [[]|]; cbn [orb] in W.
    - injection W as <- <-. split; auto. intro X. apply Gp. destruct (n_exh p), (n_exh q); cbn in X; congruence.
    - injection W as <- <-. split; auto. intro X. apply Gq. destruct (n_exh p), (n_exh q); cbn in X; congruence.
    - unfold merge in W. unfold good_status in *.
      destruct (a_status (n_res p)) as [[]|] eqn:Sp, (a_status (n_res q)) as [[]|] eqn:Sq;
        try congruence; injection W as <- <-; cbn; rewrite ?Sp, ?Sq; (split; [congruence|]);
        destruct (n_exh p), (n_exh q); intro X; try discriminate X;
        try (destruct (Gp eq_refl); discriminate); try (destruct (Gq eq_refl); discriminate); auto.
  Qed.

  Lemma run_good fuel : forall E n h pc kn det, AllPos QN n ->
    good_status (a_status (o_leaf (run fuel E n h pc kn det))) ->
    AllPos QN (o_node (run fuel E n h pc kn det)).
  Proof.
    induction fuel as [|fuel IH]; intros E n h pc kn det A; cbn [SearchTree_Model.run].
    { intro L. now apply dg_finish. }
    destruct (e_abort E h pc) as [[]|].
    { intro L. now apply dg_finish. }
    { auto. }
    assert (D0 : done_good false A_ignore) by (apply good_done; now left).
    assert (AS : AllPos QN (Stem : node)) by (cbn; split; auto; split; discriminate).
    pose proof (nopar h) as NP. pose proof (nodet h) as ND.
    destruct (prog h) as [e|x| |e|e| |r]; try congruence.
    - (* fork *)
      destruct (lookup Expr expr_eqb kn e); [auto|].
      assert (Go : forall f p q r x, done_good x r -> AllPos QN p -> AllPos QN q ->
        let o := match worst_choose Expr VExpr Val E h pc f p q with
                 | Some b =>
                   let o := run fuel E (if b then p else q) (ABool b :: h) (LExpr e b :: pc)
                              ((e, b) :: kn) det in
                   mkOut (if b then upd_worst (KExpr e) f (o_node o) q r x
                      else upd_worst (KExpr e) f p (o_node o) r x)
                     (o_leaf o) (o_hist o) (o_pc o)
                 | None => stop (Worst (KExpr e) f p q r x) A_internal h pc
                 end in good_status (a_status (o_leaf o)) -> AllPos QN (o_node o)).
      { intros f p q r x R P P'. destruct (worst_choose _ _ _ _ _ _ _ _ _) as [[]|]; cbn [o_leaf o_node stop]; intro L.
        - apply dg_worst; auto.
        - apply dg_worst; auto.
        - apply dg_finish; [cbn; auto|exact L]. }
      destruct n as [|r0|[e'|y v] f p q r0 x|p q r0 x|c r0 x]; cbn [stop o_leaf o_node];
        try (intro L; apply dg_finish; [exact A|exact L]).
      + destruct (grow_forced _ _ _ _ _ _) as [f|]; [|intro L; now apply dg_finish].
        apply Go; auto.
      + destruct (expr_eqb e' e); [|intro L; apply dg_finish; [exact A|exact L]].
        destruct A as (A0 & A1 & A2). apply Go; auto.
    - (* realize *)
      assert (Go : forall y v f p q r0 x0, done_good x0 r0 -> AllPos QN p -> AllPos QN q ->
        let o := match worst_choose Expr VExpr Val E h pc f p q with
                 | Some b =>
                   let o := let pc' := LVal x v b :: pc in
                            let h' := if b then AVal v :: h else h in
                            match (if det then e_sat E pc' else Sat) with
                            | UnkSat => stop (if b then p else q) A_unknown h' pc'
                            | Unsat => stop (if b then p else q) A_internal h' pc'
                            | Sat => run fuel E (if b then p else q) h' pc' kn det
                            end in
                   mkOut (if b then upd_worst (KVal y v) f (o_node o) q r0 x0
                      else upd_worst (KVal y v) f p (o_node o) r0 x0)
                     (o_leaf o) (o_hist o) (o_pc o)
                 | None => stop (Worst (KVal y v) f p q r0 x0) A_internal h pc
                 end in good_status (a_status (o_leaf o)) -> AllPos QN (o_node o)).
      { intros y v f p q r x0 R P P'.
        destruct (worst_choose _ _ _ _ _ _ _ _ _) as [b|]; [|cbn [stop o_leaf o_node]; intro L; apply dg_finish; [cbn; auto|exact L]].
        cbv zeta. cbn [o_leaf o_node].
        set (o := match (if det then _ else _) with UnkSat => _ | _ => _ end). intro L.
        assert (AllPos QN (o_node o)).
        { unfold o in *. destruct (if det then _ else _).
          - apply IH; auto. destruct b; auto.
          - apply dg_finish; [destruct b; auto|exact L].
          - apply dg_finish; [destruct b; auto|exact L]. }
        destruct b; apply dg_worst; auto. }
      destruct n as [|r0|[e'|y v] f p q r0 x0|p q r0 x0|c r0 x0]; cbn [stop o_leaf o_node];
        try (intro L; apply dg_finish; [exact A|exact L]).
      + destruct (e_sat E pc); cbn [stop o_leaf o_node];
          try (intro L; apply dg_finish; [exact A|exact L]).
        destruct (grow_forced _ _ _ _ _ _) as [f|]; [|intro L; now apply dg_finish].
        apply Go; auto.
      + destruct A as (A0 & A1 & A2). apply Go; auto.
    - destruct (lookup Expr expr_eqb kn e) as [[]|]; auto.
      cbn. intro L. now apply dg_finish.
    - destruct (e_sat E _); auto. cbn. intro L. now apply dg_finish.
    - cbn. intro L. now apply dg_finish.
  Qed.
End Good.

(** *** Which paths are tried does not depend on how they are judged. *)
Section Erase.
  Variables (Expr VExpr Val : Type).
  Variable expr_eqb : Expr -> Expr -> bool.
  Variable prog prog' : list (ans Val) -> action Expr VExpr.
  Notation node := (node Expr VExpr Val).
  Notation out := (out Expr VExpr Val).
  Notation run := (run Expr VExpr Val expr_eqb prog).
  Notation run' := (SearchTree_Model.run Expr VExpr Val expr_eqb prog').
  Hypothesis alike : forall h, (exists r r', prog h = ADone r /\ prog' h = ADone r') \/
    (prog h = prog' h /\ prog h <> APar /\ prog h <> ADetach /\ forall r, prog h <> ADone r).

  Fixpoint same (n n' : node) : Prop :=
    match n, n' with
    | Stem, Stem => True
    | Leaf _, Leaf _ => True
    | Worst k f p q _ x, Worst k' f' p' q' _ x' => k = k' /\ f = f' /\ same p p' /\ same q q' /\ x = x'
    | _, _ => False
    end.
  Lemma same_exh n n' : same n n' -> n_exh n = n_exh n'.
  Proof. destruct n, n'; cbn; tauto. Qed.

  Lemma worst_snd f (p q : node) : snd (worst_compute f p q) = worst_exhausted f p q.
  Proof.
    unfold worst_compute. cbv zeta.
    destruct (status_eqb (n_status p) (Some Refuted) || match f with Some true => true | _ => false end) eqn:A; [reflexivity|].
    destruct (status_eqb (n_status q) (Some Refuted) || match f with Some false => true | _ => false end) eqn:B; [reflexivity|].
    pose proof (merge_res Expr VExpr Val (n_res p) (n_exh p) q) as M. destruct (merge _ _ _) as [r y].
    destruct M as (-> & _). cbn [snd]. unfold worst_exhausted.
    destruct f as [[]|]; [rewrite orb_true_r in A; discriminate|rewrite orb_true_r in B; discriminate|].
    now destruct (n_exh p), (n_exh q).
  Qed.
  Lemma same_worst k f p q r x p' q' r' : same p p' -> same q q' ->
    same (upd_worst k f p q r x) (upd_worst k f p' q' r' x).
  Proof.
    intros P Q. unfold upd_worst. destruct x; [cbn; auto|].
    pose proof (worst_snd f p q) as A. pose proof (worst_snd f p' q') as B.
    unfold worst_exhausted in A, B. rewrite <- (same_exh _ _ P), <- (same_exh _ _ Q) in B.
    destruct (worst_compute f p q), (worst_compute f p' q'). cbn in *. repeat split; auto; congruence.
  Qed.
  Lemma same_finish n n' r r' : same n n' -> same (finish n r) (finish n' r').
  Proof. destruct n, n'; cbn; try tauto. Qed.

  (** The same path, up to its analysis. *)
  Definition sim (o o' : out) : Prop :=
    same (o_node o) (o_node o') /\ o_hist o = o_hist o' /\ o_pc o = o_pc o' /\
    ((o_leaf o = o_leaf o' /\ (o_leaf o = A_unknown \/ o_leaf o = A_internal)) \/
     (prog (o_hist o) = ADone (o_leaf o) /\ prog' (o_hist o) = ADone (o_leaf o'))).

  Lemma sim_stop n n' r h pc : same n n' -> r = A_unknown \/ r = A_internal ->
    sim (stop n r h pc) (stop n' r h pc).
  Proof. intros S R. repeat split; cbn; auto. now apply same_finish. Qed.

  Lemma choose_same E h pc f p q p' q' : same p p' -> same q q' ->
    worst_choose Expr VExpr Val E h pc f p q = worst_choose Expr VExpr Val E h pc f p' q'.
  Proof.
    intros P Q. unfold worst_choose, rand_choose. now rewrite (same_exh _ _ P), (same_exh _ _ Q).
  Qed.

  Lemma run_sim fuel : forall E n n' h pc kn det, same n n' ->
    sim (run fuel E n h pc kn det) (run' fuel E n' h pc kn det).
  Proof.
    induction fuel as [|fuel IH]; intros E n n' h pc kn det S; cbn [SearchTree_Model.run].
    { apply sim_stop; auto. }
    destruct (e_abort E h pc) as [[]|].
    { apply sim_stop; auto. }
    { repeat split; auto. }
    destruct (alike h) as [(r & r' & P & P')|(P & NP & ND & NR)].
    { rewrite P, P'. repeat split; cbn; auto. now apply same_finish. }
    rewrite <- P. clear P. destruct (prog h) as [e|x| |e|e| |r]; try congruence.
    - destruct (lookup Expr expr_eqb kn e); [auto|].
      assert (Go : forall f p q r x p' q' r', same p p' -> same q q' -> 
        sim (match worst_choose Expr VExpr Val E h pc f p q with
                 | Some b =>
                   let o := run fuel E (if b then p else q) (ABool b :: h) (LExpr e b :: pc)
                              ((e, b) :: kn) det in
                   mkOut (if b then upd_worst (KExpr e) f (o_node o) q r x
                      else upd_worst (KExpr e) f p (o_node o) r x)
                     (o_leaf o) (o_hist o) (o_pc o)
                 | None => stop (Worst (KExpr e) f p q r x) A_internal h pc
                 end)
            (match worst_choose Expr VExpr Val E h pc f p' q' with
                 | Some b =>
                   let o := run' fuel E (if b then p' else q') (ABool b :: h) (LExpr e b :: pc)
                              ((e, b) :: kn) det in
                   mkOut (if b then upd_worst (KExpr e) f (o_node o) q' r' x
                      else upd_worst (KExpr e) f p' (o_node o) r' x)
                     (o_leaf o) (o_hist o) (o_pc o)
                 | None => stop (Worst (KExpr e) f p' q' r' x) A_internal h pc
                 end)).
      { intros f p q r x p' q' r' P Q. rewrite <- (choose_same E h pc f p q p' q' P Q).
        destruct (worst_choose _ _ _ _ _ _ _ _ _) as [b|]; [|apply sim_stop; cbn; auto].
        cbv zeta. destruct (IH E (if b then p else q) (if b then p' else q') (ABool b :: h) (LExpr e b :: pc) ((e, b) :: kn) det) as (A & B & C & D);
          [destruct b; auto|].
        unfold sim; cbn [o_node o_hist o_pc o_leaf]. repeat split; auto.
        destruct b; apply same_worst; auto. }
      destruct n as [|r0|[e'|y v] f p q r0 x|p q r0 x|c r0 x], n' as [|r0'|k' f' p' q' r0' x'|p' q' r0' x'|c' r0' x'];
        cbn [same] in S; try tauto; try (apply sim_stop; cbn; auto; fail).
      + destruct (grow_forced _ _ _ _ _ _); [|apply sim_stop; cbn; auto]. apply Go; cbn; auto.
      + destruct S as (<- & <- & Sp & Sq & <-). destruct (expr_eqb e' e); [|apply sim_stop; cbn; auto].
        apply Go; auto.
      + destruct S as (<- & <- & Sp & Sq & <-). apply sim_stop; cbn; auto.
    - assert (Go : forall y v f p q r0 x0 p' q' r0', same p p' -> same q q' ->
        sim (match worst_choose Expr VExpr Val E h pc f p q with
                 | Some b =>
                   let o := let pc' := LVal x v b :: pc in
                            let h' := if b then AVal v :: h else h in
                            match (if det then e_sat E pc' else Sat) with
                            | UnkSat => stop (if b then p else q) A_unknown h' pc'
                            | Unsat => stop (if b then p else q) A_internal h' pc'
                            | Sat => run fuel E (if b then p else q) h' pc' kn det
                            end in
                   mkOut (if b then upd_worst (KVal y v) f (o_node o) q r0 x0
                      else upd_worst (KVal y v) f p (o_node o) r0 x0)
                     (o_leaf o) (o_hist o) (o_pc o)
                 | None => stop (Worst (KVal y v) f p q r0 x0) A_internal h pc
                 end)
            (match worst_choose Expr VExpr Val E h pc f p' q' with
                 | Some b =>
                   let o := let pc' := LVal x v b :: pc in
                            let h' := if b then AVal v :: h else h in
                            match (if det then e_sat E pc' else Sat) with
                            | UnkSat => stop (if b then p' else q') A_unknown h' pc'
                            | Unsat => stop (if b then p' else q') A_internal h' pc'
                            | Sat => run' fuel E (if b then p' else q') h' pc' kn det
                            end in
                   mkOut (if b then upd_worst (KVal y v) f (o_node o) q' r0' x0
                      else upd_worst (KVal y v) f p' (o_node o) r0' x0)
                     (o_leaf o) (o_hist o) (o_pc o)
                 | None => stop (Worst (KVal y v) f p' q' r0' x0) A_internal h pc
                 end)).
      { intros y v f p q r x0 p' q' r' P Q. rewrite <- (choose_same E h pc f p q p' q' P Q).
        destruct (worst_choose _ _ _ _ _ _ _ _ _) as [b|]; [|apply sim_stop; cbn; auto].
        assert (B0 : same (if b then p else q) (if b then p' else q')) by (destruct b; auto).
        cbv zeta.
        set (o := match (if det then e_sat E (LVal x v b :: pc) else Sat) with UnkSat => stop (if b then p else q) _ _ _ | _ => _ end).
        set (o' := match (if det then e_sat E (LVal x v b :: pc) else Sat) with UnkSat => stop (if b then p' else q') _ _ _ | _ => _ end).
        assert (K : sim o o').
        { unfold o, o'. destruct (if det then _ else _).
          - apply IH. exact B0.
          - apply sim_stop; auto.
          - apply sim_stop; auto. }
        destruct K as (A & B & C & D).
        unfold sim; cbn [o_node o_hist o_pc o_leaf]. repeat split; auto.
        destruct b; apply same_worst; auto. }
      destruct n as [|r0|[e'|y v] f p q r0 x0|p q r0 x0|c r0 x0], n' as [|r0'|k' f' p' q' r0' x'|p' q' r0' x'|c' r0' x'];
        cbn [same] in S; try tauto; try (apply sim_stop; cbn; auto; fail).
      + destruct (e_sat E pc); try (apply sim_stop; cbn; auto; fail).
        destruct (grow_forced _ _ _ _ _ _); [|apply sim_stop; cbn; auto]. apply Go; cbn; auto.
      + destruct S as (<- & <- & Sp & Sq & <-). apply sim_stop; cbn; auto.
      + destruct S as (<- & <- & Sp & Sq & <-). apply Go; auto.
    - destruct (lookup Expr expr_eqb kn e) as [[]|]; auto. apply sim_stop; auto.
    - destruct (e_sat E _); auto. apply sim_stop; auto.
  Qed.
End Erase.

(** *** The exploration. *)
Section Loop.
  Variables (Asg Expr VExpr Val P : Type).
  Variable holds : Asg -> Expr -> bool.
  Variable veval : Asg -> VExpr -> Val.
  Variable expr_eqb : Expr -> Expr -> bool.
  Hypothesis expr_eqb_spec : forall a b, expr_eqb a b = true <-> a = b.
  Hypothesis val_dec : forall v w : Val, {v = w} + {v <> w}.
  Variable code : list (ans Val) -> req Expr VExpr + P.
  Variable judge : P -> analysis.
  Notation hist := (list (ans Val)).
  Notation prog := (prog Expr VExpr Val P code judge).
  Notation Given := (Given Asg Expr VExpr Val P holds veval code).
  Notation truthful := (truthful Asg Expr VExpr Val holds veval).
  Notation Runs := (Runs Asg Expr VExpr Val holds veval prog).
  Notation Inv := (Inv Asg Expr VExpr Val holds veval expr_eqb prog).
  Notation s0 := (s0 Expr VExpr Val).
  Notation explore := (explore Expr VExpr Val P expr_eqb code judge).
  Notation iteration := (iteration Expr VExpr Val expr_eqb prog).

  Lemma given_agrees a h : Agrees Asg Expr VExpr Val holds veval prog a h <-> Given a h.
  Proof.
    induction h as [|x t IH]; cbn; [tauto|]. rewrite IH. apply and_iff_compat_l.
    unfold Explore_Model.prog. destruct (code t) as [[]|]; cbn; tauto.
  Qed.

  Lemma runs_given a h o : Runs a h o -> Given a h ->
    (o = SearchTree_Spec.Excluded /\ Excluded Asg Expr VExpr Val P holds veval code a) \/
    exists r h' p, o = Ended r /\ Given a h' /\ code h' = inr p /\ r = judge p.
  Proof.
    induction 1 as [h r Q|h e o Q R IH|h x o Q R IH|h e o Q He R IH|h e Q He|h b o Q R IH|h e b o Q B R IH|h o Q R IH];
      intro G; unfold Explore_Model.prog in Q; destruct (code h) as [[]|p] eqn:C; cbn in Q; try discriminate Q.
    all: try (inversion Q; subst; apply IH; cbn; rewrite C; now split).
    - inversion Q; subst. right. exists (judge p), h, p. auto.
    - inversion Q; subst. left. split; auto. exists h, e. auto.
  Qed.

  Lemma prog_nodet h : prog h <> ADetach.
  Proof. unfold Explore_Model.prog. destruct (code h) as [[]|]; discriminate. Qed.
  Lemma prog_detach_ok : detach_ok Expr VExpr Val prog.
  Proof. intros h H. now apply prog_nodet in H. Qed.
  Lemma prog_nopar : no_alternatives Expr VExpr Val P code -> forall h, prog h <> APar.
  Proof. intros N h. unfold Explore_Model.prog. pose proof (N h). destruct (code h) as [[]|]; cbn; congruence. Qed.
  Lemma prog_assume_ok : assumes_well Asg Expr VExpr Val P holds veval code ->
    assume_ok Asg Expr VExpr Val holds veval prog.
  Proof.
    intros W a h e A Q. unfold Explore_Model.prog in Q. destruct (code h) as [[]|] eqn:C; cbn in Q; try discriminate Q.
    inversion Q; subst. destruct (W a h e) as (a' & G & H); auto.
    - now apply given_agrees.
    - exists a'. split; auto. now apply given_agrees.
  Qed.

  Lemma iteration_inv fuel E t : truthful E -> Inv t false s0 -> n_exh t = false ->
    Inv (o_node (iteration fuel E t)) false s0.
  Proof.
    intros T I X.
    exact (proj1 (run_post Asg Expr VExpr Val holds veval expr_eqb expr_eqb_spec val_dec prog
      fuel E t [] [] [] false T (StOk_init Asg Expr VExpr Val holds veval expr_eqb prog) I X)).
  Qed.

  Lemma explore_inv sched : forall t l u, Forall (fun fe => truthful (snd fe)) sched ->
    Inv t false s0 -> n_exh t = false -> explore sched t = (l, u) -> Inv u false s0.
  Proof.
    induction sched as [|[fuel E] rest IH]; intros t l u F I X H; cbn [Explore_Model.explore] in H.
    - injection H as <- <-. exact I.
    - inversion F; subst. pose proof (iteration_inv fuel E t H2 I X) as I1.
      destruct (n_exh (o_node (iteration fuel E t))) eqn:Y.
      + injection H as <- <-. exact I1.
      + destruct (explore rest _) as [l1 u1] eqn:R. injection H as <- <-. eapply IH; eauto.
  Qed.

  Hypothesis judge_unknown : forall p, a_status (judge p) <> Some Unknown.
  Hypothesis judge_internal : forall p, judge p <> A_internal.

  (** A path that was tried was cut short, or is the finished path of some input. *)
  Definition tried_ok (x : hist * analysis) : Prop :=
    snd x = A_unknown \/
    exists p a, code (fst x) = inr p /\ snd x = judge p /\ Given a (fst x).

  Lemma explore_sound sched : forall t l u, Forall (fun fe => truthful (snd fe)) sched ->
    assumes_well Asg Expr VExpr Val P holds veval code -> inhabited Asg ->
    Inv t false s0 -> n_exh t = false -> explore sched t = (l, u) -> Forall tried_ok l.
  Proof.
    induction sched as [|[fuel E] rest IH]; intros t l u F W A I X H; cbn [Explore_Model.explore] in H.
    - injection H as <- <-. constructor.
    - inversion F as [|fe r T F']; subst. pose proof (iteration_inv fuel E t T I X) as I1.
      assert (K : tried_ok (o_hist (iteration fuel E t), o_leaf (iteration fuel E t))).
      { destruct (run_post Asg Expr VExpr Val holds veval expr_eqb expr_eqb_spec val_dec prog
          fuel E t [] [] [] false T (StOk_init Asg Expr VExpr Val holds veval expr_eqb prog) I X)
          as (_ & G & _ & B).
        destruct A as [a0]. destruct (B (prog_assume_ok W)) as (a & _ & _ & Ag & R).
        { exists a0. constructor. }
        unfold SearchTree_Model.iteration in *. unfold tried_ok. cbn [fst snd] in *.
        set (o := run _ _ _ _ _ _ _ _ _ _ _ _) in *. clearbody o.
        destruct G as [G|[G|G]]; auto.
        - exfalso. rewrite G in R. assert (R1 := R ltac:(discriminate)).
          destruct (runs_given _ _ _ R1 Logic.I) as [[Q _]|(r & h' & p & Q & _ & _ & J)]; [discriminate|].
          inversion Q. subst r. apply (judge_internal p). congruence.
        - right. apply given_agrees in Ag. unfold Explore_Model.prog in G.
          destruct (code (o_hist o)) as [[]|p] eqn:C; cbn in G; try discriminate G.
          inversion G. exists p, a. auto. }
      destruct (n_exh (o_node (iteration fuel E t))) eqn:Y.
      + injection H as <- <-. auto.
      + destruct (explore rest _) as [l1 u1] eqn:R. injection H as <- <-. constructor; auto. eapply IH; eauto.
  Qed.

  Lemma finished_in l h p : In (h, p) (finished Expr VExpr Val P code l) <->
    code h = inr p /\ exists r, In (h, r) l /\ a_status r <> Some Unknown.
  Proof.
    induction l as [|[h1 r1] l IH]; cbn [finished].
    - split; [intros []|intros (_ & r & [] & _)].
    - destruct (status_eqb (a_status r1) (Some Unknown)) eqn:S.
      + apply status_eqb_spec in S. rewrite IH. apply and_iff_compat_l.
        split; intros (r & H & N); exists r; (split; auto); [now right|].
        destruct H as [H|H]; auto. inversion H; subst. congruence.
      + assert (N1 : a_status r1 <> Some Unknown).
        { intro Q. apply status_eqb_spec in Q. congruence. }
        destruct (code h1) as [q|p1] eqn:C.
        * rewrite IH. split; intros (K & r & H & N); (split; [assumption|]); exists r; (split; auto); [now right|].
          destruct H as [H|H]; auto. inversion H; subst. congruence.
        * cbn [In]. rewrite IH. split.
          -- intros [H|(K & r & H & N)]; [inversion H; subst; split; auto; exists r1; cbn; auto|].
             split; auto. exists r. cbn. auto.
          -- intros (K & r & [H|H] & N); [left; inversion H; subst; congruence|].
             right. split; auto. exists r. auto.
  Qed.

  Lemma finished_real sched l u : Forall (fun fe => truthful (snd fe)) sched ->
    assumes_well Asg Expr VExpr Val P holds veval code -> inhabited Asg ->
    explore sched Stem = (l, u) ->
    forall h p, In (h, p) (finished Expr VExpr Val P code l) -> code h = inr p /\ exists a, Given a h.
  Proof.
    intros F W A H h p Hf. apply finished_in in Hf as (C & r & Hr & N). split; auto.
    pose proof (explore_sound sched Stem l u F W A (Inv_Stem _ _ _ _ _ _ _ _ _ _) eq_refl H) as S.
    rewrite Forall_forall in S. destruct (S _ Hr) as [Q|(p' & a & _ & _ & G)]; [|eauto].
    cbn in Q. subst r. cbn in N. congruence.
  Qed.
End Loop.

Section Complete.
  Variables (Asg Expr VExpr Val P : Type).
  Variable holds : Asg -> Expr -> bool.
  Variable veval : Asg -> VExpr -> Val.
  Variable expr_eqb : Expr -> Expr -> bool.
  Hypothesis expr_eqb_spec : forall a b, expr_eqb a b = true <-> a = b.
  Hypothesis val_dec : forall v w : Val, {v = w} + {v <> w}.
  Variable code : list (ans Val) -> req Expr VExpr + P.
  Variable judge : P -> analysis.
  Notation hist := (list (ans Val)).
  Notation Given := (Given Asg Expr VExpr Val P holds veval code).
  Notation truthful := (truthful Asg Expr VExpr Val holds veval).
  Hypothesis judge_unknown : forall p, a_status (judge p) <> Some Unknown.
  Hypothesis judge_internal : forall p, judge p <> A_internal.

  Lemma hist_dec : forall h h' : hist, {h = h'} + {h <> h'}.
  Proof. repeat decide equality. Qed.

  (** The same code, judged by whether the path is one of those in [hs]. *)
  Definition code_at (h : hist) : req Expr VExpr + hist :=
    match code h with inl q => inl q | inr _ => inr h end.
  Definition judge_at (hs : list hist) (h : hist) : analysis :=
    if in_dec hist_dec h hs then A_conf else A_fail 0.

  Notation explore := (explore Expr VExpr Val P expr_eqb code judge).
  Notation prog := (prog Expr VExpr Val P code judge).
  Notation prog_at hs := (Explore_Model.prog Expr VExpr Val hist code_at (judge_at hs)).
  Notation explore_at hs := (Explore_Model.explore Expr VExpr Val hist expr_eqb code_at (judge_at hs)).
  Notation same := (same Expr VExpr Val).

  Lemma alike_at hs : no_alternatives Expr VExpr Val P code -> forall h,
    (exists r r', prog h = ADone r /\ prog_at hs h = ADone r') \/
    (prog h = prog_at hs h /\ prog h <> APar /\ prog h <> ADetach /\ forall r, prog h <> ADone r).
  Proof.
    intros N h. unfold Explore_Model.prog, code_at. pose proof (N h) as Nh. destruct (code h) as [q|p].
    - right. split; auto. destruct q; cbn; repeat split; congruence.
    - left. eauto.
  Qed.

  Lemma explore_sim hs : no_alternatives Expr VExpr Val P code -> forall sched t t' l u, same t t' ->
    explore sched t = (l, u) ->
    exists l' u', explore_at hs sched t' = (l', u') /\ same u u' /\
      Forall (fun y => exists x, In x l /\ fst x = fst y /\
        ((snd x = snd y /\ (snd x = A_unknown \/ snd x = A_internal)) \/
         (prog (fst x) = ADone (snd x) /\ prog_at hs (fst x) = ADone (snd y)))) l'.
  Proof.
    intros N. induction sched as [|[fuel E] rest IH]; intros t t' l u S H; cbn [Explore_Model.explore] in *.
    - injection H as <- <-. exists [], t'. auto.
    - destruct (run_sim Expr VExpr Val expr_eqb prog (prog_at hs) (alike_at hs N) fuel E t t' [] [] [] false S)
        as (S1 & Hh & _ & L).
      unfold iteration in *.
      set (o := run Expr VExpr Val expr_eqb prog fuel E t [] [] [] false) in *.
      set (o' := run Expr VExpr Val expr_eqb (prog_at hs) fuel E t' [] [] [] false) in *.
      clearbody o o'. rewrite <- (same_exh _ _ _ _ _ S1).
      destruct (n_exh (o_node o)).
      + injection H as <- <-. do 2 eexists. split; [reflexivity|]. split; auto.
        constructor; auto. eexists. split; [now left|]. cbn. auto.
      + destruct (explore rest (o_node o)) as [l1 u1] eqn:R. injection H as <- <-.
        destruct (IH _ _ _ _ S1 R) as (l' & u' & -> & Su & F). do 2 eexists. split; [reflexivity|].
        split; auto. constructor.
        * eexists. split; [now left|]. cbn. auto.
        * eapply Forall_impl; [|exact F]. cbn. intros y (x & I & K). exists x. auto.
  Qed.

  Lemma explore_good hs : no_alternatives Expr VExpr Val P code -> forall sched t l u,
    AllPos (fun n => done_good (n_exh n) (n_res n)) t -> explore_at hs sched t = (l, u) ->
    Forall (fun x => good_status (a_status (snd x))) l -> AllPos (fun n => done_good (n_exh n) (n_res n)) u.
  Proof.
    intros N. assert (Np : forall h, prog_at hs h <> APar).
    { intro h. unfold Explore_Model.prog, code_at. pose proof (N h). destruct (code h) as [[]|]; cbn; congruence. }
    assert (Nd : forall h, prog_at hs h <> ADetach).
    { intro h. unfold Explore_Model.prog, code_at. destruct (code h) as [[]|]; cbn; congruence. }
    induction sched as [|[fuel E] rest IH]; intros t l u A H F; cbn [Explore_Model.explore] in *.
    - injection H as <- <-. exact A.
    - pose proof (run_good Expr VExpr Val expr_eqb (prog_at hs) Np Nd fuel E t [] [] [] false A) as R.
      unfold iteration in *. set (o := run _ _ _ _ _ _ _ _ _ _ _ _) in *. clearbody o.
      destruct (n_exh (o_node o)) eqn:X.
      + injection H as <- <-. apply R. inversion F; subst. auto.
      + destruct (explore_at hs rest (o_node o)) as [l1 u1] eqn:Q. injection H as <- <-.
        inversion F; subst. apply (IH (o_node o) l1 u1); auto.
  Qed.

  (** If the tree is exhausted and no path was cut short, every legal input takes one
      of the paths that were tried. *)
  Lemma explore_complete sched l u : Forall (fun fe => truthful (snd fe)) sched ->
    assumes_well Asg Expr VExpr Val P holds veval code -> no_alternatives Expr VExpr Val P code ->
    explore sched Stem = (l, u) -> n_exh u = true ->
    Forall (fun x => a_status (snd x) <> Some Unknown) l ->
    forall a, Excluded Asg Expr VExpr Val P holds veval code a \/
      exists h p, In (h, p) (finished Expr VExpr Val P code l) /\ Given a h.
  Proof.
    intros F W N H X U a.
    pose proof (explore_sound Asg Expr VExpr Val P holds veval expr_eqb expr_eqb_spec val_dec code judge
      judge_internal sched Stem l u F W (inhabits a) (Inv_Stem _ _ _ _ _ _ _ _ _ _) eq_refl H) as So.
    set (hs := map fst l).
    destruct (explore_sim hs N sched Stem Stem l u Logic.I H) as (l' & u' & H' & Su & Fl).
    assert (G : Forall (fun x => good_status (a_status (snd x))) l').
    { rewrite Forall_forall in *. intros [h' r'] Iy. destruct (Fl _ Iy) as ([h r] & Ix & E & K). cbn [fst snd] in *. subst h'.
      destruct (So _ Ix) as [Q|(p & a1 & C & J & _)].
      - exfalso. apply (U _ Ix). cbn in *. rewrite Q. reflexivity.
      - cbn [fst snd] in *. destruct K as [[_ [K|K]]|[K1 K2]].
        + exfalso. apply (U _ Ix). cbn. rewrite K. reflexivity.
        + exfalso. apply (judge_internal p). congruence.
        + unfold Explore_Model.prog, code_at in K2. rewrite C in K2. inversion K2.
          unfold judge_at. destruct (in_dec hist_dec h hs) as [i|n].
          * now right.
          * exfalso. apply n. unfold hs. apply (in_map fst _ _ Ix). }
    pose proof (explore_good hs N sched Stem l' u' ltac:(cbn; repeat split; discriminate) H' G) as D.
    apply dg_here in D. destruct D as [_ D].
    rewrite <- (same_exh _ _ _ _ _ Su) in D. specialize (D X).
    assert (Fi : Forall (fun fe => truthful (snd fe)) sched) by exact F.
    pose proof (explore_inv Asg Expr VExpr Val hist holds veval expr_eqb expr_eqb_spec val_dec code_at (judge_at hs)
      sched Stem l' u' Fi (Inv_Stem _ _ _ _ _ _ _ _ _ _) eq_refl H') as I.
    apply Inv_Ok in I. destruct I as [I _]. destruct (I D) as [_ S].
    destruct (S a ltac:(constructor) (prog_detach_ok _ _ _ _ code_at (judge_at hs))) as (o & R & Fo).
    assert (GG : forall h, Explore_Spec.Given Asg Expr VExpr Val hist holds veval code_at a h -> Given a h).
    { induction h as [|x t IHh]; cbn; auto. intros [G1 G2]. split; auto. unfold code_at in G2.
      destruct (code t) as [[]|]; auto. }
    destruct (runs_given Asg Expr VExpr Val hist holds veval code_at (judge_at hs) a [] o R Logic.I)
      as [[-> (h & e & Gh & C & He)]|(r & h' & p & -> & Gh & C & J)].
    - left. exists h, e. split; [auto|]. split; auto. unfold code_at in C. destruct (code h); congruence.
    - right. unfold code_at in C. destruct (code h') as [q|p'] eqn:C'; [discriminate|]. inversion C; subst p.
      cbn in Fo. rewrite J in Fo. unfold judge_at in Fo. destruct (in_dec hist_dec h' hs) as [i|n].
      + unfold hs in i. apply in_map_iff in i as ([h1 r1] & E & Ix). cbn in E. subst h1.
        exists h', p'. split; auto. apply finished_in. split; auto. exists r1. split; auto.
        rewrite Forall_forall in U. exact (U _ Ix).
      + destruct Fo as [Fo|Fo]; discriminate.
  Qed.
End Complete.
