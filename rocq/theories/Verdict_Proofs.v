From Coq Require Import List Bool ZArith Lia.
From Verif Require Import SearchTree_Model SearchTree_Spec SearchTree_Proofs
  Py Verdict_Model Verdict_Spec.
Import ListNotations.

(** *** Properties of results that survive merging hold in the whole tree. *)
Section All.
  Variables (Expr VExpr Val : Type).
  Variable expr_eqb : Expr -> Expr -> bool.
  Variable prog : list (ans Val) -> action Expr VExpr.
  Notation node := (node Expr VExpr Val).
  Notation run := (run Expr VExpr Val expr_eqb prog).

  Variable Q : analysis -> Prop.
  Hypothesis Q_unknown : Q A_unknown.
  Hypothesis Q_ignore : Q A_ignore.
  Hypothesis Q_merge : forall l r ls rs, Q l -> Q r -> a_status l = Some ls -> a_status r = Some rs ->
    Q (mkA (Some (status_min ls rs)) (a_msgs l ++ a_msgs r) (merge_fp l r)).
  Notation QN := (fun n : node => Q (n_res n)).

  Lemma all_here (n : node) : AllPos QN n -> Q (n_res n).
  Proof. destruct n; cbn; tauto. Qed.

  Lemma all_finish (n : node) r : AllPos QN n -> Q r -> AllPos QN (finish n r).
  Proof. destruct n; cbn; tauto. Qed.

  Lemma merge_Q l x (n : node) : Q l -> Q (n_res n) -> Q (fst (merge l x n)).
  Proof.
    intros A B. unfold merge. destruct (a_status l) eqn:L; cbn; auto.
    destruct (a_status (n_res n)) eqn:R; cbn; auto.
  Qed.

  Lemma all_worst k f (p q : node) r x : Q r -> AllPos QN p -> AllPos QN q ->
    AllPos QN (upd_worst k f p q r x).
  Proof.
    intros R P P'. unfold upd_worst. destruct x; [cbn; auto|].
    assert (W : Q (fst (worst_compute f p q))).
    { unfold worst_compute. pose proof (all_here p P). pose proof (all_here q P').
      destruct (_ || _); [cbn; auto|]. destruct (_ || _); [cbn; auto|]. now apply merge_Q. }
    destruct (worst_compute f p q) as [r' x']. cbn in *. auto.
  Qed.

  Lemma all_par (p q : node) r x : Q r -> AllPos QN p -> AllPos QN q ->
    AllPos QN (upd_par p q r x).
  Proof.
    intros R P P'. unfold upd_par. destruct x; [cbn; auto|].
    assert (W : Q (fst (par_compute p q))).
    { unfold par_compute. pose proof (all_here p P). pose proof (all_here q P').
      destruct (_ && _); [cbn; auto|]. destruct (_ && _); [cbn; auto|]. now apply merge_Q. }
    destruct (par_compute p q) as [r' x']. cbn in *. auto.
  Qed.

  Lemma run_all fuel : forall E n h pc kn det, AllPos QN n ->
    Q (o_leaf (run fuel E n h pc kn det)) -> AllPos QN (o_node (run fuel E n h pc kn det)).
  Proof.
    induction fuel as [|fuel IH]; intros E n h pc kn det A; cbn [SearchTree_Model.run].
    { intro L. now apply all_finish. }
    destruct (e_abort E h pc) as [[]|].
    { intro L. now apply all_finish. }
    { auto. }
    assert (AS : AllPos QN (Stem : node)) by (cbn; auto).
    destruct (prog h) as [e|x| |e|e| |r].
    - (* fork *)
      destruct (lookup Expr expr_eqb kn e); [auto|].
      assert (Go : forall f p q r x, Q r -> AllPos QN p -> AllPos QN q ->
        let o := match worst_choose Expr VExpr Val E h pc f p q with
                 | Some b =>
                   let o := run fuel E (if b then p else q) (ABool b :: h) (LExpr e b :: pc)
                              ((e, b) :: kn) det in
                   mkOut (if b then upd_worst (KExpr e) f (o_node o) q r x
                      else upd_worst (KExpr e) f p (o_node o) r x)
                     (o_leaf o) (o_hist o) (o_pc o)
                 | None => stop (Worst (KExpr e) f p q r x) A_internal h pc
                 end in Q (o_leaf o) -> AllPos QN (o_node o)).
      { intros f p q r x R P P'. destruct (worst_choose _ _ _ _ _ _ _ _ _) as [[]|]; cbn [o_leaf o_node stop]; intro L.
        - apply all_worst; auto.
        - apply all_worst; auto.
        - apply all_finish; [cbn; auto|exact L]. }
      destruct n as [|r0|[e'|y v] f p q r0 x|p q r0 x|c r0 x]; cbn [stop o_leaf o_node];
        try (intro L; apply all_finish; [exact A|exact L]).
      + destruct (grow_forced _ _ _ _ _ _) as [f|]; [|intro L; now apply all_finish].
        apply Go; auto.
      + destruct (expr_eqb e' e); [|intro L; apply all_finish; [exact A|exact L]].
        destruct A as (A0 & A1 & A2). apply Go; auto.
    - (* realize *)
      assert (Go : forall y v f p q r0 x0, Q r0 -> AllPos QN p -> AllPos QN q ->
        let o := match worst_choose Expr VExpr Val E h pc f p q with
                 | Some b =>
                   let o := let pc' := LVal x v b :: pc in
                            let h' := if b then AVal v :: h else h in
                            match (if det then e_sat E pc' else Sat) with
                            | UnkSat => stop (if b then p else q) A_unknown h' pc'
                            | Unsat => stop (if b then p else q) A_internal h' pc'
                            | Sat => run fuel E (if b then p else q) h' pc' kn det
                            end in
                   mkOut (if b then upd_worst (KVal y v) f (o_node o) q r0 x0
                      else upd_worst (KVal y v) f p (o_node o) r0 x0)
                     (o_leaf o) (o_hist o) (o_pc o)
                 | None => stop (Worst (KVal y v) f p q r0 x0) A_internal h pc
                 end in Q (o_leaf o) -> AllPos QN (o_node o)).
      { intros y v f p q r x0 R P P'.
        destruct (worst_choose _ _ _ _ _ _ _ _ _) as [b|]; [|cbn [stop o_leaf o_node]; intro L; apply all_finish; [cbn; auto|exact L]].
        cbv zeta. cbn [o_leaf o_node].
        set (o := match (if det then _ else _) with UnkSat => _ | _ => _ end). intro L.
        assert (AllPos QN (o_node o)).
        { unfold o in *. destruct (if det then _ else _).
          - apply IH; auto. destruct b; auto.
          - apply all_finish; [destruct b; auto|exact L].
          - apply all_finish; [destruct b; auto|exact L]. }
        destruct b; apply all_worst; auto. }
      destruct n as [|r0|[e'|y v] f p q r0 x0|p q r0 x0|c r0 x0]; cbn [stop o_leaf o_node];
        try (intro L; apply all_finish; [exact A|exact L]).
      + destruct (e_sat E pc); cbn [stop o_leaf o_node];
          try (intro L; apply all_finish; [exact A|exact L]).
        destruct (grow_forced _ _ _ _ _ _) as [f|]; [|intro L; now apply all_finish].
        apply Go; auto.
      + destruct A as (A0 & A1 & A2). apply Go; auto.
    - (* par *)
      assert (Go : forall p q r x, Q r -> AllPos QN p -> AllPos QN q ->
        let o := match rand_choose Expr VExpr Val E h pc p q with
                 | Some b =>
                   let o := run fuel E (if b then p else q) (ABool b :: h) pc kn det in
                   mkOut (if b then upd_par (o_node o) q r x else upd_par p (o_node o) r x)
                     (o_leaf o) (o_hist o) (o_pc o)
                 | None => stop (Par p q r x) A_internal h pc
                 end in Q (o_leaf o) -> AllPos QN (o_node o)).
      { intros p q r x R P P'. destruct (rand_choose _ _ _ _ _ _ _ _) as [[]|]; cbn [o_leaf o_node stop]; intro L.
        - apply all_par; auto.
        - apply all_par; auto.
        - apply all_finish; [cbn; auto|exact L]. }
      destruct n as [|r0|[e'|y v] f p q r0 x|p q r0 x|c r0 x]; cbn [stop o_leaf o_node];
        try (intro L; apply all_finish; [exact A|exact L]).
      + apply Go; auto.
      + destruct A as (A0 & A1 & A2). apply Go; auto.
    - destruct (lookup Expr expr_eqb kn e) as [[]|]; auto.
      cbn. intro L. now apply all_finish.
    - destruct (e_sat E _); auto. cbn. intro L. now apply all_finish.
    - destruct det; auto. destruct n; cbn [o_leaf o_node]; intro L; try (cbn; auto).
    - cbn. intro L. now apply all_finish.
  Qed.
End All.

(** *** How a path is judged. *)
Lemma exit_filter_ignore k r : exit_filter k = FIgnore r ->
  r = A_ignore \/ r = A_conf /\ k = XExpected.
Proof. destruct k; cbn; intro H; inversion H; auto. Qed.

Lemma leave_not k : leave k = A_ignore \/ leave k = A_unknown.
Proof. destruct k; cbn; auto. Qed.

Definition pre_ok (pres : list (Z * option ev)) : Prop :=
  forall line o, In (line, Some o) pres -> o = EvTrue.

(** A precondition raised a declared exception after all earlier ones held. *)
Definition pre_excused (pres : list (Z * option ev)) : Prop :=
  exists a line b, pres = a ++ (line, Some (EvRaise XExpected)) :: b /\ pre_ok a.

Lemma pre_ok_cons l o r : (o = None \/ o = Some EvTrue) -> (pre_ok ((l, o) :: r) <-> pre_ok r).
Proof.
  intros H. unfold pre_ok. split; intros K line o' I.
  - eapply K. right. exact I.
  - destruct I as [I|I]; [|eauto]. inversion I; subst. destruct H; congruence.
Qed.

(** What a judgement says about the path. *)
Definition J_means (pres : list (Z * option ev)) (p : path) (j : judged) : Prop :=
  match j with
  | JDetach r => pre_ok pres /\ exists m, r = A_fail m /\ violates p m
  | JNow r =>
      (pre_ok pres -> forall m, ~ violates p m) /\
      ((r = A_ignore \/ r = A_unknown) \/
       (exists line w, r = mkA None [] (Some (line, w)) /\ ~ pre_ok pres /\ In line (map fst pres)) \/
       (r = A_conf /\
         (pre_excused pres \/
          pre_ok pres /\
          (p_body p = Some XExpected \/
           p_body p = None /\ p_mutated p = false /\
           (p_post p = EvTrue \/ p_post p = EvRaise XExpected)))))
  end.

Ltac novio := intros _ mm V; inversion V; congruence.

Lemma judge_means p : forall pres, J_means pres p (judge pres p).
Proof.
  induction pres as [|[line o] pres IH]; cbn [judge].
  - unfold judge_body. assert (PE : pre_ok []) by (intros ? ? []).
    destruct (p_body p) as [k|] eqn:B.
    + destruct k; cbn.
      * split; [novio|auto].
      * split; [novio|auto].
      * split; [novio|]. right. right. tauto.
      * split; [novio|auto].
      * split; auto. exists msg_exec_err. split; auto. now constructor.
      * split; [novio|auto].
    + destruct (p_mutated p) eqn:M.
      * split; auto. exists msg_post_err. split; auto. now apply V_mut.
      * destruct (p_post p) as [| |k] eqn:P.
        -- split; [novio|]. right. right. tauto.
        -- split; auto. exists msg_post_fail. split; auto. now apply V_post.
        -- destruct k; cbn.
           ++ split; [novio|auto].
           ++ split; [novio|auto].
           ++ split; [novio|]. right. right. tauto.
           ++ split; [novio|auto].
           ++ split; auto. exists msg_post_err. split; auto. now apply V_posterr.
           ++ split; [novio|auto].
  - assert (Skip : (o = None \/ o = Some EvTrue) -> J_means ((line, o) :: pres) p (judge pres p)).
    { intro O. pose proof (pre_ok_cons line o pres O) as PC. unfold J_means in *.
      destruct (judge pres p) as [r|r].
      - destruct IH as [N IH]. split; [tauto|]. destruct IH as [IH|[IH|IH]]; auto.
        + right. left. destruct IH as (l & w & -> & NP & I). exists l, w. repeat split; try tauto.
          cbn. auto.
        + right. right. destruct IH as [-> [E|E]]; (split; [reflexivity|]).
          * left. destruct E as (a & l & b & -> & PA). exists ((line, o) :: a), l, b.
            split; auto. now apply pre_ok_cons.
          * right. tauto.
      - tauto. }
    assert (NP : forall x, x <> EvTrue -> ~ pre_ok ((line, Some x) :: pres)).
    { intros x X PO. apply X. eapply PO. left. reflexivity. }
    destruct o as [[| |k]|]; auto.
    + cbn. split; [intro PO; exfalso; eapply NP; [|exact PO]; discriminate|].
      right. left. exists line, 0%Z. repeat split; auto. apply NP; discriminate.
    + assert (NK : ~ pre_ok ((line, Some (EvRaise k)) :: pres)) by (apply NP; discriminate).
      destruct k; cbn; (split; [intro PO; exfalso; exact (NK PO)|]); auto.
      * right. right. split; auto. left. exists [], line, pres. split; auto. intros ? ? [].
      * right. left. exists line, 1%Z. repeat split; auto.
Qed.

Lemma judge_detach p r : judge_path p = JDetach r -> pre_met p /\ exists m, r = A_fail m /\ violates p m.
Proof.
  intro H. pose proof (judge_means p (p_pres p)) as J. unfold judge_path in H.
  rewrite H in J. exact J.
Qed.

(** *** The program attempt_call is. *)
Section Prog.
  Variables (Asg Expr VExpr Val : Type).
  Variable holds : Asg -> Expr -> bool.
  Variable veval : Asg -> VExpr -> Val.
  Variable code : list (ans Val) -> req Expr VExpr + path.
  Variable cex : list (ans Val) -> option (VExpr + Expr).
  Notation hist := (list (ans Val)).
  Notation prog := (prog Expr VExpr Val code cex).
  Notation settled := (settled Expr VExpr Val code).
  Notation Agrees := (Agrees Asg Expr VExpr Val holds veval prog).
  Notation Runs := (Runs Asg Expr VExpr Val holds veval prog).
  Notation Given := (Given Asg Expr VExpr Val holds veval code).
  Notation Does := (Does Asg Expr VExpr Val holds veval code).

  Lemma settled_eq x t : settled (x :: t) =
    match settled t with
    | Some (p, n) => Some (p, S n)
    | None => match code (x :: t) with inl _ => None | inr p => Some (p, 0) end
    end.
  Proof. reflexivity. Qed.

  (** Nothing was settled before [h]. *)
  Definition early (h : hist) : Prop :=
    match h with [] => True | _ :: t => settled t = None end.

  Lemma early_settled h : early h ->
    settled h = match code h with inl _ => None | inr p => Some (p, 0) end.
  Proof. destruct h as [|x t]; cbn [early]; intro E; [reflexivity|]. now rewrite settled_eq, E. Qed.

  Lemma unsettled_early h : settled h = None -> early h.
  Proof.
    destruct h as [|x t]; cbn [early]; auto. rewrite settled_eq.
    destruct (settled t) as [[p n]|]; congruence.
  Qed.

  Lemma settled_app l h p n : settled h = Some (p, n) -> settled (l ++ h) = Some (p, length l + n).
  Proof.
    intro H. induction l as [|x l IH]; cbn [app length plus]; auto.
    rewrite settled_eq, IH. reflexivity.
  Qed.

  Lemma prog_early h : early h -> forall q, code h = inl q -> prog h = act q.
  Proof.
    intros E q C. unfold Verdict_Model.prog. rewrite (early_settled h E), C. reflexivity.
  Qed.

  Lemma agrees_given a h : early h -> (Agrees a h <-> Given a h).
  Proof.
    induction h as [|x t IH]; cbn [early]; intro E; [cbn; tauto|].
    assert (Et : early t) by now apply unsettled_early.
    unfold Verdict_Spec.Given in *. cbn [SearchTree_Spec.Agrees].
    rewrite (IH Et). apply and_iff_compat_l.
    pose proof (early_settled t Et) as S. rewrite E in S.
    destruct (code t) as [q|p] eqn:C; [|discriminate].
    rewrite (prog_early t Et q C). tauto.
  Qed.

  Definition ends (p : path) (o : outcome) : Prop :=
    match judge_path p with
    | JNow r => o = Ended r
    | JDetach r => if p_deferred p then o = Ended r else o = Ended A_ignore
    end.

  Lemma detached_end a h o p n : Runs a h o -> settled h = Some (p, n) -> ends p o.
  Proof.
    intro R. revert n.
    induction R as [h r P|h e o P R IH|h x o P R IH|h e o P He R IH|h e P He|h b o P R IH|h e b o P B R IH|h o P R IH];
      intros n S; unfold Verdict_Model.prog in P; rewrite S in P; unfold ends in *;
      destruct (judge_path p) as [r0|r0]; try discriminate P;
      try (assert (N : forall x, settled (x :: h) = Some (p, Datatypes.S n)) by (intro; rewrite settled_eq, S; reflexivity));
      try (destruct (p_deferred p); destruct n; try discriminate P; try (destruct (cex h) as [[|]|]; try discriminate P);
           try (inversion P; subst; auto; fail); try (eapply IH; apply N)).
  Qed.

  Lemma runs_does a h o : Runs a h o -> early h ->
    exists po, Does a h po /\ match po with None => o = Excluded | Some p => ends p o end.
  Proof.
    induction 1 as [h r P|h e o P R IH|h x o P R IH|h e o P He R IH|h e P He|h b o P R IH|h e b o P B R IH|h o P R IH];
      intro E;
      (destruct (code h) as [q|p] eqn:C;
       [ pose proof (prog_early h E q C) as PQ; rewrite PQ in P;
         assert (S : settled h = None) by (rewrite (early_settled h E), C; reflexivity);
         destruct q; cbn [act] in P; try discriminate P
       | exists (Some p); split; [now constructor|];
         assert (S : settled h = Some (p, 0)) by (rewrite (early_settled h E), C; reflexivity) ]).
    all: try (apply (detached_end a h) with (n := 0); [|exact S];
      solve [eapply R_done; eassumption | eapply R_fork; eassumption | eapply R_real; eassumption
            | eapply R_assume; eassumption | eapply R_excl; eassumption | eapply R_par; eassumption
            | eapply R_poss; eassumption | eapply R_detach; eassumption]).
    - inversion P; subst. destruct (IH S) as (po & D & M). exists po. split; auto. eapply Do_fork; eauto.
    - inversion P; subst. destruct (IH S) as (po & D & M). exists po. split; auto. eapply Do_real; eauto.
    - inversion P; subst. destruct (IH S) as (po & D & M). exists po. split; auto. eapply Do_assume; eauto.
    - inversion P; subst. exists None. split; auto. eapply Do_excl; eauto.
    - destruct (IH S) as (po & D & M). exists po. split; auto. eapply Do_par; eauto.
    - inversion P; subst. destruct (IH S) as (po & D & M). exists po. split; auto. eapply Do_poss with (b := b); eauto.
      rewrite B. split; intros [a' [X Y]]; exists a'; (split; [apply (agrees_given a' h E); auto|auto]).
  Qed.

  Lemma Does_det : no_alternatives Expr VExpr Val code -> forall a h o1, Does a h o1 ->
    forall o2, Does a h o2 -> o1 = o2.
  Proof.
    intros NP a h o1 D.
    induction D as [h p C|h e o C D IH|h x o C D IH|h e o C He D IH|h e C He|h b o C D IH|h e b o C B D IH];
      intros o2 D2; inversion D2; subst; try congruence.
    - apply IH. assert (e0 = e) by congruence. now subst.
    - apply IH. assert (x0 = x) by congruence. now subst.
    - apply IH; auto.
    - apply IH. assert (e0 = e) by congruence. subst.
      assert (b0 = b) by (eapply iff_bool; eassumption). now subst.
  Qed.

  Lemma prog_no_par : no_alternatives Expr VExpr Val code -> no_par Expr VExpr Val prog.
  Proof.
    intros N h. unfold Verdict_Model.prog. destruct (settled h) as [[p n]|].
    - destruct (judge_path p); [discriminate|]. destruct n; [discriminate|].
      destruct (p_deferred p); [|discriminate]. destruct (cex h) as [[|]|]; discriminate.
    - pose proof (N h) as Nh. destruct (code h) as [[]|]; cbn; congruence.
  Qed.

  Lemma prog_detach_ok : detach_ok Expr VExpr Val prog.
  Proof.
    intros h P. unfold Verdict_Model.prog in P.
    destruct (settled h) as [[p n]|] eqn:S; [|destruct (code h) as [[]|]; discriminate P].
    destruct (judge_path p) as [r|r] eqn:J; [discriminate|].
    assert (S1 : settled (AUnit :: h) = Some (p, Datatypes.S n)) by (rewrite settled_eq, S; reflexivity).
    destruct (p_deferred p) eqn:D.
    - right. intros l r' P'. unfold Verdict_Model.prog in P'.
      rewrite (settled_app l _ _ _ S1), J in P'.
      rewrite Nat.add_succ_r in P'. rewrite D in P'.
      destruct (cex (l ++ AUnit :: h)) as [[|]|]; try discriminate P'. inversion P'; subst r'.
      destruct (judge_detach p r J) as (_ & m & -> & _). intros [G|G]; discriminate.
    - left. exists A_ignore. unfold Verdict_Model.prog. rewrite S1, J, D. reflexivity.
  Qed.

  Lemma prog_assume_ok : assumes_well Asg Expr VExpr Val holds veval code ->
    assume_ok Asg Expr VExpr Val holds veval prog.
  Proof.
    intros W a h e A P. unfold Verdict_Model.prog in P.
    destruct (settled h) as [[p n]|] eqn:S.
    - destruct (judge_path p) as [r|r]; [discriminate|]. destruct n; [discriminate|].
      destruct (p_deferred p); [|discriminate]. destruct (cex h) as [[|]|]; discriminate.
    - pose proof (unsettled_early h S) as E. destruct (code h) as [q|] eqn:C; [|discriminate].
      destruct q; try discriminate P. inversion P; subst.
      destruct (W a h e) as (a' & G & H); auto.
      + now apply agrees_given.
      + exists a'. split; auto. now apply agrees_given.
  Qed.

  (** The analyses with which paths can end. *)
  Lemma prog_done h r : prog h = ADone r ->
    exists p n, settled h = Some (p, n) /\ ends p (Ended r).
  Proof.
    unfold Verdict_Model.prog. intro P. destruct (settled h) as [[p n]|] eqn:S.
    - exists p, n. split; auto. unfold ends. destruct (judge_path p) as [r0|r0].
      + congruence.
      + destruct n; [discriminate|]. destruct (p_deferred p); [|congruence].
        destruct (cex h) as [[|]|]; congruence.
    - pose proof (unsettled_early h S) as E. rewrite (early_settled h E) in S.
      destruct (code h) as [[]|]; discriminate.
  Qed.

End Prog.

(** *** The loop. *)
Section Loop.
  Variables (Asg Expr VExpr Val : Type).
  Variable holds : Asg -> Expr -> bool.
  Variable veval : Asg -> VExpr -> Val.
  Variable expr_eqb : Expr -> Expr -> bool.
  Hypothesis expr_eqb_spec : forall a b, expr_eqb a b = true <-> a = b.
  Hypothesis val_dec : forall v w : Val, {v = w} + {v <> w}.
  Variable code : list (ans Val) -> req Expr VExpr + path.
  Variable cex : list (ans Val) -> option (VExpr + Expr).
  Notation node := (node Expr VExpr Val).
  Notation env := (env Expr VExpr Val).
  Notation prog := (prog Expr VExpr Val code cex).
  Notation Does := (Does Asg Expr VExpr Val holds veval code).
  Notation truthful := (truthful Asg Expr VExpr Val holds veval).
  Notation assumes_well := (assumes_well Asg Expr VExpr Val holds veval code).
  Notation iteration := (iteration Expr VExpr Val expr_eqb prog).
  Notation search := (search Expr VExpr Val expr_eqb prog).
  Notation turn := (turn Expr VExpr Val expr_eqb code cex).
  Notation loop := (loop Expr VExpr Val expr_eqb code cex).
  Notation Inv := (Inv Asg Expr VExpr Val holds veval expr_eqb prog).
  Notation s0 := (s0 Expr VExpr Val).
  Notation analyze_calltree := (analyze_calltree Expr VExpr Val expr_eqb code cex).
  Notation analyze := (analyze Expr VExpr Val expr_eqb code cex).

  (** How a path tried by the search ended. *)
  Definition leaf_ok (r : analysis) : Prop :=
    r = A_unknown \/ exists a p, Does a [] (Some p) /\ ends p (Ended r).

  Lemma ends_cases p r : ends p (Ended r) ->
    (r = A_ignore \/ r = A_unknown) \/
    (exists line w, r = mkA None [] (Some (line, w)) /\ ~ pre_met p /\ In line (map fst (p_pres p))) \/
    (r = A_conf /\ judge_path p = JNow A_conf) \/
    (exists m, r = A_fail m /\ counterexample p m).
  Proof.
    unfold ends. destruct (judge_path p) as [r0|r0] eqn:J; intro H.
    - inversion H; subst. pose proof (judge_means p (p_pres p)) as M. unfold judge_path in J.
      rewrite J in M. destruct M as [_ [M|[M|[-> _]]]]; [left; exact M| |right; right; left; auto].
      right. left. exact M.
    - destruct (judge_detach p r0 J) as (P & m & -> & V).
      destruct (p_deferred p) eqn:D; inversion H; subst.
      + right. right. right. exists m. split; auto. now split.
      + auto.
  Qed.

  Lemma iteration_ok fuel E t : truthful E -> assumes_well -> inhabited Asg ->
    Inv t false s0 -> n_exh t = false ->
    Inv (o_node (iteration fuel E t)) false s0 /\ leaf_ok (o_leaf (iteration fuel E t)).
  Proof.
    intros T W [a0] I X.
    destruct (run_post Asg Expr VExpr Val holds veval expr_eqb expr_eqb_spec val_dec prog
      fuel E t [] [] [] false T (StOk_init Asg Expr VExpr Val holds veval expr_eqb prog) I X)
      as (I' & G & _ & B).
    split; [exact I'|].
    destruct (B (prog_assume_ok Asg Expr VExpr Val holds veval code cex W)) as (a & _ & _ & _ & R).
    { exists a0. constructor. }
    unfold SearchTree_Model.iteration. set (o := run _ _ _ _ _ _ _ _ _ _ _ _) in *.
    assert (K : a_status (o_leaf o) <> Some Unknown -> leaf_ok (o_leaf o)).
    { intro N. right. destruct (runs_does Asg Expr VExpr Val holds veval code cex a [] _ (R N) Logic.I)
        as ([p|] & D & M); [|discriminate]. exists a, p. auto. }
    destruct G as [G|[G|G]].
    - left. exact G.
    - apply K. rewrite G. discriminate.
    - destruct (a_status (o_leaf o)) as [[]|] eqn:U; try (apply K; congruence).
      left. destruct (prog_done _ _ _ _ _ _ _ G) as (p & n & _ & En).
      destruct (ends_cases _ _ En) as [[H|H]|[(l & w & H & _)|[[H _]|(m & H & _)]]]; auto;
        rewrite H in U; discriminate.
  Qed.

  Lemma Inv_start : Inv Stem false s0.
  Proof. apply Inv_Stem. Qed.

  (** Invariant of results. *)
  Definition Real (r : analysis) : Prop :=
    Forall (fun m => exists a p, Does a [] (Some p) /\ counterexample p m) (a_msgs r) /\
    (a_status r = Some Refuted -> a_msgs r <> []) /\
    (a_status r = Some Confirmed -> exists a p, Does a [] (Some p) /\ judge_path p = JNow A_conf).

  Lemma leaf_real r : leaf_ok r -> Real r.
  Proof.
    intros [->|(a & p & D & En)].
    - repeat split; cbn; try discriminate. constructor.
    - destruct (ends_cases _ _ En) as [[->| ->]|[(l & w & -> & _)|[[-> J]|(m & -> & C)]]];
        (repeat split; cbn; try discriminate; try constructor; eauto).
  Qed.

  Lemma Real_unknown : Real A_unknown. Proof. apply leaf_real. now left. Qed.
  Lemma Real_ignore : Real A_ignore.
  Proof. repeat split; cbn; try discriminate. constructor. Qed.

  Lemma Real_merge l r ls rs : Real l -> Real r -> a_status l = Some ls -> a_status r = Some rs ->
    Real (mkA (Some (status_min ls rs)) (a_msgs l ++ a_msgs r) (merge_fp l r)).
  Proof.
    intros (A1 & A2 & A3) (B1 & B2 & B3) L R. rewrite L in *. rewrite R in *.
    repeat split; cbn.
    - apply Forall_app. auto.
    - intro M. intro E. apply app_eq_nil in E as [E1 E2].
      destruct ls; try (apply A2; auto; fail); destruct rs; try discriminate; apply B2; auto.
    - intro M. destruct ls, rs; try discriminate. auto.
  Qed.

  Definition okst (s : lstate Expr VExpr Val) : Prop :=
    Inv (l_tree s) false s0 /\ n_exh (l_tree s) = false /\
    AllPos (fun n => Real (n_res n)) (l_tree s).

  Lemma turn_ok fe s : truthful (snd fe) -> assumes_well -> inhabited Asg -> okst s ->
    Inv (l_tree (fst (turn fe s))) false s0 /\
    AllPos (fun n => Real (n_res n)) (l_tree (fst (turn fe s))) /\ leaf_ok (snd (turn fe s)).
  Proof.
    intros T W A (I & X & R). destruct (iteration_ok (fst fe) (snd fe) (l_tree s) T W A I X) as [I' L].
    cbn. split; auto. split; auto.
    apply (run_all Expr VExpr Val expr_eqb prog Real Real_unknown Real_ignore Real_merge); auto.
    apply leaf_real. exact L.
  Qed.

  Lemma loop_ok sched : forall s, Forall (fun fe => truthful (snd fe)) sched -> assumes_well ->
    inhabited Asg -> okst s ->
    Inv (l_tree (fst (loop sched s))) false s0 /\
    AllPos (fun n => Real (n_res n)) (l_tree (fst (loop sched s))) /\
    Forall leaf_ok (snd (loop sched s)).
  Proof.
    induction sched as [|fe rest IH]; intros s F W A S; cbn [Verdict_Model.loop].
    { destruct S as (I & X & R). cbn [fst snd]. split; [exact I|]. split; [exact R|constructor]. }
    inversion F; subst. destruct (turn_ok fe s H1 W A S) as (I & R & L).
    destruct (turn fe s) as [s1 r]. cbn [fst snd] in *.
    assert (Base : Inv (l_tree (fst (s1, [r]))) false s0 /\
      AllPos (fun n => Real (n_res n)) (l_tree (fst (s1, [r]))) /\ Forall leaf_ok (snd (s1, [r]))).
    { cbn [fst snd]. split; [exact I|]. split; [exact R|]. constructor; [exact L|constructor]. }
    destruct (n_exh (l_tree s1)) eqn:X; cbn [orb]; [exact Base|].
    destruct (status_eqb (n_status (l_tree s1)) (Some Refuted)); [exact Base|].
    destruct (IH s1 H2 W A) as (I2 & R2 & L2). { now split. }
    destruct (loop rest s1) as [s2 rs]. cbn [fst snd] in *. split; [exact I2|]. split; [exact R2|].
    constructor; auto.
  Qed.

  Lemma loop_search sched : forall s, n_exh (l_tree s) = false -> n_status (l_tree s) <> Some Refuted ->
    l_tree (fst (loop sched s)) = search sched (l_tree s).
  Proof.
    induction sched as [|[fuel E] rest IH]; intros s X R; cbn [Verdict_Model.loop SearchTree_Model.search]; auto.
    rewrite X. cbn [orb].
    destruct (status_eqb (n_status (l_tree s)) (Some Refuted)) eqn:Y.
    { apply status_eqb_spec in Y. contradiction. }
    change (o_node (iteration fuel E (l_tree s))) with (l_tree (fst (turn (fuel, E) s))).
    destruct (turn (fuel, E) s) as [s1 r]. cbn [fst].
    assert (St : forall rest, n_exh (l_tree s1) || status_eqb (n_status (l_tree s1)) (Some Refuted) = true ->
      search rest (l_tree s1) = l_tree s1).
    { intros [|[f' E'] rest'] K; cbn [SearchTree_Model.search]; auto. now rewrite K. }
    destruct (n_exh (l_tree s1)) eqn:X1; cbn [orb] in *.
    { cbn [fst]. symmetry. now apply St. }
    destruct (status_eqb (n_status (l_tree s1)) (Some Refuted)) eqn:Y1.
    { cbn [fst]. symmetry. now apply St. }
    pose proof (IH s1 X1) as IHs.
    destruct (loop rest s1) as [s2 rs]. cbn [fst] in *. rewrite IHs; auto.
    intro Z. rewrite Z in Y1. discriminate.
  Qed.

  (** The precondition bookkeeping. *)
  Definition undecided (r : analysis) : Prop := r = A_unknown \/ a_status r = None.

  Lemma upd_fp_some fp r : leaf_ok r -> upd_fp fp r <> None -> fp <> None /\ undecided r.
  Proof.
    intros L U. destruct fp as [[line w]|]; [|cbn in U; congruence]. split; [discriminate|].
    destruct L as [->|(a & p & D & En)]; [now left|].
    destruct (ends_cases _ _ En) as [[->| ->]|[(l & w' & -> & _)|[[-> J]|(m & -> & C)]]].
    - now right.
    - now left.
    - now right.
    - cbn in U. congruence.
    - exfalso. apply U. destruct C as (_ & _ & V). destruct V; reflexivity.
  Qed.

  Lemma loop_fp sched : forall s, Forall (fun fe => truthful (snd fe)) sched -> assumes_well ->
    inhabited Asg -> okst s -> l_fp (fst (loop sched s)) <> None ->
    l_fp s <> None /\ Forall undecided (snd (loop sched s)) /\
    l_conf (fst (loop sched s)) = l_conf s.
  Proof.
    induction sched as [|fe rest IH]; intros s F W A S; cbn [Verdict_Model.loop].
    { cbn. auto. }
    inversion F; subst. destruct (turn_ok fe s H1 W A S) as (I & R & L).
    assert (U : l_fp (fst (turn fe s)) = upd_fp (l_fp s) (snd (turn fe s))) by reflexivity.
    assert (C : undecided (snd (turn fe s)) -> l_conf (fst (turn fe s)) = l_conf s).
    { cbn. intros [->| ->]; reflexivity. }
    destruct (turn fe s) as [s1 r]. cbn [fst snd] in *.
    assert (K : l_fp s1 <> None -> l_fp s <> None /\ undecided r /\ l_conf s1 = l_conf s).
    { rewrite U. intro N. destruct (upd_fp_some _ _ L N) as [N1 N2]. auto. }
    destruct (n_exh (l_tree s1)) eqn:X; cbn [orb].
    { cbn. intro N. destruct (K N) as (K1 & K2 & K3). auto. }
    destruct (status_eqb (n_status (l_tree s1)) (Some Refuted)).
    { cbn. intro N. destruct (K N) as (K1 & K2 & K3). auto. }
    pose proof (IH s1 H2 W A) as IH1. destruct (loop rest s1) as [s2 rs]. cbn [fst snd] in *.
    intro N. destruct IH1 as (J1 & J2 & J3); auto. { now split. }
    destruct (K J1) as (K1 & K2 & K3). repeat split; auto. congruence.
  Qed.

  Definition start (pres : list Z) : lstate Expr VExpr Val :=
    mkL Stem (match pres with [] => None | l :: _ => Some (l, 0%Z) end) 0.

  Lemma start_ok pres : okst (start pres).
  Proof.
    split; [apply Inv_start|]. split; auto. cbn. split; auto using Real_unknown.
  Qed.

  Lemma firstn_Forall (T : Type) (P : T -> Prop) n l : Forall P l -> Forall P (firstn n l).
  Proof. intro H. revert n. induction H; intros [|n]; cbn; constructor; auto. Qed.

  Lemma root_real sched pres : Forall (fun fe => truthful (snd fe)) sched -> assumes_well ->
    inhabited Asg -> Real (n_res (l_tree (fst (loop sched (start pres))))).
  Proof.
    intros F W A. destruct (loop_ok sched (start pres) F W A (start_ok pres)) as (_ & R & _).
    exact (all_here _ _ _ Real _ R).
  Qed.

  Lemma calltree_returns n pres sched : Forall (fun fe => truthful (snd fe)) sched -> assumes_well ->
    inhabited Asg -> 0 < n -> exists v, analyze_calltree n pres sched = Ok v.
  Proof.
    intros F W A N. unfold Verdict_Model.analyze_calltree.
    change (mkL Stem _ 0) with (start pres).
    assert (F' := firstn_Forall _ _ n sched F).
    destruct (l_fp (fst (loop (firstn n sched) (start pres)))) as [[line w]|] eqn:Fp.
    - destruct (loop_fp _ (start pres) F' W A (start_ok pres)) as (_ & _ & C); [congruence|].
      rewrite C. cbn. destruct n; [lia|]. cbn. eauto.
    - destruct n; [lia|]. cbn. eauto.
  Qed.

  Lemma analyze_cases n pres sched ms : analyze n pres sched = Ok ms ->
    exists v, analyze_calltree n pres sched = Ok v /\
      match v_status v with
      | Confirmed => ms = [MConfirmed]
      | Unknown => ms = [MCannotConfirm]
      | Refuted => ms = v_msgs v
      end.
  Proof.
    unfold Verdict_Model.analyze, bind. destruct (analyze_calltree n pres sched) as [v|]; [|discriminate].
    intro H. inversion H. exists v. split; auto. destruct (v_status v); auto.
  Qed.

  Lemma calltree_confirmed n pres sched v : analyze_calltree n pres sched = Ok v ->
    v_status v = Confirmed ->
    l_fp (fst (loop (firstn n sched) (start pres))) = None /\
    n_status (l_tree (fst (loop (firstn n sched) (start pres)))) = Some Confirmed.
  Proof.
    unfold Verdict_Model.analyze_calltree. change (mkL Stem _ 0) with (start pres).
    destruct (l_fp (fst (loop (firstn n sched) (start pres)))) as [[line w]|].
    - destruct (negb _); [discriminate|]. destruct (Nat.eqb n 0); [discriminate|].
      intro H. inversion H. discriminate.
    - destruct (Nat.eqb n 0); [discriminate|]. intro H. inversion H. cbn. intro V. split; auto.
      unfold n_status. destruct (a_status _) as [x|]; congruence.
  Qed.

  Lemma status_tree n pres sched : n_status (l_tree (fst (loop (firstn n sched) (start pres)))) =
    n_status (search (firstn n sched) Stem).
  Proof. rewrite loop_search; cbn; auto; discriminate. Qed.

  (** "Confirmed over all paths." *)
  Lemma confirmed_means n pres sched ms : Forall (fun fe => truthful (snd fe)) sched ->
    no_alternatives Expr VExpr Val code -> analyze n pres sched = Ok ms -> In MConfirmed ms ->
    ms = [MConfirmed] /\
    forall a, (exists po, Does a [] po) /\
      forall p, Does a [] (Some p) -> forall m, ~ counterexample p m.
  Proof.
    intros F NA An I. destruct (analyze_cases _ _ _ _ An) as (v & V & M).
    assert (C : v_status v = Confirmed).
    { destruct (v_status v) eqn:S; auto.
      - subst ms. exfalso. unfold Verdict_Model.analyze_calltree in V. change (mkL Stem _ 0) with (start pres) in V.
        destruct (l_fp _) as [[line w]|].
        + destruct (negb _); [discriminate|]. destruct (Nat.eqb n 0); [discriminate|].
          inversion V; subst v. cbn in I. apply in_app_or in I as [I|[I|[]]]; [|discriminate].
          apply in_map_iff in I as (x & E & _). discriminate.
        + destruct (Nat.eqb n 0); [discriminate|]. inversion V; subst v. cbn in I.
          apply in_map_iff in I as (x & E & _). discriminate.
      - subst ms. destruct I as [I|[]]; discriminate. }
    rewrite C in M. split; auto. intro a.
    destruct (calltree_confirmed _ _ _ _ V C) as [_ St].
    rewrite status_tree in St.
    destruct (confirmed_sound_nopar Asg Expr VExpr Val holds veval expr_eqb expr_eqb_spec val_dec
      prog (firstn n sched) (firstn_Forall _ _ _ _ F) (prog_detach_ok Expr VExpr Val code cex)
      (prog_no_par Expr VExpr Val code cex NA) (or_intror St) a) as [[o R] Fi].
    destruct (runs_does Asg Expr VExpr Val holds veval code cex a [] o R Logic.I) as (po & D & E).
    split; [eauto|]. intros p D' m (PM & PD & PV).
    assert (po = Some p) by (eapply Does_det; eauto). subst po.
    unfold ends in E. pose proof (judge_means p (p_pres p)) as J. unfold judge_path in E.
    destruct (judge (p_pres p) p) as [r|r]; cbn in J.
    - destruct J as [J _]. exact (J PM m PV).
    - rewrite PD in E. subst o. destruct J as (_ & m' & -> & _).
      specialize (Fi _ R). cbn in Fi. destruct Fi; discriminate.
  Qed.

  Lemma confirmed_reached n pres sched ms : Forall (fun fe => truthful (snd fe)) sched ->
    assumes_well -> inhabited Asg -> analyze n pres sched = Ok ms -> ms = [MConfirmed] ->
    exists a p, Does a [] (Some p) /\ (satisfied p \/ pre_excused (p_pres p)).
  Proof.
    intros F W A An ->. destruct (analyze_cases _ _ _ _ An) as (v & V & M).
    assert (C : v_status v = Confirmed).
    { destruct (v_status v) eqn:S; auto; [|discriminate].
      exfalso. unfold Verdict_Model.analyze_calltree in V. change (mkL Stem _ 0) with (start pres) in V.
        destruct (l_fp _) as [[line w]|].
        + destruct (negb _); [discriminate|]. destruct (Nat.eqb n 0); [discriminate|].
          inversion V; subst v. cbn in M. destruct (a_msgs _) as [|? [|]]; cbn in M; discriminate.
        + destruct (Nat.eqb n 0); [discriminate|]. inversion V; subst v. cbn in M.
          destruct (a_msgs _) as [|? [|]]; cbn in M; discriminate. }
    destruct (calltree_confirmed _ _ _ _ V C) as [_ St].
    destruct (root_real (firstn n sched) pres (firstn_Forall _ _ _ _ F) W A) as (_ & _ & Cf).
    destruct (Cf St) as (a & p & D & J). exists a, p. split; auto.
    pose proof (judge_means p (p_pres p)) as JM. unfold judge_path in J. rewrite J in JM.
    destruct JM as (_ & [[H|H]|[(l & w & H & _)|(_ & [H|H])]]); try discriminate; auto.
  Qed.

  Lemma messages_real n pres sched ms m : Forall (fun fe => truthful (snd fe)) sched ->
    assumes_well -> inhabited Asg -> analyze n pres sched = Ok ms -> In (MPath m) ms ->
    exists a p, Does a [] (Some p) /\ counterexample p m.
  Proof.
    intros F W A An I. destruct (analyze_cases _ _ _ _ An) as (v & V & M).
    destruct (root_real (firstn n sched) pres (firstn_Forall _ _ _ _ F) W A) as (Ms & _ & _).
    assert (In m (a_msgs (n_res (l_tree (fst (loop (firstn n sched) (start pres))))))).
    { destruct (v_status v); subst ms; try (destruct I as [I|[]]; discriminate).
      unfold Verdict_Model.analyze_calltree in V. change (mkL Stem _ 0) with (start pres) in V.
      destruct (l_fp _) as [[line w]|].
      - destruct (negb _); [discriminate|]. destruct (Nat.eqb n 0); [discriminate|].
        inversion V; subst v. cbn in I. apply in_app_or in I as [I|[I|[]]]; [|discriminate].
        apply in_map_iff in I as (x & E & I). now inversion E; subst.
      - destruct (Nat.eqb n 0); [discriminate|]. inversion V; subst v. cbn in I.
        apply in_map_iff in I as (x & E & I). now inversion E; subst. }
    rewrite Forall_forall in Ms. auto.
  Qed.

  Lemma always_speaks n pres sched ms : Forall (fun fe => truthful (snd fe)) sched ->
    assumes_well -> inhabited Asg -> analyze n pres sched = Ok ms -> ms <> [].
  Proof.
    intros F W A An. destruct (analyze_cases _ _ _ _ An) as (v & V & M).
    destruct (root_real (firstn n sched) pres (firstn_Forall _ _ _ _ F) W A) as (_ & Rf & _).
    destruct (v_status v) eqn:S; subst ms; try discriminate.
    unfold Verdict_Model.analyze_calltree in V. change (mkL Stem _ 0) with (start pres) in V.
    destruct (l_fp _) as [[line w]|].
    - destruct (negb _); [discriminate|]. destruct (Nat.eqb n 0); [discriminate|].
      inversion V; subst v. cbn. intro E. apply app_eq_nil in E as [_ E]. discriminate.
    - destruct (Nat.eqb n 0); [discriminate|]. inversion V; subst v. cbn in *.
      intro E. apply map_eq_nil in E. apply Rf in E; auto.
      destruct (a_status _) as [[]|]; congruence.
  Qed.

  Lemma pre_unsat n pres sched ms line w : Forall (fun fe => truthful (snd fe)) sched ->
    assumes_well -> inhabited Asg -> analyze n pres sched = Ok ms -> In (MPreUnsat line w) ms ->
    pres <> [] /\ Forall undecided (snd (loop (firstn n sched) (start pres))) /\
    Forall leaf_ok (snd (loop (firstn n sched) (start pres))).
  Proof.
    intros F W A An I. destruct (analyze_cases _ _ _ _ An) as (v & V & M).
    assert (Fp : l_fp (fst (loop (firstn n sched) (start pres))) <> None).
    { destruct (v_status v); subst ms; try (destruct I as [I|[]]; discriminate).
      unfold Verdict_Model.analyze_calltree in V. change (mkL Stem _ 0) with (start pres) in V.
      destruct (l_fp _) as [[line' w']|]; [discriminate|].
      destruct (Nat.eqb n 0); [discriminate|]. inversion V; subst v. cbn in I.
      apply in_map_iff in I as (x & E & I). discriminate. }
    assert (F' := firstn_Forall _ _ n sched F).
    destruct (loop_fp _ (start pres) F' W A (start_ok pres) Fp) as (P & U & _).
    split; [|split; auto].
    - intros ->. cbn in P. congruence.
    - apply loop_ok; auto. apply start_ok.
  Qed.
End Loop.

Lemma judge_met p : forall pres, pre_ok pres -> judge pres p = judge_body p.
Proof.
  induction pres as [|[l o] pres IH]; intro P; cbn [judge]; auto.
  assert (P' : pre_ok pres) by (intros l' o' I; eapply P; right; exact I).
  destruct o as [x|]; auto. assert (x = EvTrue) by (eapply P; left; reflexivity). subst x. auto.
Qed.

Lemma satisfied_ends p r : satisfied p -> ends p (Ended r) -> r = A_conf.
Proof.
  intros [M S]. unfold ends, judge_path. rewrite (judge_met p _ M). unfold judge_body.
  destruct S as [B|(B & Mu & [P|P])]; rewrite B; cbn; try rewrite Mu; try rewrite P; cbn;
    intro H; now inversion H.
Qed.

Lemma counterexample_ends p m r : counterexample p m -> ends p (Ended r) -> r = A_fail m.
Proof.
  intros (M & D & V). unfold ends, judge_path. rewrite (judge_met p _ M). unfold judge_body.
  destruct V as [B|B Mu|B Mu P|B Mu P]; rewrite B; cbn; try rewrite Mu; try rewrite P; cbn;
    rewrite D; intro H; now inversion H.
Qed.
