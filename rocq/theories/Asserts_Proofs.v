From Coq Require Import ZArith List Bool Lia.
From Verif Require Import Asserts_Model Asserts_Spec.
Import ListNotations.
Local Open Scope Z_scope.

Section Proofs.
  Variables (St V : Type) (vnone : V).
  Notation stmt := (stmt St V).
  Notation exec := (exec vnone).

  Definition raising (t : stmt) (s : St) (e : exc) (l : Z) (i : list frame) : Prop :=
    match t with
    | SAssert _ test => test s = Fails e l i
    | SString _ => False
    | SOther _ run => run s = Raise e l i
    end.

  Lemma raising_at t s e l i : raising t s e l i -> raises_at t l.
  Proof. destruct t; cbn; intros H; [eauto|easy|eauto]. Qed.

  Lemma exec_raised f b : forall s e tb, exec f b s = Raised e tb ->
    exists l i t s', runs b s (Raises e l) /\ tb = traceback f l i /\ In t b /\ raising t s' e l i.
  Proof.
    induction b as [|t b IH]; cbn; intros s e tb H; [easy|].
    destruct t as [l test|l|l run].
    - destruct (test s) as [s'|e' k i] eqn:E.
      + apply IH in H. destruct H as (l' & i & t & s2 & R & T & I & Q).
        exists l', i, t, s2. split; [econstructor; eauto|auto].
      + injection H as <- <-. exists k, i, (SAssert l test), s.
        split; [eapply RFails; eauto|]. cbn; auto.
    - apply IH in H. destruct H as (l' & i & t & s2 & R & T & I & Q).
      exists l', i, t, s2. split; [econstructor; eauto|auto].
    - destruct (run s) as [s'|v|e' k i] eqn:E.
      + apply IH in H. destruct H as (l' & i & t & s2 & R & T & I & Q).
        exists l', i, t, s2. split; [eapply RNext; eauto|auto].
      + easy.
      + injection H as <- <-. exists k, i, (SOther l run), s.
        split; [eapply RRaise; eauto|]. cbn; auto.
  Qed.

  Lemma runs_det (b : list stmt) (s : St) (x : ending St V) : runs b s x -> forall y, runs b s y -> x = y.
  Proof.
    induction 1; intros y Y; inversion Y; subst; auto; try congruence.
    - apply IHruns. congruence.
    - apply IHruns. congruence.
  Qed.

  Lemma runs_raised (f : func St V) b s e l : runs b s (Raises e l) ->
    exists i, exec f b s = Raised e (traceback f l i).
  Proof.
    intros R. remember (Raises e l) as x eqn:X. revert e l X.
    induction R; intros e0 l0 X; try discriminate; cbn.
    - auto.
    - rewrite H. auto.
    - injection X as <- <-. rewrite H. eauto.
    - rewrite H. auto.
    - injection X as <- <-. rewrite H. eauto.
  Qed.

  Lemma runs_app (a b : list stmt) : forall s e l, runs (a ++ b) s (Raises e l) ->
    runs a s (Raises e l) \/ exists s', runs a s (Ends s') /\ runs b s' (Raises e l).
  Proof.
    induction a as [|t a IH]; cbn; intros s e l H.
    - right. eexists. split; [constructor|eassumption].
    - inversion H; subst;
        try match goal with R : runs (a ++ b) _ _ |- _ => apply IH in R; destruct R as [R|(s2 & R1 & R2)] end;
        try (left; econstructor; solve [eauto]);
        try (left; eapply RNext; solve [eauto]); try (left; eapply RRaise; solve [eauto]);
        right; eexists; (split; [|eassumption]);
        solve [econstructor; eauto | eapply RNext; eauto].
  Qed.

  Lemma runs_pre (a b : list stmt) (s : St) e l : runs a s (Raises e l) -> runs (a ++ b) s (Raises e l).
  Proof.
    intros R. remember (Raises e l) as x eqn:X. revert e l X.
    induction R; intros e0 l0 X; try discriminate; cbn.
    - constructor. eauto.
    - eapply RHolds; eauto.
    - injection X as <- <-. eapply RFails; eauto.
    - eapply RNext; eauto.
    - injection X as <- <-. eapply RRaise; eauto.
  Qed.

  Lemma runs_where (b : list stmt) (s : St) e l : runs b s (Raises e l) -> exists t, In t b /\ raises_at t l.
  Proof.
    intros R. remember (Raises e l) as x eqn:X. revert e l X.
    induction R; intros e0 l0 X; try discriminate; cbn.
    1,2,4: destruct (IHR _ _ X) as (t & I & A); exists t; auto.
    - injection X as <- <-. exists (SAssert l test). cbn. split; [auto|eauto].
    - injection X as <- <-. exists (SOther l run). cbn. split; [auto|eauto].
  Qed.

  (** ** the first line of the body *)
  Lemma scan_leading (pre : list stmt) : forall found line rest, Forall is_leading pre ->
    (found = true \/ Exists is_assert pre) ->
    match rest with [] => False | t :: _ => ~ is_leading t end ->
    exists t r, rest = t :: r /\ scan found line (pre ++ rest) = (true, stmt_line t).
  Proof.
    induction pre as [|t pre IH]; cbn; intros found line rest L E R.
    - destruct rest as [|t r]; [easy|]. exists t, r. split; auto.
      destruct E as [->|E]; [|inversion E]. destruct t; cbn in *; tauto.
    - inversion L as [|? ? L1 L2]; subst.
      destruct t as [l test|l|l run]; cbn in L1; [| |tauto]; cbn.
      + apply IH; auto.
      + apply IH; auto. destruct E as [E|E]; auto. right. inversion E; subst; auto.
        exfalso; auto.
  Qed.

  Lemma scan_all_leading (pre : list stmt) : forall found line, Forall is_leading pre ->
    (found = true \/ Exists is_assert pre) -> exists l, scan found line pre = (true, l).
  Proof.
    induction pre as [|t pre IH]; cbn; intros found line L E.
    - destruct E as [->|E]; [eauto|inversion E].
    - inversion L as [|? ? L1 L2]; subst.
      destruct t as [l test|l|l run]; cbn in L1; [| |tauto]; cbn.
      + apply IH; auto.
      + apply IH; auto. destruct E as [E|E]; auto. right. inversion E; subst; auto.
        exfalso; auto.
  Qed.

  Lemma scan_found (b : list stmt) : forall found line l, scan found line b = (true, l) ->
    found = true \/ exists pre rest, splits b pre rest.
  Proof.
    induction b as [|t b IH]; cbn; intros found line l H; [left; congruence|].
    destruct t as [k test|k|k run].
    - right. clear.
      assert (G : exists pre rest, b = pre ++ rest /\ Forall is_leading pre /\
                match rest with [] => True | t :: _ => ~ is_leading t end).
      { clear. induction b as [|t b (pre & rest & -> & L & R)].
        - exists [], []. cbn. auto.
        - destruct t as [l test|l|l run].
          + exists (SAssert l test :: pre), rest. cbn. repeat split; auto. constructor; cbn; auto.
          + exists (SString l :: pre), rest. cbn. repeat split; auto. constructor; cbn; auto.
          + exists [], (SOther l run :: pre ++ rest). cbn. auto. }
      destruct G as (pre & rest & -> & L & R).
      exists (SAssert k test :: pre), rest. unfold splits. cbn. repeat split; auto.
      + constructor; cbn; auto.
      + constructor. cbn. auto.
    - apply IH in H. destruct H as [H|(pre & rest & B & L & E & R)]; auto.
      right. exists (SString k :: pre), rest. unfold splits. subst. cbn. repeat split; auto.
      constructor; cbn; auto.
    - left. congruence.
  Qed.

  Lemma analyzed_iff (f : func St V) :
    get_first_body_line f <> None <->
    is_def f = true /\ exists pre rest, splits (body f) pre rest.
  Proof.
    unfold get_first_body_line. destruct (is_def f); [|split; [easy|intros (H & _); easy]].
    destruct (scan false 0 (body f)) as [found line] eqn:E. split.
    - destruct found; [|easy]. intros _. split; auto.
      apply scan_found in E. destruct E as [E|E]; [easy|auto].
    - intros (_ & pre & rest & B & L & X & R). rewrite B in E.
      destruct rest as [|t r].
      + rewrite app_nil_r in E. destruct (scan_all_leading pre false 0 L (or_intror X)) as (l & S1).
        rewrite S1 in E. injection E as <- <-. easy.
      + destruct (scan_leading pre false 0 (t :: r) L (or_intror X) R) as (t' & r' & _ & S1).
        rewrite S1 in E. injection E as <- <-. easy.
  Qed.

  Lemma first_body_line_eq (f : func St V) pre t r :
    is_def f = true -> splits (body f) pre (t :: r) ->
    get_first_body_line f = Some (first_line f + stmt_line t - 1).
  Proof.
    intros D (B & L & X & R). unfold get_first_body_line. rewrite D, B.
    destruct (scan_leading pre false 0 (t :: r) L (or_intror X) R) as (t' & r' & Q & ->).
    injection Q as <- <-. f_equal. lia.
  Qed.

  (** ** which line is found *)
  Lemma find_none_all {A} (p : A -> bool) l : (forall x, In x l -> p x = false) -> find p l = None.
  Proof. induction l; cbn; intros H; auto. rewrite H; auto. Qed.

  Lemma find_app {A} (p : A -> bool) a b :
    find p (a ++ b) = match find p a with Some x => Some x | None => find p b end.
  Proof. induction a; cbn; auto. destruct (p a); auto. Qed.

  Lemma frame_line_own (f : func St V) l i : recognizable f -> 0 < l ->
    (forall fr, In fr i -> ~ (fr_name fr = co_name f /\ fr_file fr = co_file f)) ->
    frame_line f (traceback f l i) = l.
  Proof.
    intros (N & F) L H. unfold frame_line, traceback. rewrite F, N, rev_app_distr. cbn [rev].
    rewrite !find_app, find_none_all.
    - cbn. rewrite !Z.eqb_refl. cbn. destruct (l =? 0) eqn:E; auto. lia.
    - intros x I. apply in_rev in I. apply H in I.
      destruct (fr_name x =? co_name f) eqn:E1, (fr_file x =? co_file f) eqn:E2; auto.
      exfalso. apply I. split; apply Z.eqb_eq; auto.
  Qed.

  Section Main.
    Variable f : func St V.
    Variables pre rest : list stmt.
    Variable expected : exc -> bool.
    Hypothesis Def : is_def f = true.
    Hypothesis Split : splits (body f) pre rest.
    Hypothesis Lay : laid_out f pre rest.
    Hypothesis Und : recognizable f.
    Hypothesis Re : not_reentered f.

    Lemma lines_positive l t : In t (body f) -> raises_at t l -> 0 < l.
    Proof.
      destruct Split as (B & _). rewrite B. unfold laid_out in Lay.
      destruct rest as [|t0 r]; [easy|]. destruct Lay as (P & L1 & L2).
      intros I A. apply in_app_or in I. destruct I as [I|I].
      - specialize (L1 _ _ I A). lia.
      - specialize (L2 _ _ I A). lia.
    Qed.

    Lemma check_eq s :
      check vnone f expected s =
      Some (match exec f (body f) s with
            | Returned _ => Confirms
            | Raised e tb =>
                let l := frame_line f tb in
                match e with
                | AssertionErr =>
                    if match rest with t :: _ => first_line f + stmt_line t - 1 <=? l | [] => false end
                    then if expected e then Confirms else Reports e l
                    else Confirms
                | _ => if expected e then Confirms else Reports e l
                end
            end).
    Proof.
      unfold check. pose proof Lay as Lay'. pose proof Split as Split'.
      destruct rest as [|t r]; [easy|].
      rewrite (first_body_line_eq f pre t r Def Split'). f_equal.
      unfold judge, wrapped. destruct (exec f (body f) s) as [v|e tb]; auto.
      destruct e; auto. cbv zeta. destruct (_ <=? _); auto.
    Qed.

    Lemma report_iff s e l :
      check vnone f expected s = Some (Reports e l) <-> faulty (body f) pre expected s e l.
    Proof.
      rewrite check_eq. pose proof Lay as Lay'. pose proof Split as (B & L & X & R).
      unfold faulty, unmet. split.
      - destruct (exec f (body f) s) as [v|e' tb] eqn:E; [easy|]. cbv zeta.
        destruct (exec_raised _ _ _ _ _ E) as (k & i & t & s' & Run & T & I & Q).
        assert (FL : frame_line f tb = k).
        { subst tb. apply frame_line_own; auto.
          - eapply lines_positive; eauto. eapply raising_at; eauto.
          - exact (Re t s' e' k i I Q). }
        rewrite FL. intros H.
        assert (H' : expected e' = false /\ e = e' /\ l = k /\
                     (e' = AssertionErr ->
                      match rest with t :: _ => first_line f + stmt_line t - 1 <= k | [] => False end)).
        { destruct e' as [|n].
          - destruct rest as [|t0 r]; [easy|].
            destruct (_ <=? _) eqn:Q1; [|easy]. destruct (expected AssertionErr); [easy|].
            injection H as <- <-. repeat split; auto. intros _. lia.
          - destruct (expected (Other n)); [easy|]. injection H as <- <-. repeat split; auto. easy. }
        destruct H' as (Ex & -> & -> & G). split; [|auto].
        intros (k' & Run'). pose proof (runs_pre _ rest _ _ _ Run') as Run2.
        rewrite <- B in Run2. pose proof (runs_det _ _ _ Run _ Run2) as D. injection D as -> <-.
        specialize (G eq_refl). destruct rest as [|t0 r]; [easy|].
        destruct Lay' as (P & L1 & L2).
        destruct (runs_where _ _ _ _ Run') as (t' & I' & A'). specialize (L1 _ _ I' A'). lia.
      - intros (N & Run & Ex).
        destruct (runs_raised f _ _ _ _ Run) as (i0 & E).
        destruct (exec_raised _ _ _ _ _ E) as (k & i & t & s' & Run' & T & I & Q).
        pose proof (runs_det _ _ _ Run _ Run') as D. injection D as <-.
        rewrite E. cbv zeta. rewrite T.
        rewrite frame_line_own; auto;
          [|eapply lines_positive; eauto; eapply raising_at; eauto | exact (Re t s' e l i I Q)].
        rewrite Ex. destruct e as [|n]; auto.
        rewrite B in Run. apply runs_app in Run. destruct Run as [Run|(s2 & R1 & R2)].
        + exfalso. apply N. eauto.
        + destruct rest as [|t0 r]; [easy|]. destruct Lay' as (P & L1 & L2).
          destruct (runs_where _ _ _ _ R2) as (t' & I' & A'). specialize (L2 _ _ I' A').
          destruct (_ <=? _) eqn:Q1; auto. lia.
    Qed.
  End Main.

  Lemma check_analyzed (f : func St V) expected s : get_first_body_line f <> None ->
    exists v, check vnone f expected s = Some v.
  Proof. unfold check. destruct (get_first_body_line f); [eauto|easy]. Qed.

  Lemma unmet_confirms (f : func St V) pre rest expected s :
    is_def f = true -> splits (body f) pre rest -> laid_out f pre rest ->
    recognizable f -> not_reentered f ->
    unmet pre s -> check vnone f expected s = Some Confirms.
  Proof.
    intros D Sp L U R Un.
    destruct (check_analyzed f expected s) as ([|e l] & C).
    - apply analyzed_iff. eauto.
    - auto.
    - apply (report_iff f pre rest expected D Sp L U R) in C. destruct C as (N & _). tauto.
  Qed.

  (** ** the function's own behaviour otherwise *)
  Lemma wrapped_cases (f : func St V) fbl s :
    wrapped vnone f fbl s = exec f (body f) s \/
    (wrapped vnone f fbl s = Returned vnone /\
     exists tb, exec f (body f) s = Raised AssertionErr tb).
  Proof.
    unfold wrapped. destruct (exec f (body f) s) as [v|e tb]; auto.
    destruct e; auto. destruct (_ <=? _); eauto.
  Qed.
End Proofs.
