(* Proofs about the command line front end. *)
From Coq Require Import ZArith List Bool Lia ZifyBool ZifyNat Arith.
From Verif Require Import Cli_Model Cli_Spec.
Import ListNotations.
Local Open Scope Z_scope.

(* ------------------------------------------------------------------ *)
(** * Resolving names *)

Lemma walk_ok : forall parts o r, parts <> [] ->
  (walk_qualname o parts = LObj r <-> attribute_of o parts r).
Proof.
  induction parts as [|n rest IH]; intros o r HN; [congruence|]. destruct rest as [|m p].
  - cbn. split.
    + destruct o as [l|l|]; try discriminate;
        destruct (get_attr n l) eqn:E; try discriminate; intro H; injection H as ->; now constructor.
    + intro H. inversion H as [? ? ? HE|? ? ? HE| |]; subst; now rewrite HE.
  - cbn [walk_qualname]. destruct (n =? locals_name) eqn:EL.
    + split; [discriminate|]. intro H. apply Z.eqb_eq in EL. inversion H; subst; congruence.
    + assert (Hl : n <> locals_name) by lia. split.
      * destruct o as [l|l|]; try discriminate; destruct (get_attr n l) as [o'|] eqn:E; try discriminate;
          intro H; apply IH in H; try discriminate.
        -- eapply at_module_more; eauto.
        -- eapply at_class_more; eauto.
      * intro H. inversion H as [| |? ? o' ? ? ? Hx HE HA|? ? o' ? ? ? Hx HE HA]; subst; rewrite HE;
          apply IH; auto; discriminate.
Qed.

Section Load.
  Variable import : list Z -> import_result.

  Lemma load_prefix_ok : forall i parts o, (i <= length parts)%nat ->
    (forall q r, parts = q ++ r -> (i < length q)%nat -> import q = NoSuchModule) ->
    (load_prefix import i parts = LObj o <-> denotes import parts o).
  Proof.
    induction i as [|i IH]; intros parts o HL HN.
    - cbn. split; [discriminate|]. intros [prefix [rest [m [HE [HP [HI _]]]]]].
      exfalso. assert (HX : import prefix = NoSuchModule).
      { apply (HN prefix rest HE). destruct prefix; [congruence|cbn; lia]. }
      congruence.
    - cbn [load_prefix].
      assert (Hsplit : parts = firstn (S i) parts ++ skipn (S i) parts) by (symmetry; apply firstn_skipn).
      assert (Hlen : length (firstn (S i) parts) = S i) by (rewrite firstn_length; lia).
      assert (Hsame : forall q r, parts = q ++ r -> length q = S i -> q = firstn (S i) parts).
      { intros q r HE HQ. rewrite HE, <- HQ, firstn_app, Nat.sub_diag, firstn_all.
        cbn [firstn]. now rewrite app_nil_r. }
      destruct (import (firstn (S i) parts)) as [| |m] eqn:EI.
      + assert (HN' : forall q r, parts = q ++ r -> (i < length q)%nat -> import q = NoSuchModule).
        { intros q r HE HQ. destruct (Nat.eq_dec (length q) (S i)) as [He|He].
          - rewrite (Hsame q r HE He). exact EI.
          - apply (HN q r HE). lia. }
        destruct i as [|i'].
        * split; [discriminate|]. intros [prefix [rest [m [HE [HP [HI _]]]]]]. exfalso.
          assert (import prefix = NoSuchModule) by (apply (HN' prefix rest HE); destruct prefix; [congruence|cbn; lia]).
          congruence.
        * apply IH; [lia|exact HN'].
      + split; [discriminate|]. intros [prefix [rest [m [HE [HP [HI [HB _]]]]]]]. exfalso.
        destruct (Nat.lt_trichotomy (length prefix) (S i)) as [H|[H|H]].
        * rewrite (HB _ _ Hsplit) in EI by (rewrite Hlen; exact H). discriminate.
        * rewrite (Hsame _ _ HE H) in HI. congruence.
        * rewrite (HN _ _ HE H) in HI. discriminate.
      + split.
        * intro H. exists (firstn (S i) parts), (skipn (S i) parts), m.
          split; [exact Hsplit|]. split.
          { intro HC. rewrite HC in Hlen. discriminate. }
          split; [exact EI|]. split.
          { intros q r HE HQ. apply (HN q r HE). rewrite Hlen in HQ. exact HQ. }
          destruct (skipn (S i) parts) as [|n p] eqn:ES.
          -- left. injection H as ->. auto.
          -- right. apply walk_ok; [discriminate|exact H].
        * intros [prefix [rest [m' [HE [HP [HI [HB HO]]]]]]].
          assert (HQ : length prefix = S i).
          { destruct (Nat.lt_trichotomy (length prefix) (S i)) as [H|[H|H]]; auto; exfalso.
            - rewrite (HB _ _ Hsplit) in EI by (rewrite Hlen; exact H). discriminate.
            - rewrite (HN _ _ HE H) in HI. discriminate. }
          assert (HM : m' = m).
          { rewrite (Hsame _ _ HE HQ) in HI. congruence. }
          subst m'.
          assert (HR : rest = skipn (S i) parts).
          { rewrite HE, <- HQ, skipn_app, Nat.sub_diag, skipn_all. reflexivity. }
          rewrite <- HR. destruct HO as [[-> ->]|HA]; [reflexivity|].
          destruct rest as [|n p]; [inversion HA|]. apply walk_ok; [discriminate|exact HA].
  Qed.

  Lemma load_ok : forall parts o, load_by_qualname import parts = LObj o <-> denotes import parts o.
  Proof.
    intros parts o. apply load_prefix_ok; auto. intros q r HE HQ. exfalso.
    rewrite HE, app_length in HQ. lia.
  Qed.

  Lemma gather_ok : forall l os, gather l = inl os ->
    forall r, In (Some r) l -> exists o, r = LObj o.
  Proof.
    induction l as [|[[o|e]|] l IH]; cbn; intros os H r HI; try discriminate; try contradiction.
    - destruct (gather l) as [os'|] eqn:E; [|discriminate].
      destruct HI as [HI|HI]; [injection HI as <-; eauto|eauto].
    - destruct HI as [HI|HI]; [discriminate|eauto].
  Qed.

  Lemma targets_loaded : forall ts os, load_targets import ts = inl os ->
    forall t, In t ts ->
    match t with
    | TName parts => exists o, denotes import parts o
    | TFileAtLine r | TPath r => exists o, r = LObj o
    end.
  Proof.
    intros ts os H t Ht. unfold load_targets in H.
    destruct t as [parts|r|r].
    - destruct (gather_ok _ _ H (load_by_qualname import parts)) as [o Ho].
      + apply in_app_iff. left. apply in_map_iff. exists (TName parts). auto.
      + exists o. apply load_ok. exact Ho.
    - apply (gather_ok _ _ H). apply in_app_iff. left. apply in_map_iff. exists (TFileAtLine r). auto.
    - apply (gather_ok _ _ H). apply in_app_iff. right. apply in_map_iff. exists (TPath r). auto.
  Qed.
End Load.

(* ------------------------------------------------------------------ *)
(** * What check prints *)

Lemma level_problem : forall m, (level PRE_UNSAT <? level (mstate m)) = is_problem m.
Proof. intros [[] f l t]; reflexivity. Qed.

Lemma is_problem_ok : forall m, is_problem m = true <-> problem m.
Proof.
  intros [st f l t]. unfold is_problem, problem, counterexample, unusable. cbn.
  destruct st; split; intro H; try discriminate; try reflexivity; try tauto;
    destruct H as [[H|[H|H]]|[H|H]]; discriminate.
Qed.

Definition error_line (m : message) : line :=
  Line (mfile m) (mline m) Error (match mstate m with POST_ERR => true | _ => false end) (mtext m).

Definition is_error_line (ln : line) : bool :=
  match lsev ln with Error => true | Info => false end.

Lemma report_ok : forall ra ms p,
  filter is_error_line (fst (report ra ms p)) = map error_line (filter is_problem ms)
  /\ snd (report ra ms p) = (p || existsb is_problem ms)
  /\ (ra = false -> fst (report ra ms p) = map error_line (filter is_problem ms)).
Proof.
  intros ra. induction ms as [|m ms IH]; intro p.
  - cbn. rewrite orb_false_r. auto.
  - cbn [report]. rewrite level_problem. unfold short_describe.
    replace (level (mstate m) <=? level PRE_UNSAT) with (negb (is_problem m))
      by (destruct m as [[] f l t]; reflexivity).
    cbn [filter existsb map]. destruct (is_problem m) eqn:EP; cbn [negb].
    + destruct (report ra ms true) as [out q] eqn:ER.
      destruct (IH true) as [H1 [H2 H3]]. rewrite ER in H1, H2, H3. cbn [fst snd] in *.
      split; [|split].
      * cbn [filter is_error_line lsev map]. f_equal. exact H1.
      * rewrite H2. cbn. now rewrite orb_true_r.
      * intro HR. cbn [map]. unfold error_line at 1. f_equal. auto.
    + destruct ra.
      * destruct (report true ms p) as [out q] eqn:ER.
        destruct (IH p) as [H1 [H2 H3]]. rewrite ER in H1, H2, H3. cbn [fst snd] in *.
        split; [|split; [|discriminate]].
        -- cbn [filter is_error_line lsev]. exact H1.
        -- exact H2.
      * destruct (IH p) as [H1 [H2 H3]]. auto.
Qed.

(* ------------------------------------------------------------------ *)
(** * What watch displays *)

Lemma same_place_ok : forall a b, same_place a b = true <-> (mfile a, mline a) = (mfile b, mline b).
Proof.
  intros a b. unfold same_place. rewrite andb_true_iff, !Z.eqb_eq. split.
  - intros [-> ->]. reflexivity.
  - intro H. injection H as -> ->. auto.
Qed.

Lemma shown_places : forall ms shown, first_at_each_place ms shown ->
  forall f l, (exists k, In k ms /\ (mfile k, mline k) = (f, l)) <->
              (exists k, In k shown /\ (mfile k, mline k) = (f, l)).
Proof.
  intros ms shown H. induction H as [|ms shown m H IH HN|ms shown m k H IH HI HE]; intros f l.
  - split; intros [k [[] _]].
  - split; intros [k [Hk Hp]]; apply in_app_iff in Hk; destruct Hk as [Hk|[<-|[]]].
    + destruct (proj1 (IH f l)) as [k' [H1 H2]]; [eauto|]. exists k'. split; auto. apply in_app_iff. auto.
    + exists m. split; auto. apply in_app_iff. right. now left.
    + destruct (proj2 (IH f l)) as [k' [H1 H2]]; [eauto|]. exists k'. split; auto. apply in_app_iff. auto.
    + exists m. split; auto. apply in_app_iff. right. now left.
  - rewrite <- IH. split; intros [j [Hj Hp]].
    + apply in_app_iff in Hj. destruct Hj as [Hj|[<-|[]]]; [eauto|].
      exists k. split; auto. congruence.
    + exists j. split; auto. apply in_app_iff. now left.
Qed.

Lemma merge_ok : forall new ms act ch, first_at_each_place ms act ->
  first_at_each_place (ms ++ new) (fst (merge act new ch))
  /\ (snd (merge act new ch) = false -> fst (merge act new ch) = act).
Proof.
  induction new as [|m new IH]; intros ms act ch HF; cbn [merge].
  - rewrite app_nil_r. auto.
  - replace (ms ++ m :: new) with ((ms ++ [m]) ++ new) by (rewrite <- app_assoc; reflexivity).
    destruct (existsb (same_place m) act) eqn:E.
    + apply existsb_exists in E. destruct E as [k [Hk HS]]. apply same_place_ok in HS.
      destruct (proj2 (shown_places _ _ HF (mfile m) (mline m))) as [j [Hj HP]].
      { exists k. split; auto. }
      apply IH. eapply fp_seen; eauto.
    + destruct (IH (ms ++ [m]) (act ++ [m]) true) as [H1 H2].
      { apply fp_new; auto. intros k Hk HC.
        destruct (proj1 (shown_places _ _ HF (mfile m) (mline m))) as [j [Hj HP]].
        { exists k. split; auto. }
        assert (existsb (same_place m) act = true); [|congruence].
        apply existsb_exists. exists j. split; auto. apply same_place_ok. congruence. }
      split; [exact H1|]. intro HS. exfalso. clear - HS.
      assert (HT : forall new act, snd (merge act new true) = true).
      { induction new0 as [|x new0 IHn]; cbn; intro a; auto. destruct (existsb (same_place x) a); auto. }
      rewrite HT in HS. discriminate.
Qed.

Lemma batch_ok : forall b u ms, change_flag u = false ->
  first_at_each_place ms (active u) -> screen u = active u ->
  let u' := show_batch true b u in
  change_flag u' = false /\ restart u' = (restart u || bflag b)
  /\ first_at_each_place (ms ++ filter is_problem (bmsgs b)) (active u')
  /\ screen u' = active u'.
Proof.
  intros b u ms HC HF HS. unfold show_batch. rewrite HC. cbn [orb negb].
  rewrite (filter_ext _ _ level_problem).
  destruct (merge_ok (filter is_problem (bmsgs b)) ms (active u) false HF) as [H1 H2].
  destruct (merge (active u) (filter is_problem (bmsgs b)) false) as [act merged] eqn:E.
  cbn [fst snd] in *. rewrite andb_false_r.
  assert (Hscr : (if merged then act else screen u) = act).
  { destruct merged; auto. rewrite HS. symmetry. auto. }
  destruct (bflag b); cbn; rewrite ?orb_true_r, ?orb_false_r; auto.
Qed.

Lemma pass_ok : forall pass u ms, change_flag u = false ->
  first_at_each_place ms (active u) -> screen u = active u ->
  let u' := fold_left (fun u b => show_batch true b u) pass u in
  change_flag u' = false /\ restart u' = (restart u || existsb bflag pass)
  /\ first_at_each_place (ms ++ filter is_problem (flat_map bmsgs pass)) (active u')
  /\ screen u' = active u'.
Proof.
  induction pass as [|b pass IH]; intros u ms HC HF HS.
  - cbn. rewrite orb_false_r, app_nil_r. auto.
  - destruct (batch_ok b u ms HC HF HS) as [H1 [H2 [H3 H4]]].
    destruct (IH (show_batch true b u) _ H1 H3 H4) as [K1 [K2 [K3 K4]]].
    cbn [fold_left flat_map existsb]. cbn zeta in *. split; [exact K1|]. split; [|split; [|exact K4]].
    + rewrite K2, H2, orb_assoc. reflexivity.
    + rewrite filter_app, app_assoc. exact K3.
Qed.

(** The state between two turns *)
Definition settled (passes : list (list batch)) (u : ui) : Prop :=
  change_flag u = false /\ screen u = active u
  /\ (restart u = match rev passes with [] => true | p :: _ => interrupted p end)
  /\ forall old since last,
       passes = old ++ since ++ [last] ->
       (old = [] \/ exists o p, old = o ++ [p] /\ interrupted p = true) ->
       (forall p, In p since -> interrupted p = false) ->
       first_at_each_place (problems_in (since ++ [last])) (active u).

Lemma problems_snoc : forall passes p,
  problems_in (passes ++ [p]) = problems_in passes ++ filter is_problem (flat_map bmsgs p).
Proof.
  intros passes p. unfold problems_in. rewrite concat_app, flat_map_app, filter_app. cbn [concat].
  now rewrite app_nil_r.
Qed.

Lemma snoc_inj : forall (A : Type) (a b : list A) x y, a ++ [x] = b ++ [y] -> a = b /\ x = y.
Proof. intros. apply app_inj_tail. exact H. Qed.

Lemma turn_ok : forall passes u p, settled passes u -> settled (passes ++ [p]) (turn true u p).
Proof.
  intros passes u p [HC [HS [HR HA]]]. unfold turn, begin_turn.
  assert (Hrev : rev (passes ++ [p]) = p :: rev passes) by now rewrite rev_app_distr.
  destruct (restart u) eqn:ER.
  - destruct (pass_ok p (UI false (change_flag u) [] []) []) as [H1 [H2 [H3 H4]]]; auto.
    { constructor. }
    split; [exact H1|]. split; [exact H4|]. split.
    { rewrite Hrev. exact H2. }
    intros old since last HE HO HN.
    rewrite app_assoc in HE. apply snoc_inj in HE. destruct HE as [HE ->].
    assert (HSN : since = []).
    { destruct since as [|x since] using rev_ind; auto. exfalso.
      rewrite HE in HR. rewrite app_assoc, rev_app_distr in HR. cbn in HR.
      rewrite HN in HR; [discriminate|]. apply in_app_iff. right. now left. }
    subst since. cbn [app] in *. rewrite <- (app_nil_l [last]), problems_snoc.
    exact H3.
  - destruct (rev passes) as [|lp rp] eqn:ERV; [discriminate|].
    assert (HP : passes = rev rp ++ [lp]).
    { rewrite <- (rev_involutive passes), ERV. reflexivity. }
    assert (HG : forall ms, first_at_each_place ms (active u) ->
              let u' := fold_left (fun u b => show_batch true b u) p u in
              change_flag u' = false /\ restart u' = (restart u || existsb bflag p)
              /\ first_at_each_place (ms ++ filter is_problem (flat_map bmsgs p)) (active u')
              /\ screen u' = active u') by (intros ms Hms; apply pass_ok; auto).
    (* some decomposition of the earlier passes always exists *)
    assert (HD : exists old since, passes = old ++ since ++ [lp] /\
              (old = [] \/ exists o q, old = o ++ [q] /\ interrupted q = true) /\
              (forall q, In q since -> interrupted q = false)).
    { rewrite HP. clear. induction (rev rp) as [|x l IH] using rev_ind.
      - exists [], []. split; [reflexivity|]. split; [now left|intros q []].
      - destruct (interrupted x) eqn:EX.
        + exists (l ++ [x]), []. split; [reflexivity|]. split; [right; eauto|intros q []].
        + destruct IH as [old [since [H1 [H2 H3]]]].
          exists old, (since ++ [x]). split; [|split; auto].
          * rewrite app_assoc in H1. apply snoc_inj in H1. destruct H1 as [-> _].
            rewrite !app_assoc. reflexivity.
          * intros q Hq. apply in_app_iff in Hq. destruct Hq as [Hq|[<-|[]]]; auto. }
    destruct HD as [old0 [since0 [D1 [D2 D3]]]].
    destruct (HG _ (HA _ _ _ D1 D2 D3)) as [H1 [H2 [_ H4]]].
    split; [exact H1|]. split; [exact H4|]. split.
    { rewrite Hrev, H2, ER. reflexivity. }
    intros old since last HE HO HN.
    rewrite app_assoc in HE. apply snoc_inj in HE. destruct HE as [HE ->].
    destruct since as [|x since _] using rev_ind.
    + exfalso. rewrite app_nil_r in HE. destruct HO as [->|[o [q [-> HQ]]]].
      * rewrite HE in HP. destruct (rev rp); discriminate.
      * rewrite HP in HE. apply snoc_inj in HE. destruct HE as [_ <-]. congruence.
    + rewrite problems_snoc.
      assert (HN1 : forall q, In q since -> interrupted q = false).
      { intros q Hq. apply HN. apply in_app_iff. now left. }
      destruct (HG _ (HA old since x HE HO HN1)) as [_ [_ [H3 _]]]. exact H3.
Qed.

Lemma loop_settled : forall passes, settled passes (watch_loop true passes).
Proof.
  induction passes as [|p passes IH] using rev_ind.
  - split; [reflexivity|]. split; [reflexivity|]. split; [reflexivity|].
    intros old since last HE. exfalso. destruct old, since; discriminate.
  - unfold watch_loop. rewrite fold_left_app. cbn [fold_left]. apply turn_ok. exact IH.
Qed.
