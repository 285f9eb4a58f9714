(** Proofs about Skip_Model: paths with skipped calls against runs without. *)
From Coq Require Import List Bool PeanoNat Lia.
From Verif Require Import Py Skip_Model Skip_Spec.
Import ListNotations.

Section Proofs.
Variable V : Type.
Variable dflt : V.
Variable veq : V -> V -> bool.
Variable fns : nat -> fn_ V.
Notation run := (run V dflt fns).
Notation skipping := (skipping V dflt fns).
Notation ends := (ends V dflt fns).
Notation does := (does V dflt fns).
Notation keeps := (keeps V).
Notation get := (get V dflt).
Notation set := (set V).
Notation put := (put V).
Notation at_ := (at_ V dflt).
Notation finish := (finish V dflt).
Notation reconcile := (reconcile V dflt veq fns).

Lemma set_put : forall h x v, set h x v = put h x v.
Proof.
  unfold put. induction h as [|w h IH]; intros x v; [destruct x; reflexivity|]. destruct x as [|x]; cbn [Skip_Model.set]; [reflexivity|].
  rewrite IH. change (S x <? length (w :: h)) with (x <? length h). destruct (x <? length h); reflexivity.
Qed.
Lemma set_length : forall h x v, length (set h x v) = length h.
Proof. induction h as [|w h IH]; intros [|x] v; cbn; auto. Qed.
Lemma get_set : forall h x v y, y <> x -> get (set h x v) y = get h y.
Proof.
  unfold get. induction h as [|w h IH]; intros x v y N; [destruct x; reflexivity|]. destruct x as [|x]; destruct y as [|y]; cbn; try reflexivity; [congruence|]. apply IH. congruence.
Qed.
Lemma get_app : forall h l x, x < length h -> get (h ++ l) x = get h x.
Proof. intros h l x L. unfold get. now apply app_nth1. Qed.
Lemma get_last : forall h v, get (h ++ [v]) (length h) = v.
Proof. intros h v. unfold get. rewrite app_nth2 by lia. now rewrite Nat.sub_diag. Qed.

(** * Python runs *)
Lemma run_does : forall fuel p h r, run fuel p h = Some r -> does p h r.
Proof.
  induction fuel as [|fuel IH]; intros p h r H; [discriminate|]. destruct p as [v|e|x k|x g k|f args k]; cbn [Skip_Model.run] in H.
  - inversion H. constructor.
  - inversion H. constructor.
  - apply does_look. now apply IH.
  - apply does_update. rewrite <- set_put. now apply IH.
  - destruct (run fuel (body (fns f)) (map (get h) args)) as [[v|e]|] eqn:E; [| |discriminate].
    + eapply does_call; [exact (IH _ _ _ E)|now apply IH].
    + eapply does_catch; [exact (IH _ _ _ E)|now apply IH].
Qed.
Lemma run_more : forall fuel fuel' p h r, run fuel p h = Some r -> fuel <= fuel' -> run fuel' p h = Some r.
Proof.
  induction fuel as [|fuel IH]; intros fuel' p h r H L; [discriminate|]. destruct fuel' as [|fuel']; [lia|].
  destruct p as [v|e|x k|x g k|f args k]; cbn [Skip_Model.run] in *; try assumption.
  - apply IH; [assumption|lia].
  - apply IH; [assumption|lia].
  - destruct (run fuel (body (fns f)) (map (get h) args)) as [[v|e]|] eqn:E; [| |discriminate]; rewrite (IH fuel' _ _ _ E) by lia; (apply IH; [assumption|lia]).
Qed.
Lemma does_run : forall p h r, does p h r -> exists fuel, run fuel p h = Some r.
Proof.
  intros p h r D. induction D as [v h|e h|x k h r D [n IH]|x g k h r D [n IH]|f args k h v r D1 [n1 IH1] D2 [n2 IH2]|f args k h e r D1 [n1 IH1] D2 [n2 IH2]].
  - exists 1. reflexivity.
  - exists 1. reflexivity.
  - exists (S n). exact IH.
  - exists (S n). cbn [Skip_Model.run]. now rewrite set_put.
  - exists (S (n1 + n2)). cbn [Skip_Model.run]. change (map (get h) args) with (map (at_ h) args). rewrite (run_more _ (n1 + n2) _ _ _ IH1) by lia. apply (run_more n2); [assumption|lia].
  - exists (S (n1 + n2)). cbn [Skip_Model.run]. change (map (get h) args) with (map (at_ h) args). rewrite (run_more _ (n1 + n2) _ _ _ IH1) by lia. apply (run_more n2); [assumption|lia].
Qed.
Lemma does_fun : forall p h r r', does p h r -> does p h r' -> r = r'.
Proof.
  intros p h r r' A B. apply does_run in A. apply does_run in B. destruct A as [n A], B as [m B].
  apply (run_more _ (n + m)) in A; [|lia]. apply (run_more _ (n + m)) in B; [|lia]. congruence.
Qed.
Lemma ends_does : forall p h o, ends p h o -> match o with Returns v => does p h (Ok v) | Raises e => does p h (Err e) | _ => True end.
Proof.
  intros p h o E. induction E as [v h|e h|x k h o E IH|x g k h o E IH|f args k h P|f args k h v o P E1 IH1 Q E2 IH2|f args k h v P E IH Q|f args k h e o P E1 IH1 E2 IH2|f args k h o P E IH Q].
  - constructor.
  - constructor.
  - destruct o; trivial; now constructor.
  - destruct o; trivial; now constructor.
  - trivial.
  - destruct o; trivial; eapply does_call; eassumption.
  - trivial.
  - destruct o; trivial; eapply does_catch; eassumption.
  - destruct Q as [->| ->]; trivial.
Qed.
Lemma does_ends : forall p h r, does p h r -> exists o, ends p h o /\ (o = match r with Ok v => Returns v | Err e => Raises e end \/ o = PreconditionFailed \/ o = PostconditionFailed).
Proof.
  intros p h r D. induction D as [v h|e h|x k h r D (o & E & O)|x g k h r D (o & E & O)|f args k h v r D1 (o1 & E1 & O1) D2 (o2 & E2 & O2)|f args k h e r D1 (o1 & E1 & O1) D2 (o2 & E2 & O2)].
  - eexists. split; [constructor|auto].
  - eexists. split; [constructor|auto].
  - exists o. split; [now constructor|exact O].
  - exists o. split; [now constructor|exact O].
  - destruct (pre (fns f) (map (at_ h) args)) eqn:P; [|exists PreconditionFailed; split; [now constructor|auto]].
    destruct O1 as [->|O1]; [|exists o1; split; [now apply ends_inner|auto]].
    destruct (post (fns f) (map (at_ h) args) v) eqn:Q; [exists o2; split; [eapply ends_call; eassumption|exact O2]|].
    exists PostconditionFailed. split; [eapply ends_post; eassumption|auto].
  - destruct (pre (fns f) (map (at_ h) args)) eqn:P; [|exists PreconditionFailed; split; [now constructor|auto]].
    destruct O1 as [->|O1]; [|exists o1; split; [now apply ends_inner|auto]].
    exists o2. split; [eapply ends_catch; eassumption|exact O2].
Qed.

(** * Values returned by skipped calls stay as they are *)
Hypothesis bodies : forall f vs, pre (fns f) vs = true -> keeps (length vs) (body (fns f)).
Definition placed (n : nat) (h : list V) (ps : pending V) : Prop := Forall (fun '(x, f, vs) => n <= x < length h) ps.
Lemma placed_app : forall n h l ps, placed n h ps -> placed n (h ++ l) ps.
Proof. intros n h l ps P. eapply Forall_impl; [|exact P]. intros [[x f] vs] B. rewrite app_length. lia. Qed.
Definition here (h : list V) (p : nat * nat * list V) : deferred V := let '(x, f, vs) := p in {| final := get h x; called := f; with_args := vs |}.
Lemma finish_in : forall h ps p, In p ps -> In (here h p) (finish h ps).
Proof. intros h ps [[x f] vs] I. unfold finish. apply (in_map (fun '(x, f, vs) => {| final := get h x; called := f; with_args := vs |}) ps (x, f, vs) I). Qed.
Lemma here_eq : forall h h' x f vs, get h x = get h' x -> here h (x, f, vs) = here h' (x, f, vs).
Proof. intros h h' x f vs E. unfold here. now rewrite E. Qed.

Definition choose (f : nat) (ds : list (option V)) : option V * list (option V) :=
  if pure (fns f) then match ds with c :: ds => (c, ds) | [] => (None, []) end else (None, ds).
(** one step of a call *)
Lemma skipping_call : forall fuel ds f args k h ps, skipping (S fuel) ds (Call f args k) h ps =
  (let vs := map (get h) args in
   if negb (pre (fns f) vs) then Some (PreconditionFailed, ds, finish h ps)
   else let '(choice, ds) := choose f ds in
   match choice with
   | Some v => if post (fns f) vs v then skipping fuel ds (k (Ok (length h))) (h ++ [v]) (ps ++ [(length h, f, vs)])
               else Some (PostconditionFailed, ds, finish h ps)
   | None =>
     match skipping fuel ds (body (fns f)) vs [] with
     | None => None
     | Some (Returns v, ds, later) =>
         if post (fns f) vs v then
           match skipping fuel ds (k (Ok (length h))) (h ++ [v]) ps with
           | None => None
           | Some (o, ds, later') => Some (o, ds, later ++ later')
           end
         else Some (PostconditionFailed, ds, later ++ finish h ps)
     | Some (Raises e, ds, later) =>
         match skipping fuel ds (k (Err e)) h ps with
         | None => None
         | Some (o, ds, later') => Some (o, ds, later ++ later')
         end
     | Some (o, ds, later) => Some (o, ds, later ++ finish h ps)
     end
   end).
Proof. reflexivity. Qed.

Lemma pending_kept : forall fuel ds p h ps n o ds' later, skipping fuel ds p h ps = Some (o, ds', later) -> keeps n p -> placed n h ps ->
  forall q, In q ps -> In (here h q) later.
Proof.
  induction fuel as [|fuel IH]; intros ds p h ps n o ds' later H K P q I; [discriminate|]. destruct p as [v|e|x k|x g k|f args k].
  - cbn [Skip_Model.skipping] in H. inversion H. now apply finish_in.
  - cbn [Skip_Model.skipping] in H. inversion H. now apply finish_in.
  - cbn [Skip_Model.skipping] in H. inversion K; subst. eapply IH; eauto.
  - cbn [Skip_Model.skipping] in H. inversion K as [| | |x' g' k' L K'|]; subst. destruct q as [[y f] vs].
    assert (B : n <= y < length h) by (unfold placed in P; rewrite Forall_forall in P; exact (P _ I)).
    rewrite (here_eq h (set h x (g (get h x)))) by (symmetry; apply get_set; lia).
    eapply IH; [exact H|exact K'| |exact I]. unfold placed in *. eapply Forall_impl; [|exact P]. intros [[z f'] vs'] B'. now rewrite set_length.
  - rewrite skipping_call in H. cbv zeta in H. inversion K as [| | | |f' args' k' K']; subst.
    destruct (pre (fns f) (map (get h) args)) eqn:Pr; cbn [negb] in H; [|inversion H; now apply finish_in].
    destruct (choose f ds) as [choice ds1]. destruct q as [[y f0] vs0].
    assert (B : n <= y < length h) by (unfold placed in P; rewrite Forall_forall in P; exact (P _ I)).
    assert (Ext : forall v, here h (y, f0, vs0) = here (h ++ [v]) (y, f0, vs0)) by (intro v; apply here_eq; symmetry; apply get_app; lia).
    destruct choice as [v|].
    + destruct (post (fns f) (map (get h) args) v); [|inversion H; now apply finish_in].
      rewrite (Ext v). eapply (IH _ _ _ _ (Nat.min n (length h))); [exact H| | |].
      * destruct (Nat.le_gt_cases n (length h)); [rewrite Nat.min_l by assumption; apply K'|lia].
      * apply Forall_app. split; [eapply Forall_impl; [|exact P]; intros [[z f'] vs'] B'; rewrite app_length; lia|].
        constructor; [rewrite app_length; cbn; lia|constructor].
      * apply in_or_app. now left.
    + destruct (skipping fuel ds1 (body (fns f)) (map (get h) args) []) as [[[o1 ds2] later1]|] eqn:E; [|discriminate]. destruct o1 as [v|e| |].
      * destruct (post (fns f) (map (get h) args) v); [|inversion H; apply in_or_app; right; now apply finish_in].
        destruct (skipping fuel ds2 (k (Ok (length h))) (h ++ [v]) ps) as [[[o2 ds3] later2]|] eqn:E2; [|discriminate]. inversion H; subst.
        apply in_or_app. right. rewrite (Ext v). eapply IH; [exact E2|apply K'|now apply placed_app|exact I].
      * destruct (skipping fuel ds2 (k (Err e)) h ps) as [[[o2 ds3] later2]|] eqn:E2; [|discriminate]. inversion H; subst.
        apply in_or_app. right. eapply IH; [exact E2|apply K'|exact P|exact I].
      * inversion H. apply in_or_app. right. now apply finish_in.
      * inversion H. apply in_or_app. right. now apply finish_in.
Qed.

(** * Reported outcomes are real *)
Definition real (d : deferred V) : Prop := does (body (fns (called V d))) (with_args V d) (Ok (final V d)).
Definition similar (p : prog V) (h : list V) (o : outcome V) : Prop :=
  match o with Returns v => does p h (Ok v) | Raises e => does p h (Err e) | _ => True end /\
  exists o', ends p h o' /\ (o' = o \/ o' = PreconditionFailed \/ o' = PostconditionFailed).
Lemma skipping_sound : forall fuel ds p h ps n o ds' later, skipping fuel ds p h ps = Some (o, ds', later) -> keeps n p -> n <= length h -> placed n h ps ->
  Forall real later -> o <> PostconditionFailed -> similar p h o.
Proof.
  induction fuel as [|fuel IH]; intros ds p h ps n o ds' later H K N P R O; [discriminate|]. destruct p as [v|e|x k|x g k|f args k].
  - cbn [Skip_Model.skipping] in H. inversion H; subst. split; [constructor|]. eexists. split; [constructor|auto].
  - cbn [Skip_Model.skipping] in H. inversion H; subst. split; [constructor|]. eexists. split; [constructor|auto].
  - cbn [Skip_Model.skipping] in H. inversion K; subst. destruct (IH _ _ _ _ n _ _ _ H) as [A (o' & E & O')]; auto.
    split; [destruct o; trivial; now constructor|]. exists o'. split; [now constructor|exact O'].
  - cbn [Skip_Model.skipping] in H. inversion K as [| | |x' g' k' L K'|]; subst. destruct (IH _ _ _ _ n _ _ _ H) as [A (o' & E & O')]; auto.
    { now rewrite set_length. }
    { unfold placed in *. eapply Forall_impl; [|exact P]. intros [[z f'] vs'] B'. now rewrite set_length. }
    rewrite set_put in A, E. split; [destruct o; trivial; now constructor|]. exists o'. split; [now constructor|exact O'].
  - rewrite skipping_call in H. cbv zeta in H. inversion K as [| | | |f' args' k' K']; subst. change (map (get h) args) with (map (at_ h) args) in H.
    destruct (pre (fns f) (map (at_ h) args)) eqn:Pr; cbn [negb] in H.
    2: { inversion H; subst. split; [trivial|]. exists PreconditionFailed. split; [now constructor|auto]. }
    destruct (choose f ds) as [choice ds1]. destruct choice as [v|].
    + destruct (post (fns f) (map (at_ h) args) v) eqn:Q; [|inversion H; congruence].
      assert (P' : placed n (h ++ [v]) (ps ++ [(length h, f, map (at_ h) args)])).
      { apply Forall_app. split; [now apply placed_app|]. constructor; [rewrite app_length; cbn; lia|constructor]. }
      assert (Here : does (body (fns f)) (map (at_ h) args) (Ok v)).
      { assert (I : In (here (h ++ [v]) (length h, f, map (at_ h) args)) later).
        { eapply pending_kept; [exact H|apply K'|exact P'|apply in_or_app; right; now left]. }
        rewrite Forall_forall in R. specialize (R _ I). unfold real, here in R. cbn [called with_args final] in R. now rewrite get_last in R. }
      destruct (IH _ _ _ _ n _ _ _ H) as [A (o' & E & O')]; auto; [rewrite app_length; lia|].
      split; [destruct o; trivial; eapply does_call; eassumption|].
      destruct (does_ends _ _ _ Here) as (o1 & E1 & [->|O1]); [exists o'; split; [eapply ends_call; eassumption|exact O']|].
      exists o1. split; [now apply ends_inner|auto].
    + destruct (skipping fuel ds1 (body (fns f)) (map (at_ h) args) []) as [[[o1 ds2] later1]|] eqn:E1; [|discriminate].
      assert (Body : Forall real later1 -> o1 <> PostconditionFailed -> similar (body (fns f)) (map (at_ h) args) o1).
      { intros R1 O1. eapply (IH _ _ _ _ (length (map (at_ h) args))); [exact E1|now apply bodies|lia|constructor|exact R1|exact O1]. }
      destruct o1 as [v|e| |].
      * destruct (post (fns f) (map (at_ h) args) v) eqn:Q; [|inversion H; congruence].
        destruct (skipping fuel ds2 (k (Ok (length h))) (h ++ [v]) ps) as [[[o2 ds3] later2]|] eqn:E2; [|discriminate]. inversion H; subst.
        apply Forall_app in R. destruct R as [R1 R2]. destruct (Body R1 ltac:(discriminate)) as [D (o1 & B & O1)].
        destruct (IH _ _ _ _ n _ _ _ E2) as [A (o' & E & O')]; auto; [rewrite app_length; lia|now apply placed_app|].
        split; [destruct o; trivial; eapply does_call; eassumption|].
        destruct O1 as [->|O1]; [exists o'; split; [eapply ends_call; eassumption|exact O']|]. exists o1. split; [now apply ends_inner|auto].
      * destruct (skipping fuel ds2 (k (Err e)) h ps) as [[[o2 ds3] later2]|] eqn:E2; [|discriminate]. inversion H; subst.
        apply Forall_app in R. destruct R as [R1 R2]. destruct (Body R1 ltac:(discriminate)) as [D (o1 & B & O1)].
        destruct (IH _ _ _ _ n _ _ _ E2) as [A (o' & E & O')]; auto.
        split; [destruct o; trivial; eapply does_catch; eassumption|].
        destruct O1 as [->|O1]; [exists o'; split; [eapply ends_catch; eassumption|exact O']|]. exists o1. split; [now apply ends_inner|auto].
      * inversion H; subst. apply Forall_app in R. destruct R as [R1 R2]. destruct (Body R1 ltac:(discriminate)) as [D (o1 & B & O1)].
        split; [trivial|]. exists o1. split; [apply ends_inner; [exact Pr|exact B|destruct O1 as [->|O1]; auto]|destruct O1 as [->|O1]; auto].
      * inversion H. congruence.
Qed.
Lemma reconcile_real : (forall a b, veq a b = true -> a = b) -> forall fuel l, reconcile fuel l = Holds -> Forall real l.
Proof.
  intros Eq fuel. induction l as [|d l IH]; intro H; [constructor|]. cbn [Skip_Model.reconcile] in H.
  destruct (run fuel (body (fns (called V d))) (with_args V d)) as [[v|e]|] eqn:E; try discriminate. destruct (veq (final V d) v) eqn:Q; [|discriminate].
  constructor; [|now apply IH]. unfold real. apply Eq in Q. rewrite Q. eapply run_does, E.
Qed.

(** * Every real outcome is found *)
Lemma skipping_more : forall fuel fuel' ds p h ps r, skipping fuel ds p h ps = Some r -> fuel <= fuel' -> skipping fuel' ds p h ps = Some r.
Proof.
  induction fuel as [|fuel IH]; intros fuel' ds p h ps r H L; [discriminate|]. destruct fuel' as [|fuel']; [lia|]. assert (L' : fuel <= fuel') by lia.
  destruct p as [v|e|x k|x g k|f args k]; try (cbn [Skip_Model.skipping] in *; try assumption; apply IH; assumption).
  rewrite skipping_call in *. cbv zeta in *. destruct (negb (pre (fns f) (map (get h) args))); [assumption|].
  destruct (choose f ds) as [[v|] ds1].
  - destruct (post (fns f) (map (get h) args) v); [now apply IH|assumption].
  - destruct (skipping fuel ds1 (body (fns f)) (map (get h) args) []) as [[[o1 ds2] later1]|] eqn:E1; [|discriminate]. rewrite (IH fuel' _ _ _ _ _ E1 L').
    destruct o1 as [v|e| |]; try assumption.
    + destruct (post (fns f) (map (get h) args) v); [|assumption].
      destruct (skipping fuel ds2 (k (Ok (length h))) (h ++ [v]) ps) as [[[o2 ds3] later2]|] eqn:E2; [|discriminate]. now rewrite (IH fuel' _ _ _ _ _ E2 L').
    + destruct (skipping fuel ds2 (k (Err e)) h ps) as [[[o2 ds3] later2]|] eqn:E2; [|discriminate]. now rewrite (IH fuel' _ _ _ _ _ E2 L').
Qed.
Hypothesis honest : forall f, pure (fns f) = true -> honours V dflt fns (fns f).
Definition pattern (ds : list (option V)) : list bool := map (fun d => match d with Some _ => true | None => false end) ds.
Definition settled (n : nat) (h : list V) (ps : pending V) : Prop := placed n h ps /\ Forall (fun q => real (here h q)) ps.
Lemma settled_finish : forall n h ps, settled n h ps -> Forall real (finish h ps).
Proof.
  intros n h ps [_ R]. unfold finish. apply Forall_forall. intros d I. apply in_map_iff in I. destruct I as ([[x f] vs] & <- & I).
  rewrite Forall_forall in R. exact (R _ I).
Qed.
Lemma settled_app : forall n h v ps, settled n h ps -> settled n (h ++ [v]) ps.
Proof.
  intros n h v ps [P R]. split; [now apply placed_app|]. unfold placed in P. rewrite Forall_forall in *. intros [[x f] vs] I. pose proof (P _ I) as B. cbn in B.
  rewrite (here_eq (h ++ [v]) h) by (apply get_app; lia). now apply R.
Qed.
Lemma settled_set : forall n h x v ps, settled n h ps -> x < n -> settled n (set h x v) ps.
Proof.
  intros n h x v ps [P R] L. unfold settled, placed in *. rewrite Forall_forall in *. split; [|apply Forall_forall]; intros [[y f] vs] I; pose proof (P _ I) as B; cbn in B.
  - now rewrite set_length.
  - rewrite (here_eq _ h) by (apply get_set; lia). now apply R.
Qed.
(** with [bs] saying which calls are skipped, [n] of them used: whatever choices follow *)
Definition found (p : prog V) (h : list V) (ps : pending V) (o : outcome V) (bs : list bool) : Prop :=
  exists used rest, bs = used ++ rest /\ forall tail, pattern tail = rest -> exists ds fuel later,
    pattern ds = used /\ skipping fuel (ds ++ tail) p h ps = Some (o, tail, later) /\ Forall real later.
Lemma same_end : forall p h v o, ends p h (Returns v) -> ends p h o -> (forall w, o = Returns w -> w = v) /\ (forall e, o <> Raises e).
Proof.
  intros p h v o A B. apply ends_does in A. apply ends_does in B. split.
  - intros w ->. pose proof (does_fun _ _ _ _ A B) as E. now inversion E.
  - intros e ->. pose proof (does_fun _ _ _ _ A B) as E. discriminate.
Qed.
Lemma ends_fun : forall p h o, ends p h o -> forall o', ends p h o' -> o = o'.
Proof.
  intros p h o E. induction E as [v h|e h|x k h o E IH|x g k h o E IH|f args k h P|f args k h v o P E1 IH1 Q E2 IH2|f args k h v P E IH Q|f args k h e o P E1 IH1 E2 IH2|f args k h o P E IH Q];
    intros o' E'; inversion E'; subst; try reflexivity; try congruence; try (now apply IH).
  - assert (X : Returns v = Returns v0) by now apply IH1. inversion X; subst. now apply IH2.
  - assert (X : Returns v = Returns v0) by now apply IH1. inversion X; subst. congruence.
  - assert (X : Returns v = Raises e) by now apply IH1. discriminate.
  - match goal with H : ends (body (fns f)) _ o' |- _ => apply IH1 in H; subst o' end. match goal with H : _ \/ _ |- _ => destruct H; discriminate end.
  - assert (X : Returns v = Returns v0) by now apply IH. inversion X; subst. congruence.
  - assert (X : Returns v = Raises e) by now apply IH. discriminate.
  - match goal with H : ends (body (fns f)) _ o' |- _ => apply IH in H; subst o' end. match goal with H : _ \/ _ |- _ => destruct H; discriminate end.
  - assert (X : Raises e = Returns v) by now apply IH1. discriminate.
  - assert (X : Raises e = Returns v) by now apply IH1. discriminate.
  - assert (X : Raises e = Raises e0) by now apply IH1. inversion X; subst. now apply IH2.
  - match goal with H : ends (body (fns f)) _ o' |- _ => apply IH1 in H; subst o' end. match goal with H : _ \/ _ |- _ => destruct H; discriminate end.
  - match goal with H : ends (body (fns f)) _ (Returns _) |- _ => apply IH in H; subst o end. destruct Q; discriminate.
  - match goal with H : ends (body (fns f)) _ (Returns _) |- _ => apply IH in H; subst o end. destruct Q; discriminate.
  - match goal with H : ends (body (fns f)) _ (Raises _) |- _ => apply IH in H; subst o end. destruct Q; discriminate.
Qed.

(** the call is made: no choice, or a choice to call *)
Definition made (f : nat) (used rest : list bool) : Prop :=
  (exists ds, pattern ds = used) /\ forall ds tail, pattern ds = used -> pattern tail = rest -> choose f (ds ++ tail) = (None, tail).
Lemma made_or_skipped : forall f bs, (exists used rest, bs = used ++ rest /\ made f used rest) \/ (pure (fns f) = true /\ exists rest, bs = true :: rest).
Proof.
  intros f bs. unfold made, choose. destruct (pure (fns f)).
  - destruct bs as [|[|] bs].
    + left. exists [], []. split; [reflexivity|]. split; [now exists []|]. intros ds tail D T. apply map_eq_nil in D. apply map_eq_nil in T. now subst.
    + right. eauto.
    + left. exists [false], bs. split; [reflexivity|]. split; [now exists [None]|]. intros ds tail D T. destruct ds as [|[w|] [|d ds]]; try discriminate. reflexivity.
  - left. exists [], bs. split; [reflexivity|]. split; [now exists []|]. intros ds tail D T. apply map_eq_nil in D. now subst.
Qed.
Lemma pattern_app : forall a b, pattern (a ++ b) = pattern a ++ pattern b.
Proof. intros. apply map_app. Qed.
Lemma skipping_finds : forall p h o, ends p h o -> forall n ps bs, keeps n p -> n <= length h -> settled n h ps -> found p h ps o bs.
Proof.
  intros p h o E. induction E as [v h|e h|x k h o E IH|x g k h o E IH|f args k h P|f args k h v o P E1 IH1 Q E2 IH2|f args k h v P E IH Q|f args k h e o P E1 IH1 E2 IH2|f args k h o P E IH Q];
    intros n ps bs K N S1.
  - exists [], bs. split; [reflexivity|]. intros tail T. exists [], 1, (finish h ps). split; [reflexivity|]. split; [reflexivity|]. eapply settled_finish, S1.
  - exists [], bs. split; [reflexivity|]. intros tail T. exists [], 1, (finish h ps). split; [reflexivity|]. split; [reflexivity|]. eapply settled_finish, S1.
  - inversion K; subst. destruct (IH n ps bs) as (u & r & B & F); auto. exists u, r. split; [exact B|]. intros tail T. destruct (F tail T) as (ds & fuel & later & D & Sk & R). exists ds, (S fuel), later. auto.
  - inversion K as [| | |x' g' k' L K'|]; subst. rewrite <- set_put in *. destruct (IH n ps bs) as (u & r & B & F); auto; [now rewrite set_length|now apply settled_set|].
    exists u, r. split; [exact B|]. intros tail T. destruct (F tail T) as (ds & fuel & later & D & Sk & R). exists ds, (S fuel), later. auto.
  - exists [], bs. split; [reflexivity|]. intros tail T. exists [], 1, (finish h ps). split; [reflexivity|]. split; [|eapply settled_finish, S1].
    rewrite skipping_call. cbv zeta. change (map (get h) args) with (map (at_ h) args). rewrite P. reflexivity.
  - inversion K as [| | | |f' args' k' K']; subst. destruct (made_or_skipped f bs) as [(u0 & bs0 & B & (ds0 & D0) & Ch)|(Pu & bs0 & B)].
    + destruct (IH1 (length (map (at_ h) args)) [] bs0) as (u1 & r1 & B1 & F1); [now apply bodies|lia|split; constructor|].
      destruct (IH2 n ps r1) as (u2 & r2 & B2 & F2); [apply K'|rewrite app_length; lia|now apply settled_app|].
      exists (u0 ++ u1 ++ u2), r2. split; [rewrite B, B1, B2; now rewrite <- !app_assoc|]. intros tail T.
      destruct (F2 tail T) as (ds2 & fuel2 & later2 & D2 & Sk2 & R2).
      destruct (F1 (ds2 ++ tail)) as (ds1 & fuel1 & later1 & D1 & Sk1 & R1); [rewrite pattern_app; congruence|].
      exists (ds0 ++ ds1 ++ ds2), (S (fuel1 + fuel2)), (later1 ++ later2). split; [rewrite !pattern_app; congruence|]. split; [|now apply Forall_app].
      rewrite skipping_call. cbv zeta. change (map (get h) args) with (map (at_ h) args). rewrite P. cbn [negb].
      rewrite <- !app_assoc, (Ch ds0) by (rewrite ?pattern_app; congruence).
      rewrite (skipping_more _ (fuel1 + fuel2) _ _ _ _ _ Sk1) by lia. rewrite Q. rewrite (skipping_more _ (fuel1 + fuel2) _ _ _ _ _ Sk2) by lia. reflexivity.
    + destruct (IH2 n (ps ++ [(length h, f, map (at_ h) args)]) bs0) as (u2 & r2 & B2 & F2); [apply K'|rewrite app_length; lia| |].
      { destruct (settled_app n h v ps S1) as [P1 R1]. split; apply Forall_app; (split; [assumption|]); (apply Forall_cons; [|apply Forall_nil]).
        - rewrite app_length. cbn [length]. lia.
        - unfold real, here. cbn [called with_args final]. rewrite get_last. exact (ends_does _ _ _ E1). }
      exists (true :: u2), r2. split; [rewrite B, B2; reflexivity|]. intros tail T. destruct (F2 tail T) as (ds2 & fuel2 & later2 & D2 & Sk2 & R2).
      exists (Some v :: ds2), (S fuel2), later2. split; [unfold pattern in *; cbn [map]; congruence|]. split; [|exact R2].
      rewrite skipping_call. cbv zeta. change (map (get h) args) with (map (at_ h) args). rewrite P. cbn [negb]. unfold choose. rewrite Pu. cbn [app]. rewrite Q. exact Sk2.
  - inversion K as [| | | |f' args' k' K']; subst. destruct (made_or_skipped f bs) as [(u0 & bs0 & B & (ds0 & D0) & Ch)|(Pu & bs0 & B)].
    + destruct (IH (length (map (at_ h) args)) [] bs0) as (u1 & r1 & B1 & F1); [now apply bodies|lia|split; constructor|].
      exists (u0 ++ u1), r1. split; [rewrite B, B1; now rewrite <- !app_assoc|]. intros tail T. destruct (F1 tail T) as (ds1 & fuel1 & later1 & D1 & Sk1 & R1).
      exists (ds0 ++ ds1), (S fuel1), (later1 ++ finish h ps). split; [rewrite !pattern_app; congruence|]. split; [|apply Forall_app; split; [assumption|eapply settled_finish, S1]].
      rewrite skipping_call. cbv zeta. change (map (get h) args) with (map (at_ h) args). rewrite P. cbn [negb].
      rewrite <- !app_assoc, (Ch ds0) by (rewrite ?pattern_app; congruence). rewrite Sk1, Q. reflexivity.
    + exfalso. destruct (honest f Pu _ P) as (w & Ew & Pw). pose proof (ends_fun _ _ _ E _ Ew) as X. inversion X; subst. congruence.
  - inversion K as [| | | |f' args' k' K']; subst. destruct (made_or_skipped f bs) as [(u0 & bs0 & B & (ds0 & D0) & Ch)|(Pu & bs0 & B)].
    + destruct (IH1 (length (map (at_ h) args)) [] bs0) as (u1 & r1 & B1 & F1); [now apply bodies|lia|split; constructor|].
      destruct (IH2 n ps r1) as (u2 & r2 & B2 & F2); [apply K'|assumption|assumption|].
      exists (u0 ++ u1 ++ u2), r2. split; [rewrite B, B1, B2; now rewrite <- !app_assoc|]. intros tail T.
      destruct (F2 tail T) as (ds2 & fuel2 & later2 & D2 & Sk2 & R2).
      destruct (F1 (ds2 ++ tail)) as (ds1 & fuel1 & later1 & D1 & Sk1 & R1); [rewrite pattern_app; congruence|].
      exists (ds0 ++ ds1 ++ ds2), (S (fuel1 + fuel2)), (later1 ++ later2). split; [rewrite !pattern_app; congruence|]. split; [|now apply Forall_app].
      rewrite skipping_call. cbv zeta. change (map (get h) args) with (map (at_ h) args). rewrite P. cbn [negb].
      rewrite <- !app_assoc, (Ch ds0) by (rewrite ?pattern_app; congruence).
      rewrite (skipping_more _ (fuel1 + fuel2) _ _ _ _ _ Sk1) by lia. rewrite (skipping_more _ (fuel1 + fuel2) _ _ _ _ _ Sk2) by lia. reflexivity.
    + exfalso. destruct (honest f Pu _ P) as (w & Ew & Pw). pose proof (ends_fun _ _ _ E1 _ Ew) as X. discriminate.
  - inversion K as [| | | |f' args' k' K']; subst. destruct (made_or_skipped f bs) as [(u0 & bs0 & B & (ds0 & D0) & Ch)|(Pu & bs0 & B)].
    + destruct (IH (length (map (at_ h) args)) [] bs0) as (u1 & r1 & B1 & F1); [now apply bodies|lia|split; constructor|].
      exists (u0 ++ u1), r1. split; [rewrite B, B1; now rewrite <- !app_assoc|]. intros tail T. destruct (F1 tail T) as (ds1 & fuel1 & later1 & D1 & Sk1 & R1).
      exists (ds0 ++ ds1), (S fuel1), (later1 ++ finish h ps). split; [rewrite !pattern_app; congruence|]. split; [|apply Forall_app; split; [assumption|eapply settled_finish, S1]].
      rewrite skipping_call. cbv zeta. change (map (get h) args) with (map (at_ h) args). rewrite P. cbn [negb].
      rewrite <- !app_assoc, (Ch ds0) by (rewrite ?pattern_app; congruence). rewrite Sk1. destruct Q as [->| ->]; reflexivity.
    + exfalso. destruct (honest f Pu _ P) as (w & Ew & Pw). pose proof (ends_fun _ _ _ E _ Ew) as X. subst o. destruct Q; discriminate.
Qed.
Lemma real_reconcile : (forall a, veq a a = true) -> forall l, Forall real l -> exists fuel, forall fuel', fuel <= fuel' -> reconcile fuel' l = Holds.
Proof.
  intros Eq l H. induction H as [|d l R _ (n & IH)]; [exists 0; reflexivity|]. apply does_run in R. destruct R as [m R]. exists (n + m). intros fuel' L. cbn [Skip_Model.reconcile].
  rewrite (run_more _ fuel' _ _ _ R) by lia. rewrite Eq. apply IH. lia.
Qed.
End Proofs.
