(** C64, C65: what "crosshair diffbehavior" and "crosshair cover" find. *)
From Coq Require Import List Bool ZArith Lia.
From Verif Require Import SearchTree_Model SearchTree_Spec SearchTree_Proofs SearchTree_Examples
  Verdict_Model Verdict_Proofs Explore_Model Explore_Spec Explore_Proofs Cover_Model Cover_Spec.
Import ListNotations.
Open Scope nat_scope.

Section Diff.
  Variables (Asg Expr VExpr Val : Type).
  Variable holds : Asg -> Expr -> bool.
  Variable veval : Asg -> VExpr -> Val.
  Variable expr_eqb : Expr -> Expr -> bool.
  Hypothesis expr_eqb_spec : forall a b, expr_eqb a b = true <-> a = b.
  Hypothesis val_dec : forall v w : Val, {v = w} + {v <> w}.
  Notation hist := (list (ans Val)).
  Notation truthful := (truthful Asg Expr VExpr Val holds veval).

  Variables (Value Exc : Type).
  Variable alike : Value -> Value -> bool.
  Variable same_type same_repr : Exc -> Exc -> bool.
  Notation behaviour := (behaviour Value Exc).
  Notation reflects := (reflects Value Exc alike same_type same_repr).
  Notation b_alike := (b_alike Value Exc alike same_type same_repr).

  Variable code : hist -> req Expr VExpr + dpath.
  Notation Given := (Given Asg Expr VExpr Val dpath holds veval code).
  (** what the two functions do *)
  Variable f1 f2 : Asg -> option behaviour.
  Hypothesis right : forall a h p, Given a h -> code h = inr p -> reflects p (f1 a) (f2 a).
  Variable k : exc_kind.
  Notation explored n sched := (explore Expr VExpr Val dpath expr_eqb code (djudge k) (firstn (n - 1) sched) Stem).
  Notation diff_with_signature := (diff_with_signature Expr VExpr Val expr_eqb k code).

  Lemma djudge_unknown p : a_status (djudge k p) <> Some Unknown.
  Proof. unfold djudge. destruct (run_iteration k p); discriminate. Qed.
  Lemma djudge_internal p : djudge k p <> A_internal.
  Proof. unfold djudge. destruct (run_iteration k p); discriminate. Qed.

  Lemma exc_equiv a h p b1 b2 : Given a h -> code h = inr p -> f1 a = Some b1 -> f2 a = Some b2 ->
    exceptions_equivalent k p = match b_exc _ _ b1, b_exc _ _ b2 with
      | None, None => true
      | Some x, Some y => exc_alike Exc same_type same_repr k x y
      | _, _ => false
      end.
  Proof.
    intros G C F1 F2. destruct (right a h p G C) as (E1 & E2 & D). rewrite F1, F2 in *. destruct D as (_ & _ & T).
    unfold exceptions_equivalent. rewrite E1, E2. cbn.
    destruct (b_exc _ _ b1), (b_exc _ _ b2); auto. destruct T as [-> ->]. destruct k; reflexivity.
  Qed.

  Lemma differs_iff a h p b1 b2 : Given a h -> code h = inr p -> f1 a = Some b1 -> f2 a = Some b2 ->
    differs k p = true -> d_legal p = true /\ b_alike k b1 b2 = false.
  Proof.
    intros G C F1 F2. pose proof (exc_equiv a h p b1 b2 G C F1 F2) as X.
    destruct (right a h p G C) as (_ & _ & D). rewrite F1, F2 in D. destruct D as (R & A & _).
    unfold differs, run_iteration. destruct (d_rets p) as [r|]; [|discriminate].
    unfold Explore_Spec.b_alike. rewrite <- X. rewrite <- (R r eq_refl). destruct r.
    - destruct (d_args p) as [g|]; [|discriminate]. rewrite <- (A g eq_refl). cbn [andb].
      destruct (g && exceptions_equivalent k p); [destruct (d_legal p); discriminate|].
      destruct (d_legal p), (d_shown p); cbn; auto; discriminate.
    - cbn [andb]. destruct (d_legal p), (d_shown p); cbn; auto; discriminate.
  Qed.

  (** A difference that is reported is a path that some input takes, and on no input that
      takes it do the two functions behave alike - unless one of them has no behaviour on
      that input, see below. *)
  Theorem difference_real_partial n sched diffs tries x :
    Forall (fun fe => truthful (snd fe)) sched ->
    assumes_well Asg Expr VExpr Val dpath holds veval code -> inhabited Asg ->
    diff_with_signature n sched = (diffs, tries, x) ->
    forall h p, In (h, p) diffs ->
      (exists a, Given a h) /\
      forall a b1 b2, Given a h -> f1 a = Some b1 -> f2 a = Some b2 -> b_alike k b1 b2 = false.
  Proof.
    intros T W I H h p Hd. unfold Explore_Model.diff_with_signature in H.
    destruct (explored n sched) as [l u] eqn:E. injection H as <- <- <-.
    apply filter_In in Hd as [Hd D]. cbn [snd] in D.
    destruct (finished_real Asg Expr VExpr Val dpath holds veval expr_eqb expr_eqb_spec val_dec code (djudge k)
      djudge_internal _ l u (firstn_Forall _ _ _ _ T) W I E h p Hd) as [C (a & G)].
    split; [eauto|]. intros a' b1 b2 G' F1 F2. exact (proj2 (differs_iff a' h p b1 b2 G' C F1 F2 D)).
  Qed.

  (** When the paths are exhausted and none was cut short, every legal input on which the
      functions differ takes a path that is reported - if the comparison and the
      description of the values raise no exception. *)
  Theorem every_difference_found_partial n sched l u :
    Forall (fun fe => truthful (snd fe)) sched ->
    assumes_well Asg Expr VExpr Val dpath holds veval code ->
    no_alternatives Expr VExpr Val dpath code ->
    explored n sched = (l, u) -> n_exh u = true ->
    Forall (fun x => a_status (snd x) <> Some Unknown) l ->
    exists diffs, diff_with_signature n sched = (diffs, length l, true) /\
    forall a, Excluded Asg Expr VExpr Val dpath holds veval code a \/
      exists h p, Given a h /\ code h = inr p /\
        (d_legal p = true -> d_shown p = true -> d_rets p <> None -> d_args p <> None ->
         forall b1 b2, f1 a = Some b1 -> f2 a = Some b2 -> b_alike k b1 b2 = false -> In (h, p) diffs).
  Proof.
    intros T W N E X U. unfold Explore_Model.diff_with_signature. rewrite E, X. eexists. split; [reflexivity|].
    intro a.
    destruct (explore_complete Asg Expr VExpr Val dpath holds veval expr_eqb expr_eqb_spec val_dec code (djudge k)
      djudge_internal _ l u (firstn_Forall _ _ _ _ T) W N E X U a) as [Ex|(h & p & Hf & G)]; auto.
    right. exists h, p. pose proof Hf as Hf'. apply finished_in in Hf' as [C _]. repeat split; auto.
    intros L S R A b1 b2 F1 F2 B. apply filter_In. split; auto. cbn [snd].
    pose proof (exc_equiv a h p b1 b2 G C F1 F2) as Xq.
    destruct (right a h p G C) as (_ & _ & D). rewrite F1, F2 in D. destruct D as (Rr & Ra & _).
    unfold differs, run_iteration. destruct (d_rets p) as [r|]; [|congruence]. destruct (d_args p) as [g|]; [|congruence].
    unfold Explore_Spec.b_alike in B. rewrite <- Xq, <- (Rr r eq_refl), <- (Ra g eq_refl) in B.
    rewrite L, S. destruct r, g; cbn [andb] in *; try rewrite B; auto.
  Qed.

  (** So if no difference is found, the functions behave alike. *)
  Theorem none_found_means_alike_partial n sched l u :
    Forall (fun fe => truthful (snd fe)) sched ->
    assumes_well Asg Expr VExpr Val dpath holds veval code ->
    no_alternatives Expr VExpr Val dpath code ->
    explored n sched = (l, u) -> n_exh u = true ->
    Forall (fun x => a_status (snd x) <> Some Unknown) l ->
    (forall h p, code h = inr p ->
       d_legal p = true /\ d_shown p = true /\ d_rets p <> None /\ d_args p <> None) ->
    forall tries x, diff_with_signature n sched = ([], tries, x) ->
    forall a b1 b2, ~ Excluded Asg Expr VExpr Val dpath holds veval code a ->
      f1 a = Some b1 -> f2 a = Some b2 -> b_alike k b1 b2 = true.
  Proof.
    intros T W N E X U Q tries x D a b1 b2 Na F1 F2.
    destruct (every_difference_found_partial n sched l u T W N E X U) as (diffs & D' & F).
    rewrite D in D'. injection D' as <- _ _. destruct (F a) as [Ex|(h & p & G & C & K)]; [tauto|].
    destruct (Q h p C) as (Q1 & Q2 & Q3 & Q4). destruct (b_alike k b1 b2) eqn:B; auto.
    destruct (K Q1 Q2 Q3 Q4 b1 b2 F1 F2 B).
  Qed.
End Diff.

(** *** The report *)
Section Report.
  Variables (Expr VExpr Val : Type).
  Variable expr_eqb : Expr -> Expr -> bool.
  Variable k : exc_kind.

  (** If differences are found, and one is shown of every nonempty set of them, the answer is
      never "no differences"; and what is shown has been found. *)
  Theorem report_right select code1 code2 half1 half2 sched1 sched2 d1 n1 x1 d2 n2 x2 :
    (select d1 d2 = 0 <-> d1 = [] /\ d2 = []) ->
    diff_with_signature Expr VExpr Val expr_eqb k code1 half1 sched1 = (d1, n1, x1) ->
    diff_with_signature Expr VExpr Val expr_eqb k code2 half2 sched2 = (d2, n2, x2) ->
    match diffbehavior Expr VExpr Val expr_eqb k select code1 code2 half1 half2 sched1 sched2 with
    | PNone n x => d1 = [] /\ d2 = [] /\ n = n1 + n2 /\ (x = true <-> x1 = true \/ x2 = true)
    | PDiffs n => ~ (d1 = [] /\ d2 = []) /\ n = select d1 d2
    end.
  Proof.
    intros S H1 H2. unfold diffbehavior. rewrite H1, H2. destruct (select d1 d2) eqn:Q.
    - destruct (proj1 S eq_refl) as [-> ->]. repeat split; auto; now apply orb_true_iff.
    - split; auto. intro N. apply S in N. discriminate.
  Qed.
End Report.

Section Cover.
  Variables (Asg Expr VExpr Val : Type).
  Variable holds : Asg -> Expr -> bool.
  Variable veval : Asg -> VExpr -> Val.
  Variable expr_eqb : Expr -> Expr -> bool.
  Hypothesis expr_eqb_spec : forall a b, expr_eqb a b = true <-> a = b.
  Hypothesis val_dec : forall v w : Val, {v = w} + {v <> w}.
  Notation hist := (list (ans Val)).
  Notation truthful := (truthful Asg Expr VExpr Val holds veval).
  Variable code : hist -> req Expr VExpr + cpath.
  Notation Given := (Given Asg Expr VExpr Val cpath holds veval code).

  (** What the function does on an input: whether it raises, and the opcodes it executes;
      [None]: the input turns out not to be a legal one. *)
  Variable f : Asg -> option (bool * list Z).
  Hypothesis right : forall a h p, Given a h -> code h = inr p ->
    match f a with
    | None => c_end p = EIgnored
    | Some (raised, cov) =>
        c_end p = (if raised then ERaised else EReturned) /\ forall o, In o (c_cov p) <-> In o cov
    end.
  Notation explored n sched := (explore Expr VExpr Val cpath expr_eqb code cjudge (firstn n sched) Stem).
  Notation summaries := (summaries Expr VExpr Val expr_eqb code).

  Lemma cjudge_internal p : cjudge p <> A_internal.
  Proof. discriminate. Qed.

  (** An example is a path some input takes, and tells the truth about every legal input that
      takes it.  (Not if the attempt was ignored, see below.) *)
  Theorem example_real_partial n sched paths x :
    Forall (fun fe => truthful (snd fe)) sched ->
    assumes_well Asg Expr VExpr Val cpath holds veval code -> inhabited Asg ->
    summaries n sched = (paths, x) ->
    forall h p, In (h, p) paths ->
      (exists a, Given a h) /\
      forall a raised cov, Given a h -> f a = Some (raised, cov) ->
        summary_of p = (if raised then SRaises else SReturns) /\ forall o, In o (c_cov p) <-> In o cov.
  Proof.
    intros T W I H h p Hd. unfold Explore_Model.summaries in H.
    destruct (explored n sched) as [l u] eqn:E. injection H as <- <-.
    apply filter_In in Hd as [Hd D]. cbn [snd] in D.
    destruct (finished_real Asg Expr VExpr Val cpath holds veval expr_eqb expr_eqb_spec val_dec code cjudge
      cjudge_internal _ l u (firstn_Forall _ _ _ _ T) W I E h p Hd) as [C (a & G)].
    split; [eauto|]. intros a' raised cov G' F. pose proof (right a' h p G' C) as R. rewrite F in R.
    destruct R as [R1 R2]. split; auto. unfold summary_of. rewrite R1. now destruct raised.
  Qed.

  (** When the paths are exhausted and none was cut short, every opcode that a legal input
      makes the function execute is executed in an example.  [raised]/[cov] as above. *)
  Theorem examples_cover_partial n sched l u :
    Forall (fun fe => truthful (snd fe)) sched ->
    assumes_well Asg Expr VExpr Val cpath holds veval code ->
    no_alternatives Expr VExpr Val cpath code ->
    explored n sched = (l, u) -> n_exh u = true ->
    Forall (fun x => a_status (snd x) <> Some Unknown) l ->
    (forall h p, code h = inr p -> c_legal p = true /\ c_shown p = true) ->
    exists paths, summaries n sched = (paths, true) /\
    forall a raised cov o, ~ Excluded Asg Expr VExpr Val cpath holds veval code a ->
      f a = Some (raised, cov) -> In o cov ->
      covered (fun hp o => In o (c_cov (snd hp))) paths o.
  Proof.
    intros T W N E X U Q. unfold Explore_Model.summaries. rewrite E, X. eexists. split; [reflexivity|].
    intros a raised cov o Na F Ho.
    destruct (explore_complete Asg Expr VExpr Val cpath holds veval expr_eqb expr_eqb_spec val_dec code cjudge
      cjudge_internal _ l u (firstn_Forall _ _ _ _ T) W N E X U a) as [Ex|(h & p & Hf & G)]; [tauto|].
    pose proof Hf as Hf'. apply finished_in in Hf' as [C _]. exists (h, p). cbn [snd].
    pose proof (right a h p G C) as R. rewrite F in R. split; [|now apply R].
    apply filter_In. split; auto. unfold summarized. cbn [snd]. destruct (Q h p C) as [-> ->]. reflexivity.
  Qed.
End Cover.

(** *** Examples: two boolean inputs; the functions differ when the first is true and the
    second is false. *)
Definition dsame := mkDp XNone XNone false false (Some true) (Some true) true true.
Definition ddiff := mkDp XNone XNone false false (Some false) (Some true) true true.
Definition dcode (h : list (ans bool)) : req bool bool + dpath :=
  match h with
  | [] => inl (QFork true)
  | [ABool true] => inl (QFork false)
  | [ABool false] => inr dsame
  | [ABool false; ABool true] => inr ddiff
  | [ABool true; ABool true] => inr dsame
  | _ => inl (QFork true)
  end.
Definition df1 (a : bool * bool) : option (behaviour bool unit) := Some (mkB _ _ (fst a) None true).
Definition df2 (a : bool * bool) : option (behaviour bool unit) := Some (mkB _ _ (fst a && snd a) None true).
Definition tt_eq (x y : unit) : bool := true.
Notation dGiven := (Given xAsg bool bool bool dpath xholds xholds dcode).

Ltac given G := repeat match type of G with _ /\ _ => let G' := fresh in destruct G as [G G']; cbn in G'; injection G' as <- end.
Lemma dcode_right a h p : dGiven a h -> dcode h = inr p ->
  reflects bool unit eqb tt_eq tt_eq p (df1 a) (df2 a).
Proof.
  destruct a as [x y]. intros G C.
  destruct h as [|[[]| |] [|[[]| |] [|]]]; cbn in C; try discriminate C; injection C as <-; cbn in G.
  all: given G; unfold reflects; cbn; repeat split; intros; try congruence; destruct y; cbn; congruence.
Qed.
Lemma dcode_assumes : assumes_well xAsg bool bool bool dpath xholds xholds dcode.
Proof. intros a h e _ C. destruct h as [|[[]| |] [|[[]| |] [|]]]; discriminate C. Qed.
Lemma dcode_noalt : no_alternatives bool bool bool dpath dcode.
Proof. intros h C. destruct h as [|[[]| |] [|[[]| |] [|]]]; discriminate C. Qed.
Lemma bool_spec a b : eqb a b = true <-> a = b.
Proof. apply eqb_true_iff. Qed.

Notation ddiffs n sched := (diff_with_signature bool bool bool eqb KSameType dcode n sched).
Example difference_real_example :
  exists h p tries x, ddiffs 9 xsched = ([(h, p)], tries, x) /\ x = true /\ tries = 3 /\
    h = [ABool false; ABool true].
Proof. do 4 eexists. vm_compute. repeat split. Qed.
Example every_difference_found_example :
  exists l u, explore bool bool bool dpath eqb dcode (djudge KSameType) (firstn (9 - 1) xsched) Stem = (l, u) /\
    n_exh u = true /\ Forall (fun x => a_status (snd x) <> Some Unknown) l /\ length l = 3 /\
    dGiven (true, false) [ABool false; ABool true] /\
    ~ Excluded xAsg bool bool bool dpath xholds xholds dcode (true, false).
Proof.
  do 2 eexists. split; [vm_compute; reflexivity|]. split; [reflexivity|].
  split; [repeat (constructor; [discriminate|]); constructor|]. split; [reflexivity|]. split; [cbn; repeat split|].
  intros (h & e & _ & C & _). destruct h as [|[[]| |] [|[[]| |] [|]]]; discriminate C.
Qed.
(** The same function twice: no differences and the paths exhausted. *)
Example none_found_means_alike_example :
  let code h := match dcode h with inr _ => inr dsame | c => c end in
  exists tries, diff_with_signature bool bool bool eqb KSameType code 9 xsched = ([], tries, true) /\ tries <> 0 /\
    forall h p, code h = inr p -> d_legal p = true /\ d_shown p = true /\ d_rets p <> None /\ d_args p <> None.
Proof.
  eexists. split; [vm_compute; reflexivity|]. split; [discriminate|]. intros h p. cbv beta zeta.
  destruct (dcode h); intro C; [discriminate|]. injection C as <-. repeat split; discriminate.
Qed.
Example report_right_example :
  diffbehavior bool bool bool eqb KSameType (fun d1 d2 => length d1 + length d2) dcode dcode 9 9 xsched xsched = PDiffs 2.
Proof. reflexivity. Qed.

(** A path cut short by a timeout counts as exhausted.  "All paths exhausted, functions are
    likely the same!" is printed of functions that differ. *)
Definition xabort : env bool bool bool :=
  mkEnv xsat xmodel (fun _ _ => true) (fun h _ => match h with [ABool false; ABool true] => Some AbAttached | _ => None end).
Definition cut_sched : list (nat * env bool bool bool) := map (fun _ => (20, xabort)) xsched.
Lemma cut_truthful : Forall (fun fe => truthful xAsg bool bool bool xholds xholds (snd fe)) cut_sched.
Proof.
  assert (truthful xAsg bool bool bool xholds xholds xabort) as T.
  { destruct (xenv_truthful true) as [A B C]. split; [exact A|exact B|exact C]. }
  repeat (constructor; [exact T|]). constructor.
Qed.
Theorem exhausted_means_alike_refuted :
  exists sched, Forall (fun fe => truthful xAsg bool bool bool xholds xholds (snd fe)) sched /\
    (exists n, diffbehavior bool bool bool eqb KSameType (fun d1 d2 => length d1 + length d2)
       dcode dcode 9 9 sched sched = PNone n true) /\
    exists a b1 b2, df1 a = Some b1 /\ df2 a = Some b2 /\
      b_alike bool unit eqb tt_eq tt_eq KSameType b1 b2 = false /\
      ~ Excluded xAsg bool bool bool dpath xholds xholds dcode a /\
      exists h p, dGiven a h /\ dcode h = inr p /\ d_legal p = true.
Proof.
  exists cut_sched. split; [exact cut_truthful|]. split; [exists 6; reflexivity|].
  exists (true, false). do 2 eexists. split; [reflexivity|]. split; [reflexivity|]. split; [reflexivity|].
  split.
  - intros (h & e & _ & C & _). destruct h as [|[[]| |] [|[[]| |] [|]]]; discriminate C.
  - exists [ABool false; ABool true], ddiff. cbn. repeat split.
Qed.

(** The same if comparing or describing the values raises an exception: the path is
    passed over. *)
Definition code_of (p : dpath) (h : list (ans bool)) : req bool bool + dpath :=
  match h with [] => inl (QFork true) | [ABool _] => inr p | _ => inl (QFork true) end.
Theorem passed_over_refuted :
  exists p (g1 g2 : behaviour bool unit),
    (forall a h q, Given xAsg bool bool bool dpath xholds xholds (code_of p) a h -> code_of p h = inr q ->
       reflects bool unit eqb tt_eq tt_eq q (Some g1) (Some g2)) /\
    d_legal p = true /\
    b_alike bool unit eqb tt_eq tt_eq KSameType g1 g2 = false /\
    diff_with_signature bool bool bool eqb KSameType (code_of p) 9 xsched = ([], 2, true).
Proof.
  exists (mkDp XNone XNone false false (Some false) (Some true) true false),
    (mkB _ _ true None true), (mkB _ _ false None true).
  split; [|repeat split]. intros a h q _ C. destruct h as [|[b| |] [|]]; try discriminate C.
  injection C as <-. unfold reflects; cbn. repeat split; intros; congruence.
Qed.

(** An input that turns out not to be legal while the second function runs is shown as a
    difference: "raises IgnoreAttempt()". *)
Theorem difference_real_refuted :
  exists p (g1 : behaviour bool unit),
    (forall a h q, Given xAsg bool bool bool dpath xholds xholds (code_of p) a h -> code_of p h = inr q ->
       reflects bool unit eqb tt_eq tt_eq q (Some g1) None) /\
    diff_with_signature bool bool bool eqb KSameType (code_of p) 9 xsched =
      ([([ABool true], p); ([ABool false], p)], 2, true).
Proof.
  exists (mkDp XNone XIgnored false false (Some false) (Some true) true true), (mkB _ _ true None true).
  split; [|reflexivity]. intros a h q _ C. destruct h as [|[b| |] [|]]; try discriminate C.
  injection C as <-. cbn. repeat split.
Qed.

(** With a limit of n iterations, n-1 are made. *)
Theorem iteration_limit_refuted :
  exists sched, length sched = 8 /\ snd (fst (ddiffs 3 sched)) = 2 /\ snd (ddiffs 3 sched) = false /\
    snd (ddiffs 4 sched) = true.
Proof. exists xsched. vm_compute. repeat split. Qed.

(** *** cover *)
Definition ccode (h : list (ans bool)) : req bool bool + cpath :=
  match h with
  | [] => inl (QFork true)
  | [ABool true] => inl (QFork false)
  | [ABool false] => inr (mkCp EReturned [0; 2; 6]%Z true true)
  | [ABool false; ABool true] => inr (mkCp ERaised [0; 2; 4; 8]%Z true true)
  | [ABool true; ABool true] => inr (mkCp EReturned [0; 2; 4; 10]%Z true true)
  | _ => inl (QFork true)
  end.
Definition cf (a : bool * bool) : option (bool * list Z) :=
  Some (fst a && negb (snd a), if fst a then (if snd a then [0; 2; 4; 10] else [0; 2; 4; 8])%Z else [0; 2; 6]%Z).
Example example_real_example :
  (forall a h p, Given xAsg bool bool bool cpath xholds xholds ccode a h -> ccode h = inr p ->
    match cf a with
    | None => c_end p = EIgnored
    | Some (raised, cov) => c_end p = (if raised then ERaised else EReturned) /\ forall o, In o (c_cov p) <-> In o cov
    end) /\
  exists paths, summaries bool bool bool eqb ccode 8 xsched = (paths, true) /\ length paths = 3 /\
    In ([ABool false; ABool true], mkCp ERaised [0; 2; 4; 8]%Z true true) paths.
Proof.
  split.
  - intros [x y] h p G C.
    destruct h as [|[[]| |] [|[[]| |] [|]]]; cbn in C; try discriminate C; injection C as <-; cbn in G.
    all: given G; cbn; repeat split; auto.
  - eexists. split; [vm_compute; reflexivity|]. cbn. auto.
Qed.
Example examples_cover_example :
  exists l u, explore bool bool bool cpath eqb ccode cjudge (firstn 8 xsched) Stem = (l, u) /\
    n_exh u = true /\ Forall (fun x => a_status (snd x) <> Some Unknown) l /\
    (forall h p, ccode h = inr p -> c_legal p = true /\ c_shown p = true) /\
    no_alternatives bool bool bool cpath ccode.
Proof.
  do 2 eexists. split; [vm_compute; reflexivity|]. split; [reflexivity|].
  split; [repeat (constructor; [discriminate|]); constructor|]. split.
  - intros h p C. destruct h as [|[[]| |] [|[[]| |] [|]]]; cbn in C; try discriminate C; injection C as <-; auto.
  - intros h C. destruct h as [|[[]| |] [|[[]| |] [|]]]; discriminate C.
Qed.

(** An attempt that is given up as illegal is shown as an example that returns None. *)
Definition icode (h : list (ans bool)) : req bool bool + cpath :=
  match h with
  | [] => inl (QFork true)
  | [ABool true] => inr (mkCp EIgnored [0; 2]%Z true true)
  | [ABool false] => inr (mkCp ERaised [0; 4]%Z true true)
  | _ => inl (QFork true)
  end.
Theorem example_real_refuted :
  exists f : bool * bool -> option (bool * list Z),
    (forall a h p, Given xAsg bool bool bool cpath xholds xholds icode a h -> icode h = inr p ->
      match f a with
      | None => c_end p = EIgnored
      | Some (raised, cov) => c_end p = (if raised then ERaised else EReturned) /\ forall o, In o (c_cov p) <-> In o cov
      end) /\
    (forall a r cov, f a = Some (r, cov) -> r = true) /\
    exists (paths : list (list (ans bool) * cpath)) h p, summaries bool bool bool eqb icode 8 xsched = (paths, true) /\
      In (h, p) paths /\ summary_of p = SReturns.
Proof.
  exists (fun a : bool * bool => if fst a then None else Some (true, [0; 4]%Z)). split; [|split].
  - intros [x y] h p G C.
    destruct h as [|[[]| |] [|]]; cbn in C; try discriminate C; injection C as <-; cbn in G;
      destruct G as [_ G]; inversion G; subst; cbn; auto. repeat split; auto.
  - intros [[] y] r cov; cbn; intro H; [discriminate|]. now injection H as <- _.
  - do 3 eexists. split; [vm_compute; reflexivity|]. split; [now left|reflexivity].
Qed.

Print Assumptions difference_real_partial.
Print Assumptions every_difference_found_partial.
Print Assumptions none_found_means_alike_partial.
Print Assumptions report_right.
Print Assumptions exhausted_means_alike_refuted.
Print Assumptions passed_over_refuted.
Print Assumptions difference_real_refuted.
Print Assumptions iteration_limit_refuted.
Print Assumptions example_real_partial.
Print Assumptions examples_cover_partial.
Print Assumptions example_real_refuted.
