(** Invariants of the coverage heuristic. *)
From Coq Require Import ZArith QArith Qround List Bool Lia ZifyBool ZifyNat Permutation.
From Verif Require Import Py Oracle_Model Oracle_Spec.
Import ListNotations.
Open Scope Z_scope.
Open Scope list_scope.

Lemma get_put : forall A (l : list (Z * A)) k k' v,
  get k (put k' v l) = if k =? k' then Some v else get k l.
Proof.
  induction l as [|[a b] l IH]; intros k k' v; cbn [put get].
  - reflexivity.
  - destruct (Z.eqb_spec k' a) as [E|E]; cbn [get].
    + subst a. destruct (k =? k'); reflexivity.
    + rewrite IH. destruct (Z.eqb_spec k a) as [E'|E'].
      * subst a. destruct (Z.eqb_spec k k'); [lia|reflexivity].
      * reflexivity.
Qed.

Lemma mem_In : forall k l, mem k l = true <-> In k l.
Proof.
  intros k l. unfold mem. rewrite existsb_exists. split.
  - intros [x [H E]]. apply Z.eqb_eq in E. subst. exact H.
  - intros H. exists k. split; [exact H|apply Z.eqb_refl].
Qed.

Definition sgn (v : bool) (u : Z) : Z := if v then u else - u.
Definition sm (s : cov) (l : Z) : list Z :=
  match get l (summ s) with Some k => k | None => [] end.

(* ---- identities *)
Definition ids_ok (objs : list object) (s : cov) : Prop :=
  (forall t u, get t (expr_id s) = Some u -> 0 < u /\ In (u, t) objs) /\
  (forall a u, get a (id_id s) = Some u ->
     exists t, In (a, t) objs /\ get t (expr_id s) = Some u).

Definition ids_grow (s s' : cov) : Prop :=
  forall t u, get t (expr_id s) = Some u -> get t (expr_id s') = Some u.

Definition same_but_ids (s s' : cov) : Prop :=
  visits s' = visits s /\ iters s' = iters s /\ summ s' = summ s /\ probs s' = probs s.

Lemma truthy_pos : forall u, 0 < u -> truthy (Some u) = Some u.
Proof. intros u H. cbn [truthy]. destruct (Z.eqb_spec u 0); [lia|reflexivity]. Qed.

Lemma internalize_ok : forall objs o s u s',
  ids_ok objs s -> unshared (o :: objs) -> 0 < fst o ->
  internalize o s = (u, s') ->
  ids_ok (o :: objs) s' /\ ids_grow s s' /\ same_but_ids s s' /\
  get (snd o) (expr_id s') = Some u.
Proof.
  intros objs [a e] s u s' [A B] U P H. cbn [fst snd] in *. unfold internalize in H.
  destruct (get a (id_id s)) as [v|] eqn:G.
  - destruct (B _ _ G) as [t [I1 G1]]. destruct (A _ _ G1) as [Pv I2].
    rewrite truthy_pos in H by exact Pv. injection H as <- <-.
    assert (t = e).
    { apply (U a); [right; exact I1|left; reflexivity]. }
    subst t. split; [|split; [|split]].
    + split.
      * intros t u G'. destruct (A _ _ G') as [? ?]. split; [assumption|right; assumption].
      * intros a' u G'. destruct (B _ _ G') as [t' [? ?]]. exists t'.
        split; [right; assumption|assumption].
    + intros t u G'. exact G'.
    + repeat (split; [reflexivity|]); reflexivity.
    + exact G1.
  - cbn [truthy] in H. destruct (get e (expr_id s)) as [v|] eqn:G1.
    + destruct (A _ _ G1) as [Pv I2]. rewrite truthy_pos in H by exact Pv.
      injection H as <- <-. split; [|split; [|split]]; cbn [expr_id id_id].
      * split; cbn [expr_id id_id].
        { intros t u G'. destruct (A _ _ G') as [? ?].
          split; [assumption|right; assumption]. }
        { intros a' u. rewrite get_put. destruct (Z.eqb_spec a' a) as [E|E].
          - intros [= <-]. subst a'. exists e. split; [left; reflexivity|exact G1].
          - intros G'. destruct (B _ _ G') as [t' [? ?]]. exists t'.
            split; [right; assumption|assumption]. }
      * intros t u G'. exact G'.
      * repeat (split; [reflexivity|]); reflexivity.
      * exact G1.
    + cbn [truthy] in H. injection H as <- <-.
      split; [|split; [|split]]; cbn [expr_id id_id].
      * split; cbn [expr_id id_id].
        { intros t u. rewrite get_put. destruct (Z.eqb_spec t e) as [E|E].
          - intros [= <-]. subst t. split; [exact P|left; reflexivity].
          - intros G'. destruct (A _ _ G') as [? ?].
            split; [assumption|right; assumption]. }
        { intros a' u. rewrite get_put. destruct (Z.eqb_spec a' a) as [E|E].
          - intros [= <-]. subst a'. exists e. split; [left; reflexivity|].
            rewrite get_put, Z.eqb_refl. reflexivity.
          - intros G'. destruct (B _ _ G') as [t' [I' G2]]. exists t'.
            split; [right; assumption|].
            rewrite get_put. destruct (Z.eqb_spec t' e) as [E'|E']; [|exact G2].
            subst t'. congruence. }
      * intros t u G'. cbn [expr_id]. rewrite get_put.
        destruct (Z.eqb_spec t e) as [E|E]; [|exact G']. subst t. congruence.
      * repeat (split; [reflexivity|]); reflexivity.
      * rewrite get_put, Z.eqb_refl. reflexivity.
Qed.

Lemma ids_inj : forall objs s t t' u,
  ids_ok objs s -> unshared objs ->
  get t (expr_id s) = Some u -> get t' (expr_id s) = Some u -> t = t'.
Proof.
  intros objs s t t' u [A _] U G G'.
  destruct (A _ _ G) as [_ I]. destruct (A _ _ G') as [_ I']. exact (U _ _ _ I I').
Qed.

(* ---- the summaries *)
Definition said (s : cov) (t : Z) (v : bool) (k : Z) : Prop :=
  exists u, get t (expr_id s) = Some u /\ k = sgn v u.

Definition led_ok (hist : list (list step)) (s : cov) : Prop :=
  (forall l t v, led hist l t v -> exists u, get t (expr_id s) = Some u) /\
  (forall l k, In k (sm s l) <-> exists t v, led hist l t v /\ said s t v k).

Lemma led_ok_grow : forall hist s s',
  led_ok hist s -> ids_grow s s' -> summ s' = summ s -> led_ok hist s'.
Proof.
  intros hist s s' [K C] G E. split.
  - intros l t v L. destruct (K _ _ _ L) as [u Hu]. exists u. exact (G _ _ Hu).
  - intros l k. unfold sm. rewrite E. change (In k (sm s l) <-> exists t v, led hist l t v /\ said s' t v k).
    rewrite C. split; intros [t [v [L [u [Gu Ek]]]]]; exists t, v;
      (split; [exact L|]); exists u.
    + split; [exact (G _ _ Gu)|exact Ek].
    + split; [|exact Ek]. destruct (K _ _ _ L) as [u0 H0].
      pose proof (G _ _ H0) as H1. rewrite Gu in H1. injection H1 as ->. exact H0.
Qed.

Lemma add_keys_In : forall conds old k,
  In k (fold_left add_key conds old) <-> In k old \/ In k conds.
Proof.
  induction conds as [|c conds IH]; intros old k; cbn [fold_left].
  - cbn [In]. tauto.
  - rewrite IH. unfold add_key. destruct (mem c old) eqn:M.
    + apply mem_In in M. cbn [In]. split; [tauto|].
      intros [H|[H|H]]; [tauto|subst; tauto|tauto].
    + rewrite in_app_iff. cbn [In]. tauto.
Qed.

Lemma add_keys_NoDup : forall conds old,
  NoDup old -> NoDup (fold_left add_key conds old).
Proof.
  induction conds as [|c conds IH]; intros old N; cbn [fold_left]; [exact N|].
  apply IH. unfold add_key. destruct (mem c old) eqn:M; [exact N|].
  apply NoDup_rev in N. rewrite <- (rev_involutive (old ++ [c])).
  apply NoDup_rev. rewrite rev_app_distr. cbn [rev app]. constructor; [|exact N].
  rewrite <- in_rev. intros I. apply mem_In in I. congruence.
Qed.

(* ---- led on a growing path *)
Lemma snoc_split : forall (A : Type) (pre : list A) (x : A) p1 s p2,
  pre ++ [x] = p1 ++ s :: p2 ->
  (p1 = pre /\ s = x /\ p2 = []) \/ exists p2', p2 = p2' ++ [x] /\ pre = p1 ++ s :: p2'.
Proof.
  intros A pre x p1 s p2 H.
  destruct p2 as [|y p2] using rev_ind.
  - left. apply app_inj_tail in H. destruct H. auto.
  - clear IHp2. right. exists p2.
    rewrite app_comm_cons, app_assoc in H. apply app_inj_tail in H.
    destruct H as [H ->]. split; [reflexivity|exact H].
Qed.

Definition no_detached (pre : list step) : Prop := forall x, In x pre -> ~ detached x.

Lemma led_snoc : forall pre x l t v,
  led_path (pre ++ [x]) l t v <->
  led_path pre l t v \/
  ((exists pos o n, x = SNode l false pos o n) /\
   (forall y, In y pre -> ~ located y l) /\ no_detached pre /\
   exists y, In y pre /\ decides y t v).
Proof.
  intros pre x l t v. split.
  - intros [p1 [s [p2 [pos [o [n [E [Es [F [D W]]]]]]]]]].
    destruct (snoc_split _ _ _ _ _ _ E) as [[-> [-> ->]]|[p2' [-> ->]]].
    + right. split; [exists pos, o, n; exact Es|]. split; [exact F|]. split; [exact D|exact W].
    + left. exists p1, s, p2', pos, o, n. split; [reflexivity|].
      split; [exact Es|]. split; [exact F|]. split; [exact D|exact W].
  - intros [[p1 [s [p2 [pos [o [n [E [Es [F [D W]]]]]]]]]]|[[pos [o [n Ex]]] [F [D W]]]].
    + exists p1, s, (p2 ++ [x]), pos, o, n. split.
      { rewrite E, <- app_assoc. reflexivity. }
      split; [exact Es|]. split; [exact F|]. split; [exact D|exact W].
    + exists pre, x, [], pos, o, n. split; [reflexivity|].
      split; [exact Ex|]. split; [exact F|]. split; [exact D|exact W].
Qed.

(** Nothing after a detached branch counts. *)
Lemma led_detached : forall pre x rest l t v,
  detached x ->
  (led_path (pre ++ x :: rest) l t v <-> led_path (pre ++ [x]) l t v).
Proof.
  intros pre x rest l t v D. split.
  - induction rest as [|y rest IH] using rev_ind; [tauto|].
    rewrite app_comm_cons, app_assoc, led_snoc.
    intros [H|[_ [_ [N _]]]]; [exact (IH H)|].
    exfalso. apply (N x); [apply in_or_app; right; left; reflexivity|exact D].
  - intros H. induction rest as [|y rest IH] using rev_ind; [exact H|].
    rewrite app_comm_cons, app_assoc, led_snoc. left. exact IH.
Qed.

Lemma led_cons : forall p hist l t v,
  led (p :: hist) l t v <-> led_path p l t v \/ led hist l t v.
Proof.
  intros p hist l t v. unfold led. split.
  - intros [q [[->|I] L]]; [left; exact L|right; exists q; split; assumption].
  - intros [L|[q [I L]]]; [exists p; split; [left; reflexivity|exact L]|].
    exists q. split; [right; exact I|exact L].
Qed.

Lemma led_nil : forall l t v, ~ led_path [] l t v.
Proof.
  intros l t v [p1 [s [p2 [pos [o [n [E _]]]]]]]. destruct p1; discriminate.
Qed.

Definition loop_ok (pre : list step) (locs conds : list Z) (s : cov) : Prop :=
  (forall l, In l locs <-> exists x, In x pre /\ located x l) /\
  (forall t v, (exists x, In x pre /\ decides x t v) ->
     exists u, get t (expr_id s) = Some u) /\
  (forall k, In k conds <-> exists t v, (exists x, In x pre /\ decides x t v) /\ said s t v k).

Lemma led_cong : forall h h' s,
  (forall l t v, led h l t v <-> led h' l t v) -> led_ok h s -> led_ok h' s.
Proof.
  intros h h' s E [K C]. split.
  - intros l t v L. apply (K l t v). apply E. exact L.
  - intros l k. rewrite C. split; intros [t [v [L S]]]; exists t, v;
      (split; [apply E; exact L|exact S]).
Qed.

Lemma sm_summarize : forall l l' conds s,
  sm (summarize l conds s) l' =
  if l' =? l then fold_left add_key conds (sm s l) else sm s l'.
Proof.
  intros l l' conds s. unfold sm, summarize. cbn [summ]. rewrite get_put.
  destruct (Z.eqb_spec l' l); reflexivity.
Qed.

(** One step of the loop that reaches a branch. *)
Lemma reach_ok : forall pre hist locs conds s loc mv pos o n,
  no_detached pre ->
  loop_ok pre locs conds s -> led_ok (pre :: hist) s ->
  led_ok ((pre ++ [SNode loc mv pos o n]) :: hist)
    (if negb (mem loc locs) && negb mv then summarize loc conds s else s).
Proof.
  intros pre hist locs conds s loc mv pos o n ND [HL [HD HC]] [K C].
  assert (N : mem loc locs = true <-> exists x, In x pre /\ located x loc).
  { rewrite mem_In. apply HL. }
  destruct (negb (mem loc locs) && negb mv) eqn:E.
  - apply andb_true_iff in E. destruct E as [E1 E2].
    apply negb_true_iff in E1. apply negb_true_iff in E2. subst mv.
    assert (F : forall y, In y pre -> ~ located y loc).
    { intros y I L. assert (mem loc locs = true) by (apply N; exists y; auto). congruence. }
    split.
    + intros l t v L. change (expr_id (summarize loc conds s)) with (expr_id s).
      apply led_cons in L. destruct L as [L|L].
      * apply led_snoc in L. destruct L as [L|[_ [_ [_ W]]]].
        { apply (K l t v). apply led_cons. left. exact L. }
        { exact (HD t v W). }
      * apply (K l t v). apply led_cons. right. exact L.
    + intros l k. rewrite sm_summarize.
      assert (S : forall t v, said (summarize loc conds s) t v k <-> said s t v k)
        by (intros; reflexivity).
      destruct (Z.eqb_spec l loc) as [El|El].
      * subst l. rewrite add_keys_In, C, HC. split.
        { intros [[t [v [L Sd]]]|[t [v [W Sd]]]]; exists t, v; (split; [|apply S; exact Sd]).
          - apply led_cons in L. apply led_cons. destruct L as [L|L]; [left|right; exact L].
            apply led_snoc. left. exact L.
          - apply led_cons. left. apply led_snoc. right.
            split; [exists pos, o, n; reflexivity|]. split; [exact F|]. split; [exact ND|exact W]. }
        { intros [t [v [L Sd]]]. apply S in Sd. apply led_cons in L. destruct L as [L|L].
          - apply led_snoc in L. destruct L as [L|[_ [_ [_ W]]]].
            + left. exists t, v. split; [apply led_cons; left; exact L|exact Sd].
            + right. exists t, v. split; [exact W|exact Sd].
          - left. exists t, v. split; [apply led_cons; right; exact L|exact Sd]. }
      * rewrite C. split; intros [t [v [L Sd]]]; exists t, v; (split; [|apply S; exact Sd]);
          apply led_cons in L; apply led_cons; (destruct L as [L|L]; [left|right; exact L]).
        { apply led_snoc. left. exact L. }
        { apply led_snoc in L. destruct L as [L|[[p' [o' [n' X]]] _]]; [exact L|].
          injection X. intros. congruence. }
  - apply (led_cong (pre :: hist)); [|split; assumption].
    intros l t v. rewrite !led_cons, led_snoc. split; [tauto|].
    intros [[L|[[p' [o' [n' X]]] [F _]]]|L]; [tauto| |tauto].
    injection X as -> -> _ _ _. exfalso.
    rewrite andb_true_r in E. apply negb_false_iff in E. apply N in E.
    destruct E as [y [I Ly]]. exact (F y I Ly).
Qed.

Lemma loop_ok_grow : forall pre locs conds s s',
  loop_ok pre locs conds s -> ids_grow s s' -> loop_ok pre locs conds s'.
Proof.
  intros pre locs conds s s' [HL [HD HC]] G. split; [exact HL|]. split.
  - intros t v W. destruct (HD t v W) as [u Hu]. exists u. exact (G _ _ Hu).
  - intros k. rewrite HC. split; intros [t [v [W [u [Gu Ek]]]]]; exists t, v;
      (split; [exact W|]); exists u.
    + split; [exact (G _ _ Gu)|exact Ek].
    + split; [|exact Ek]. destruct (HD t v W) as [u0 H0].
      pose proof (G _ _ H0) as H1. rewrite Gu in H1. injection H1 as ->. exact H0.
Qed.

Lemma exists_snoc : forall (P : step -> Prop) pre x,
  (exists y, In y (pre ++ [x]) /\ P y) <-> (exists y, In y pre /\ P y) \/ P x.
Proof.
  intros P pre x. split.
  - intros [y [I H]]. apply in_app_iff in I. destruct I as [I|[->|[]]]; [left|right; exact H].
    exists y. auto.
  - intros [[y [I H]]|H]; [exists y|exists x]; (split; [apply in_app_iff|exact H]).
    + left. exact I.
    + right. left. reflexivity.
Qed.

(** ... and records the way taken. *)
Lemma taken_ok : forall pre locs conds s loc mv pos a t nxt u v0,
  loop_ok pre locs conds s -> get t (expr_id s) = Some u ->
  (nxt = NPos /\ v0 = pos \/ nxt = NNeg /\ v0 = negb pos) ->
  loop_ok (pre ++ [SNode loc mv pos (a, t) nxt]) (locs ++ [loc]) (conds ++ [sgn v0 u]) s.
Proof.
  intros pre locs conds s loc mv pos a t nxt u v0 [HL [HD HC]] G V.
  assert (Dx : forall t' v', decides (SNode loc mv pos (a, t) nxt) t' v' <-> t' = t /\ v' = v0).
  { intros t' v'. split.
    - intros [l' [m' [p' [a' [[E ->]|[E ->]]]]]]; injection E as -> -> -> -> -> ->;
        (split; [reflexivity|]); destruct V as [[V1 V2]|[V1 V2]]; try discriminate; auto.
    - intros [-> ->]. exists loc, mv, pos, a.
      destruct V as [[-> ->]|[-> ->]]; [left|right]; split; reflexivity. }
  split; [|split].
  - intros l. rewrite in_app_iff, HL, exists_snoc. cbn [In]. split.
    + intros [H|[->|[]]]; [tauto|]. right. exists mv, pos, (a, t), nxt. reflexivity.
    + intros [H|[m' [p' [o' [n' E]]]]]; [tauto|]. injection E as -> _ _ _ _. tauto.
  - intros t' v'. rewrite exists_snoc. intros [H|H]; [exact (HD t' v' H)|].
    apply Dx in H. destruct H as [-> ->]. exists u. exact G.
  - intros k. rewrite in_app_iff, HC. cbn [In]. split.
    + intros [[t' [v' [W Sd]]]|[<-|[]]].
      * exists t', v'. split; [apply exists_snoc; left; exact W|exact Sd].
      * exists t, v0. split; [apply exists_snoc; right; apply Dx; split; reflexivity|].
        exists u. split; [exact G|reflexivity].
    + intros [t' [v' [W Sd]]]. apply exists_snoc in W. destruct W as [W|W].
      * left. exists t', v'. split; assumption.
      * apply Dx in W. destruct W as [-> ->]. destruct Sd as [u' [G' ->]].
        rewrite G in G'. injection G' as <-. right. left. reflexivity.
Qed.

Lemma decides_sgn : forall (pos : bool) u,
  (if pos then u else - u) = sgn pos u /\ - (if pos then u else - u) = sgn (negb pos) u.
Proof. intros [|] u; cbn [sgn negb]; lia. Qed.

Lemma unshared_sub : forall a b, unshared b -> incl a b -> unshared a.
Proof. intros a b U I x t t' H H'. exact (U x t t' (I _ H) (I _ H')). Qed.

Lemma ids_ok_sub : forall a b s, ids_ok a s -> incl a b -> ids_ok b s.
Proof.
  intros a b s [A B] I. split.
  - intros t u G. destruct (A _ _ G) as [P H]. split; [exact P|exact (I _ H)].
  - intros x u G. destruct (B _ _ G) as [t [H G']]. exists t. split; [exact (I _ H)|exact G'].
Qed.

Definition frame (s s' : cov) : Prop :=
  visits s' = visits s /\ iters s' = iters s /\ probs s' = probs s /\ ids_grow s s'.

Lemma frame_trans : forall a b c, frame a b -> frame b c -> frame a c.
Proof.
  intros a b c [A1 [A2 [A3 A4]]] [B1 [B2 [B3 B4]]].
  split; [congruence|]. split; [congruence|]. split; [congruence|].
  intros t u G. exact (B4 _ _ (A4 _ _ G)).
Qed.

Lemma post_loop_ok : forall p pre hist objs locs conds s,
  no_detached pre -> Forall proper_step p ->
  unshared (objects_of p ++ objs) -> ids_ok objs s ->
  loop_ok pre locs conds s -> led_ok (pre :: hist) s ->
  exists s', post_loop p locs conds s = Ok (locs ++ seen p, s') /\
    ids_ok (objects_of p ++ objs) s' /\ led_ok ((pre ++ p) :: hist) s' /\ frame s s'.
Proof.
  induction p as [|x p IH]; intros pre hist objs locs conds s ND PP U IO LO LE.
  - exists s. cbn [post_loop seen objects_of flat_map app]. rewrite !app_nil_r.
    split; [reflexivity|]. split; [exact IO|]. split; [exact LE|].
    split; [reflexivity|]. split; [reflexivity|]. split; [reflexivity|]. intros t u G. exact G.
  - inversion PP as [|? ? Px PP']; subst.
    destruct x as [|loc mv pos o nxt].
    + cbn [post_loop seen].
      change (objects_of (SOther :: p)) with (objects_of p) in *.
      destruct (IH (pre ++ [SOther]) hist objs locs conds s) as [s' [E [I [L F]]]]; auto.
      * intros y H [l [m [q [ob D]]]]. apply in_app_iff in H.
        destruct H as [H|[H|[]]]; [|subst; discriminate].
        apply (ND y H). exists l, m, q, ob. exact D.
      * destruct LO as [HL [HD HC]].
        assert (Q1 : forall l, ~ located SOther l) by (intros l [? [? [? [? X]]]]; discriminate).
        assert (Q2 : forall t v, ~ decides SOther t v).
        { intros t v [? [? [? [? [[X _]|[X _]]]]]]; discriminate. }
        split; [|split].
        { intros l. rewrite HL, exists_snoc. specialize (Q1 l). tauto. }
        { intros t v. rewrite exists_snoc. intros [H|H]; [exact (HD t v H)|].
          destruct (Q2 t v H). }
        { intros k. rewrite HC. split; intros [t [v [W Sd]]]; exists t, v; (split; [|exact Sd]).
          - apply exists_snoc. left. exact W.
          - apply exists_snoc in W. destruct W as [W|W]; [exact W|destruct (Q2 t v W)]. }
      * apply (led_cong (pre :: hist)); [|exact LE].
        intros l t v. rewrite !led_cons, led_snoc. split; [tauto|].
        intros [[H|[[? [? [? X]]] _]]|H]; [tauto|discriminate|tauto].
      * exists s'. rewrite <- app_assoc in L. split; [exact E|]. split; [exact I|].
        split; [exact L|exact F].
    + destruct Px as [Pa Pn].
      pose proof (reach_ok pre hist locs conds s loc mv pos o nxt ND LO LE) as R.
      cbn [post_loop].
      set (s1 := if negb (mem loc locs) && negb mv then summarize loc conds s else s) in *.
      assert (Fs : frame s s1 /\ expr_id s1 = expr_id s /\ id_id s1 = id_id s).
      { unfold s1. destruct (negb (mem loc locs) && negb mv);
          (split; [|split; reflexivity]); (split; [reflexivity|]);
          (split; [reflexivity|]); (split; [reflexivity|]); intros t u G; exact G. }
      destruct Fs as [Fs [Es1 Es2]].
      assert (IO1 : ids_ok objs s1).
      { destruct IO as [A B]. split; rewrite Es1; [exact A|rewrite Es2; exact B]. }
      assert (LO1 : loop_ok pre locs conds s1).
      { apply (loop_ok_grow pre locs conds s); [exact LO|]. apply Fs. }
      clearbody s1.
      assert (Eo : objects_of (SNode loc mv pos o nxt :: p) = o :: objects_of p) by reflexivity.
      rewrite Eo in *. cbn [app] in U.
      destruct (internalize o s1) as [u s2] eqn:EI.
      destruct (internalize_ok objs o s1 u s2 IO1) as [IO2 [G2 [[V1 [V2 [V3 V4]]] Gu]]]; auto.
      { apply (unshared_sub _ (o :: objects_of p ++ objs)); [exact U|].
        intros y [->|H]; [left; reflexivity|]. right. apply in_app_iff. right. exact H. }
      assert (F12 : frame s1 s2).
      { split; [exact V1|]. split; [exact V2|]. split; [exact V4|exact G2]. }
      assert (R2 : led_ok ((pre ++ [SNode loc mv pos o nxt]) :: hist) s2).
      { exact (led_ok_grow _ s1 s2 R G2 V3). }
      assert (LO2 : loop_ok pre locs conds s2) by exact (loop_ok_grow _ _ _ s1 s2 LO1 G2).
      destruct o as [a t]. cbn [snd fst] in *.
      assert (NEXT : forall v0, (nxt = NPos /\ v0 = pos \/ nxt = NNeg /\ v0 = negb pos) ->
        exists s', post_loop p (locs ++ [loc]) (conds ++ [sgn v0 u]) s2
                   = Ok ((locs ++ [loc]) ++ seen p, s') /\
          ids_ok (((a, t) :: objects_of p) ++ objs) s' /\
          led_ok ((pre ++ SNode loc mv pos (a, t) nxt :: p) :: hist) s' /\ frame s s').
      { intros v0 V.
        destruct (IH (pre ++ [SNode loc mv pos (a, t) nxt]) hist ((a, t) :: objs)
                    (locs ++ [loc]) (conds ++ [sgn v0 u]) s2)
          as [s' [E [I [L F]]]]; auto.
        - intros y H D. apply in_app_iff in H. destruct H as [H|[H|[]]].
          + exact (ND y H D).
          + subst y. destruct D as [l [m [q [ob D]]]]. injection D as _ _ _ _ D.
            destruct V as [[V _]|[V _]]; congruence.
        - apply (unshared_sub _ ((a, t) :: objects_of p ++ objs)); [exact U|].
          intros y H. apply in_app_iff in H. destruct H as [H|[H|H]];
            [right; apply in_app_iff; left; exact H|left; exact H|
             right; apply in_app_iff; right; exact H].
        - apply taken_ok; assumption.
        - exists s'. split; [exact E|]. split.
          { apply (ids_ok_sub _ _ _ I). intros y H. apply in_app_iff in H.
            destruct H as [H|[H|H]]; [right; apply in_app_iff; left; exact H|left; exact H|
              right; apply in_app_iff; right; exact H]. }
          split; [rewrite <- app_assoc in L; exact L|].
          exact (frame_trans _ _ _ (frame_trans _ _ _ Fs F12) F). }
      destruct (decides_sgn pos u) as [S1 S2]. cbn [seen].
      destruct nxt; [| | |congruence].
      * exists s1. split; [reflexivity|]. split.
        { apply (ids_ok_sub objs); [exact IO1|]. intros y H. right. apply in_app_iff.
          right. exact H. }
        split; [|exact Fs].
        apply (led_cong ((pre ++ [SNode loc mv pos (a, t) NDetached]) :: hist)); [|exact R].
        intros l t' v'. rewrite !led_cons.
        rewrite (led_detached pre (SNode loc mv pos (a, t) NDetached) p); [tauto|].
        exists loc, mv, pos, (a, t). reflexivity.
      * rewrite S1. destruct (NEXT pos) as [s' [E H]]; [left; split; reflexivity|].
        exists s'. split; [|exact H]. rewrite E, <- app_assoc. reflexivity.
      * rewrite S2. destruct (NEXT (negb pos)) as [s' [E H]]; [right; split; reflexivity|].
        exists s'. split; [|exact H]. rewrite E, <- app_assoc. reflexivity.
Qed.

(* ---- tweaks and probabilities *)
Lemma put_keys : forall A (l : list (Z * A)) k v x,
  In x (map fst (put k v l)) <-> x = k \/ In x (map fst l).
Proof.
  induction l as [|[a b] l IH]; intros k v x; cbn [put].
  - cbn [map In fst]. intuition congruence.
  - destruct (Z.eqb_spec k a) as [E|E]; cbn [map In fst].
    + subst. intuition congruence.
    + rewrite IH. intuition congruence.
Qed.

Lemma put_NoDup : forall A (l : list (Z * A)) k v,
  NoDup (map fst l) -> NoDup (map fst (put k v l)).
Proof.
  induction l as [|[a b] l IH]; intros k v N; cbn [put].
  - cbn [map]. constructor; [intros []|constructor].
  - cbn [map fst] in N. inversion N as [|? ? N1 N2]; subst.
    destruct (Z.eqb_spec k a) as [E|E]; cbn [map fst].
    + subst. constructor; assumption.
    + constructor; [|apply IH; exact N2]. rewrite put_keys. intros [H|H]; [congruence|].
      exact (N1 H).
Qed.

Lemma get_In : forall A (l : list (Z * A)) k v, get k l = Some v -> In (k, v) l.
Proof.
  induction l as [|[a b] l IH]; intros k v G; cbn [get] in G; [discriminate|].
  destruct (Z.eqb_spec k a) as [E|E].
  - injection G as ->. subst. left. reflexivity.
  - right. apply IH. exact G.
Qed.

Lemma In_get : forall A (l : list (Z * A)) k v,
  NoDup (map fst l) -> In (k, v) l -> get k l = Some v.
Proof.
  induction l as [|[a b] l IH]; intros k v N I; [destruct I|].
  cbn [map fst] in N. inversion N as [|? ? N1 N2]; subst. cbn [get].
  destruct I as [I|I].
  - injection I as -> ->. rewrite Z.eqb_refl. reflexivity.
  - destruct (Z.eqb_spec k a) as [E|E]; [|apply IH; assumption].
    subst. exfalso. apply N1. apply in_map_iff. exists (a, v). split; [reflexivity|exact I].
Qed.

Definition delta_of (es : list Z) (u : Z) : option Z :=
  match mem u es, mem (- u) es with
  | false, false => None
  | true, false => Some 1
  | false, true => Some (-1)
  | true, true => Some 0
  end.

Lemma mem_snoc : forall k es e, mem k (es ++ [e]) = mem k es || (k =? e).
Proof. intros k es e. unfold mem. rewrite existsb_app. cbn. rewrite orb_false_r. reflexivity. Qed.

Lemma mem_false : forall k l, ~ In k l -> mem k l = false.
Proof.
  intros k l H. destruct (mem k l) eqn:E; [|reflexivity]. apply mem_In in E. contradiction.
Qed.

Lemma tweaks_get : forall es,
  NoDup es -> (forall e, In e es -> e <> 0) ->
  NoDup (map fst (tweaks es)) /\
  forall u, get u (tweaks es) = if 0 <? u then delta_of es u else None.
Proof.
  induction es as [|e es IH] using rev_ind; intros N Z0.
  - split; [constructor|]. intros u. cbn. destruct (0 <? u); reflexivity.
  - assert (N' : NoDup es).
    { apply NoDup_rev in N. rewrite rev_app_distr in N. cbn [rev app] in N.
      inversion N as [|? ? N1 N2]; subst. apply NoDup_rev in N2.
      rewrite rev_involutive in N2. exact N2. }
    assert (Ne : ~ In e es).
    { apply NoDup_rev in N. rewrite rev_app_distr in N. cbn [rev app] in N.
      inversion N as [|? ? N1 N2]; subst. rewrite <- in_rev in N1. exact N1. }
    assert (e <> 0) by (apply Z0; apply in_app_iff; right; left; reflexivity).
    destruct (IH N') as [K G].
    { intros x I. apply Z0. apply in_app_iff. left. exact I. }
    unfold tweaks in *. rewrite fold_left_app. cbn [fold_left].
    set (t := fold_left tweak es []) in *. unfold tweak.
    pose proof (mem_false e es Ne) as Me.
    destruct (Z.leb_spec 0 e) as [L|L]; (split; [apply put_NoDup; exact K|]); intros u;
      rewrite get_put, !G; unfold delta_of; rewrite !mem_snoc.
    + destruct (Z.eqb_spec u e) as [E|E].
      * subst u. destruct (Z.ltb_spec 0 e); [|lia]. rewrite Me, !orb_true_r.
        destruct (Z.eqb_spec (- e) e); [lia|]. rewrite orb_false_r.
        destruct (mem (- e) es); reflexivity.
      * rewrite orb_false_r. destruct (Z.ltb_spec 0 u); [|reflexivity].
        destruct (Z.eqb_spec (- u) e); [lia|]. rewrite orb_false_r. reflexivity.
    + destruct (Z.eqb_spec u (- e)) as [E|E].
      * subst u. rewrite Z.opp_involutive. destruct (Z.ltb_spec 0 (- e)); [|lia].
        rewrite Me, Z.eqb_refl, !orb_true_r.
        destruct (Z.eqb_spec (- e) e); [lia|]. rewrite orb_false_r.
        destruct (mem (- e) es); reflexivity.
      * destruct (Z.ltb_spec 0 u); [|reflexivity].
        destruct (Z.eqb_spec u e); [lia|]. destruct (Z.eqb_spec (- u) e); [lia|].
        rewrite !orb_false_r. reflexivity.
Qed.

Definition dprob (d : Z) : Q := if d =? -1 then 1 # 10 else if d =? 0 then 1 # 4 else 9 # 10.

Lemma probabilities_ok : forall t,
  (forall k d, In (k, d) t -> d = -1 \/ d = 0 \/ d = 1) ->
  exists ps, probabilities t = Ok ps /\
    forall u, get u ps = option_map dprob (get u t).
Proof.
  induction t as [|[k d] t IH]; intros H.
  - exists []. split; reflexivity.
  - destruct IH as [ps [E G]].
    { intros k' d' I. apply (H k'). right. exact I. }
    cbn [probabilities]. rewrite E.
    assert (D : delta_probability d = Ok (dprob d)).
    { assert (X : d = -1 \/ d = 0 \/ d = 1) by (apply (H k); left; reflexivity).
      destruct X as [X|[X|X]]; rewrite X; reflexivity. }
    rewrite D. cbn [bind]. eexists. split; [reflexivity|].
    intros u. cbn [get]. destruct (u =? k); [reflexivity|apply G].
Qed.

Lemma sort_perm : forall v l, Permutation l (sort_options v l).
Proof.
  induction l as [|x l IH]; [constructor|]. cbn [sort_options].
  assert (I : forall m, Permutation (x :: m) (insert v x m)).
  { induction m as [|y m IHm]; [apply Permutation_refl|]. cbn [insert].
    destruct (visits_of v (fst x) <=? visits_of v (fst y))%nat; [apply Permutation_refl|].
    apply (Permutation_trans (perm_swap y x m)). constructor. exact IHm. }
  apply (Permutation_trans (perm_skip x IH)). apply I.
Qed.

Lemma sort_head : forall v l x r,
  sort_options v l = x :: r ->
  forall y, In y l -> (visits_of v (fst x) <= visits_of v (fst y))%nat.
Proof.
  induction l as [|z l IH]; intros x r E y I; [destruct I|].
  cbn [sort_options] in E. destruct (sort_options v l) as [|w m] eqn:S.
  - pose proof (sort_perm v l) as P. rewrite S in P. apply Permutation_sym, Permutation_nil in P.
    subst l. cbn [insert] in E. injection E as <- <-. destruct I as [->|[]]. lia.
  - cbn [insert] in E. specialize (IH w m eq_refl).
    destruct (Nat.leb_spec (visits_of v (fst z)) (visits_of v (fst w))) as [L|L];
      injection E as <- <-.
    + destruct I as [->|I]; [lia|]. specialize (IH y I). lia.
    + destruct I as [->|I]; [lia|]. exact (IH y I).
Qed.

Lemma chosen_bound : forall r n,
  (0 <= r)%Q -> (r < 1)%Q -> (0 < n)%nat -> (chosen_index r n < n)%nat.
Proof.
  intros r n R0 R1 N. unfold chosen_index.
  assert (B : (0 < inject_Z (Z.of_nat n))%Q).
  { change 0%Q with (inject_Z 0). rewrite <- Zlt_Qlt. lia. }
  assert (H : (r * inject_Z (Z.of_nat n) < inject_Z (Z.of_nat n))%Q).
  { rewrite <- (Qmult_1_l (inject_Z (Z.of_nat n))) at 2. apply Qmult_lt_compat_r; assumption. }
  pose proof (Qfloor_le (r * inject_Z (Z.of_nat n))) as F.
  pose proof (Qle_lt_trans _ _ _ F H) as K. rewrite <- Zlt_Qlt in K. lia.
Qed.

Lemma chosen_first : forall r n,
  (0 <= r)%Q -> (r * inject_Z (Z.of_nat n) < 1)%Q -> chosen_index r n = O.
Proof.
  intros r n R0 R1. unfold chosen_index.
  pose proof (Qfloor_le (r * inject_Z (Z.of_nat n))) as F.
  pose proof (Qle_lt_trans _ _ _ F R1) as K. change 1%Q with (inject_Z 1) in K.
  rewrite <- Zlt_Qlt in K. lia.
Qed.

(* ---- nothing can fail *)
Definition safe (s : cov) : Prop :=
  (forall t u, get t (expr_id s) = Some u -> 0 < u) /\
  (forall a u, get a (id_id s) = Some u -> 0 < u) /\
  NoDup (map fst (summ s)) /\
  (forall l ks, In (l, ks) (summ s) -> NoDup ks /\ forall k, In k ks -> k <> 0) /\
  (forall u q, get u (probs s) = Some q -> q = (1 # 10)%Q \/ q = (1 # 4)%Q \/ q = (9 # 10)%Q).

Lemma safe0 : safe cov0.
Proof.
  unfold safe, cov0; cbn. split; [discriminate|]. split; [discriminate|].
  split; [constructor|]. split; [intros l ks []|discriminate].
Qed.

Lemma internalize_safe : forall o s u s',
  safe s -> 0 < fst o -> internalize o s = (u, s') -> 0 < u /\ safe s' /\ summ s' = summ s.
Proof.
  intros [a e] s u s' [S1 [S2 [S3 [S4 S5]]]] P H. cbn [fst] in P. unfold internalize in H.
  destruct (get a (id_id s)) as [v|] eqn:G.
  - rewrite truthy_pos in H by exact (S2 _ _ G). injection H as <- <-.
    split; [exact (S2 _ _ G)|]. split; [|reflexivity].
    split; [exact S1|]. split; [exact S2|]. split; [exact S3|]. split; [exact S4|exact S5].
  - cbn [truthy] in H. destruct (get e (expr_id s)) as [v|] eqn:G1.
    + rewrite truthy_pos in H by exact (S1 _ _ G1). injection H as <- <-.
      split; [exact (S1 _ _ G1)|]. split; [|reflexivity].
      split; [exact S1|]. split; [|split; [exact S3|split; [exact S4|exact S5]]].
      cbn [id_id]. intros a' u. rewrite get_put. destruct (a' =? a).
      * intros [= <-]. exact (S1 _ _ G1).
      * apply S2.
    + cbn [truthy] in H. injection H as <- <-. split; [exact P|]. split; [|reflexivity].
      split; [|split; [|split; [exact S3|split; [exact S4|exact S5]]]]; cbn [expr_id id_id].
      * intros t u. rewrite get_put. destruct (t =? e); [intros [= <-]; exact P|apply S1].
      * intros t u. rewrite get_put. destruct (t =? a); [intros [= <-]; exact P|apply S2].
Qed.

Lemma In_put : forall A (l : list (Z * A)) k v x,
  NoDup (map fst l) -> In x (put k v l) -> x = (k, v) \/ (In x l /\ fst x <> k).
Proof.
  intros A l k v [a b] N I. pose proof (put_NoDup _ l k v N) as N'.
  pose proof (In_get _ _ _ _ N' I) as G. rewrite get_put in G.
  destruct (Z.eqb_spec a k) as [E|E].
  - injection G as ->. subst. left. reflexivity.
  - right. split; [apply get_In; exact G|exact E].
Qed.

Lemma summarize_safe : forall l conds s,
  safe s -> (forall k, In k conds -> k <> 0) -> safe (summarize l conds s).
Proof.
  intros l conds s [S1 [S2 [S3 [S4 S5]]]] C. split; [exact S1|]. split; [exact S2|].
  unfold summarize. cbn [summ probs]. split; [apply put_NoDup; exact S3|].
  split; [|exact S5]. intros l' ks I. apply In_put in I; [|exact S3].
  destruct I as [E|[I _]]; [|exact (S4 _ _ I)]. injection E as -> ->.
  assert (O : NoDup (match get l (summ s) with Some l1 => l1 | None => [] end) /\
              forall k, In k (match get l (summ s) with Some l1 => l1 | None => [] end) -> k <> 0).
  { destruct (get l (summ s)) as [old|] eqn:G.
    - apply (S4 l). apply get_In. exact G.
    - split; [constructor|intros k []]. }
  destruct O as [O1 O2]. split; [apply add_keys_NoDup; exact O1|].
  intros k H. apply add_keys_In in H. destruct H as [H|H]; [exact (O2 k H)|exact (C k H)].
Qed.

Lemma post_loop_safe : forall p locs conds s,
  Forall proper_step p -> safe s -> (forall k, In k conds -> k <> 0) ->
  exists s', post_loop p locs conds s = Ok (locs ++ seen p, s') /\ safe s' /\
    forall l, In l (map fst (summ s')) -> In l (map fst (summ s)) \/ In l (seen p).
Proof.
  induction p as [|x p IH]; intros locs conds s PP S C.
  - exists s. cbn [post_loop seen]. rewrite app_nil_r. split; [reflexivity|].
    split; [exact S|]. intros l H. left. exact H.
  - inversion PP as [|? ? Px PP']; subst. destruct x as [|loc mv pos o nxt].
    + cbn [post_loop seen]. apply IH; assumption.
    + destruct Px as [Pa Pn]. cbn [post_loop].
      set (s1 := if negb (mem loc locs) && negb mv then summarize loc conds s else s).
      assert (H1 : safe s1 /\ forall l, In l (map fst (summ s1)) ->
                     l = loc \/ In l (map fst (summ s))).
      { unfold s1. destruct (negb (mem loc locs) && negb mv).
        - split; [apply summarize_safe; assumption|]. intros l H.
          unfold summarize in H. cbn [summ] in H. apply put_keys in H. exact H.
        - split; [exact S|]. intros l H. right. exact H. }
      destruct H1 as [Ss1 K1]. clearbody s1.
      destruct (internalize o s1) as [u s2] eqn:EI.
      destruct (internalize_safe o s1 u s2 Ss1 Pa EI) as [Pu [Ss2 Es]].
      assert (NEXT : forall k, k <> 0 ->
        exists s', post_loop p (locs ++ [loc]) (conds ++ [k]) s2
                   = Ok (locs ++ loc :: seen p, s') /\ safe s' /\
          forall l, In l (map fst (summ s')) ->
            In l (map fst (summ s)) \/ In l (loc :: seen p)).
      { intros k Hk. destruct (IH (locs ++ [loc]) (conds ++ [k]) s2) as [s' [E [S' K']]]; auto.
        - intros k' I. apply in_app_iff in I. destruct I as [I|[<-|[]]]; [exact (C _ I)|exact Hk].
        - exists s'. rewrite E, <- app_assoc. split; [reflexivity|]. split; [exact S'|].
          intros l H. destruct (K' l H) as [H'|H']; [|right; right; exact H'].
          rewrite Es in H'. destruct (K1 l H') as [->|H2]; [right; left; reflexivity|].
          left. exact H2. }
      destruct nxt; [| | |congruence].
      * exists s1. cbn [seen]. split; [reflexivity|]. split; [exact Ss1|].
        intros l H. destruct (K1 l H) as [->|H2]; [right; left; reflexivity|left; exact H2].
      * cbn [seen]. apply NEXT. destruct pos; lia.
      * cbn [seen]. apply NEXT. destruct pos; lia.
Qed.

Lemma tweaks_safe : forall ks, NoDup ks -> (forall k, In k ks -> k <> 0) ->
  exists ps, probabilities (tweaks ks) = Ok ps /\
    forall u, get u ps = if 0 <? u then option_map dprob (delta_of ks u) else None.
Proof.
  intros ks N NZ. destruct (tweaks_get ks N NZ) as [K G].
  destruct (probabilities_ok (tweaks ks)) as [ps [E H]].
  - intros k d I. apply (In_get _ _ _ _ K) in I. rewrite G in I.
    destruct (0 <? k); [|discriminate]. unfold delta_of in I.
    destruct (mem k ks), (mem (- k) ks); [| | |discriminate]; injection I as <-; lia.
  - exists ps. split; [exact E|]. intros u. rewrite H, G.
    destruct (0 <? u); reflexivity.
Qed.

Lemma dprob_values : forall ks u q,
  option_map dprob (delta_of ks u) = Some q ->
  q = (1 # 10)%Q \/ q = (1 # 4)%Q \/ q = (9 # 10)%Q.
Proof.
  intros ks u q. unfold delta_of. destruct (mem u ks), (mem (- u) ks); cbn; intros [= <-]; auto.
Qed.

(** What pre_path_hook does: no bias, or the bias for a known location. *)
Lemma cov_pre_ok : forall r1 r2 s,
  (0 <= r2)%Q -> (r2 < 1)%Q -> safe s ->
  exists ps, cov_pre r1 r2 s
    = Ok (mkCov (visits s) (iters s) (summ s) ps (expr_id s) (id_id s)) /\
  (ps = [] \/
   exists l ks, In (l, ks) (summ s) /\
     (forall u, get u ps = if 0 <? u then option_map dprob (delta_of ks u) else None) /\
     ((r2 * inject_Z (Z.of_nat (length (summ s))) < 1)%Q ->
      forall y, In y (summ s) -> (visits_of (visits s) l <= visits_of (visits s) (fst y))%nat)).
Proof.
  intros r1 r2 s R0 R1 [S1 [S2 [S3 [S4 S5]]]]. unfold cov_pre.
  destruct (negb (Qle_bool r1 _)); [exists []; split; [reflexivity|left; reflexivity]|].
  destruct (summ s) as [|x0 m0] eqn:Es.
  { exists []. split; [reflexivity|left; reflexivity]. }
  rewrite <- Es in *.
  assert (LB : (chosen_index r2 (length (summ s)) < length (sort_options (visits s) (summ s)))%nat).
  { rewrite <- (Permutation_length (sort_perm (visits s) (summ s))).
    apply chosen_bound; [exact R0|exact R1|]. rewrite Es. cbn [length]. lia. }
  destruct (nth_error _ _) as [[l ks]|] eqn:EN.
  - assert (I : In (l, ks) (summ s)).
    { apply (Permutation_in _ (Permutation_sym (sort_perm (visits s) (summ s)))).
      apply (nth_error_In _ _ EN). }
    destruct (S4 _ _ I) as [N NZ].
    destruct (tweaks_safe ks N NZ) as [ps [Ep Gp]]. rewrite Ep. cbn [bind].
    exists ps. split; [reflexivity|]. right. exists l, ks. split; [exact I|].
    split; [exact Gp|]. intros R. rewrite (chosen_first _ _ R0 R) in EN.
    destruct (sort_options (visits s) (summ s)) as [|x r] eqn:So; [discriminate|].
    cbn [nth_error] in EN. injection EN as ->. intros y Iy.
    exact (sort_head _ _ _ _ So y Iy).
  - apply nth_error_None in EN. lia.
Qed.

(* ---- counting *)
Lemma count_visits : forall locs v l,
  visits_of (fold_left count_visit locs v) l =
  (visits_of v l + count_occ Z.eq_dec locs l)%nat.
Proof.
  induction locs as [|x locs IH]; intros v l; cbn [fold_left].
  - cbn [count_occ]. lia.
  - rewrite IH. unfold count_visit, visits_of at 1. rewrite get_put. cbn [count_occ].
    destruct (Z.eq_dec x l) as [E|E].
    + subst. rewrite Z.eqb_refl. lia.
    + destruct (Z.eqb_spec l x); [congruence|]. fold (visits_of v l). lia.
Qed.
