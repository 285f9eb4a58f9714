(* Proofs about the worker pool under arbitrary schedules. *)
From Coq Require Import ZArith List Bool Lia ZifyBool ZifyNat Arith Permutation.
From Verif Require Import Watch_Model Watch_Spec.
Import ListNotations.
Local Open Scope Z_scope.

Section Pool.
  Variable item : Type.
  Variable deadline : item -> Z.
  Variable max : nat.

  Notation state := (state item).
  Notation step := (step item deadline max).
  Notation step_main := (step_main item deadline max).
  Notation run := (run item deadline max).
  Notation spawn := (spawn item max).
  Notation status_of := (status_of item).
  Notation set_status := (set_status item).
  Notation reach := (reach item deadline max).
  Notation threads := (threads item).
  Notation tracked := (tracked item).
  Notation work := (work item).
  Notation queue := (queue item).
  Notation posted := (posted item).
  Notation yielded := (yielded item).
  Notation pc := (pc item).
  Notation results := (results item).

  (* ---------------------------------------------------------------- *)
  (** ** Threads *)

  Lemma set_status_len : forall l i x, length (set_status l i x) = length l.
  Proof. induction l as [|[a y] l IH]; intros [|i] x; cbn; auto. Qed.

  Lemma set_status_items : forall l i x, map fst (set_status l i x) = map fst l.
  Proof. induction l as [|[a y] l IH]; intros [|i] x; cbn; auto. now rewrite IH. Qed.

  Lemma set_status_nth : forall l i x j,
    nth_error (set_status l i x) j =
    if (i =? j)%nat then match nth_error l j with Some (a, _) => Some (a, x) | None => None end
    else nth_error l j.
  Proof.
    induction l as [|[a y] l IH]; intros [|i] x [|j]; cbn; auto.
    destruct (i =? j)%nat; reflexivity.
  Qed.

  Lemma status_set : forall l i x j,
    status_of (set_status l i x) j =
    if (i =? j)%nat && (j <? length l)%nat then x else status_of l j.
  Proof.
    intros l i x j. unfold Watch_Model.status_of. rewrite set_status_nth.
    destruct (i =? j)%nat; cbn [andb].
    - destruct (nth_error l j) as [[a y]|] eqn:E.
      + assert (j < length l)%nat by (apply nth_error_Some; congruence).
        destruct (j <? length l)%nat eqn:E2; [reflexivity|lia].
      + apply nth_error_None in E. destruct (j <? length l)%nat eqn:E2; [lia|reflexivity].
    - reflexivity.
  Qed.

  Lemma status_out : forall l i, (length l <= i)%nat -> status_of l i = Dead.
  Proof.
    intros l i H. unfold Watch_Model.status_of. apply nth_error_None in H. now rewrite H.
  Qed.

  Lemma alive_in : forall l i, alive (status_of l i) = true -> (i < length l)%nat.
  Proof.
    intros l i H. destruct (Nat.lt_ge_cases i (length l)) as [|Hg]; auto.
    rewrite (status_out l i Hg) in H. discriminate.
  Qed.

  Lemma status_app : forall l k i, (i < length l)%nat -> status_of (l ++ k) i = status_of l i.
  Proof. intros l k i H. unfold Watch_Model.status_of. now rewrite nth_error_app1. Qed.

  (** Threads only move forward. *)
  Lemma step_alive : forall e s i,
    (forall a, e <> Main a) ->
    alive (status_of (threads (step e s)) i) = true -> alive (status_of (threads s) i) = true.
  Proof.
    intros e s i Hm H. destruct e as [a|t|j|j|j]; cbn [Watch_Model.step] in H.
    - exfalso. eapply Hm. reflexivity.
    - exact H.
    - destruct (nth_error (threads s) j) as [[w []]|] eqn:E; auto.
      cbn [Watch_Model.threads] in H. rewrite status_set in H.
      destruct ((j =? i)%nat && (i <? length (threads s))%nat) eqn:E2; auto.
      apply andb_prop in E2. destruct E2 as [E2 _]. apply Nat.eqb_eq in E2. subst j.
      unfold Watch_Model.status_of. now rewrite E.
    - destruct (nth_error (threads s) j) as [[w []]|] eqn:E; auto.
      cbn [Watch_Model.threads] in H. rewrite status_set in H.
      destruct ((j =? i)%nat && (i <? length (threads s))%nat) eqn:E2; auto.
      apply andb_prop in E2. destruct E2 as [E2 _]. apply Nat.eqb_eq in E2. subst j.
      unfold Watch_Model.status_of. now rewrite E.
    - cbn [Watch_Model.threads] in H. rewrite status_set in H.
      destruct ((j =? i)%nat && (i <? length (threads s))%nat) eqn:E2; auto. discriminate.
  Qed.

  (** Events other than steps of the main thread leave everything but threads, queue and
      clock alone. *)
  Lemma step_env : forall e s, (forall a, e <> Main a) ->
    pc (step e s) = pc s /\ work (step e s) = work s /\ tracked (step e s) = tracked s
    /\ yielded (step e s) = yielded s /\ map fst (threads (step e s)) = map fst (threads s).
  Proof.
    intros e s Hm. destruct e as [a|t|j|j|j]; cbn [Watch_Model.step].
    - exfalso. eapply Hm. reflexivity.
    - cbn. auto.
    - destruct (nth_error (threads s) j) as [[w []]|]; cbn; rewrite ?set_status_items; auto.
    - destruct (nth_error (threads s) j) as [[w []]|]; cbn; rewrite ?set_status_items; auto.
    - cbn. rewrite ?set_status_items. auto.
  Qed.

  Lemma fst_len : forall (a b : list (item * status)), map fst a = map fst b -> length a = length b.
  Proof. intros a b H. apply (f_equal (@length item)) in H. now rewrite !map_length in H. Qed.

  (* ---------------------------------------------------------------- *)
  (** ** Spawning *)

  Lemma spawn_ok : forall fuel wk ths tr wk' ths' tr',
    spawn fuel wk ths tr = (wk', ths', tr') ->
    exists started,
      wk = wk' ++ rev started
      /\ ths' = ths ++ map (fun w => (w, Starting)) started
      /\ tr' = tr ++ seq (length ths) (length started)
      /\ ((length tr <= max)%nat -> (length tr' <= max)%nat)
      /\ ((length wk <= fuel)%nat -> wk' = [] \/ (max <= length tr')%nat).
  Proof.
    induction fuel as [|fuel IH]; intros wk ths tr wk' ths' tr' H; cbn [Watch_Model.spawn] in H.
    - injection H as <- <- <-. exists []. cbn. rewrite !app_nil_r.
      repeat split; auto. intro HL. left. destruct wk; [reflexivity|cbn in HL; lia].
    - destruct (rev wk) as [|w rest] eqn:E.
      + injection H as <- <- <-. exists []. cbn. rewrite !app_nil_r. repeat split; auto.
        intros _. left. rewrite <- (rev_involutive wk), E. reflexivity.
      + assert (Hwk : wk = rev rest ++ [w]).
        { rewrite <- (rev_involutive wk), E. reflexivity. }
        destruct (length tr <? max)%nat eqn:EL.
        * destruct (IH _ _ _ _ _ _ H) as [st [H1 [H2 [H3 [H4 H5]]]]].
          exists (w :: st). rewrite app_length in H3. cbn [length] in H3.
          split; [|split; [|split; [|split]]].
          -- rewrite Hwk, H1. cbn [rev]. now rewrite app_assoc.
          -- rewrite H2. rewrite <- app_assoc. reflexivity.
          -- rewrite H3, <- app_assoc. cbn [app seq length].
             now replace (length ths + 1)%nat with (S (length ths)) by lia.
          -- intro HL. apply H4. rewrite app_length. cbn. lia.
          -- intro HL. apply H5. rewrite Hwk, app_length in HL. cbn in HL. lia.
        * injection H as <- <- <-. exists []. cbn. rewrite !app_nil_r. repeat split; auto.
          intros _. right. lia.
  Qed.

  (* ---------------------------------------------------------------- *)
  (** ** The invariant *)

  Definition lookup_items (l : list (item * status)) (idx : list nat) : list (option item) :=
    map (fun i => nth_error (map fst l) i) idx.

  Record inv (subs : list item) (s : state) : Prop := {
    i_nodup : NoDup (tracked s);
    i_range : forall i, In i (tracked s) -> (i < length (threads s))%nat;
    i_max : (length (tracked s) <= max)%nat;
    i_alive : forall i, alive (status_of (threads s) i) = true -> In i (tracked s);
    i_keep : forall todo kept nx, pc s = PKeep todo kept nx ->
      NoDup (kept ++ todo) /\ incl (kept ++ todo) (tracked s)
      /\ (forall i, alive (status_of (threads s) i) = true -> In i (kept ++ todo));
    i_fifo : results (yielded s) ++ queue s = posted s;
    i_once : exists idx, NoDup idx
      /\ (forall i, In i idx -> (i < length (threads s))%nat
            /\ (status_of (threads s) i = Posted \/ status_of (threads s) i = Dead))
      /\ lookup_items (threads s) idx = map Some (posted s);
    i_subs : pc s = PAborted \/ Permutation subs (work s ++ map fst (threads s));
    i_incl : forall w, In w (map fst (threads s)) -> In w subs;
    i_done : pc s = PDone \/ pc s = PIdle -> tracked s = [] /\ work s = []
  }.

  Lemma results_app : forall a b, results (a ++ b) = results a ++ results b.
  Proof. induction a as [|[r|] a IH]; intro b; cbn; auto. now rewrite IH. Qed.

  Lemma inv_new : forall t, inv [] (new_pool item t).
  Proof.
    intro t. constructor; cbn; auto; try (intros; contradiction).
    - constructor.
    - lia.
    - intros i H. unfold Watch_Model.status_of in H. destruct i; discriminate.
    - discriminate.
    - exists []. split; [constructor|]. split; [intros i []|reflexivity].
  Qed.

  Lemma inv_pass : forall subs s items, inv subs s -> pc s = PDone \/ pc s = PIdle ->
    inv (subs ++ items) (begin_pass item items s).
  Proof.
    intros subs s items [H1 H2 H3 H4 H5 H6 H7 H8 H10 H9] Hd.
    constructor; cbn; auto; try discriminate.
    - right. destruct H8 as [H8|H8]; [destruct Hd; congruence|].
      rewrite H8. rewrite <- !app_assoc. apply Permutation_app_head. apply Permutation_app_comm.
    - intros w Hw. apply in_app_iff. left. auto.
    - intros [H|H]; discriminate.
  Qed.

  Lemma inv_env : forall e subs s, (forall a, e <> Main a) -> inv subs s -> inv subs (step e s).
  Proof.
    intros e subs s Hm I. destruct (step_env e s Hm) as [P1 [P2 [P3 [P4 P5]]]].
    pose proof (fst_len _ _ P5) as PL.
    destruct I as [H1 H2 H3 H4 H5 H6 H7 H8 H10 H9].
    constructor; rewrite ?P1, ?P2, ?P3, ?P4, ?P5, ?PL; auto.
    - intros i Hi. apply H4. eapply step_alive; eauto.
    - intros todo kept nx Hp. destruct (H5 _ _ _ Hp) as [K1 [K2 K3]].
      repeat split; auto. intros i Hi. apply K3. eapply step_alive; eauto.
    - (* queue and posted grow together *)
      destruct e as [a|t|j|j|j]; cbn [Watch_Model.step]; auto.
      + exfalso. eapply Hm. reflexivity.
      + destruct (nth_error (threads s) j) as [[w []]|]; auto.
      + destruct (nth_error (threads s) j) as [[w []]|]; cbn; auto.
        rewrite app_assoc, H6. reflexivity.
    - destruct H7 as [idx [N1 [N2 N3]]].
      assert (HL : forall l', map fst l' = map fst (threads s) ->
                lookup_items l' idx = lookup_items (threads s) idx).
      { intros l' Hl. unfold lookup_items. now rewrite Hl. }
      destruct e as [a|t|j|j|j].
      + exfalso. eapply Hm. reflexivity.
      + exists idx. cbn. auto.
      + cbn [Watch_Model.step]. destruct (nth_error (threads s) j) as [[w []]|] eqn:E;
          try (exists idx; auto; fail).
        exists idx. cbn. split; auto. split.
        * intros i Hi. destruct (N2 i Hi) as [N4 N5]. rewrite status_set. split; auto.
          destruct ((j =? i)%nat && (i <? length (threads s))%nat) eqn:E2; auto.
          apply andb_prop in E2. destruct E2 as [E2 _]. apply Nat.eqb_eq in E2. subst j.
          exfalso. unfold Watch_Model.status_of in N5. rewrite E in N5. destruct N5; discriminate.
        * rewrite HL; [exact N3|apply set_status_items].
      + cbn [Watch_Model.step]. destruct (nth_error (threads s) j) as [[w []]|] eqn:E;
          try (exists idx; auto; fail).
        exists (idx ++ [j]). cbn.
        assert (Hj : ~ In j idx).
        { intro Hj. destruct (N2 j Hj) as [_ N5]. unfold Watch_Model.status_of in N5.
          rewrite E in N5. destruct N5; discriminate. }
        assert (Hjl : (j < length (threads s))%nat) by (apply nth_error_Some; congruence).
        split; [|split].
        * apply (Permutation_NoDup (l := j :: idx)).
          -- apply Permutation_cons_append.
          -- constructor; auto.
        * intros i Hi. apply in_app_iff in Hi. rewrite status_set.
          destruct Hi as [Hi|[<-|[]]].
          -- destruct (N2 i Hi) as [N4 N5]. split; auto.
             destruct ((j =? i)%nat && (i <? length (threads s))%nat); auto.
          -- split; auto. left. rewrite Nat.eqb_refl. cbn [andb].
             destruct (j <? length (threads s))%nat eqn:E2; [reflexivity|lia].
        * unfold lookup_items. rewrite !map_app. fold (lookup_items (set_status (threads s) j Posted) idx).
          rewrite HL by apply set_status_items. rewrite N3. f_equal. cbn. f_equal.
          rewrite set_status_items. rewrite nth_error_map, E. reflexivity.
      + cbn [Watch_Model.step]. exists idx. cbn. split; auto. split.
        * intros i Hi. destruct (N2 i Hi) as [N4 N5]. rewrite status_set. split; auto.
          destruct ((j =? i)%nat && (i <? length (threads s))%nat); auto.
        * rewrite HL; [exact N3|apply set_status_items].
  Qed.

  Lemma nodup_incl_len : forall (a b : list nat), NoDup a -> incl a b -> (length a <= length b)%nat.
  Proof. intros. now apply NoDup_incl_length. Qed.

  (** changing only the program counter *)
  Lemma inv_pc : forall subs s p, inv subs s ->
    p <> PDone -> p <> PIdle -> pc s <> PAborted ->
    (forall todo kept nx, p = PKeep todo kept nx ->
      NoDup (kept ++ todo) /\ incl (kept ++ todo) (tracked s)
      /\ (forall i, alive (status_of (threads s) i) = true -> In i (kept ++ todo))) ->
    inv subs (set_pc item p s).
  Proof.
    intros subs s p [H1 H2 H3 H4 H5 H6 H7 H8 H10 H9] N1 N2 N3 HK.
    constructor; cbn; auto.
    - destruct H8; [contradiction|now right].
    - intros [H|H]; contradiction.
  Qed.

  Lemma inv_main : forall subs s a, inv subs s -> inv subs (step_main a s).
  Proof.
    intros subs s a I. unfold Watch_Model.step_main.
    destruct (pc s) as [todo ct nx|i todo ct nx|todo kept nx|nx| | | | | | | |] eqn:EP; auto.
    - (* PKill *)
      destruct todo as [|i todo].
      + apply inv_pc; auto; try discriminate; try congruence.
        intros t k n H. injection H as <- <- <-. cbn. destruct I. repeat split; auto.
        apply incl_refl.
      + destruct (over_deadline item deadline ct (threads s) i);
          apply inv_pc; auto; try discriminate; congruence.
    - (* PJoin *)
      destruct (alive (status_of (threads s) i)); auto.
      apply inv_pc; auto; try discriminate; congruence.
    - (* PKeep *)
      destruct (i_keep _ _ I _ _ _ EP) as [K1 [K2 K3]].
      destruct todo as [|i todo].
      + rewrite app_nil_r in *. unfold prune_done.
        destruct I as [H1 H2 H3 H4 H5 H6 H7 H8 H10 H9].
        assert (HL : (length kept <= max)%nat).
        { pose proof (nodup_incl_len kept (tracked s) K1 K2). lia. }
        assert (Hp : Permutation subs (work s ++ map fst (threads s))) by (destruct H8; [congruence|auto]).
        destruct nx; constructor; cbn; auto; try discriminate;
          try (intros [H|H]; discriminate).
        rewrite results_app. cbn. rewrite app_nil_r. exact H6.
      + destruct (alive (status_of (threads s) i)) eqn:EA.
        * apply inv_pc; auto; try discriminate; try congruence.
          intros t k n H. injection H as <- <- <-. rewrite <- app_assoc. cbn. auto.
        * apply inv_pc; auto; try discriminate; try congruence.
          intros t k n H. injection H as <- <- <-. split; [|split].
          -- apply NoDup_remove in K1. tauto.
          -- intros x Hx. apply K2. apply in_app_iff in Hx. apply in_app_iff.
             destruct Hx; [now left|right; now right].
          -- intros x Hx. specialize (K3 x Hx). apply in_app_iff in K3. apply in_app_iff.
             destruct K3 as [K3|[->|K3]]; auto. congruence.
    - (* PSpawn *)
      destruct (spawn (length (work s)) (work s) (threads s) (tracked s)) as [[wk ths] tr] eqn:ES.
      destruct (spawn_ok _ _ _ _ _ _ _ ES) as [st [S1 [S2 [S3 [S4 S5]]]]].
      destruct I as [H1 H2 H3 H4 H5 H6 H7 H8 H10 H9].
      destruct H8 as [H8|H8]; [congruence|].
      assert (Hitems : map fst ths = map fst (threads s) ++ st).
      { rewrite S2, map_app, map_map. cbn. now rewrite map_id. }
      assert (Hlen : length ths = (length (threads s) + length st)%nat).
      { rewrite S2, app_length, map_length. reflexivity. }
      assert (HP : Permutation subs (wk ++ map fst ths)).
      { rewrite H8, Hitems, S1, <- app_assoc. apply Permutation_app_head.
        rewrite (Permutation_app_comm (map fst (threads s)) st).
        apply Permutation_app_tail. symmetry. apply Permutation_rev. }
      constructor; cbn.
      + rewrite S3. clear S5. assert (HS : forall i, In i (seq (length (threads s)) (length st)) -> ~ In i (tracked s)).
        { intros i Hi Hj. apply in_seq in Hi. specialize (H2 i Hj). lia. }
        revert H1 HS. generalize (tracked s) as tr0. intros tr0 HN HS.
        induction tr0 as [|x tr0 IH]; cbn; [apply seq_NoDup|].
        inversion HN; subst. constructor.
        * rewrite in_app_iff. intros [Hx|Hx]; [contradiction|]. apply (HS x Hx). now left.
        * apply IH; auto. intros i Hi Hj. apply (HS i Hi). now right.
      + intros i Hi. rewrite Hlen. rewrite S3 in Hi. apply in_app_iff in Hi. destruct Hi as [Hi|Hi].
        * specialize (H2 i Hi). lia.
        * apply in_seq in Hi. lia.
      + auto.
      + intros i Hi. rewrite S3. apply in_app_iff. pose proof (alive_in _ _ Hi) as HL. rewrite Hlen in HL.
        destruct (Nat.lt_ge_cases i (length (threads s))) as [Hlt|Hge].
        * left. apply H4. rewrite S2, status_app in Hi by exact Hlt. exact Hi.
        * right. apply in_seq. lia.
      + intros todo kept nx' Hx. destruct nx; discriminate.
      + exact H6.
      + destruct H7 as [idx [N1 [N2 N3]]]. exists idx. split; auto. split.
        * intros i Hi. destruct (N2 i Hi) as [N4 N5]. rewrite S2, status_app, app_length by exact N4.
          split; [lia|exact N5].
        * rewrite <- N3. unfold lookup_items. apply map_ext_in. intros i Hi.
          rewrite Hitems. apply nth_error_app1. rewrite map_length. apply N2. exact Hi.
      + right. exact HP.
      + intros w Hw. apply (Permutation_in w (Permutation_sym HP)). apply in_app_iff. now right.
      + destruct nx; intros [Hx|Hx]; discriminate.
    - (* PFirst *)
      destruct (is_working item s) eqn:EW.
      + apply inv_pc; auto; try discriminate; congruence.
      + assert (tracked s = [] /\ work s = []).
        { unfold is_working in EW. destruct (tracked s), (work s); try discriminate. auto. }
        destruct I as [H1 H2 H3 H4 H5 H6 H7 H8 H10 H9].
        constructor; cbn; auto; try discriminate.
        * rewrite results_app. cbn. rewrite app_nil_r. exact H6.
        * destruct H8; [congruence|now right].
    - (* PLoop *)
      destruct (is_working item s) eqn:EW.
      + apply inv_pc; auto; try discriminate; congruence.
      + assert (tracked s = [] /\ work s = []).
        { unfold is_working in EW. destruct (tracked s), (work s); try discriminate. auto. }
        destruct I as [H1 H2 H3 H4 H5 H6 H7 H8 H10 H9].
        constructor; cbn; auto; try discriminate.
        destruct H8; [congruence|now right].
    - (* PGet *)
      destruct (queue s) as [|r q] eqn:EQ.
      + apply inv_pc; auto; try discriminate; congruence.
      + destruct I as [H1 H2 H3 H4 H5 H6 H7 H8 H10 H9].
        constructor; cbn; auto; try discriminate.
        * rewrite results_app. cbn. rewrite <- app_assoc. cbn. rewrite <- EQ. exact H6.
        * destruct H8; [congruence|now right].
        * intros [H|H]; discriminate.
    - destruct (queue s); apply inv_pc; auto; try discriminate; congruence.
    - destruct a; apply inv_pc; auto; try discriminate; congruence.
  Qed.

  Lemma inv_step : forall subs s e, inv subs s -> inv subs (step e s).
  Proof.
    intros subs s e I. destruct e as [a|t|j|j|j].
    - apply inv_main. exact I.
    - apply inv_env; auto; discriminate.
    - apply inv_env; auto; discriminate.
    - apply inv_env; auto; discriminate.
    - apply inv_env; auto; discriminate.
  Qed.

  Lemma reach_inv : forall subs s, reach subs s -> inv subs s.
  Proof.
    intros subs s H. induction H.
    - apply inv_new.
    - apply inv_step. exact IHreach.
    - apply inv_pass; auto.
  Qed.

  Lemma run_app : forall a b s, run (a ++ b) s = run b (run a s).
  Proof. intros. unfold Watch_Model.run. apply fold_left_app. Qed.

  Lemma run_inv : forall es subs s, inv subs s -> inv subs (run es s).
  Proof. induction es as [|e es IH]; cbn; intros subs s I; auto. apply IH. apply inv_step. exact I. Qed.

  Lemma reach_run : forall es subs s, reach subs s -> reach subs (run es s).
  Proof. induction es as [|e es IH]; cbn; intros subs s I; auto. apply IH. now constructor. Qed.

  (* ---------------------------------------------------------------- *)
  (** ** How many workers run at once *)

  Definition alive_threads (l : list (item * status)) : list (item * status) :=
    filter (fun e => alive (snd e)) l.

  Definition alive_idx (l : list (item * status)) : list nat :=
    filter (fun i => alive (status_of l i)) (seq 0 (length l)).

  Lemma alive_count_shift : forall l e k,
    length (filter (fun i => alive (status_of (e :: l) i)) (seq (S k) (length l)))
    = length (filter (fun i => alive (status_of l i)) (seq k (length l))).
  Proof.
    intros l e k. rewrite <- seq_shift.
    generalize (seq k (length l)) as q. induction q as [|x q IH]; cbn; auto.
    change (status_of (e :: l) (S x)) with (status_of l x).
    destruct (alive (status_of l x)); cbn; now rewrite IH.
  Qed.

  Lemma alive_count : forall l, length (alive_threads l) = length (alive_idx l).
  Proof.
    induction l as [|[w x] l IH]; auto.
    unfold alive_threads, alive_idx in *. cbn [filter length seq snd].
    change (status_of ((w, x) :: l) 0) with x.
    destruct (alive x); cbn [length]; rewrite IH, alive_count_shift; reflexivity.
  Qed.

  Lemma bounded : forall subs s, inv subs s -> (length (alive_threads (threads s)) <= max)%nat.
  Proof.
    intros subs s I. rewrite alive_count.
    apply Nat.le_trans with (length (tracked s)); [|apply I].
    apply nodup_incl_len.
    - apply NoDup_filter. apply seq_NoDup.
    - intros i Hi. apply filter_In in Hi. apply (i_alive _ _ I). tauto.
  Qed.

  (* ---------------------------------------------------------------- *)
  (** ** No result is delivered twice *)

  Section Count.
    Variable eq_dec : forall x y : item, {x = y} + {x <> y}.

    Lemma nth_perm : forall (l : list item) (idx : list nat) out,
      NoDup idx -> map (fun i => nth_error l i) idx = map Some out ->
      forall x, (count_occ eq_dec out x <= count_occ eq_dec l x)%nat.
    Proof.
      (* the positions holding [x] on the left are distinct positions holding [x] in [l] *)
      assert (Hpos : forall (l : list item) x k,
        length (filter (fun i => match nth_error l (i - k) with
                                 | Some y => if eq_dec y x then true else false
                                 | None => false end) (seq k (length l)))
        = count_occ eq_dec l x).
      { induction l as [|y l IH]; intros x k; auto.
        cbn [length seq filter count_occ]. rewrite Nat.sub_diag. cbn [nth_error].
        assert (Hs : length (filter (fun i => match nth_error (y :: l) (i - k) with
                                 | Some z => if eq_dec z x then true else false
                                 | None => false end) (seq (S k) (length l)))
                     = count_occ eq_dec l x).
        { rewrite <- (IH x (S k)). f_equal. apply filter_ext_in. intros i Hi.
          apply in_seq in Hi. replace (i - k)%nat with (S (i - S k)) by lia. reflexivity. }
        destruct (eq_dec y x); cbn [length]; now rewrite Hs. }
      intros l idx out HN HE x.
      rewrite <- (Hpos l x 0%nat).
      assert (Hout : count_occ eq_dec out x =
                length (filter (fun i => match nth_error l (i - 0) with
                                 | Some y => if eq_dec y x then true else false
                                 | None => false end) idx)).
      { clear HN. revert out HE. induction idx as [|i idx IH]; intros [|o out] HE; try discriminate; auto.
        cbn [map] in HE. injection HE as H1 H2. cbn [filter count_occ]. rewrite Nat.sub_0_r, H1.
        destruct (eq_dec o x); cbn [length]; now rewrite (IH out H2). }
      rewrite Hout. apply NoDup_incl_length; [apply NoDup_filter; exact HN|].
      intros i Hi. apply filter_In in Hi. destruct Hi as [Hi H].
      apply filter_In. split; auto. apply in_seq.
      destruct (nth_error l (i - 0)) eqn:E; [|discriminate].
      assert (i - 0 < length l)%nat by (apply nth_error_Some; congruence). lia.
    Qed.

    Lemma delivered_once : forall subs s x, inv subs s ->
      pc s <> PAborted ->
      (count_occ eq_dec (results (yielded s)) x + count_occ eq_dec (queue s) x
         <= count_occ eq_dec (map fst (threads s)) x)%nat
      /\ (count_occ eq_dec (map fst (threads s)) x + count_occ eq_dec (work s) x
         = count_occ eq_dec subs x)%nat.
    Proof.
      intros subs s x I Hp. destruct I as [H1 H2 H3 H4 H5 H6 H7 H8 H10 H9]. split.
      - rewrite <- count_occ_app, H6. destruct H7 as [idx [N1 [N2 N3]]].
        eapply nth_perm; eauto.
      - destruct H8 as [H8|H8]; [contradiction|].
        rewrite (proj1 (Permutation_count_occ eq_dec _ _) H8 x), count_occ_app. lia.
    Qed.
  End Count.

  (* ---------------------------------------------------------------- *)
  (** ** The end of a pass *)

  Lemma done_all_dead : forall subs s, inv subs s -> pc s = PDone \/ pc s = PIdle ->
    (forall w x, In (w, x) (threads s) -> x = Dead) /\ Permutation subs (map fst (threads s)).
  Proof.
    intros subs s I Hp. destruct (i_done _ _ I Hp) as [T W]. split.
    - intros w x Hin. apply In_nth_error in Hin. destruct Hin as [i Hi].
      destruct (alive x) eqn:EA; [|destruct x; try discriminate; reflexivity].
      exfalso. assert (Hx : alive (status_of (threads s) i) = true).
      { unfold Watch_Model.status_of. now rewrite Hi. }
      apply (i_alive _ _ I) in Hx. rewrite T in Hx. contradiction.
    - destruct (i_subs _ _ I) as [H|H]; [destruct Hp; congruence|].
      rewrite W in H. exact H.
  Qed.

  (** A pass that ends drains every result that was there when it began. *)
  Definition drained (n : nat) (s : state) : Prop :=
    match pc s with
    | PKill _ _ GoFirst | PJoin _ _ _ GoFirst | PKeep _ _ GoFirst | PSpawn GoFirst | PFirst => True
    | PLoop | PGet | PMore => is_working item s = true \/ (n <= length (results (yielded s)))%nat
    | PIdle => True
    | _ => (n <= length (results (yielded s)))%nat
    end.

  Lemma fifo_len : forall subs s, inv subs s ->
    (length (results (yielded s)) + length (queue s) = length (posted s))%nat.
  Proof. intros subs s I. rewrite <- (i_fifo _ _ I), app_length. reflexivity. Qed.

  Lemma posted_main : forall a s, posted (step_main a s) = posted s.
  Proof.
    intros a s. unfold Watch_Model.step_main, prune_done, set_pc.
    destruct (pc s) as [[|i todo] ct nx|i todo ct nx|[|i todo] kept nx|nx| | | | | | | |]; cbn; auto.
    - destruct (over_deadline item deadline ct (threads s) i); reflexivity.
    - destruct (alive (status_of (threads s) i)); reflexivity.
    - destruct nx; reflexivity.
    - destruct (alive (status_of (threads s) i)); reflexivity.
    - destruct (spawn (length (work s)) (work s) (threads s) (tracked s)) as [[wk ths] tr]. reflexivity.
    - destruct (is_working item s); reflexivity.
    - destruct (is_working item s); reflexivity.
    - destruct (queue s); reflexivity.
    - destruct (queue s); reflexivity.
    - destruct a; reflexivity.
  Qed.

  Lemma posted_grows : forall e s, (length (posted s) <= length (posted (step e s)))%nat.
  Proof.
    intros e s. destruct e as [a|t|j|j|j]; cbn [Watch_Model.step]; auto.
    - rewrite posted_main. auto.
    - destruct (nth_error (threads s) j) as [[w []]|]; cbn; auto.
    - destruct (nth_error (threads s) j) as [[w []]|]; cbn; auto. rewrite app_length. lia.
  Qed.

  Lemma drained_step : forall n subs s e, inv subs s -> (n <= length (posted s))%nat ->
    drained n s -> drained n (step e s).
  Proof.
    intros n subs s e I Hn HD.
    destruct (match e with Main a => Some a | _ => None end) as [a|] eqn:Em.
    2: { assert (Hm : forall a, e <> Main a) by (intros a ->; discriminate).
         destruct (step_env e s Hm) as [P1 [P2 [P3 [P4 P5]]]].
         unfold drained, is_working in *. rewrite P1, P2, P3, P4. exact HD. }
    destruct e; try discriminate. injection Em as ->. cbn [Watch_Model.step].
    pose proof (fifo_len _ _ I) as HF.
    unfold Watch_Model.step_main, drained, set_pc in *.
    destruct (pc s) as [todo ct nx|i todo ct nx|todo kept nx|nx| | | | | | | |] eqn:EP.
    - destruct todo as [|i todo]; [destruct nx; cbn; auto|].
      destruct (over_deadline item deadline ct (threads s) i); destruct nx; cbn; auto.
    - destruct (alive (status_of (threads s) i)); [rewrite EP; exact HD|]. destruct nx; cbn; auto.
    - destruct todo as [|i todo].
      + unfold prune_done. destruct nx; cbn; auto. rewrite results_app. cbn. rewrite app_nil_r. exact HD.
      + destruct (alive (status_of (threads s) i)); destruct nx; cbn; auto.
    - destruct (spawn (length (work s)) (work s) (threads s) (tracked s)) as [[wk ths] tr].
      destruct nx; cbn; auto.
    - destruct (is_working item s) eqn:EW; cbn; auto.
    - destruct (is_working item s) eqn:EW; cbn.
      + left. exact EW.
      + destruct HD; [discriminate|auto].
    - destruct (queue s) as [|r q] eqn:EQ; cbn.
      + cbn in HF. lia.
      + destruct HD as [HD|HD]; [left; exact HD|right].
        rewrite results_app, app_length. lia.
    - destruct (queue s) as [|r q] eqn:EQ; cbn.
      + cbn in HF. lia.
      + destruct HD as [HD|HD]; [left; exact HD|right; exact HD].
    - destruct a; cbn; exact HD.
    - rewrite EP. exact HD.
    - rewrite EP. exact HD.
    - rewrite EP. exact HD.
  Qed.

  Lemma drained_run : forall es n subs s, inv subs s -> (n <= length (posted s))%nat ->
    drained n s -> drained n (run es s).
  Proof.
    induction es as [|e es IH]; cbn; intros n subs s I Hn HD; auto.
    eapply IH.
    - apply inv_step. exact I.
    - pose proof (posted_grows e s). lia.
    - eapply drained_step; eauto.
  Qed.

  Lemma posted_run : forall es s, exists new, posted (run es s) = posted s ++ new.
  Proof.
    induction es as [|e es IH]; intro s.
    - exists []. now rewrite app_nil_r.
    - change (run (e :: es) s) with (run es (step e s)). destruct (IH (step e s)) as [new Hnew]. rewrite Hnew.
      assert (Hs : exists x, posted (step e s) = posted s ++ x).
      { destruct e as [a|t|j|j|j]; cbn [Watch_Model.step]; try (exists []; now rewrite app_nil_r).
        - exists []. rewrite app_nil_r. apply posted_main.
        - exists []. rewrite app_nil_r. destruct (nth_error (threads s) j) as [[w []]|]; reflexivity.
        - destruct (nth_error (threads s) j) as [[w []]|];
            try (exists []; now rewrite app_nil_r).
          exists [w]. reflexivity. }
      destruct Hs as [x Hx]. rewrite Hx. exists (x ++ new). now rewrite app_assoc.
  Qed.

  Lemma leftovers : forall subs s items es, inv subs s -> pc s = PDone \/ pc s = PIdle ->
    pc (run es (begin_pass item items s)) = PDone ->
    exists later, results (yielded (run es (begin_pass item items s))) = posted s ++ later.
  Proof.
    intros subs s items es I Hp HD.
    pose proof (inv_pass subs s items I Hp) as I2.
    assert (HL : drained (length (posted s)) (run es (begin_pass item items s))).
    { apply (drained_run es (length (posted s)) _ _ I2); cbn; auto. }
    unfold drained in HL. rewrite HD in HL.
    pose proof (run_inv es _ _ I2) as I3.
    destruct (posted_run es (begin_pass item items s)) as [new Hnew]. cbn in Hnew.
    pose proof (i_fifo _ _ I3) as HF. rewrite Hnew in HF.
    remember (results (yielded (run es (begin_pass item items s)))) as R eqn:HR. clear HR.
    assert (Hfn : firstn (length (posted s)) R = posted s).
    { assert (HX : firstn (length (posted s)) (R ++ queue (run es (begin_pass item items s)))
                   = firstn (length (posted s)) (posted s ++ new)) by now rewrite HF.
      rewrite firstn_app in HX. replace (length (posted s) - length R)%nat with 0%nat in HX by lia.
      cbn [firstn] in HX. rewrite app_nil_r in HX.
      rewrite firstn_app, firstn_all, Nat.sub_diag in HX. cbn [firstn] in HX.
      now rewrite app_nil_r in HX. }
    exists (skipn (length (posted s)) R). rewrite <- Hfn at 1. symmetry. apply firstn_skipn.
  Qed.

  (* ---------------------------------------------------------------- *)
  (** ** The order in which files are taken *)

  Lemma order : forall es items t,
    exists rest, rev items =
      map fst (threads (run es (begin_pass item items (new_pool item t)))) ++ rest.
  Proof.
    intros es items t.
    assert (HG : forall es s,
      (pc s = PAborted \/ rev items = map fst (threads s) ++ rev (work s)) ->
      (exists rest, rev items = map fst (threads s) ++ rest) ->
      (exists rest, rev items = map fst (threads (run es s)) ++ rest)).
    { clear es. induction es as [|e es IH]; intros s HI HE; [exact HE|].
      cbn [Watch_Model.run fold_left]. apply IH.
      - destruct (match e with Main a => Some a | _ => None end) as [a|] eqn:Em.
        2: { assert (Hm : forall a, e <> Main a) by (intros a ->; discriminate).
             destruct (step_env e s Hm) as [P1 [P2 [P3 [P4 P5]]]]. rewrite P1, P2, P5. exact HI. }
        destruct e; try discriminate. injection Em as ->. cbn [Watch_Model.step].
        unfold Watch_Model.step_main, prune_done, set_pc.
        destruct (pc s) as [[|i todo] ct nx|i todo ct nx|[|i todo] kept nx|nx| | | | | | | |] eqn:EP;
          cbn; auto.
        + destruct HI; [discriminate|auto].
        + destruct HI as [HI|HI]; [discriminate|].
          destruct (over_deadline item deadline ct (threads s) i); cbn; auto.
        + destruct HI as [HI|HI]; [discriminate|].
          destruct (alive (status_of (threads s) i)); cbn; auto.
        + destruct HI as [HI|HI]; [discriminate|]. destruct nx; cbn; auto.
        + destruct HI as [HI|HI]; [discriminate|].
          destruct (alive (status_of (threads s) i)); cbn; auto.
        + destruct HI as [HI|HI]; [discriminate|].
          destruct (spawn (length (work s)) (work s) (threads s) (tracked s)) as [[wk ths] tr] eqn:ES.
          destruct (spawn_ok _ _ _ _ _ _ _ ES) as [st [S1 [S2 _]]].
          right. cbn. rewrite HI, S1, S2, rev_app_distr, rev_involutive, map_app, map_map.
          cbn. rewrite map_id, app_assoc. reflexivity.
        + destruct HI as [HI|HI]; [discriminate|]. destruct (is_working item s); cbn; auto.
        + destruct HI as [HI|HI]; [discriminate|]. destruct (is_working item s); cbn; auto.
        + destruct HI as [HI|HI]; [discriminate|]. destruct (queue s); cbn; auto.
        + destruct HI as [HI|HI]; [discriminate|]. destruct (queue s); cbn; auto.
        + destruct HI as [HI|HI]; [discriminate|]. destruct a; cbn; auto.
        + rewrite EP. exact HI.
        + rewrite EP. exact HI.
      - destruct (match e with Main a => Some a | _ => None end) as [a|] eqn:Em.
        2: { assert (Hm : forall a, e <> Main a) by (intros a ->; discriminate).
             destruct (step_env e s Hm) as [P1 [P2 [P3 [P4 P5]]]]. rewrite P5. exact HE. }
        destruct e; try discriminate. injection Em as ->. cbn [Watch_Model.step].
        unfold Watch_Model.step_main, prune_done, set_pc.
        destruct (pc s) as [[|i todo] ct nx|i todo ct nx|[|i todo] kept nx|nx| | | | | | | |] eqn:EP;
          cbn; auto.
        + destruct (over_deadline item deadline ct (threads s) i); cbn; auto.
        + destruct (alive (status_of (threads s) i)); cbn; auto.
        + destruct nx; cbn; auto.
        + destruct (alive (status_of (threads s) i)); cbn; auto.
        + destruct HI as [HI|HI]; [discriminate|].
          destruct (spawn (length (work s)) (work s) (threads s) (tracked s)) as [[wk ths] tr] eqn:ES.
          destruct (spawn_ok _ _ _ _ _ _ _ ES) as [st [S1 [S2 _]]].
          exists (rev wk). cbn. rewrite HI, S1, S2, rev_app_distr, rev_involutive, map_app, map_map.
          cbn. rewrite map_id, app_assoc. reflexivity.
        + destruct (is_working item s); cbn; auto.
        + destruct (is_working item s); cbn; auto.
        + destruct (queue s); cbn; auto.
        + destruct (queue s); cbn; auto.
        + destruct a; cbn; auto. }
    apply HG; cbn; eauto.
  Qed.

  (* ---------------------------------------------------------------- *)
  (** ** Ending early *)

  Definition ending (s : state) : Prop :=
    (forall i, status_of (threads s) i <> Starting) /\
    match pc s with
    | PKill todo None GoAbort => forall i, alive (status_of (threads s) i) = true -> In i todo
    | PJoin j todo None GoAbort =>
        forall i, alive (status_of (threads s) i) = true -> i = j \/ In i todo
    | PKeep _ _ GoAbort | PAborted => forall i, alive (status_of (threads s) i) = false
    | _ => False
    end.

  Lemma not_starting : forall e s, (forall a, e <> Main a) ->
    (forall i, status_of (threads s) i <> Starting) ->
    forall i, status_of (threads (step e s)) i <> Starting.
  Proof.
    intros e s Hm HN i. destruct e as [a|t|j|j|j]; cbn [Watch_Model.step].
    - exfalso. eapply Hm. reflexivity.
    - apply HN.
    - destruct (nth_error (threads s) j) as [[w []]|]; try apply HN. cbn. rewrite status_set.
      destruct ((j =? i)%nat && (i <? length (threads s))%nat); [discriminate|apply HN].
    - destruct (nth_error (threads s) j) as [[w []]|]; try apply HN. cbn. rewrite status_set.
      destruct ((j =? i)%nat && (i <? length (threads s))%nat); [discriminate|apply HN].
    - cbn. rewrite status_set.
      destruct ((j =? i)%nat && (i <? length (threads s))%nat); [discriminate|apply HN].
  Qed.

  Lemma ending_step : forall s e, ending s -> ending (step e s).
  Proof.
    intros s e [HN HP].
    destruct (match e with Main a => Some a | _ => None end) as [a|] eqn:Em.
    2: { assert (Hm : forall a, e <> Main a) by (intros a ->; discriminate).
         destruct (step_env e s Hm) as [P1 _]. split; [apply not_starting; auto|]. rewrite P1.
         assert (HA : forall i, alive (status_of (threads s) i) = false ->
                                alive (status_of (threads (step e s)) i) = false).
         { intros i H. destruct (alive (status_of (threads (step e s)) i)) eqn:E; auto.
           apply (step_alive e s i Hm) in E. congruence. }
         destruct (pc s) as [todo [ct|] nx|j todo [ct|] nx|todo kept nx|nx| | | | | | | |];
           try contradiction; try (destruct nx; try contradiction).
         - intros i Hi. apply HP. eapply step_alive; eauto.
         - intros i Hi. apply HP. eapply step_alive; eauto.
         - auto.
         - auto. }
    destruct e; try discriminate. injection Em as ->. cbn [Watch_Model.step].
    unfold Watch_Model.step_main, ending, set_pc in *.
    destruct (pc s) as [todo [ct|] nx|j todo [ct|] nx|todo kept nx|nx| | | | | | | |] eqn:EP;
      try contradiction; try (destruct nx; try contradiction).
    - destruct todo as [|i todo].
      + cbn. split; auto. intro i. destruct (alive (status_of (threads s) i)) eqn:E; auto.
        exfalso. exact (HP i E).
      + destruct (over_deadline item deadline None (threads s) i) eqn:EO; cbn; split; auto.
        * intros k Hk. destruct (HP k Hk) as [<-|H]; auto.
        * intros k Hk. destruct (HP k Hk) as [<-|H]; auto.
          exfalso. unfold over_deadline in EO. specialize (HN i). unfold Watch_Model.status_of in HN, Hk.
          destruct (nth_error (threads s) i) as [[w x]|]; [|discriminate].
          rewrite Hk in EO. destruct x; try discriminate. now apply HN.
    - destruct (alive (status_of (threads s) j)) eqn:E.
      + rewrite EP. auto.
      + cbn. split; auto. intros i Hi. destruct (HP i Hi) as [->|H]; auto. congruence.
    - destruct todo as [|i todo]; cbn; auto. rewrite (HP i). cbn. auto.
    - rewrite EP. auto.
  Qed.

  Lemma ending_run : forall es s, ending s -> ending (run es s).
  Proof. induction es as [|e es IH]; cbn; intros s H; auto. apply IH. now apply ending_step. Qed.

  Lemma abort_clean : forall subs s es, inv subs s -> pc s = PPeriodic ->
    (forall w x, In (w, x) (threads s) -> x <> Starting) ->
    pc (run (Main true :: es) s) = PAborted ->
    forall w x, In (w, x) (threads (run (Main true :: es) s)) -> x = Dead.
  Proof.
    intros subs s es I Hp HS HA w x Hin. cbn in *.
    assert (HE : ending (step_main true s)).
    { unfold Watch_Model.step_main. rewrite Hp. unfold ending. cbn. split.
      - intros i H. unfold Watch_Model.status_of in H.
        destruct (nth_error (threads s) i) as [[v y]|] eqn:E; [|discriminate].
        apply nth_error_In in E. apply (HS _ _ E). exact H.
      - apply (i_alive _ _ I). }
    apply (ending_run es) in HE. destruct HE as [_ HE].
    fold (run es (step_main true s)) in HA, Hin.
    rewrite HA in HE. apply In_nth_error in Hin. destruct Hin as [i Hi].
    specialize (HE i). unfold Watch_Model.status_of in HE. rewrite Hi in HE.
    destruct x; try discriminate. reflexivity.
  Qed.

  (* ---------------------------------------------------------------- *)
  (** ** Some schedule always finishes the pass *)

  Definition no_abort (es : list event) : Prop := Forall (fun e => e <> Main true) es.

  Definition can (s s' : state) : Prop := exists es, no_abort es /\ run es s = s'.

  Lemma can_refl : forall s, can s s.
  Proof. intro s. exists []. split; [constructor|reflexivity]. Qed.

  Lemma can_trans : forall a b c, can a b -> can b c -> can a c.
  Proof.
    intros a b c [e1 [N1 R1]] [e2 [N2 R2]]. exists (e1 ++ e2). split.
    - apply Forall_app. auto.
    - rewrite run_app, R1. exact R2.
  Qed.

  Lemma can_main : forall s, can s (step_main false s).
  Proof. intro s. exists [Main false]. split; [repeat constructor; discriminate|reflexivity]. Qed.

  Definition all_dead (s : state) : Prop := forall i, alive (status_of (threads s) i) = false.

  (** Every worker may end at any time. *)
  Lemma can_kill : forall s, exists s',
    can s s' /\ all_dead s' /\ pc s' = pc s /\ work s' = work s /\ tracked s' = tracked s
    /\ queue s' = queue s /\ clock item s' = clock item s.
  Proof.
    intro s.
    assert (HG : forall n s, exists s',
      can s s' /\ (forall i, (i < n)%nat -> alive (status_of (threads s') i) = false)
      /\ length (threads s') = length (threads s)
      /\ pc s' = pc s /\ work s' = work s /\ tracked s' = tracked s
      /\ queue s' = queue s /\ clock item s' = clock item s).
    { clear s. induction n as [|n IH]; intro s.
      - exists s. split; [apply can_refl|]. repeat split; auto. intros i Hi. lia.
      - destruct (IH s) as [s1 [C1 [D1 [L1 [P1 [W1 [T1 [Q1 K1]]]]]]]].
        exists (step (Die n) s1). split.
        + eapply can_trans; [exact C1|]. exists [Die n].
          split; [repeat constructor; discriminate|reflexivity].
        + cbn. repeat split; auto; [|now rewrite set_status_len].
          intros i Hi. rewrite status_set.
          destruct ((n =? i)%nat && (i <? length (threads s1))%nat) eqn:E; auto.
          destruct (Nat.lt_ge_cases i (length (threads s1))) as [H|H].
          * apply D1. lia.
          * rewrite status_out by exact H. reflexivity. }
    destruct (HG (length (threads s)) s) as [s1 [C1 [D1 [L1 [P1 [W1 [T1 [Q1 K1]]]]]]]].
    exists s1. repeat split; auto. intro i.
    destruct (Nat.lt_ge_cases i (length (threads s))) as [H|H]; auto.
    rewrite status_out by lia. reflexivity.
  Qed.

  Definition goes_on (nx : after) : Prop := nx <> GoAbort.

  (** With all workers dead, one pruning empties the list of workers. *)
  Lemma prune_keep : forall todo s kept nx, all_dead s -> pc s = PKeep todo kept nx -> goes_on nx ->
    exists s', can s s' /\ all_dead s' /\ pc s' = PSpawn nx /\ work s' = work s /\ tracked s' = kept.
  Proof.
    induction todo as [|i todo IH]; intros s kept nx HD Hp HG.
    - exists (step_main false s). split; [apply can_main|].
      unfold Watch_Model.step_main. rewrite Hp. unfold prune_done, all_dead.
      destruct nx; [| |exfalso; now apply HG]; cbn; auto.
    - destruct (IH (step_main false s) kept nx) as [s' [C [D [P [W T]]]]].
      + unfold Watch_Model.step_main, all_dead. rewrite Hp, (HD i). exact HD.
      + unfold Watch_Model.step_main. rewrite Hp, (HD i). reflexivity.
      + exact HG.
      + exists s'. split; [eapply can_trans; [apply can_main|exact C]|].
        repeat split; auto. rewrite W. unfold Watch_Model.step_main. rewrite Hp, (HD i). reflexivity.
  Qed.

  Lemma prune_kill : forall todo s ct nx, all_dead s -> pc s = PKill todo ct nx -> goes_on nx ->
    exists s', can s s' /\ all_dead s' /\ pc s' = PSpawn nx /\ work s' = work s /\ tracked s' = [].
  Proof.
    induction todo as [|i todo IH]; intros s ct nx HD Hp HG.
    - destruct (prune_keep (tracked s) (step_main false s) [] nx) as [s' [C [D [P [W T]]]]]; auto.
      + unfold Watch_Model.step_main, all_dead. rewrite Hp. exact HD.
      + unfold Watch_Model.step_main. rewrite Hp. reflexivity.
      + exists s'. split; [eapply can_trans; [apply can_main|exact C]|]. repeat split; auto.
        rewrite W. unfold Watch_Model.step_main. rewrite Hp. reflexivity.
    - assert (HO : over_deadline item deadline ct (threads s) i = false).
      { unfold over_deadline. specialize (HD i). unfold Watch_Model.status_of in HD.
        destruct (nth_error (threads s) i) as [[w x]|]; auto. now rewrite HD. }
      destruct (IH (step_main false s) ct nx) as [s' [C [D [P [W T]]]]]; auto.
      + unfold Watch_Model.step_main, all_dead. rewrite Hp, HO. exact HD.
      + unfold Watch_Model.step_main. rewrite Hp, HO. reflexivity.
      + exists s'. split; [eapply can_trans; [apply can_main|exact C]|]. repeat split; auto.
        rewrite W. unfold Watch_Model.step_main. rewrite Hp, HO. reflexivity.
  Qed.

  Lemma can_spawn : forall s nx, pc s = PSpawn nx -> goes_on nx ->
    exists s', can s s' /\ (length (work s') <= length (work s))%nat
      /\ pc s' = match nx with GoFirst => PFirst | _ => PLoop end
      /\ (tracked s = [] -> work s = [] -> tracked s' = [] /\ work s' = [])
      /\ ((0 < max)%nat -> tracked s = [] -> work s <> [] ->
          (length (work s') < length (work s))%nat).
  Proof.
    intros s nx Hp HG.
    exists (step_main false s). split; [apply can_main|].
    unfold Watch_Model.step_main. rewrite Hp.
    destruct (spawn (length (work s)) (work s) (threads s) (tracked s)) as [[wk ths] tr] eqn:ES.
    destruct (spawn_ok _ _ _ _ _ _ _ ES) as [st [S1 [S2 [S3 [S4 S5]]]]].
    cbn. split; [rewrite S1, app_length; lia|]. split; [reflexivity|]. split.
    - intros HT HW. rewrite HW in S1. symmetry in S1. apply app_eq_nil in S1.
      destruct S1 as [-> S1]. assert (st = []) by (rewrite <- (rev_involutive st), S1; reflexivity).
      subst st. rewrite S3, HT. auto.
    - intros HM HT HW. rewrite S1, app_length, rev_length.
      destruct st as [|w st]; [|cbn; lia]. exfalso.
      cbn in S1, S3. rewrite app_nil_r in S1, S3. subst wk.
      destruct (S5 (le_n _)) as [H|H]; [contradiction|]. rewrite S3, HT in H. cbn in H. lia.
  Qed.

  (** From the head of the loop to the moment the pass looks for changes *)
  Lemma drain : forall n s, length (queue s) = n -> pc s = PLoop -> is_working item s = true ->
    exists s', can s s' /\ pc s' = PPeriodic /\ work s' = work s /\ tracked s' = tracked s
               /\ threads s' = threads s.
  Proof.
    induction n as [|n IH]; intros s HQ Hp HW.
    - exists (step_main false (step_main false s)).
      split; [eapply can_trans; apply can_main|].
      unfold Watch_Model.step_main at 2 4 6 8. rewrite Hp, HW.
      unfold Watch_Model.step_main, set_pc. cbn. destruct (queue s); [|discriminate]. cbn. auto.
    - destruct (queue s) as [|r q] eqn:EQ; [discriminate|]. cbn in HQ. injection HQ as HQ.
      remember (step_main false (step_main false s)) as s2 eqn:E2.
      assert (H2 : pc s2 = PMore /\ queue s2 = q /\ work s2 = work s /\ tracked s2 = tracked s
                   /\ threads s2 = threads s).
      { subst s2. unfold Watch_Model.step_main at 2 4 6 8 10. rewrite Hp, HW.
        unfold Watch_Model.step_main, set_pc. cbn. rewrite EQ. cbn. auto. }
      assert (C2 : can s s2) by (subst s2; eapply can_trans; apply can_main).
      clear E2. destruct H2 as [P2 [Q2 [W2 [T2 TH2]]]].
      destruct q as [|r' q'].
      + exists (step_main false s2). split; [eapply can_trans; [exact C2|apply can_main]|].
        unfold Watch_Model.step_main. rewrite P2, Q2. cbn. auto.
      + assert (H3 : pc (step_main false s2) = PLoop /\ queue (step_main false s2) = r' :: q'
                     /\ work (step_main false s2) = work s2 /\ tracked (step_main false s2) = tracked s2
                     /\ threads (step_main false s2) = threads s2).
        { unfold Watch_Model.step_main. rewrite P2, Q2. cbn. auto. }
        destruct H3 as [P3 [Q3 [W3 [T3 TH3]]]].
        destruct (IH (step_main false s2)) as [s' [C [P [W [T TH]]]]].
        * rewrite Q3. exact HQ.
        * exact P3.
        * unfold is_working in *. rewrite T3, W3, T2, W2. exact HW.
        * exists s'. split.
          -- eapply can_trans; [exact C2|]. eapply can_trans; [apply can_main|exact C].
          -- repeat split; congruence.
  Qed.

  Definition finished (s : state) : Prop := pc s = PDone \/ pc s = PIdle.

  Lemma periodic_round : forall s, pc s = PPeriodic ->
    exists s', can s s' /\ pc s' = PLoop
      /\ (work s = [] -> tracked s' = [] /\ work s' = [])
      /\ ((0 < max)%nat -> work s <> [] -> (length (work s') < length (work s))%nat).
  Proof.
    intros s Hp. destruct (can_kill s) as [s1 [C1 [D1 [P1 [W1 [T1 [Q1 K1]]]]]]].
    remember (step_main false s1) as s2 eqn:E2.
    assert (H2 : pc s2 = PKill (tracked s1) (Some (clock item s1)) GoLoop /\ work s2 = work s1
                 /\ all_dead s2).
    { subst s2. unfold Watch_Model.step_main, all_dead. rewrite P1, Hp. cbn. auto. }
    destruct H2 as [P2 [W2 D2]].
    assert (HG : goes_on GoLoop) by discriminate.
    destruct (prune_kill _ s2 _ _ D2 P2 HG) as [s3 [C3 [D3 [P3 [W3 T3]]]]].
    destruct (can_spawn s3 _ P3 HG) as [s4 [C4 [L4 [P4 [E4 N4]]]]].
    exists s4. split; [|split; [exact P4|split]].
    - eapply can_trans; [exact C1|]. eapply can_trans; [apply can_main|]. rewrite <- E2.
      eapply can_trans; eauto.
    - intro HW. apply E4; auto. congruence.
    - intros HM HW. assert (HE : work s3 = work s) by congruence.
      rewrite <- HE. apply N4; auto. congruence.
  Qed.

  Lemma loop_finishes : (0 < max)%nat -> forall n s, (length (work s) <= n)%nat -> pc s = PLoop ->
    exists s', can s s' /\ finished s'.
  Proof.
    intro HM. induction n as [|n IH]; intros s HL Hp.
    - assert (HW0 : work s = []) by (destruct (work s); [reflexivity|cbn in HL; lia]).
      destruct (is_working item s) eqn:EW.
      + destruct (drain _ s eq_refl Hp EW) as [s1 [C1 [P1 [W1 _]]]].
        destruct (periodic_round s1 P1) as [s2 [C2 [P2 [E2 _]]]].
        destruct E2 as [T2 W2]; [congruence|].
        exists (step_main false s2). split.
        * eapply can_trans; [exact C1|]. eapply can_trans; [exact C2|apply can_main].
        * left. unfold Watch_Model.step_main, is_working. rewrite P2, T2, W2. reflexivity.
      + exists (step_main false s). split; [apply can_main|].
        left. unfold Watch_Model.step_main. rewrite Hp, EW. reflexivity.
    - destruct (is_working item s) eqn:EW.
      + destruct (drain _ s eq_refl Hp EW) as [s1 [C1 [P1 [W1 _]]]].
        destruct (periodic_round s1 P1) as [s2 [C2 [P2 [E2 N2]]]].
        assert (HC : can s s2) by (eapply can_trans; eauto).
        destruct (work s1) as [|w wk] eqn:EWk.
        * destruct (IH s2) as [s3 [C3 F3]]; auto.
          -- destruct E2 as [_ ->]; auto. cbn. lia.
          -- exists s3. split; auto. eapply can_trans; eauto.
        * destruct (IH s2) as [s3 [C3 F3]]; auto.
          -- assert (length (work s2) < length (w :: wk))%nat by (apply N2; auto; discriminate).
             rewrite <- W1 in HL. lia.
          -- exists s3. split; auto. eapply can_trans; eauto.
      + exists (step_main false s). split; [apply can_main|].
        left. unfold Watch_Model.step_main. rewrite Hp, EW. reflexivity.
  Qed.

  (** the pass is not being ended early *)
  Definition going (s : state) : Prop :=
    match pc s with
    | PKill _ _ GoAbort | PJoin _ _ _ GoAbort | PKeep _ _ GoAbort | PSpawn GoAbort | PAborted => False
    | _ => True
    end.

  Lemma can_finish : (0 < max)%nat -> forall s, going s -> exists s', can s s' /\ finished s'.
  Proof.
    intros HM s HG.
    assert (Hloop : forall s1 s2, can s1 s2 -> pc s2 = PLoop -> exists s', can s1 s' /\ finished s').
    { intros s1 s2 C P. destruct (loop_finishes HM (length (work s2)) s2 (le_n _) P) as [s3 [C3 F3]].
      exists s3. split; auto. eapply can_trans; eauto. }
    assert (Hfirst : forall s1 s2, can s1 s2 -> pc s2 = PFirst -> exists s', can s1 s' /\ finished s').
    { intros s1 s2 C P. destruct (is_working item s2) eqn:EW.
      - apply (Hloop s1 (step_main false s2)).
        + eapply can_trans; [exact C|apply can_main].
        + unfold Watch_Model.step_main. rewrite P, EW. reflexivity.
      - exists (step_main false s2). split; [eapply can_trans; [exact C|apply can_main]|].
        right. unfold Watch_Model.step_main. rewrite P, EW. reflexivity. }
    assert (Hspawn : forall s1 s2 nx, can s1 s2 -> pc s2 = PSpawn nx -> goes_on nx ->
              exists s', can s1 s' /\ finished s').
    { intros s1 s2 nx C P G. destruct (can_spawn s2 nx P G) as [s3 [C3 [_ [P3 _]]]].
      assert (C13 : can s1 s3) by (eapply can_trans; eauto).
      destruct nx; eauto. }
    assert (Hkill : forall s1 s2 todo ct nx, can s1 s2 -> pc s2 = PKill todo ct nx -> goes_on nx ->
              exists s', can s1 s' /\ finished s').
    { intros s1 s2 todo ct nx C P G.
      destruct (can_kill s2) as [s3 [C3 [D3 [P3 _]]]].
      destruct (prune_kill todo s3 ct nx D3) as [s4 [C4 [_ [P4 _]]]]; auto; [congruence|].
      eapply (Hspawn s1 s4 nx); auto.
      eapply can_trans; [exact C|]. eapply can_trans; eauto. }
    assert (Hper : forall s1 s2, can s1 s2 -> pc s2 = PPeriodic -> exists s', can s1 s' /\ finished s').
    { intros s1 s2 C P. destruct (periodic_round s2 P) as [s3 [C3 [P3 _]]].
      apply (Hloop s1 s3); auto. eapply can_trans; eauto. }
    assert (Hmore : forall s1 s2, can s1 s2 -> pc s2 = PMore -> exists s', can s1 s' /\ finished s').
    { intros s1 s2 C P.
      assert (C2 : can s1 (step_main false s2)) by (eapply can_trans; [exact C|apply can_main]).
      destruct (queue s2) eqn:EQ.
      - apply (Hper s1 _ C2). unfold Watch_Model.step_main. rewrite P, EQ. reflexivity.
      - apply (Hloop s1 _ C2). unfold Watch_Model.step_main. rewrite P, EQ. reflexivity. }
    unfold going in HG.
    destruct (pc s) as [todo ct nx|i todo ct nx|todo kept nx|nx| | | | | | | |] eqn:EP.
    - apply (Hkill s s todo ct nx (can_refl s) EP). intros ->. contradiction.
    - destruct (can_kill s) as [s1 [C1 [D1 [P1 _]]]].
      apply (Hkill s (step_main false s1) todo ct nx).
      + eapply can_trans; [exact C1|apply can_main].
      + unfold Watch_Model.step_main. rewrite P1, EP, (D1 i). reflexivity.
      + intros ->. contradiction.
    - destruct (can_kill s) as [s1 [C1 [D1 [P1 _]]]].
      assert (G : goes_on nx) by (intros ->; contradiction).
      destruct (prune_keep todo s1 kept nx D1) as [s2 [C2 [_ [P2 _]]]]; auto; [congruence|].
      apply (Hspawn s s2 nx); auto. eapply can_trans; eauto.
    - apply (Hspawn s s nx (can_refl s) EP). intros ->. contradiction.
    - apply (Hfirst s s (can_refl s) EP).
    - apply (Hloop s s (can_refl s) EP).
    - destruct (queue s) eqn:EQ.
      + apply (Hper s (step_main false s) (can_main s)).
        unfold Watch_Model.step_main. rewrite EP, EQ. reflexivity.
      + apply (Hmore s (step_main false s) (can_main s)).
        unfold Watch_Model.step_main. rewrite EP, EQ. reflexivity.
    - apply (Hmore s s (can_refl s) EP).
    - apply (Hper s s (can_refl s) EP).
    - exists s. split; [apply can_refl|]. now left.
    - exists s. split; [apply can_refl|]. now right.
    - contradiction.
  Qed.
End Pool.
