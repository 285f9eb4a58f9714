(* Properties of the continuously running analysis (crosshair watch). *)
From Coq Require Import ZArith List Bool Lia Permutation Sorted.
From Verif Require Import Watch_Model Watch_Spec Watch_Files Watch_Pool.
Import ListNotations.
Local Open Scope Z_scope.

(* ------------------------------------------------------------------ *)
(** * C95: changes to the watched files are noticed *)

(** The files that are analysed are exactly the watched ones. *)
Theorem watch_lists_watched_files : forall isalpha isidentifier root paths p,
  well_formed root ->
  (In p (walk_paths isalpha isidentifier root paths) <->
   exists m, watched isalpha isidentifier paths root p m).
Proof. exact walk_paths_in. Qed.
Print Assumptions watch_lists_watched_files.

(** After a check, the files recorded are exactly the watched ones, whatever was recorded
    before. *)
Theorem watch_records_watched_files : forall isalpha isidentifier paths root d p m,
  well_formed root ->
  (md_get (fst (check_changed_fs isalpha isidentifier paths root d)) p = Some m <->
   watched isalpha isidentifier paths root p m).
Proof.
  intros ia ii paths root d p m HW.
  destruct (check_changed_fs ia ii paths root d) as [d' ch] eqn:E.
  destruct (check_fs_ok _ _ _ _ _ _ _ HW E) as [H _]. apply H.
Qed.
Print Assumptions watch_records_watched_files.

(** Every change is noticed: a check that says "unchanged" was made on the same files, with
    the same modification times, as the check before it. *)
Theorem watch_misses_no_change : forall isalpha isidentifier paths before after d,
  well_formed before -> well_formed after ->
  let recorded := fst (check_changed_fs isalpha isidentifier paths before d) in
  snd (check_changed_fs isalpha isidentifier paths after recorded) = false ->
  same_files isalpha isidentifier paths before after.
Proof.
  intros ia ii paths r1 r2 d H1 H2.
  destruct (check_changed_fs ia ii paths r1 d) as [d1 c1] eqn:E1. cbn [fst].
  destruct (check_changed_fs ia ii paths r2 d1) as [d2 c2] eqn:E2. cbn [snd].
  intros ->. destruct (check_fs_ok _ _ _ _ _ _ _ H1 E1) as [A1 _].
  destruct (check_fs_ok _ _ _ _ _ _ _ H2 E2) as [_ [A2 _]].
  intros p m. rewrite <- A1. apply A2. reflexivity.
Qed.
Print Assumptions watch_misses_no_change.

(** Nothing but a change is taken for one — proved only when no target lies below
    another; see [watch_false_alarm_refuted]. *)
Theorem watch_no_false_alarm_partial : forall isalpha isidentifier paths before after d,
  disjoint_targets paths -> well_formed before -> well_formed after ->
  let recorded := fst (check_changed_fs isalpha isidentifier paths before d) in
  same_files isalpha isidentifier paths before after ->
  snd (check_changed_fs isalpha isidentifier paths after recorded) = false.
Proof.
  intros ia ii paths r1 r2 d HD H1 H2.
  destruct (check_changed_fs ia ii paths r1 d) as [d1 c1] eqn:E1. cbn [fst].
  destruct (check_changed_fs ia ii paths r2 d1) as [d2 c2] eqn:E2. cbn [snd].
  intro HS. destruct (check_fs_ok _ _ _ _ _ _ _ H1 E1) as [A1 _].
  destruct (check_fs_ok _ _ _ _ _ _ _ H2 E2) as [_ [_ A2]].
  apply A2; auto. intros p m. rewrite A1. apply HS.
Qed.
Print Assumptions watch_no_false_alarm_partial.

(** a directory "d" holding "a.py" *)
Definition d_name : name := [100].
Definition a_py : name := [97; 46; 112; 121].
Definition small_fs : node := Dir [(d_name, Dir [(a_py, File 7)])].
Definition letters (c : Z) : bool := (97 <=? c) && (c <=? 122).

Lemma small_wf : well_formed small_fs.
Proof.
  constructor.
  - repeat constructor. intros [].
  - intros n x [H|[]]. injection H as <- <-. constructor.
    + repeat constructor. intros [].
    + intros n x [H|[]]. injection H as <- <-. constructor.
Qed.

(** Watching both a directory and a file in it: every check says that something changed,
    although nothing ever does, so every pass is abandoned. *)
Theorem watch_false_alarm_refuted : exists paths root,
  well_formed root /\ NoDup paths /\
  forall d, snd (check_changed_fs letters letters paths root d) = true.
Proof.
  exists [[d_name]; [d_name; a_py]], small_fs. split; [exact small_wf|]. split.
  { constructor; [intros [H|[]]; discriminate|]. constructor; [intros []|constructor]. }
  intro d.
  assert (HL : map (fun p => (p, mtime small_fs p))
                   (walk_paths letters letters small_fs [[d_name]; [d_name; a_py]])
               = [([d_name; a_py], Some 7); ([d_name; a_py], Some 7)]) by reflexivity.
  unfold check_changed_fs. rewrite HL. unfold check_changed. cbn [check_files].
  rewrite md_get_del, path_eqb_refl.
  destruct (match md_get d [d_name; a_py] with Some k => 7 =? k | None => false end);
    destruct (md_del (md_del d [d_name; a_py]) [d_name; a_py]); reflexivity.
Qed.
Print Assumptions watch_false_alarm_refuted.

Example watch_change_witness :
  let fs1 := small_fs in
  let fs2 := Dir [(d_name, Dir [(a_py, File 8); ([98; 46; 112; 121], File 3)])] in
  let seen1 := fst (check_changed_fs letters letters [[d_name]] fs1 []) in
  let seen2 := fst (check_changed_fs letters letters [[d_name]] fs2 seen1) in
  disjoint_targets [[d_name]]
  /\ seen1 = [([d_name; a_py], 7)]
  /\ snd (check_changed_fs letters letters [[d_name]] fs1 seen1) = false
  /\ snd (check_changed_fs letters letters [[d_name]] fs2 seen1) = true
  /\ seen2 = [([d_name; a_py], 8); ([d_name; [98; 46; 112; 121]], 3)]
  /\ snd (check_changed_fs letters letters [[d_name]] fs1 seen2) = true.
Proof.
  cbn zeta. split.
  - split; [repeat constructor; intros []|]. intros p q [<-|[]] [H|[]].
    cbn in H. injection H as H. now symmetry.
  - repeat split; reflexivity.
Qed.

(* ------------------------------------------------------------------ *)
(** * C96: the worker pool under every schedule *)

(** Never more workers at once than the pool allows *)
Theorem pool_is_bounded : forall item deadline max subs s,
  reach item deadline max subs s ->
  (length (filter (fun e => alive (snd e)) (threads item s)) <= max)%nat.
Proof. intros item deadline max subs s H. exact (bounded item max subs s (reach_inv item deadline max subs s H)). Qed.
Print Assumptions pool_is_bounded.

(** Results are handed on in the order in which they arrive; none is dropped, none is made
    up. *)
Theorem pool_results_in_order : forall item deadline max subs s,
  reach item deadline max subs s ->
  results item (yielded item s) ++ queue item s = posted item s.
Proof. intros item deadline max subs s H. apply (reach_inv item deadline max subs s H). Qed.
Print Assumptions pool_results_in_order.

(** As long as the pass is not abandoned, a file is reported at most as often as it was
    analysed, and analysed or still waiting exactly as often as it was submitted. *)
Theorem pool_accounts_for_every_file : forall item deadline max eq_dec subs s x,
  reach item deadline max subs s -> pc item s <> PAborted ->
  (count_occ eq_dec (results item (yielded item s)) x
     <= count_occ eq_dec (map fst (threads item s)) x)%nat
  /\ (count_occ eq_dec (map fst (threads item s)) x + count_occ eq_dec (work item s) x
     = count_occ eq_dec subs x)%nat.
Proof.
  intros item deadline max eq_dec subs s x H Hp.
  destruct (delivered_once item deadline max eq_dec subs s x (reach_inv item deadline max subs s H) Hp) as [H1 H2].
  split; [lia|exact H2].
Qed.
Print Assumptions pool_accounts_for_every_file.

(** When a pass ends of its own accord, every file has been given to a worker, and every
    worker has ended. *)
Theorem pass_leaves_nothing_undone : forall item deadline max subs s,
  reach item deadline max subs s -> pc item s = PDone ->
  work item s = []
  /\ (forall w x, In (w, x) (threads item s) -> x = Dead)
  /\ Permutation subs (map fst (threads item s)).
Proof.
  intros item deadline max subs s H Hp.
  pose proof (reach_inv item deadline max subs s H) as I.
  destruct (done_all_dead item max subs s I (or_introl Hp)) as [H1 H2].
  split; [|split; assumption].
  destruct (i_done _ _ _ _ I (or_introl Hp)) as [_ HW]. exact HW.
Qed.
Print Assumptions pass_leaves_nothing_undone.

(** The property wanted: when a pass ends, every result posted has been reported.
    Proved: every result posted before the pass began has been reported when it ends, so
    that a result is at most one pass late. *)
Theorem pass_reports_every_result_partial : forall item deadline max subs s items es,
  reach item deadline max subs s -> pc item s = PDone \/ pc item s = PIdle ->
  let s' := run item deadline max es (begin_pass item items s) in
  pc item s' = PDone ->
  exists later, results item (yielded item s') = posted item s ++ later.
Proof.
  intros item deadline max subs s items es H Hp.
  exact (leftovers item deadline max subs s items es (reach_inv item deadline max subs s H) Hp).
Qed.
Print Assumptions pass_reports_every_result_partial.

Definition no_deadline (_ : nat) : Z := 1000.
Definition main_steps (n : nat) : list event := repeat (Main false) n.

(** A worker that posts its result and ends just after the main thread gave up waiting for
    one: the pass ends with the result still in the queue. *)
Definition late_result : list event :=
  main_steps 5 (** kill scan, keep scan, spawn, first check, loop *)
  ++ [Up 0] ++ main_steps 1 (** no result within the second *)
  ++ [Post 0; Die 0] ++ main_steps 6.

Theorem pass_reports_every_result_refuted : exists es,
  let s := run nat no_deadline 1 es (begin_pass nat [5%nat] (new_pool nat 0)) in
  reach nat no_deadline 1 [5%nat] s
  /\ pc nat s = PDone /\ posted nat s = [5%nat] /\ results nat (yielded nat s) = [].
Proof.
  exists (late_result ++ main_steps 1). cbn zeta. split.
  - apply reach_run. apply (r_pass nat no_deadline 1 [] (new_pool nat 0) [5%nat]).
    + constructor.
    + now left.
  - repeat split; vm_compute; reflexivity.
Qed.
Print Assumptions pass_reports_every_result_refuted.

Example pool_witness :
  let s := run nat no_deadline 1
             (main_steps 5 ++ [Up 0; Post 0; Die 0] ++ main_steps 2
              ++ main_steps 6 ++ [Up 1; Post 1] ++ main_steps 3)
             (begin_pass nat [5%nat; 6%nat] (new_pool nat 0)) in
  pc nat s = PPeriodic /\ yielded nat s = [Some 6%nat; Some 5%nat]
  /\ map snd (threads nat s) = [Dead; Posted].
Proof. vm_compute. repeat split. Qed.

(* ------------------------------------------------------------------ *)
(** * C97: a pass can always finish *)

(** The property wanted: on every machine, from every state of a pass that is not being
    abandoned, some continuation without a change of files ends the pass.  Proved for pools
    of at least one worker. *)
Theorem pass_can_finish_partial : forall item deadline max s,
  (0 < max)%nat -> going item s ->
  exists es, Forall (fun e => e <> Main true) es /\
    let s' := run item deadline max es s in pc item s' = PDone \/ pc item s' = PIdle.
Proof.
  intros item deadline max s HM HG.
  destruct (can_finish item deadline max HM s HG) as [s' [[es [N R]] F]].
  exists es. split; [exact N|]. cbn zeta. rewrite R. exact F.
Qed.
Print Assumptions pass_can_finish_partial.

(** On a machine with one processor the pool has size zero.  No schedule starts a worker,
    reports anything or ends the pass. *)
Definition stuck (s : state nat) : Prop :=
  threads nat s = [] /\ tracked nat s = [] /\ work nat s = [5%nat] /\ queue nat s = []
  /\ yielded nat s = []
  /\ match pc nat s with
     | PKill [] _ (GoFirst | GoLoop) | PKeep [] [] (GoFirst | GoLoop) | PSpawn (GoFirst | GoLoop)
     | PFirst | PLoop | PGet | PPeriodic => True
     | _ => False
     end.

Lemma stuck_step : forall e s, e <> Main true -> stuck s -> stuck (step nat no_deadline 0 e s).
Proof.
  intros e [p c w th tr q po y] He [H1 [H2 [H3 [H4 [H5 H6]]]]]. cbn in *. subst.
  destruct e as [[|]|t|j|j|j]; [exfalso; now apply He| | | | |].
  - destruct p as [[|i todo] ct []|i todo ct nx|[|i todo] [|k kept] []|[]| | | | | | | |];
      try contradiction; cbn; repeat split.
  - cbn. repeat split. exact H6.
  - destruct j; cbn; repeat split; exact H6.
  - destruct j; cbn; repeat split; exact H6.
  - cbn. repeat split. exact H6.
Qed.

Theorem pass_can_finish_refuted : exists cpu_count items,
  (0 < cpu_count)%nat /\
  forall es, Forall (fun e => e <> Main true) es ->
    let s := run nat no_deadline (pool_size cpu_count) es (begin_pass nat items (new_pool nat 0)) in
    threads nat s = [] /\ yielded nat s = [] /\ pc nat s <> PDone /\ pc nat s <> PIdle.
Proof.
  exists 1%nat, [5%nat]. split; [lia|]. intros es HF. change (pool_size 1) with 0%nat.
  assert (HS : forall es s, Forall (fun e => e <> Main true) es -> stuck s ->
               stuck (run nat no_deadline 0 es s)).
  { clear es HF. induction es as [|e es IH]; cbn; intros s HF HS; auto.
    inversion HF; subst. apply IH; auto. now apply stuck_step. }
  cbn zeta. specialize (HS es (begin_pass nat [5%nat] (new_pool nat 0)) HF).
  assert (H0 : stuck (begin_pass nat [5%nat] (new_pool nat 0))) by (repeat split).
  destruct (HS H0) as [A1 [_ [_ [_ [A5 A6]]]]]. repeat split; auto.
  - intro HP. rewrite HP in A6. exact A6.
  - intro HP. rewrite HP in A6. exact A6.
Qed.
Print Assumptions pass_can_finish_refuted.

Example going_witness :
  going nat (run nat no_deadline 1 (main_steps 5) (begin_pass nat [5%nat] (new_pool nat 0)))
  /\ (0 < pool_size 4)%nat.
Proof. split; [exact I|vm_compute; repeat constructor]. Qed.

(* ------------------------------------------------------------------ *)
(** * C98: the order in which files are analysed *)

Lemma insert_sorted : forall e l,
  StronglySorted (fun a b : path * Z => snd b <= snd a) l ->
  StronglySorted (fun a b : path * Z => snd b <= snd a) (insert_by_age e l).
Proof.
  intros e l. induction l as [|f l IH]; cbn; intro H.
  - repeat constructor.
  - inversion H as [|? ? H1 H2]; subst. destruct (- snd e <=? - snd f) eqn:E.
    + constructor; [exact H|]. constructor; [lia|].
      rewrite Forall_forall in *. intros x Hx. specialize (H2 x Hx). lia.
    + constructor; [auto|]. rewrite Forall_forall in *. intros x Hx.
      assert (Hin : In x (e :: l)).
      { clear - Hx. revert Hx. induction l as [|g l IHl]; cbn; auto.
        destruct (- snd e <=? - snd g); cbn in IHl |- *; tauto. }
      destruct Hin as [<-|Hin]; [lia|auto].
Qed.

Lemma sort_sorted : forall l, StronglySorted (fun a b : path * Z => snd b <= snd a) (sort_by_age l).
Proof. induction l as [|e l IH]; cbn; [constructor|]. now apply insert_sorted. Qed.

Lemma insert_perm : forall e l, Permutation (e :: l) (insert_by_age e l).
Proof.
  intros e l. induction l as [|f l IH]; cbn; auto.
  destruct (- snd e <=? - snd f); auto.
  transitivity (f :: e :: l); [constructor|]. now constructor.
Qed.

Lemma sort_perm : forall l, Permutation l (sort_by_age l).
Proof. induction l as [|e l IH]; cbn; auto. rewrite <- insert_perm. now constructor. Qed.

Lemma sorted_rev : forall l, StronglySorted (fun a b : path * Z => snd b <= snd a) l ->
  StronglySorted (fun a b : path * Z => snd a <= snd b) (rev l).
Proof.
  assert (HA : forall l x, StronglySorted (fun a b : path * Z => snd a <= snd b) l ->
            Forall (fun a => snd a <= snd x) l ->
            StronglySorted (fun a b : path * Z => snd a <= snd b) (l ++ [x])).
  { induction l as [|y l IH]; cbn; intros x Hs Hf; [repeat constructor|].
    inversion Hs; inversion Hf; subst. constructor; auto.
    apply Forall_app. split; auto. }
  induction l as [|x l IH]; cbn; intro H; [constructor|].
  inversion H as [|? ? H1 H2]; subst. apply HA; auto.
  rewrite Forall_forall in *. intros y Hy. apply H2. now apply in_rev.
Qed.

Lemma sorted_prefix : forall (a b : list (path * Z)),
  StronglySorted (fun a b : path * Z => snd a <= snd b) (a ++ b) ->
  StronglySorted (fun a b : path * Z => snd a <= snd b) a.
Proof.
  induction a as [|x a IH]; cbn; intros b H; [constructor|].
  inversion H as [|? ? H1 H2]; subst. constructor; [eauto|].
  apply Forall_app in H2. tauto.
Qed.

(** In a fresh pool, whatever the schedule, the files are taken from the least recently
    modified to the most recently modified. *)
Theorem watch_order_partial : forall deadline max d t es,
  let started := map fst (threads _ (run _ deadline max es
                            (begin_pass _ (sort_by_age d) (new_pool _ t)))) in
  StronglySorted (fun a b : path * Z => snd a <= snd b) started
  /\ exists rest, Permutation d (started ++ rest).
Proof.
  intros deadline max d t es. cbn zeta.
  destruct (order (path * Z) deadline max es (sort_by_age d) t) as [rest HR].
  split.
  - apply (sorted_prefix _ rest). rewrite <- HR. apply sorted_rev. apply sort_sorted.
  - exists rest. rewrite <- HR. transitivity (sort_by_age d); [apply sort_perm|].
    apply Permutation_rev.
Qed.
Print Assumptions watch_order_partial.

(** The property wanted, and what the sort by descending modification time is for: the file
    edited last is analysed first.  It is analysed last. *)
Theorem watch_order_refuted : exists (d : modtimes) deadline es,
  let started := map fst (threads _ (run _ deadline 1 es
                            (begin_pass _ (sort_by_age d) (new_pool _ 0)))) in
  exists old new, d = [old; new] /\ snd old < snd new /\ started = [old].
Proof.
  exists [([d_name], 1); ([a_py], 2)], (fun _ => 1000), (main_steps 5). cbn zeta.
  exists ([d_name], 1), ([a_py], 2). repeat split; vm_compute; reflexivity.
Qed.
Print Assumptions watch_order_refuted.

Example order_witness :
  sort_by_age [([d_name], 1); ([a_py], 2)] = [([a_py], 2); ([d_name], 1)].
Proof. reflexivity. Qed.

(** Workers and their deadlines: unless the pass is abandoned, the main thread only makes an end
    to workers whose deadline has passed when it looks; and it does so to each of those that has
    its process. *)
Lemma joined_late : forall item deadline max subs s, reach item deadline max subs s ->
  forall i todo t nx, pc item s = PJoin i todo (Some t) nx ->
  exists w, nth_error (map fst (threads item s)) i = Some w /\ deadline w < t.
Proof.
  intros item deadline max subs s H. induction H as [t0|subs s e H IH|subs s items H IH HP]; intros i todo t nx E.
  - discriminate.
  - assert (D : (exists a, e = Main a) \/ forall a, e <> Main a).
    { destruct e; [left; eauto| | | |]; right; discriminate. }
    destruct D as [[a ->]|N].
    + cbn [step] in *. unfold step_main in *.
      destruct (pc item s) as [[|j l] ct n|j l ct n|[|j l] kept n|n| | | | | | | |] eqn:P; try discriminate;
        try (cbn in E; congruence).
      * destruct (over_deadline item deadline ct (threads item s) j) eqn:O; [|discriminate].
        cbn in E |- *. injection E as -> -> -> ->. unfold over_deadline in O.
        rewrite nth_error_map. destruct (nth_error (threads item s) i) as [[w x]|]; [|discriminate]. cbn.
        exists w. split; [reflexivity|]. apply andb_prop in O as [O _]. apply andb_prop in O as [_ O]. now apply Z.ltb_lt.
      * destruct (alive (status_of item (threads item s) j)); [|discriminate]. rewrite P in E. eapply IH. exact E.
      * unfold prune_done in E. destruct n; discriminate.
      * destruct (alive (status_of item (threads item s) j)); discriminate.
      * destruct (spawn item max (length (work item s)) (work item s) (threads item s) (tracked item s)) as [[wk ths] tr].
        cbn in E. destruct n; discriminate.
      * destruct (is_working item s); discriminate.
      * destruct (is_working item s); discriminate.
      * destruct (queue item s); discriminate.
      * destruct (queue item s); discriminate.
      * destruct a; discriminate.
    + destruct (step_env item deadline max e s N) as (A & _ & _ & _ & B). rewrite A in E. rewrite B. eapply IH. exact E.
  - discriminate.
Qed.
Theorem workers_end_by_deadline : forall item deadline max subs s, reach item deadline max subs s ->
  (forall i todo t nx, pc item s = PJoin i todo (Some t) nx ->
     exists w x, nth_error (threads item s) i = Some (w, x) /\ deadline w < t) /\
  (pc item s = PPeriodic -> pc item (step item deadline max (Main false) s) = PKill (tracked item s) (Some (clock item s)) GoLoop) /\
  (forall i todo t nx a w x, pc item s = PKill (i :: todo) (Some t) nx ->
     nth_error (threads item s) i = Some (w, x) -> x = Running \/ x = Posted -> deadline w < t ->
     pc item (step item deadline max (Main a) s) = PJoin i todo (Some t) nx).
Proof.
  intros item deadline max subs s H. split; [|split].
  - intros i todo t nx E. destruct (joined_late item deadline max subs s H i todo t nx E) as (w & A & B).
    rewrite nth_error_map in A. destruct (nth_error (threads item s) i) as [[w' x]|]; [|discriminate].
    injection A as ->. eauto.
  - intro E. cbn [step]. unfold step_main. now rewrite E.
  - intros i todo t nx a w x E A X L. cbn [step]. unfold step_main. rewrite E. unfold over_deadline. rewrite A.
    assert (B : (deadline w <? t) = true) by now apply Z.ltb_lt. rewrite B. now destruct X as [-> | ->].
Qed.
Print Assumptions workers_end_by_deadline.
Example deadline_witness :
  let late := fun _ : nat => 3 in
  let s := run nat late 1 (main_steps 5 ++ [Up 0; Clock 9] ++ main_steps 3)
             (begin_pass nat [5%nat] (new_pool nat 0)) in
  pc nat s = PJoin 0 [] (Some 9) GoLoop /\ map snd (threads nat s) = [Running].
Proof. split; vm_compute; reflexivity. Qed.

(* ------------------------------------------------------------------ *)
(** * C99: an abandoned pass leaves no worker behind *)

(** The property wanted: when a pass is abandoned because a file changed or the watch was
    stopped, every worker has ended.  Proved when every worker already has its process. *)
Theorem abandoned_pass_stops_workers_partial : forall item deadline max subs s es,
  reach item deadline max subs s -> pc item s = PPeriodic ->
  (forall w x, In (w, x) (threads item s) -> x <> Starting) ->
  let s' := run item deadline max (Main true :: es) s in
  pc item s' = PAborted -> forall w x, In (w, x) (threads item s') -> x = Dead.
Proof.
  intros item deadline max subs s es H Hp HS.
  exact (abort_clean item deadline max subs s es (reach_inv item deadline max subs s H) Hp HS).
Qed.
Print Assumptions abandoned_pass_stops_workers_partial.

(** Nothing of an abandoned pass is taken up later. *)
Theorem abandoned_pass_drops_work : forall item deadline max subs s, reach item deadline max subs s ->
  pc item s = PAborted -> work item s = [].
Proof.
  intros item deadline max subs s H. induction H as [t0|subs s e H IH|subs s items H IH HP]; intro E.
  - discriminate.
  - assert (D : (exists a, e = Main a) \/ forall a, e <> Main a).
    { destruct e; [left; eauto| | | |]; right; discriminate. }
    destruct D as [[a ->]|N].
    + cbn [step] in *. unfold step_main in *.
      destruct (pc item s) as [[|j l] ct n|j l ct n|[|j l] kept n|n| | | | | | | |] eqn:P; try discriminate; auto.
      * destruct (over_deadline item deadline ct (threads item s) j); discriminate.
      * destruct (alive (status_of item (threads item s) j)); [congruence|discriminate].
      * unfold prune_done in *. destruct n; try discriminate. reflexivity.
      * destruct (alive (status_of item (threads item s) j)); discriminate.
      * destruct (spawn item max (length (work item s)) (work item s) (threads item s) (tracked item s)) as [[wk ths] tr].
        cbn in E. destruct n; discriminate.
      * destruct (is_working item s); discriminate.
      * destruct (is_working item s); discriminate.
      * destruct (queue item s); discriminate.
      * destruct (queue item s); discriminate.
      * destruct a; discriminate.
      * exfalso. congruence.
      * exfalso. congruence.
    + destruct (step_env item deadline max e s N) as (A & B & _). rewrite A in E. rewrite B. now apply IH.
  - discriminate.
Qed.
Print Assumptions abandoned_pass_drops_work.

(** A worker thread whose process has not been created yet survives: it goes on to create
    the process, beside the workers of the next pool. *)
Theorem abandoned_pass_stops_workers_refuted : exists es,
  let s := run nat no_deadline 1 es (begin_pass nat [5%nat] (new_pool nat 0)) in
  reach nat no_deadline 1 [5%nat] s
  /\ pc nat s = PAborted
  /\ map snd (threads nat s) = [Starting]
  /\ map snd (threads nat (step nat no_deadline 1 (Up 0) s)) = [Running].
Proof.
  exists (main_steps 6 ++ [Main true] ++ main_steps 4). cbn zeta. split.
  - apply reach_run. apply (r_pass nat no_deadline 1 [] (new_pool nat 0) [5%nat]).
    + constructor.
    + now left.
  - repeat split; vm_compute; reflexivity.
Qed.
Print Assumptions abandoned_pass_stops_workers_refuted.

Example abandoned_witness :
  let s := run nat no_deadline 1 (main_steps 5 ++ [Up 0] ++ main_steps 1)
             (begin_pass nat [5%nat; 6%nat] (new_pool nat 0)) in
  pc nat s = PPeriodic /\ map snd (threads nat s) = [Running]
  /\ pc nat (run nat no_deadline 1 ([Main true] ++ main_steps 1 ++ [Die 0] ++ main_steps 4) s) = PAborted.
Proof. vm_compute. repeat split. Qed.
