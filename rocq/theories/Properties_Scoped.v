(** C159: temporary changes of process-wide state are undone. *)
From Coq Require Import ZArith List Bool Lia.
From Verif Require Import Scoped_Model Scoped_Spec.
Import ListNotations.

Lemma same_iff : forall a b, same a b = true <-> a = b.
Proof.
  intros [x|] [y|]; cbn [same]; split; try discriminate; try reflexivity.
  - intros H. apply Z.eqb_eq in H. subst. reflexivity.
  - intros [= ->]. apply Z.eqb_refl.
Qed.

(** The scoped variable is restored by every program, also by failing ones. *)
Theorem C159_variable : forall c s, var (fst (run c s)) = var s.
Proof.
  induction c as [| |a IHa b IHb|a IHa|p|d|ps a IHa|a IHa|ks r1 r2 a IHa|v re a IHa]; intros s; cbn [run].
  - reflexivity.
  - reflexivity.
  - specialize (IHa s). destruct (run a s) as [s1 ok]. cbn [fst] in IHa.
    destruct ok; [rewrite IHb; exact IHa|exact IHa].
  - apply IHa.
  - reflexivity.
  - destruct (var s) as [v|] eqn:V; [exact V|]. destruct d; exact V.
  - specialize (IHa (set_path (rev ps ++ path s) s)). destruct (run a _) as [s1 ok].
    exact IHa.
  - specialize (IHa (set_hooks (map S (hooks s)) s)). destruct (run a _) as [s1 ok].
    cbn [fst] in IHa. destruct ok; [|exact IHa]. destruct (forallb _ _); exact IHa.
  - destruct r1; [|reflexivity].
    specialize (IHa (set_mods (suppress_all ks (mods s)) s)). destruct (run a _) as [s1 ok].
    exact IHa.
  - destruct (negb re && negb (same (var s) None)); [reflexivity|].
    specialize (IHa (set_var v s)). destruct (run a _) as [s1 ok]. cbn [fst var set_var] in IHa.
    rewrite IHa. rewrite (proj2 (same_iff v v) eq_refl). reflexivity.
Qed.
Print Assumptions C159_variable.

(** After a block that adds to sys.path, it is as before, whatever happened inside. *)
Theorem C159_path : forall ps a s, path (fst (run (WithPath ps a) s)) = path s.
Proof.
  intros ps a s. cbn [run]. destruct (run a _) as [s1 ok]. reflexivity.
Qed.
Print Assumptions C159_path.

(** sys.modules is restored by every program in which the alternatives load. *)
Theorem C159_modules_partial : forall c s k,
  alternatives_load c -> mods (fst (run c s)) k = mods s k.
Proof.
  induction c as [| |a IHa b IHb|a IHa|p|d|ps a IHa|a IHa|ks r1 r2 a IHa|v re a IHa]; intros s k L;
    cbn [run alternatives_load] in *.
  - reflexivity.
  - reflexivity.
  - destruct L as [La Lb]. specialize (IHa s k La). destruct (run a s) as [s1 ok]. cbn [fst] in IHa.
    destruct ok; [rewrite (IHb s1 k Lb); exact IHa|exact IHa].
  - apply IHa. exact L.
  - reflexivity.
  - destruct (var s) as [v|]; [reflexivity|]. destruct d; reflexivity.
  - specialize (IHa (set_path (rev ps ++ path s) s) k L). destruct (run a _) as [s1 ok].
    exact IHa.
  - specialize (IHa (set_hooks (map S (hooks s)) s) k L). destruct (run a _) as [s1 ok].
    cbn [fst] in IHa. destruct ok; [|exact IHa]. destruct (forallb _ _); exact IHa.
  - destruct L as [-> L].
    specialize (IHa (set_mods (suppress_all ks (mods s)) s) k L). destruct (run a _) as [s1 ok].
    cbn [fst mods set_mods] in *. unfold restore_all. destruct (existsb (Z.eqb k) ks) eqn:E; [reflexivity|].
    rewrite IHa. unfold suppress_all. rewrite E. reflexivity.
  - destruct (negb re && negb (same (var s) None)); [reflexivity|].
    specialize (IHa (set_var v s) k L). destruct (run a _) as [s1 ok]. cbn [fst] in IHa.
    destruct (same (var s1) v); exact IHa.
Qed.
Print Assumptions C159_modules_partial.

(** The hooks of the import system are restored if no exception arises in a block of
    pure imports. *)
Lemma quiet_ok : forall c s, quiet c ->
  snd (run c s) = true /\ hooks (fst (run c s)) = hooks s.
Proof.
  induction c as [| |a IHa b IHb|a IHa|p|d|ps a IHa|a IHa|ks r1 r2 a IHa|v re a IHa]; intros s Q;
    cbn [run quiet] in *.
  - split; reflexivity.
  - destruct Q.
  - destruct Q as [Qa Qb]. specialize (IHa s Qa). destruct (run a s) as [s1 ok].
    cbn [fst snd] in IHa. destruct IHa as [-> E]. rewrite <- E. apply IHb. exact Qb.
  - split; [reflexivity|]. apply IHa. exact Q.
  - split; reflexivity.
  - destruct (var s) as [v|]; [split; reflexivity|]. destruct d; [split; reflexivity|].
    congruence.
  - specialize (IHa (set_path (rev ps ++ path s) s) Q). destruct (run a _) as [s1 ok].
    exact IHa.
  - specialize (IHa (set_hooks (map S (hooks s)) s) Q). destruct (run a _) as [s1 ok].
    cbn [fst snd hooks set_hooks] in IHa. destruct IHa as [-> E]. rewrite E.
    assert (F : forallb (fun n => negb (Nat.eqb n 0)) (map S (hooks s)) = true).
    { apply forallb_forall. intros n H. apply in_map_iff in H. destruct H as [m [<- _]]. reflexivity. }
    rewrite F. cbn [fst snd hooks set_hooks]. split; [reflexivity|].
    rewrite map_map. cbn [pred]. apply map_id.
  - destruct Q as [-> [-> Q]].
    specialize (IHa (set_mods (suppress_all ks (mods s)) s) Q). destruct (run a _) as [s1 ok].
    cbn [fst snd hooks set_mods] in *. destruct IHa as [-> E]. split; [reflexivity|exact E].
  - destruct Q as [-> Q]. cbn [negb andb].
    pose proof (C159_variable a (set_var v s)) as V.
    specialize (IHa (set_var v s) Q). destruct (run a _) as [s1 ok]. cbn [fst snd var set_var] in *.
    rewrite V, (proj2 (same_iff v v) eq_refl). exact IHa.
Qed.

Theorem C159_hooks_partial : forall c s,
  pure_blocks_quiet c -> hooks (fst (run c s)) = hooks s.
Proof.
  induction c as [| |a IHa b IHb|a IHa|p|d|ps a IHa|a IHa|ks r1 r2 a IHa|v re a IHa]; intros s Q;
    cbn [pure_blocks_quiet] in Q.
  - reflexivity.
  - reflexivity.
  - cbn [run]. destruct Q as [Qa Qb]. specialize (IHa s Qa). destruct (run a s) as [s1 ok].
    cbn [fst] in IHa. destruct ok; [rewrite (IHb s1 Qb); exact IHa|exact IHa].
  - cbn [run fst]. apply IHa. exact Q.
  - reflexivity.
  - cbn [run]. destruct (var s) as [v|]; [reflexivity|]. destruct d; reflexivity.
  - cbn [run]. specialize (IHa (set_path (rev ps ++ path s) s) Q). destruct (run a _) as [s1 ok].
    exact IHa.
  - exact (proj2 (quiet_ok (WithPure a) s Q)).
  - cbn [run]. destruct r1; [|reflexivity].
    specialize (IHa (set_mods (suppress_all ks (mods s)) s) Q). destruct (run a _) as [s1 ok].
    exact IHa.
  - cbn [run]. destruct (negb re && negb (same (var s) None)); [reflexivity|].
    specialize (IHa (set_var v s) Q). destruct (run a _) as [s1 ok]. cbn [fst] in IHa.
    destruct (same (var s1) v); exact IHa.
Qed.
Print Assumptions C159_hooks_partial.

Definition start : state := mkState [1%Z] [O; O] (fun k => if Z.eqb k 5 then Some (Module 50) else None) None [].
Example C159_restored_example :
  let c := Seq (WithPure (WithPath [7%Z; 8%Z] (WithVar (Some 3%Z) true (Get (Some 9%Z)))))
               (Attempt (WithAlternative [5%Z; 6%Z] true true (WithVar (Some 4%Z) false (Seq (Get None) Raise)))) in
  alternatives_load c /\ pure_blocks_quiet c /\
  trace (fst (run c start)) = [Some 3%Z; Some 4%Z] /\ path (fst (run c start)) = [1%Z] /\
  hooks (fst (run c start)) = [O; O] /\ mods (fst (run c start)) 5%Z = Some (Module 50) /\
  mods (fst (run c start)) 6%Z = None.
Proof.
  cbn [alternatives_load pure_blocks_quiet quiet]. split; [|split].
  - split; [exact I|]. split; [reflexivity|split; exact I].
  - split; [split; [reflexivity|discriminate]|split; exact I].
  - split; [reflexivity|]. split; [reflexivity|]. split; [reflexivity|]. split; reflexivity.
Qed.

(** Refuted in general: an exception in a block of pure imports leaves every hook
    wrapped, once more for each such block; and if an alternative fails to load, the
    suppressed modules stay unimportable. *)
Theorem C159_hooks_refuted : exists c s,
  let s' := fst (run c s) in snd (run c s) = true /\ hooks s = [O] /\ hooks s' = [2].
Proof.
  exists (Seq (Attempt (WithPure Raise)) (Attempt (WithPure (Seq (WithPure Skip) Raise)))), (mkState [] [O] (fun _ => None) None []).
  split; [reflexivity|]. split; reflexivity.
Qed.
Print Assumptions C159_hooks_refuted.

Theorem C159_modules_refuted : exists c s k m,
  mods s k = Some (Module m) /\ mods (fst (run c s)) k = Some Suppressed.
Proof.
  exists (WithAlternative [5%Z] false true Skip), start, 5%Z, 50%Z. split; reflexivity.
Qed.
Print Assumptions C159_modules_refuted.

(** What a module appends to sys.path while it is imported does not last: functions that
    import later do not find what they would find in a plain run. *)
Theorem C159_appended_refuted : exists p s,
  In p (path (fst (run (AppendPath p) s))) /\
  ~ In p (path (fst (run (WithPath [2%Z] (AppendPath p)) s))).
Proof.
  exists 3%Z, start. split; [right; left; reflexivity|].
  cbn. intros [H|[]]. discriminate.
Qed.
Print Assumptions C159_appended_refuted.

(** The scoped variable reads as the innermost block around says, in every program in
    which no block binds it to None. *)
Lemma hooks_up : forall c s (n : nat),
  Forall (fun h => n <= h) (hooks s) -> Forall (fun h => n <= h) (hooks (fst (run c s))).
Proof.
  induction c as [| |a IHa b IHb|a IHa|p|d|ps a IHa|a IHa|ks r1 r2 a IHa|v re a IHa]; intros s n H; cbn [run].
  - exact H.
  - exact H.
  - specialize (IHa s n H). destruct (run a s) as [s1 ok]. cbn [fst] in IHa.
    destruct ok; [apply IHb; exact IHa|exact IHa].
  - apply IHa. exact H.
  - exact H.
  - destruct (var s) as [v|]; [exact H|]. destruct d; exact H.
  - specialize (IHa (set_path (rev ps ++ path s) s) n H). destruct (run a _) as [s1 ok]. exact IHa.
  - assert (H' : Forall (fun h => S n <= h) (map S (hooks s))).
    { apply Forall_map. apply (Forall_impl _ (fun h (X : n <= h) => le_n_S _ _ X) H). }
    specialize (IHa (set_hooks (map S (hooks s)) s) (S n) H'). destruct (run a _) as [s1 ok].
    cbn [fst] in IHa.
    assert (W : Forall (fun h => n <= h) (hooks s1)).
    { apply (Forall_impl _ (fun h (X : S n <= h) => Nat.lt_le_incl _ _ X) IHa). }
    destruct ok; [|exact W]. destruct (forallb _ _); [|exact W].
    cbn [fst hooks set_hooks]. apply Forall_map.
    eapply Forall_impl; [|exact IHa]. intros h X. cbn beta in *. lia.
  - destruct r1; [|exact H].
    specialize (IHa (set_mods (suppress_all ks (mods s)) s) n H). destruct (run a _) as [s1 ok]. exact IHa.
  - destruct (negb re && negb (same (var s) None)); [exact H|].
    specialize (IHa (set_var v s) n H). destruct (run a _) as [s1 ok]. cbn [fst] in IHa.
    destruct (same (var s1) v); exact IHa.
Qed.

Lemma scopes_run : forall c s stack,
  binds_values c -> var s = hd None stack -> ~ In None stack ->
  trace (fst (run c s)) = trace s ++ fst (scopes c stack) /\
  snd (run c s) = snd (scopes c stack).
Proof.
  induction c as [| |a IHa b IHb|a IHa|p|d|ps a IHa|a IHa|ks r1 r2 a IHa|v re a IHa]; intros s stack B V N;
    cbn [run scopes binds_values] in *.
  - cbn [fst snd]. rewrite app_nil_r. split; reflexivity.
  - cbn [fst snd]. rewrite app_nil_r. split; reflexivity.
  - destruct B as [Ba Bb]. pose proof (C159_variable a s) as Va.
    destruct (IHa s stack Ba V N) as [T1 O1]. destruct (run a s) as [s1 ok].
    destruct (scopes a stack) as [t1 ok']. cbn [fst snd] in *. subst ok'.
    destruct ok; [|split; [exact T1|reflexivity]].
    destruct (IHb s1 stack Bb) as [T2 O2]; [congruence|exact N|].
    destruct (scopes b stack) as [t2 ok2]. cbn [fst snd] in *.
    rewrite T2, T1, <- app_assoc. split; [reflexivity|exact O2].
  - destruct (IHa s stack B V N) as [T1 _]. split; [exact T1|reflexivity].
  - cbn [fst snd]. rewrite app_nil_r. split; reflexivity.
  - rewrite V. destruct stack as [|[v|] stack]; cbn [hd].
    + destruct d; cbn [fst snd log trace]; [split; reflexivity|rewrite app_nil_r; split; reflexivity].
    + split; reflexivity.
    + exfalso. apply N. left. reflexivity.
  - destruct (IHa (set_path (rev ps ++ path s) s) stack B V N) as [T1 O1].
    destruct (run a _) as [s1 ok]. split; [exact T1|exact O1].
  - destruct (IHa (set_hooks (map S (hooks s)) s) stack B V N) as [T1 O1].
    assert (H' : Forall (fun h => 1 <= h) (hooks (set_hooks (map S (hooks s)) s))).
    { cbn [hooks set_hooks]. apply Forall_map. apply Forall_forall. intros h _. lia. }
    pose proof (hooks_up a _ 1 H') as HU.
    destruct (run a _) as [s1 ok]. cbn [fst snd] in *. destruct ok; [|split; [exact T1|exact O1]].
    assert (F : forallb (fun n => negb (Nat.eqb n 0)) (hooks s1) = true).
    { apply forallb_forall. intros n I. rewrite Forall_forall in HU. specialize (HU n I).
      destruct n; [lia|reflexivity]. }
    rewrite F. split; [exact T1|exact O1].
  - destruct r1; [|cbn [fst snd set_mods trace]; rewrite app_nil_r; split; reflexivity].
    destruct (IHa (set_mods (suppress_all ks (mods s)) s) stack B V N) as [T1 O1].
    destruct (run a _) as [s1 ok]. destruct (scopes a stack) as [t ok']. cbn [fst snd] in *.
    subst ok'. split; [exact T1|reflexivity].
  - destruct B as [Bv Ba].
    assert (NE : same (var s) None = true <-> stack = []).
    { rewrite same_iff, V. destruct stack as [|[x|] st]; cbn [hd]; split; try discriminate; try reflexivity.
      exfalso. apply N. left. reflexivity. }
    destruct re; cbn [negb andb].
    + pose proof (C159_variable a (set_var v s)) as Va.
      destruct (IHa (set_var v s) (v :: stack) Ba) as [T1 O1]; [reflexivity| |].
      { intros [H|H]; [exact (Bv H)|exact (N H)]. }
      destruct (run a _) as [s1 ok]. cbn [fst snd var set_var] in *.
      rewrite Va, (proj2 (same_iff v v) eq_refl).
      split; [exact T1|exact O1].
    + destruct stack as [|x st].
      * rewrite (proj2 NE eq_refl). cbn [negb].
        pose proof (C159_variable a (set_var v s)) as Va.
        destruct (IHa (set_var v s) [v] Ba) as [T1 O1]; [reflexivity| |].
        { intros [H|[]]. exact (Bv H). }
        destruct (run a _) as [s1 ok]. cbn [fst snd var set_var] in *.
        rewrite Va, (proj2 (same_iff v v) eq_refl).
        split; [exact T1|exact O1].
      * destruct (same (var s) None); [discriminate (proj1 NE eq_refl)|].
        cbn [negb fst snd]. rewrite app_nil_r. split; reflexivity.
Qed.

Theorem C159_reads_partial : forall c p h m,
  binds_values c ->
  let r := run c (mkState p h m None []) in
  (trace (fst r), snd r) = scopes c [].
Proof.
  intros c p h m B. cbn zeta.
  destruct (scopes_run c (mkState p h m None []) [] B eq_refl) as [T O]; [intros []|].
  cbn [trace app] in T. rewrite T, O. destruct (scopes c []); reflexivity.
Qed.
Print Assumptions C159_reads_partial.
Example C159_reads_example :
  let c := WithVar (Some 1%Z) true (Seq (WithVar (Some 2%Z) true (Get None))
             (Seq (Attempt (WithVar (Some 3%Z) false Skip)) (Get None))) in
  binds_values c /\ scopes c [] = ([Some 2%Z; Some 1%Z], true).
Proof. split; [|reflexivity]. cbn. repeat split; discriminate. Qed.

(** A block that binds it to None is taken for no block: reading fails, or gives the
    default of the reader, and a second exclusive block is let in. *)
Theorem C159_reads_refuted :
  (exists c s, scopes c [] = ([None], true) /\ var s = None /\ snd (run c s) = false) /\
  (exists c s, snd (scopes c []) = false /\ var s = None /\ snd (run c s) = true).
Proof.
  split.
  - exists (WithVar None true (Get None)), start. split; [reflexivity|]. split; reflexivity.
  - exists (WithVar None false (WithVar None false Skip)), start.
    split; [reflexivity|]. split; reflexivity.
Qed.
Print Assumptions C159_reads_refuted.
