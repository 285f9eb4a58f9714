(** C40: symbolic random number generators *)
From Coq Require Import ZArith List Bool Lia ZifyBool.
From Verif Require Import Py PySeq_Spec Random_Model Random_Spec Random_Proofs.
Import ListNotations.
Open Scope Z_scope.

(** Copies replay: in every history of calls and copies there is one tape of drawn values, and
    every call by any copy reads the tape at that copy's position. *)
Theorem C40_replay : forall abs_hash os, exists tape : nat -> option drawn,
  forall p c a, In (p, c, Ok a) (fst (run abs_hash start os)) -> exists d, tape p = Some d /\ a = interpret abs_hash c d.
Proof.
  intros h os. pose proof (run_tape h os start start_ok) as H. destruct (run h start os) as [rs s]. exists (nth_error (future_values s)). exact (proj2 H).
Qed.
(** ... so two copies that make the same call at the same position get the same answer. *)
Theorem C40_copies_agree : forall abs_hash os p c a b,
  In (p, c, Ok a) (fst (run abs_hash start os)) -> In (p, c, Ok b) (fst (run abs_hash start os)) -> a = b.
Proof. intros h os p c a b A B. destruct (C40_replay h os) as [tape T]. destruct (T _ _ _ A) as (d & D & ->). destruct (T _ _ _ B) as (d' & D' & ->). congruence. Qed.
(** Full statement: every answer is in range.  Proved for the histories in which copies make
    the same call at the same position (in particular all histories of one generator). *)
Theorem C40_range_partial : forall abs_hash os,
  (forall g c fresh, In (Call g c fresh) os -> constrained c fresh) ->
  (forall p c c' r r', In (p, c, r) (fst (run abs_hash start os)) -> In (p, c', r') (fst (run abs_hash start os)) -> c = c') ->
  forall p c r, In (p, c, r) (fst (run abs_hash start os)) -> match r with Ok a => in_range c a | Err e => e = TypeError end.
Proof.
  intros h os FR SAME p c [a|e] I; [|exact (run_errors h os start start_ok _ _ _ I)].
  set (kind := fun p => match find (fun x => Nat.eqb (fst (fst x)) p) (fst (run h start os)) with Some x => snd (fst x) | None => Random end).
  apply (run_typed h kind os start start_ok) with (p := p); auto.
  - intros q d D. destruct q; discriminate.
  - intros q k r K. unfold kind. destruct (find _ _) as [[[q' k'] r']|] eqn:F.
    + apply find_some in F as [F1 F2]. cbn [fst snd] in *. assert (q' = q) by lia. subst. exact (SAME q k k' r r' K F1).
    + exfalso. apply (find_none _ _ F) in K. cbn in K. lia.
Qed.
(** A copy that makes another call at the same position: random() can be 1.0, and
    _randbelow(2) can be 7. *)
Theorem C40_range_refuted : forall abs_hash,
  (exists os p, (forall g c fresh, In (Call g c fresh) os -> constrained c fresh) /\ In (p, Random, Ok (AFloat 1 1)) (fst (run abs_hash start os))) /\
  (exists os p, (forall g c fresh, In (Call g c fresh) os -> constrained c fresh) /\ In (p, Below 2, Ok (AInt 7)) (fst (run abs_hash start os))).
Proof.
  intro h. split.
  - exists [Copy 0; Call 0 (Below 10) (DInt 1); Call 1 Random (DFloat 0 1)], 0%nat. split; [|cbn; auto].
    intros g c f [H|[H|[H|[]]]]; inversion H; subst; cbn; lia.
  - exists [Copy 0; Call 0 (Below 10) (DInt 7); Call 1 (Below 2) (DInt 0)], 0%nat. split; [|cbn; auto].
    intros g c f [H|[H|[H|[]]]]; inversion H; subst; cbn; lia.
Qed.
(** Reading what another kind of call has drawn: random() still lies in [0, 1], ends
    included, for every int, and _randbelow of a float is in range. *)
Theorem C40_mixed : forall abs_hash d,
  (constrained Random d \/ (exists z, d = DInt z)) ->
  (exists n m, interpret abs_hash Random d = AFloat n m /\ 0 < m /\ 0 <= n <= m) /\
  forall cap n m, 0 < cap -> d = DFloat n m -> in_range (Below cap) (interpret abs_hash (Below cap) d).
Proof.
  intros h d H. split.
  - destruct d as [z|n m].
    + cbn [interpret]. destruct (Z.eqb_spec z 0); cbn [negb]; eexists _, _; (split; [reflexivity|]); lia.
    + destruct H as [H|(z & H)]; [|discriminate]. cbn in H |- *. exists n, m. split; [reflexivity|]. lia.
  - intros cap n m C ->. cbn. pose proof (Z.mod_pos_bound (h n m) cap C). lia.
Qed.
(** The contract of randrange: its precondition holds exactly when there is a value to return;
    full statement: and then its postcondition holds of exactly the values of the range.
    Proved for positive steps. *)
Theorem C40_randrange_pre : forall start stop step, randrange_pre start stop step = true <-> randrange_values start stop step <> [].
Proof.
  assert (NE : forall a b s, py_range a b s <> [] <-> 0 < range_count a b s).
  { intros. unfold py_range. destruct (Z.to_nat (range_count a b s)) as [|k] eqn:E; cbn; split; intro H; try congruence; lia. }
  intros start stop step. unfold randrange_pre, randrange_values. destruct stop as [stop|].
  - destruct (Z.eq_dec step 0) as [->|N]; [rewrite Z.eqb_refl; cbn; rewrite andb_false_r; cbn; split; congruence|]. replace (step =? 0) with false by lia. rewrite NE. unfold range_count.
    destruct (0 <? step) eqn:P.
    + assert (0 < (stop - start + step - 1) / step <-> 0 < stop - start); [|lia]. split; intro H.
      * assert (1 * step <= stop - start + step - 1); [|lia]. pose proof (Z.mul_div_le (stop - start + step - 1) step ltac:(lia)). nia.
      * apply Z.lt_le_trans with 1; [lia|]. apply Z.div_le_lower_bound; lia.
    + assert (0 < (start - stop - step - 1) / - step <-> 0 < start - stop); [|lia]. split; intro H.
      * assert (1 * - step <= start - stop - step - 1); [|lia]. pose proof (Z.mul_div_le (start - stop - step - 1) (- step) ltac:(lia)). nia.
      * apply Z.lt_le_trans with 1; [lia|]. apply Z.div_le_lower_bound; lia.
  - destruct (step =? 1) eqn:E; cbn; [|split; congruence]. rewrite NE. unfold range_count. cbn [Z.ltb Z.compare]. rewrite Z.div_1_r. lia.
Qed.
Theorem C40_randrange_partial : forall start stop step r, randrange_pre start stop step = true -> 0 < step ->
  (randrange_post r start stop step = true <-> In r (randrange_values start stop step)).
Proof.
  intros start stop step r P S. unfold randrange_post, randrange_values, randrange_pre in *. destruct stop as [stop|].
  - replace (step =? 0) with false by lia. rewrite py_range_in by exact S. destruct (Z.eq_dec step 1) as [->|N].
    + rewrite Z.mod_1_r. lia.
    + replace (step =? 1) with false by lia. lia.
  - assert (step = 1) by lia. subst. cbn [Z.eqb Pos.eqb]. rewrite py_range_in by lia. rewrite Z.mod_1_r. lia.
Qed.
(** randrange(5, 0, -1) may return 3, but its postcondition holds of no value. *)
Theorem C40_randrange_refuted : exists start stop step, randrange_pre start stop step = true /\ In 3 (randrange_values start stop step) /\
  forall r, randrange_post r start stop step = false.
Proof. exists 5, (Some 0), (-1). split; [reflexivity|split; [right; right; left; reflexivity|]]. intro r. unfold randrange_post. lia. Qed.
(** randint and getrandbits *)
Theorem C40_contracts : forall a b k r,
  (randint_pre a b = true -> (randint_post r a b = true <-> In r (randrange_values a (Some (b + 1)) 1))) /\
  (getrandbits_pre k = true -> (getrandbits_post r k = true <-> In r (randrange_values 0 (Some (2 ^ k)) 1))).
Proof.
  intros a b k r. unfold randint_pre, randint_post, getrandbits_post, randrange_values. cbn [Z.eqb]. rewrite !py_range_in, !Z.mod_1_r by lia. lia.
Qed.

Example C40_range_case : fst (run (fun _ _ => 0) start [Call 0 (Below 10) (DInt 7); Copy 0; Call 0 Random (DFloat 1 2); Call 1 Random (DFloat 1 3)]) =
  [(0%nat, Below 10, Ok (AInt 7)); (1%nat, Random, Ok (AFloat 1 2)); (1%nat, Random, Ok (AFloat 1 2))].
Proof. reflexivity. Qed.
Example C40_randrange_case : randrange_pre 2 (Some 9) 3 = true /\ randrange_values 2 (Some 9) 3 = [2; 5; 8] /\ randrange_post 8 2 (Some 9) 3 = true. Proof. repeat split; reflexivity. Qed.

Print Assumptions C40_replay.
Print Assumptions C40_copies_agree.
Print Assumptions C40_range_partial.
Print Assumptions C40_range_refuted.
Print Assumptions C40_mixed.
Print Assumptions C40_randrange_pre.
Print Assumptions C40_randrange_partial.
Print Assumptions C40_randrange_refuted.
Print Assumptions C40_contracts.
