From Coq Require Import ZArith List Bool Lia ZifyBool ZifyNat.
From Verif Require Import Py PySeq_Spec Random_Model Random_Spec.
Import ListNotations.
Open Scope Z_scope.
Section R.
Variable abs_hash : Z -> Z -> Z.
Notation run := (run abs_hash).
Notation interpret := (interpret abs_hash).
(** generators are never beyond the end *)
Definition ok (s : state) : Prop := Forall (fun i => (i <= length (future_values s))%nat) (positions s).
Lemma start_ok : ok start. Proof. constructor; [cbn; lia|constructor]. Qed.
Definition extends (a b : list drawn) : Prop := exists r, b = a ++ r.
Lemma ext_nth a b i d : extends a b -> nth_error a i = Some d -> nth_error b i = Some d.
Proof. intros [r ->] H. rewrite nth_error_app1; [exact H|]. apply nth_error_Some. congruence. Qed.
Lemma call_ok s g c fresh : ok s -> let '(r, s') := step_call abs_hash s g c fresh in ok s' /\ extends (future_values s) (future_values s') /\
  match r with
  | Ok a => exists d, nth_error (future_values s') (nth g (positions s) O) = Some d /\ a = interpret c d /\
            ((future_values s' = future_values s /\ nth_error (future_values s) (nth g (positions s) O) = Some d) \/
             (future_values s' = future_values s ++ [fresh] /\ nth g (positions s) O = length (future_values s) /\ d = fresh))
  | Err e => nth_error (positions s) g = None /\ future_values s' = future_values s
  end.
Proof.
  intro OK. unfold step_call. destruct (nth_error (positions s) g) as [idx|] eqn:G; [|split; [exact OK|]; split; [exists []; now rewrite app_nil_r|auto]].
  assert (N : nth g (positions s) O = idx) by now apply nth_error_nth. rewrite N.
  assert (I : (idx <= length (future_values s))%nat) by (unfold ok in OK; rewrite Forall_forall in OK; apply OK; now apply nth_error_In in G).
  assert (POS : forall fv, (length (future_values s) <= length fv)%nat -> (idx < length fv)%nat -> ok (mkS fv (firstn g (positions s) ++ S idx :: skipn (S g) (positions s)))).
  { intros fv L1 L2. unfold ok in *. cbn [future_values positions]. assert (F : Forall (fun i => (i <= length fv)%nat) (positions s)) by (eapply Forall_impl; [|exact OK]; cbn beta; lia).
    rewrite <- (firstn_skipn g (positions s)) in F. apply Forall_app in F as [F1 F2]. apply Forall_app. split; [exact F1|]. constructor; [lia|].
    change (skipn (S g) (positions s)) with (skipn (1 + g) (positions s)). assert (SK : skipn (1 + g) (positions s) = skipn 1 (skipn g (positions s))).
    { clear. generalize (positions s). induction g as [|g IH]; intros [|x l]; try reflexivity. cbn [plus skipn]. apply IH. }
    rewrite SK. destruct (skipn g (positions s)); [constructor|]. now inversion F2. }
  destruct (length (future_values s) <=? idx)%nat eqn:E.
  - assert (idx = length (future_values s)) as -> by lia. rewrite nth_error_app2, Nat.sub_diag by lia. cbn [nth_error].
    split; [apply POS; rewrite app_length; cbn; lia|]. cbn [future_values]. split; [now exists [fresh]|].
    exists fresh. rewrite nth_error_app2, Nat.sub_diag by lia. repeat split. right. auto.
  - destruct (nth_error (future_values s) idx) as [d|] eqn:D; [|apply nth_error_None in D; lia].
    split; [apply POS; lia|]. cbn [future_values]. split; [exists []; now rewrite app_nil_r|]. exists d. auto.
Qed.
Lemma copy_ok s g : ok s -> ok (step_copy s g).
Proof.
  intro OK. unfold step_copy. destruct (nth_error (positions s) g) as [idx|] eqn:G; [|exact OK]. unfold ok in *. cbn. apply Forall_app. split; [exact OK|].
  constructor; [|constructor]. rewrite Forall_forall in OK. apply OK. now apply nth_error_In in G.
Qed.
Lemma copy_fv s g : future_values (step_copy s g) = future_values s. Proof. unfold step_copy. now destruct (nth_error _ g). Qed.
Lemma ext_trans a b c : extends a b -> extends b c -> extends a c.
Proof. intros [r ->] [q ->]. exists (r ++ q). now rewrite app_assoc. Qed.
(** every answer is read off the final list *)
Lemma run_tape os : forall s, ok s -> let '(rs, s') := run s os in extends (future_values s) (future_values s') /\
  forall p c a, In (p, c, Ok a) rs -> exists d, nth_error (future_values s') p = Some d /\ a = interpret c d.
Proof.
  induction os as [|[g c fresh|g] os IH]; intros s OK; cbn [Random_Model.run].
  - split; [exists []; now rewrite app_nil_r|]. intros p c a [].
  - pose proof (call_ok s g c fresh OK) as X. destruct (step_call abs_hash s g c fresh) as [r s1]. destruct X as (OK1 & E1 & R).
    specialize (IH s1 OK1). destruct (run s1 os) as [rs s2]. destruct IH as [E2 IH]. split; [now apply (ext_trans _ _ _ E1)|].
    intros p c' a [H|H]; [|now apply IH]. injection H as <- <- ->. destruct R as (d & D & -> & _). exists d. split; [now apply (ext_nth _ _ _ _ E2)|reflexivity].
  - specialize (IH (step_copy s g) (copy_ok s g OK)). now rewrite copy_fv in IH.
Qed.
Lemma run_errors os : forall s, ok s -> forall p c e, In (p, c, Err e) (fst (run s os)) -> e = TypeError.
Proof.
  induction os as [|[g c fresh|g] os IH]; intros s OK p c' e; cbn [Random_Model.run].
  - intros [].
  - pose proof (call_ok s g c fresh OK) as X. destruct (step_call abs_hash s g c fresh) as [r s1] eqn:SC. destruct X as (OK1 & _ & R).
    specialize (IH s1 OK1 p c' e). destruct (run s1 os) as [rs s2]. cbn [fst] in *. intros [H|H]; [|auto]. injection H as <- <- ->.
    unfold step_call in SC. destruct R as [R _]. rewrite R in SC. injection SC as <- _. reflexivity.
  - apply IH. now apply copy_ok.
Qed.
(** with one kind of call per position, everything is in range *)
Definition typed (kind : nat -> call) (l : list drawn) : Prop := forall p d, nth_error l p = Some d -> constrained (kind p) d.
Lemma interpret_range c d : constrained c d -> in_range c (interpret c d).
Proof. destruct c, d; cbn; tauto. Qed.
Lemma run_typed kind os : forall s, ok s -> typed kind (future_values s) ->
  (forall g c fresh, In (Call g c fresh) os -> constrained c fresh) ->
  (forall p c r, In (p, c, r) (fst (run s os)) -> c = kind p) ->
  forall p c a, In (p, c, Ok a) (fst (run s os)) -> in_range c a.
Proof.
  induction os as [|[g c fresh|g] os IH]; intros s OK TY FR KI p c' a; cbn [Random_Model.run] in *.
  - intros [].
  - pose proof (call_ok s g c fresh OK) as X. destruct (step_call abs_hash s g c fresh) as [r s1]. destruct X as (OK1 & [q E1] & R).
    specialize (IH s1 OK1). destruct (run s1 os) as [rs s2] eqn:RN. cbn [fst] in *.
    assert (K : c = kind (nth g (positions s) O)) by (apply (KI _ _ r); now left).
    assert (C : constrained c fresh) by (apply (FR g); now left).
    intros [H|H].
    + injection H as <- <- ->. destruct R as (d & _ & -> & [[_ D]|(_ & _ & ->)]); apply interpret_range; [rewrite K; exact (TY _ _ D)|exact C].
    + apply IH with (p := p); auto.
      * intros p' d D. destruct r as [a'|e].
        -- destruct R as (d' & _ & _ & [[E _]|(E & P & ->)]); rewrite E in D; [now apply TY|].
           destruct (Nat.lt_ge_cases p' (length (future_values s))) as [L|L]; [rewrite nth_error_app1 in D by exact L; now apply TY|].
           rewrite nth_error_app2 in D by exact L. destruct (p' - length (future_values s))%nat as [|k] eqn:Q; [|destruct k; discriminate].
           injection D as <-. replace p' with (nth g (positions s) O) by lia. now rewrite <- K.
        -- destruct R as [_ E]. rewrite E in D. now apply TY.
      * intros g' c0 f0 I. apply (FR g'). now right.
      * intros p0 c0 r0 I. apply (KI p0 c0 r0). now right.
  - apply IH; auto using copy_ok. { now rewrite copy_fv. } intros g' c0 f0 I. apply (FR g'). now right.
Qed.
End R.
Lemma py_range_in r a b s : 0 < s -> (In r (py_range a b s) <-> a <= r < b /\ (r - a) mod s = 0).
Proof.
  intro S. unfold py_range. rewrite in_map_iff. assert (RC : range_count a b s = Z.max 0 ((b - a + s - 1) / s)) by (unfold range_count; now replace (0 <? s) with true by lia).
  rewrite RC. split.
  - intros (k & <- & K). apply in_seq in K. assert (Z.of_nat k + 1 <= (b - a + s - 1) / s) by lia. pose proof (Z.mul_div_le (b - a + s - 1) s S).
    split; [nia|]. replace (a + s * Z.of_nat k - a) with (Z.of_nat k * s) by lia. apply Z.mod_mul. lia.
  - intros [B M]. apply Z.mod_divide in M; [|lia]. destruct M as [k M]. exists (Z.to_nat k). assert (0 <= k) by nia. split; [nia|]. apply in_seq.
    assert (k < (b - a + s - 1) / s); [|lia]. assert (k + 1 <= (b - a + s - 1) / s); [|lia]. apply Z.div_le_lower_bound; nia.
Qed.
