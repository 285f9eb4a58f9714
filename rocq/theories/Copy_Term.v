(** Copying ends. *)
From Coq Require Import List Bool Arith ZArith Lia.
From Verif Require Import Copy_Model Copy_Spec Copy_Proofs.
Import ListNotations.

Section T.
Variable md : mode.
Variable h0 : heap.
Notation n0 := (length h0).
Hypothesis WF : well_formed h0.
Variable rank : nat -> nat.
Hypothesis RK : forall o k cs a, nth_error h0 o = Some (k, cs) -> In a (needed_or_tuple md k cs) -> rank a < rank o.

Definition ok (s : st) : Prop := n0 <= length (objects s) /\ forall i, i < n0 -> nth_error (objects s) i = nth_error h0 i.
Definition more (s s' : st) : Prop := forall x, find x (memo s) <> None -> find x (memo s') <> None.
Definition step (s s' : st) : Prop := ok s' /\ more s s' /\ length (objects s) <= length (objects s').
Lemma step_refl : forall s, ok s -> step s s.
Proof. intros s O. split; [exact O|split; [now intros x|lia]]. Qed.
Lemma step_trans : forall a b c, step a b -> step b c -> step a c.
Proof. intros a b c (_ & M1 & L1) (O & M2 & L2). split; [exact O|]. split; [intros x H; auto|lia]. Qed.
Lemma step_remember : forall s o c, ok s -> step s (remember s o c) /\ find o (memo (remember s o c)) <> None.
Proof.
  intros s o c O. split; [|cbn; now rewrite Nat.eqb_refl]. split; [exact O|]. split; [|cbn; lia].
  intros x H. cbn. destruct (x =? o); [discriminate|exact H].
Qed.
Lemma step_alloc : forall s n, ok s -> step s (fst (alloc s n)).
Proof.
  intros s n [A B]. split; [split|split]; cbn.
  - rewrite app_length. lia.
  - intros i L. rewrite nth_alloc_old by lia. now apply B.
  - now intros x.
  - rewrite app_length. lia.
Qed.
Lemma step_push : forall s y c, ok s -> n0 <= y -> step s (push s y c).
Proof.
  intros s y c [A B] L. split; [split|split]; cbn.
  - now rewrite change_length.
  - intros i Hi. rewrite change_other by lia. now apply B.
  - now intros x.
  - rewrite change_length. lia.
Qed.
Definition tame (cp : st -> nat -> result (st * nat)) : Prop :=
  forall s o s' c, ok s -> cp s o = Done (s', c) -> step s s'.
Lemma copy_all_step : forall cp, tame cp -> forall cs s s' cs', ok s -> copy_all cp s cs = Done (s', cs') -> step s s'.
Proof.
  intros cp T. induction cs as [|a cs IH]; intros s s' cs' O H; cbn in H.
  - inversion H; subst. now apply step_refl.
  - destruct (cp s a) as [[s1 c]|] eqn:E1; cbn in H; [|discriminate].
    destruct (copy_all cp s1 cs) as [[s2 cs2]|] eqn:E2; cbn in H; [|discriminate]. inversion H; subst.
    pose proof (T _ _ _ _ O E1) as S1. apply (step_trans s s1); [exact S1|]. eapply IH; [apply S1|exact E2].
Qed.
Lemma fill_step : forall cp, tame cp -> forall cs s y s', ok s -> n0 <= y -> fill cp s y cs = Done s' -> step s s'.
Proof.
  intros cp T. induction cs as [|a cs IH]; intros s y s' O L H; cbn in H.
  - inversion H; subst. now apply step_refl.
  - destruct (cp s a) as [[s1 c]|] eqn:E1; cbn in H; [|discriminate].
    pose proof (T _ _ _ _ O E1) as S1. pose proof (step_push s1 y c (proj1 S1) L) as S2.
    apply (step_trans s s1); [exact S1|]. apply (step_trans s1 (push s1 y c)); [exact S2|].
    eapply IH; [apply S2|exact L|exact H].
Qed.
Lemma copy_step : forall fuel, tame (copy fuel md).
Proof.
  induction fuel as [|fuel IH]; intros s o s' c O H; cbn [copy] in H; [discriminate|].
  destruct (find o (memo s)) as [c0|] eqn:N; [inversion H; subst; now apply step_refl|].
  destruct (nth_error (objects s) o) as [[k cs]|]; [|discriminate].
  match type of H with bind ?x _ = _ => destruct x as [[s1 c1]|] eqn:E end; [|discriminate].
  cbn [bind fst snd] in H. inversion H; subst. clear H.
  assert (First : forall s0 k args rest, ok s0 ->
     (let (s1, y) := alloc s0 (k, args) in bind (fill (copy fuel md) (remember s1 o y) y rest) (fun s => Done (s, y))) = Done (s1, c) -> step s0 s1).
  { intros s0 k0 args rest O0 X. cbn [alloc] in X.
    match type of X with bind ?x _ = _ => destruct x as [s2|] eqn:E2 end; [|discriminate]. cbn in X. inversion X; subst.
    pose proof (step_alloc s0 (k0, args) O0) as S1.
    destruct (step_remember (fst (alloc s0 (k0, args))) o (length (objects s0)) (proj1 S1)) as [S2 _].
    apply (step_trans _ _ _ S1). apply (step_trans _ _ _ S2).
    eapply fill_step; [exact IH|apply S2|apply O0|exact E2]. }
  assert (Last : forall k, bind (copy_all (copy fuel md) s cs) (fun r => Done (alloc (fst r) (k, snd r))) = Done (s1, c) -> step s s1).
  { intros k0 X. destruct (copy_all (copy fuel md) s cs) as [[s2 cs2]|] eqn:E2; [|discriminate]. cbn [bind fst snd] in X.
    pose proof (copy_all_step _ IH _ _ _ _ O E2) as S1. apply (step_trans _ _ _ S1).
    pose proof (step_alloc s2 (k0, cs2) (proj1 S1)) as S2. inversion X; subst. exact S2. }
  assert (S1 : step s s1).
  { destruct k as [v|v| | | |cls n names|v| |].
    - inversion E; subst. now apply step_refl.
    - destruct md; inversion E; subst; now apply step_refl.
    - now apply (First s KLst [] cs).
    - now apply (First s KDct [] cs).
    - destruct (copy_all (copy fuel md) s cs) as [[s2 cs2]|] eqn:E2; [|discriminate]. cbn [bind fst snd] in E.
      pose proof (copy_all_step _ IH _ _ _ _ O E2) as S1.
      destruct (find o (memo s2)); [inversion E; subst; exact S1|].
      destruct (same cs cs2); [inversion E; subst; exact S1|].
      apply (step_trans _ _ _ S1). pose proof (step_alloc s2 (KTup, cs2) (proj1 S1)) as S2. inversion E; subst. exact S2.
    - destruct (copy_all (copy fuel md) s (firstn n cs)) as [[s2 cs2]|] eqn:E2; [|discriminate]. cbn [bind fst snd] in E.
      pose proof (copy_all_step _ IH _ _ _ _ O E2) as S1. apply (step_trans _ _ _ S1).
      apply (First s2 (KInst cls n names) cs2 (skipn n cs)); [apply S1|exact E].
    - match type of E with Done (alloc _ ?n) = _ => pose proof (step_alloc s n O) as S2 end. inversion E; subst. exact S2.
    - destruct md; [now apply (First s KSLst [] cs)|now apply (First s KSLst [] cs)|now apply (Last KLst)].
    - destruct md; [now apply (First s KSDct [] cs)|now apply (First s KSDct [] cs)|now apply (Last KDct)]. }
  apply (step_trans _ _ _ S1). apply step_remember. apply S1.
Qed.

Definition missing (s : st) (x : nat) : bool := match find x (memo s) with None => true | Some _ => false end.
Definition todo (s : st) : nat := length (filter (missing s) (seq 0 n0)).
Lemma filter_le : forall (f g : nat -> bool) l, (forall x, g x = true -> f x = true) -> length (filter g l) <= length (filter f l).
Proof.
  intros f g l H. induction l as [|x l IH]; cbn; [lia|]. specialize (H x).
  destruct (g x); [rewrite H by reflexivity; cbn; lia|]. destruct (f x); cbn; lia.
Qed.
Lemma filter_lt : forall (f g : nat -> bool) l o, (forall x, g x = true -> f x = true) -> In o l -> f o = true -> g o = false ->
  length (filter g l) < length (filter f l).
Proof.
  intros f g l o H. induction l as [|x l IH]; intros D Fo Go; [contradiction|]. cbn. destruct D as [->|D].
  - rewrite Fo, Go. cbn. pose proof (filter_le f g l H). lia.
  - specialize (IH D Fo Go). specialize (H x). destruct (g x); [rewrite H by reflexivity; cbn; lia|]. destruct (f x); cbn; lia.
Qed.
Lemma todo_le : forall s s', more s s' -> todo s' <= todo s.
Proof.
  intros s s' M. apply filter_le. intros x. unfold missing. destruct (find x (memo s')) eqn:E; [discriminate|]. intros _.
  destruct (find x (memo s)) eqn:E2; [exfalso; apply (M x); congruence|reflexivity].
Qed.
Lemma todo_lt : forall s s' o, more s s' -> o < n0 -> find o (memo s) = None -> find o (memo s') <> None -> todo s' < todo s.
Proof.
  intros s s' o M L N N'. apply (filter_lt _ _ _ o).
  - intros x. unfold missing. destruct (find x (memo s')) eqn:E; [discriminate|]. intros _.
    destruct (find x (memo s)) eqn:E2; [exfalso; apply (M x); congruence|reflexivity].
  - apply in_seq. lia.
  - unfold missing. now rewrite N.
  - unfold missing. destruct (find o (memo s')); [reflexivity|contradiction].
Qed.
Definition top : nat := list_max (map rank (seq 0 n0)).
Lemma rank_top : forall a, a < n0 -> rank a <= top.
Proof.
  intros a L. unfold top. pose proof (proj1 (list_max_le (map rank (seq 0 n0)) (list_max (map rank (seq 0 n0)))) (le_n _)) as F.
  rewrite Forall_forall in F. apply F. apply in_map. apply in_seq. lia.
Qed.
Definition cost (s : st) (o : nat) : nat := todo s * S top + rank o.
Definition fine {A} (r : result A) : Prop :=
  match r with
  | Done _ => True
  | Fail CannotCopy => md = Regular /\ exists o v cs, nth_error h0 o = Some (KStuck v, cs)
  | Fail _ => False
  end.
Lemma fine_bind : forall A B (r : result A) (f : A -> result B), fine r -> (forall a, r = Done a -> fine (f a)) -> fine (bind r f).
Proof. intros A B [a|[]] f F G; cbn in *; auto; try contradiction. Qed.

Section Loops.
Variable cp : st -> nat -> result (st * nat).
Hypothesis T : tame cp.
Variable n : nat.
Hypothesis F : forall s a, ok s -> a < n0 -> todo s * S top + rank a < n -> fine (cp s a).
Lemma copy_all_fine : forall cs s, ok s -> (forall a, In a cs -> a < n0 /\ todo s * S top + rank a < n) -> fine (copy_all cp s cs).
Proof.
  induction cs as [|a cs IH]; intros s O B; [exact I|]. cbn [copy_all]. apply fine_bind.
  - apply F; [exact O|apply B; now left|apply B; now left].
  - intros [s1 c] E. pose proof (T _ _ _ _ O E) as S1. apply fine_bind; [|intros; exact I]. cbn [fst].
    apply IH; [apply S1|]. intros x D. destruct (B x (or_intror D)) as [B1 B2]. split; [exact B1|].
    pose proof (todo_le s s1 (proj1 (proj2 S1))). nia.
Qed.
Lemma fill_fine : forall cs s y, ok s -> n0 <= y -> (forall a, In a cs -> a < n0 /\ todo s * S top + rank a < n) -> fine (fill cp s y cs).
Proof.
  induction cs as [|a cs IH]; intros s y O L B; [exact I|]. cbn [fill]. apply fine_bind.
  - apply F; [exact O|apply B; now left|apply B; now left].
  - intros [s1 c] E. pose proof (T _ _ _ _ O E) as S1. pose proof (step_push s1 y c (proj1 S1) L) as S2. cbn [fst snd].
    apply IH; [apply S2|exact L|]. intros x D. destruct (B x (or_intror D)) as [B1 B2]. split; [exact B1|].
    pose proof (todo_le s s1 (proj1 (proj2 S1))). pose proof (todo_le s1 (push s1 y c) (proj1 (proj2 S2))). nia.
Qed.
End Loops.

Lemma copy_fine : forall fuel s o, ok s -> o < n0 -> cost s o < fuel -> fine (copy fuel md s o).
Proof.
  induction fuel as [|fuel IH]; intros s o O L C; [lia|]. cbn [copy].
  destruct (find o (memo s)) as [c0|] eqn:N; [exact I|].
  rewrite (proj2 O o L).
  destruct (nth_error h0 o) as [[k cs]|] eqn:Nk; [|exfalso; apply nth_error_None in Nk; lia].
  destruct (WF o k cs Nk) as [Wc _]. unfold cost in C.
  apply fine_bind; [|intros; exact I].
  pose proof (copy_step fuel) as Tm.
  assert (Before : forall l, (forall a, In a l -> a < n0 /\ rank a < rank o) -> fine (copy_all (copy fuel md) s l)).
  { intros l B. apply (copy_all_fine _ Tm fuel); [intros; now apply IH|exact O|].
    intros a D. destruct (B a D). split; [assumption|lia]. }
  assert (First : forall s0 k args rest, step s s0 -> (forall a, In a rest -> a < n0) ->
     fine (let (s1, y) := alloc s0 (k, args) in bind (fill (copy fuel md) (remember s1 o y) y rest) (fun s => Done (s, y)))).
  { intros s0 k0 args rest S0 B. cbn [alloc]. apply fine_bind; [|intros; exact I].
    pose proof (step_alloc s0 (k0, args) (proj1 S0)) as S1.
    destruct (step_remember (fst (alloc s0 (k0, args))) o (length (objects s0)) (proj1 S1)) as [S2 K2].
    pose proof (step_trans _ _ _ S0 (step_trans _ _ _ S1 S2)) as S3.
    apply (fill_fine _ Tm fuel); [intros; now apply IH|apply S2|apply S0|].
    intros a D. split; [now apply B|].
    pose proof (todo_lt _ _ o (proj1 (proj2 S3)) L N K2) as Lt. pose proof (rank_top a (B a D)). unfold todo in *. cbn [alloc fst] in Lt.
    cbn [remember memo objects] in *. nia. }
  assert (Last : forall k', needed_or_tuple md k cs = cs -> fine (bind (copy_all (copy fuel md) s cs) (fun r => Done (alloc (fst r) (k', snd r))))).
  { intros k' Nd. apply fine_bind; [|intros; exact I]. apply Before. intros a D. split; [now apply Wc|].
    apply (RK o k cs a Nk). now rewrite Nd. }
  destruct k as [v|v| | | |cls n names|v| |].
  - exact I.
  - destruct md eqn:M; try exact I. cbn. split; [exact M|]. eauto.
  - apply First; [now apply step_refl|exact Wc].
  - apply First; [now apply step_refl|exact Wc].
  - apply fine_bind.
    + apply Before. intros a D. split; [now apply Wc|]. now apply (RK o KTup cs a Nk).
    + intros [s1 cs'] _. cbn [fst snd]. destruct (find o (memo s1)); [exact I|]. destruct (same cs cs'); exact I.
  - apply fine_bind.
    + apply Before. intros a D. split; [apply Wc; exact (firstn_incl n cs a D)|]. now apply (RK o (KInst cls n names) cs a Nk).
    + intros [s1 args'] E. apply First.
      * now apply (copy_all_step _ Tm _ _ _ _ O E).
      * intros a D. apply Wc. rewrite <- (firstn_skipn n cs). apply in_or_app. now right.
  - exact I.
  - destruct md eqn:M; [apply First; [now apply step_refl|exact Wc]|apply First; [now apply step_refl|exact Wc]|now apply Last].
  - destruct md eqn:M; [apply First; [now apply step_refl|exact Wc]|apply First; [now apply step_refl|exact Wc]|now apply Last].
Qed.
Theorem deepcopy_ends : forall r, r < n0 -> exists bound, forall fuel, bound <= fuel -> fine (deepcopy fuel md h0 r).
Proof.
  intros r L. exists (S (cost (mkSt h0 []) r)). intros fuel B. unfold deepcopy.
  apply fine_bind; [|intros; exact I]. apply copy_fine; [split; cbn; auto|exact L|lia].
Qed.
End T.
