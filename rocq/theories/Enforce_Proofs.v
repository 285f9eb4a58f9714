From Coq Require Import List Bool Arith Lia.
From Verif Require Import Enforce_Model Enforce_Spec.
Import ListNotations.

Lemma checks_app t : forall open t', checks open (t ++ t') = match checks open t with None => None | Some o => checks o t' end.
Proof.
  induction t as [|[f|f|f i|f i|f] t IH]; intros open t'; cbn [app checks]; auto.
  - destruct (existsb _ open); auto.
  - destruct open as [|g open]; [reflexivity|]. destruct (f =? g); auto.
Qed.

Section Enforce.
Variables V store old : Type.
Variable truth : V -> bool.
Notation code := (code V store). Notation outcome := (outcome V). Notation contract := (contract V store old).
Notation world := (world store).
Variable body : nat -> V -> code.
Variable conditions : nat -> option contract.
Variable bind : nat -> V -> option V.
Variable copy_args : V -> store -> old.
Notation run := (run V store old truth body conditions bind copy_args).
Notation pre_loop := (pre_loop V store truth).
Notation post_loop := (post_loop V store old truth).
Notation wrapper := (wrapper V store old truth body bind copy_args).
Notation does := (does V store old truth body conditions bind copy_args).
Notation calls := (calls V store old truth body conditions bind copy_args).
Notation pres := (pres V store old truth body conditions bind copy_args).
Notation posts := (posts V store old truth body conditions bind copy_args).
Notation st := (st store). Notation log := (log store). Notation fns_enforcing := (fns_enforcing store).
Notation emit := (emit store). Notation start_checking := (start_checking store). Notation stop_checking := (stop_checking store).
Notation not_enforced := (not_enforced store).

Definition fits (K : nat -> Prop) (w : world) : Prop := forall f, K f <-> not_enforced f w = true.
Definition same_enf (w w' : world) : Prop := fns_enforcing w' = fns_enforcing w.

Lemma fits_same K w w' : fits K w -> fns_enforcing w' = fns_enforcing w -> fits K w'.
Proof. intros F E f. rewrite (F f). unfold Enforce_Model.not_enforced. now rewrite E. Qed.
Lemma fits_start K w f : fits K w -> fits (unless K f) (start_checking f w).
Proof.
  intros F g. unfold unless. rewrite (F g). unfold Enforce_Model.not_enforced, Enforce_Model.start_checking. cbn. destruct (fns_enforcing w); cbn; [|intuition].
  rewrite orb_true_iff, Nat.eqb_eq. intuition.
Qed.
Lemma stop_same w w' f : not_enforced f w = false -> fns_enforcing w' = fns_enforcing (start_checking f w) -> fns_enforcing (stop_checking f w') = fns_enforcing w.
Proof.
  unfold Enforce_Model.not_enforced, Enforce_Model.stop_checking, Enforce_Model.start_checking. cbn. intros N ->. destruct (fns_enforcing w) as [l|]; [|reflexivity].
  f_equal. cbn. rewrite Nat.eqb_refl. cbn. induction l as [|g l IH]; cbn in *; [reflexivity|]. apply orb_false_iff in N as [N1 N2]. rewrite N1. cbn. f_equal. now apply IH.
Qed.

Hypothesis wf : forall f c, conditions f = Some c -> unknown_mutable _ _ _ c = false /\ ~ In None (pre _ _ _ c).

(** ** Soundness *)
Definition sound (rn : world -> code -> option (outcome * world)) : Prop :=
  forall w c o w' K, rn w c = Some (o, w') -> fits K w -> fns_enforcing w' = fns_enforcing w /\ exists t, log w' = log w ++ t /\ does K (st w) c t o (st w').

Lemma pre_sound rn f a : sound rn -> forall l i w r w' K, ~ In None l -> pre_loop rn f i l a w = Some (r, w') -> fits K w ->
  fns_enforcing w' = fns_enforcing w /\ exists t, log w' = log w ++ t /\ pres K f i l a (st w) t r (st w').
Proof.
  intro S. induction l as [|[p|] l IH]; intros i w r w' K N E F; cbn in E.
  - inversion E; subst. split; [reflexivity|]. exists []. rewrite app_nil_r. split; [reflexivity|constructor].
  - destruct (rn (emit (EvalPre f i) w) (p a)) as [[o w1]|] eqn:R; [|discriminate].
    destruct (S _ _ _ _ K R) as (E1 & t & L1 & D); [exact (fits_same K w _ F eq_refl)|]. cbn in E1, L1, D.
    assert (X : forall e, (forall v, o <> Returned V v) -> Some o = r -> w1 = w' -> e = r -> fns_enforcing w' = fns_enforcing w /\ exists t, log w' = log w ++ t /\ pres K f i (Some p :: l) a (st w) t r (st w')).
    { intros e NR <- <- _. split; [exact E1|]. exists (EvalPre f i :: t). rewrite L1, <- app_assoc. split; [reflexivity|]. now apply pres_raise. }
    destruct o as [v|g|g| |e]; try (inversion E; subst; eapply X; try reflexivity; discriminate).
    destruct (truth v) eqn:T.
    + destruct (IH _ _ _ _ K (fun H => N (or_intror H)) E) as (E2 & t2 & L2 & P); [exact (fits_same K w _ F E1)|].
      split; [congruence|]. exists (EvalPre f i :: t ++ t2). split; [rewrite L2, L1, <- !app_assoc; reflexivity|]. now apply pres_true with (v := v) (s1 := st w1).
    + inversion E; subst. split; [exact E1|]. exists (EvalPre f i :: t). rewrite L1, <- app_assoc. split; [reflexivity|]. now apply pres_false with v.
  - exfalso. apply N. now left.
Qed.
Lemma post_sound rn f a b x : sound rn -> forall l i w r w' K, post_loop rn f i l a b x w = Some (r, w') -> fits K w ->
  fns_enforcing w' = fns_enforcing w /\ exists t, log w' = log w ++ t /\ posts K f i l a b x (st w) t r (st w').
Proof.
  intro S. induction l as [|[p|] l IH]; intros i w r w' K E F; cbn in E.
  - inversion E; subst. split; [reflexivity|]. exists []. rewrite app_nil_r. split; [reflexivity|constructor].
  - destruct (rn (emit (EvalPost f i) w) (p a b x)) as [[o w1]|] eqn:R; [|discriminate].
    destruct (S _ _ _ _ K R) as (E1 & t & L1 & D); [exact (fits_same K w _ F eq_refl)|]. cbn in E1, L1, D.
    assert (X : forall e, (forall v, o <> Returned V v) -> Some o = r -> w1 = w' -> e = r -> fns_enforcing w' = fns_enforcing w /\ exists t, log w' = log w ++ t /\ posts K f i (Some p :: l) a b x (st w) t r (st w')).
    { intros e NR <- <- _. split; [exact E1|]. exists (EvalPost f i :: t). rewrite L1, <- app_assoc. split; [reflexivity|]. now apply posts_raise. }
    destruct o as [v|g|g| |e]; try (inversion E; subst; eapply X; try reflexivity; discriminate).
    destruct (truth v) eqn:T.
    + destruct (IH _ _ _ _ K E) as (E2 & t2 & L2 & P); [exact (fits_same K w _ F E1)|].
      split; [congruence|]. exists (EvalPost f i :: t ++ t2). split; [rewrite L2, L1, <- !app_assoc; reflexivity|]. now apply posts_true with (v := v) (s1 := st w1).
    + inversion E; subst. split; [exact E1|]. exists (EvalPost f i :: t). rewrite L1, <- app_assoc. split; [reflexivity|]. now apply posts_false with v.
  - destruct (IH _ _ _ _ K E F) as (E2 & t2 & L2 & P). split; [exact E2|]. exists t2. split; [exact L2|now constructor].
Qed.

Lemma wrapper_sound rn f c a : sound rn -> conditions f = Some c -> forall w o w' K, wrapper rn f c a w = Some (o, w') -> fits K w ->
  fns_enforcing w' = fns_enforcing w /\ exists t, log w' = log w ++ t /\ calls K (st w) f a t o (st w').
Proof.
  intros S C w o w' K E F. unfold Enforce_Model.wrapper in E. destruct (wf f c C) as [UM NN]. destruct (not_enforced f w) eqn:N.
  - destruct (S _ _ _ _ K E) as (E1 & t & L & D); [exact (fits_same K w _ F eq_refl)|]. split; [exact E1|]. exists (Enter f :: t). cbn in L, D. rewrite L, <- app_assoc.
    split; [reflexivity|]. constructor; [right; now apply F|exact D].
  - assert (NK : ~ K f) by (rewrite (F f), N; discriminate).
    destruct (bind f a) as [args|] eqn:B.
    2:{ inversion E; subst. split; [exact (stop_same w _ f N eq_refl)|]. exists [Checking f; Checked f]. cbn. rewrite <- app_assoc. split; [reflexivity|]. now apply calls_bind with c. }
    rewrite UM in E. destruct (pre_loop rn f 0 _ args _) as [[r w1]|] eqn:P; [|discriminate].
    destruct (pre_sound rn f args S _ _ _ _ _ (unless K f) NN P (fits_start K w f F)) as (E1 & t & L1 & D1). cbn in L1, D1.
    assert (E1' := stop_same w w1 f N E1).
    destruct r as [e|].
    { inversion E; subst. split; [exact E1'|]. exists (Checking f :: t ++ [Checked f]). cbn. rewrite L1, <- !app_assoc. split; [reflexivity|]. now apply calls_pre with c args. }
    destruct (rn _ (body f a)) as [[o2 w2]|] eqn:R; [|discriminate].
    destruct (S _ _ _ _ K R) as (E2 & t2 & L2 & D2); [exact (fits_same K w _ F E1')|]. cbn [st log emit stop_checking start_checking] in L2, D2. 
    assert (E2' : fns_enforcing w2 = fns_enforcing w) by (etransitivity; [exact E2|exact E1']).
    cbn in L2, D2. rewrite L1 in L2.
    assert (X : (forall v, o2 <> Returned V v) -> o2 = o -> w2 = w' -> fns_enforcing w' = fns_enforcing w /\ exists t, log w' = log w ++ t /\ calls K (st w) f a t o (st w')).
    { intros NR <- <-. split; [exact E2'|]. exists (Checking f :: t ++ [Checked f; Enter f] ++ t2). rewrite L2, <- !app_assoc. split; [reflexivity|].
      now apply calls_raises with c args (st w1). }
    destruct o2 as [ret|g|g| |e]; try (inversion E; subst; apply X; try reflexivity; discriminate). clear X.
    destruct (post_loop rn f 0 _ args _ ret _) as [[r w3]|] eqn:Q; [|discriminate].
    assert (F2 : fits K w2) by exact (fits_same K w w2 F E2').
    destruct (post_sound rn f args _ ret S _ _ _ _ _ (unless K f) Q (fits_start K w2 f F2)) as (E3 & t3 & L3 & D3). cbn in L3, D3.
    assert (N2 : not_enforced f w2 = false) by (unfold Enforce_Model.not_enforced in *; now rewrite E2').
    assert (E3' := stop_same w2 w3 f N2 E3).
    assert (X : o = (match r with None => Returned V ret | Some e => e end) /\ w' = stop_checking f w3) by (destruct r; inversion E; auto). destruct X as [-> ->].
    split; [congruence|]. exists (Checking f :: t ++ [Checked f; Enter f] ++ t2 ++ [Checking f] ++ t3 ++ [Checked f]). cbn. rewrite L3, L2, <- !app_assoc. cbn.
    split; [reflexivity|]. exact (calls_post _ _ _ _ _ _ _ _ K (st w) f a c args t (st w1) t2 ret (st w2) t3 r (st w3) C NK B D1 D2 D3).
Qed.
Lemma run_sound n : sound (run n).
Proof.
  induction n as [|n IH]; intros w c o w' K E F; [discriminate|]. cbn in E. destruct c as [o0|u k|f a k].
  - inversion E; subst. split; [reflexivity|]. exists []. rewrite app_nil_r. split; [reflexivity|constructor].
  - destruct (IH _ _ _ _ K E) as (E1 & t & L & D); [exact (fits_same K w _ F eq_refl)|]. split; [exact E1|]. exists t. split; [exact L|now constructor].
  - destruct (match conditions f with None => _ | Some c => _ end) as [[o1 w1]|] eqn:C; [|discriminate].
    assert (X : fns_enforcing w1 = fns_enforcing w /\ exists t, log w1 = log w ++ t /\ calls K (st w) f a t o1 (st w1)).
    { destruct (conditions f) as [ct|] eqn:CF.
      - exact (wrapper_sound (run n) f ct a IH CF w o1 w1 K C F).
      - destruct (IH _ _ _ _ K C) as (E1 & t & L & D); [exact (fits_same K w _ F eq_refl)|]. split; [exact E1|]. exists (Enter f :: t). cbn in L, D. rewrite L, <- app_assoc.
        split; [reflexivity|]. constructor; [now left|exact D]. }
    destruct X as (E1 & t & L & D). destruct (IH _ _ _ _ K E (fits_same K w w1 F E1)) as (E2 & t2 & L2 & D2).
    split; [congruence|]. exists (t ++ t2). rewrite L2, L, <- app_assoc. split; [reflexivity|]. now apply does_call with o1 (st w1).
Qed.

(** ** More fuel *)
Definition le_run (r1 r2 : world -> code -> option (outcome * world)) : Prop := forall w c x, r1 w c = Some x -> r2 w c = Some x.
Lemma pre_mono r1 r2 f a : le_run r1 r2 -> forall l i w x, pre_loop r1 f i l a w = Some x -> pre_loop r2 f i l a w = Some x.
Proof.
  intro M. induction l as [|[p|] l IH]; intros i w x E; cbn in *; auto.
  destruct (r1 (emit _ _) _) as [[o w1]|] eqn:R; [|discriminate]. rewrite (M _ _ _ R). destruct o; auto. destruct (truth _); auto.
Qed.
Lemma post_mono r1 r2 f a b y : le_run r1 r2 -> forall l i w x, post_loop r1 f i l a b y w = Some x -> post_loop r2 f i l a b y w = Some x.
Proof.
  intro M. induction l as [|[p|] l IH]; intros i w x E; cbn in *; auto.
  destruct (r1 (emit _ _) _) as [[o w1]|] eqn:R; [|discriminate]. rewrite (M _ _ _ R). destruct o; auto. destruct (truth _); auto.
Qed.
Lemma wrapper_mono r1 r2 f c a : le_run r1 r2 -> forall w x, wrapper r1 f c a w = Some x -> wrapper r2 f c a w = Some x.
Proof.
  intros M w x E. unfold Enforce_Model.wrapper in *. destruct (not_enforced f w); auto. destruct (bind f a); auto. destruct (unknown_mutable _ _ _ c); auto.
  destruct (pre_loop r1 _ _ _ _ _) as [[r w1]|] eqn:P; [|discriminate]. rewrite (pre_mono _ _ _ _ M _ _ _ _ P). destruct r; auto.
  destruct (r1 (emit _ _) _) as [[o w2]|] eqn:R; [|discriminate]. rewrite (M _ _ _ R). destruct o; auto.
  destruct (post_loop r1 _ _ _ _ _ _ _) as [[r w3]|] eqn:Q; [|discriminate]. rewrite (post_mono _ _ _ _ _ _ M _ _ _ _ Q). auto.
Qed.
Lemma run_S n : le_run (run n) (run (S n)).
Proof.
  induction n as [|n IH]; intros w c x E; [discriminate|]. change (run (S (S n)) w c) with
    (match c with
    | Done _ _ o => Some (o, w)
    | Step _ _ u k => run (S n) (W store (u (st w)) (fns_enforcing w) (log w)) (k (st w))
    | Call _ _ f a k =>
      match (match conditions f with
             | None => run (S n) (emit (Enter f) w) (body f a)
             | Some c => wrapper (run (S n)) f c a w
             end) with
      | None => None
      | Some (o, w) => run (S n) w (k o)
      end
    end).
  cbn in E. destruct c as [o|u k|f a k]; auto.
  destruct (conditions f) as [ct|].
  - destruct (wrapper (run n) _ _ _ _) as [[o w1]|] eqn:R; [|discriminate]. rewrite (wrapper_mono _ _ _ _ _ IH _ _ R). auto.
  - destruct (run n (emit _ _) _) as [[o w1]|] eqn:R; [|discriminate]. rewrite (IH _ _ _ R). auto.
Qed.
Lemma run_mono n m : n <= m -> le_run (run n) (run m).
Proof. induction 1; intros w c x E; auto. apply run_S. auto. Qed.

(** ** Completeness *)
Scheme does_m := Induction for Enforce_Spec.does Sort Prop
  with calls_m := Induction for Enforce_Spec.calls Sort Prop
  with pres_m := Induction for Enforce_Spec.pres Sort Prop
  with posts_m := Induction for Enforce_Spec.posts Sort Prop.


Definition wrapped (n : nat) f a w : option (outcome * world) :=
  match conditions f with None => run n (emit (Enter f) w) (body f a) | Some c => wrapper (run n) f c a w end.
Definition grown (w : world) s t : world := W store s (fns_enforcing w) (log w ++ t).
Lemma wrapped_mono n m f a w x : n <= m -> wrapped n f a w = Some x -> wrapped m f a w = Some x.
Proof. intros L. unfold wrapped. destruct (conditions f); [apply wrapper_mono|]; intros; apply (run_mono n m L) || now apply (run_mono n m L). auto. Qed.
Lemma grown_fits K w s t : fits K w -> fits K (grown w s t).
Proof. intro F. exact (fits_same K w _ F eq_refl). Qed.
Lemma not_enforced_grown f w s t : not_enforced f (grown w s t) = not_enforced f w. Proof. reflexivity. Qed.
Lemma stop_start f w s t : not_enforced f w = false ->
  stop_checking f (grown (start_checking f w) s t) = grown w s ((Checking f :: t) ++ [Checked f]).
Proof.
  intro N. assert (E := stop_same w (grown (start_checking f w) s t) f N eq_refl). unfold Enforce_Model.stop_checking, Enforce_Model.emit in *.
  cbn [Enforce_Model.fns_enforcing] in E. unfold grown. cbn in E |- *. rewrite E. f_equal. now rewrite <- !app_assoc.
Qed.

Lemma complete :
  (forall K s c t o s', does K s c t o s' -> forall w, st w = s -> fits K w -> exists n, run n w c = Some (o, grown w s' t)) /\
  (forall K s f a t o s', calls K s f a t o s' -> forall w, st w = s -> fits K w -> exists n, wrapped n f a w = Some (o, grown w s' t)) /\
  (forall K f i l a s t r s', pres K f i l a s t r s' -> forall w, st w = s -> fits K w -> ~ In None l -> exists n, pre_loop (run n) f i l a w = Some (r, grown w s' t)) /\
  (forall K f i l a b x s t r s', posts K f i l a b x s t r s' -> forall w, st w = s -> fits K w -> exists n, post_loop (run n) f i l a b x w = Some (r, grown w s' t)).
Proof.
  set (P1 := fun K s c t o s' (_ : does K s c t o s') => forall w, st w = s -> fits K w -> exists n, run n w c = Some (o, grown w s' t)).
  set (P2 := fun K s f a t o s' (_ : calls K s f a t o s') => forall w, st w = s -> fits K w -> exists n, wrapped n f a w = Some (o, grown w s' t)).
  set (P3 := fun K f i l a s t r s' (_ : pres K f i l a s t r s') => forall w, st w = s -> fits K w -> ~ In None l -> exists n, pre_loop (run n) f i l a w = Some (r, grown w s' t)).
  set (P4 := fun K f i l a b x s t r s' (_ : posts K f i l a b x s t r s') => forall w, st w = s -> fits K w -> exists n, post_loop (run n) f i l a b x w = Some (r, grown w s' t)).
  assert (d1 : forall K s o, P1 K s (Done V store o) [] o s (does_done _ _ _ _ _ _ _ _ K s o)).
  { intros K s o w <- F. exists 1. unfold grown. cbn. rewrite app_nil_r. now destruct w. }
  assert (d2 : forall K s u k t o s' D, P1 K (u s) (k s) t o s' D -> P1 K s (Step V store u k) t o s' (does_step _ _ _ _ _ _ _ _ K s u k t o s' D)).
  { intros K s u k t o s' D IH w <- F. destruct (IH (W store (u (st w)) (fns_enforcing w) (log w)) eq_refl (fits_same K w _ F eq_refl)) as [n E]. exists (S n). exact E. }
  assert (d3 : forall K s f a k t o s1 t' o' s' C D, P2 K s f a t o s1 C -> P1 K s1 (k o) t' o' s' D -> P1 K s (Call V store f a k) (t ++ t') o' s' (does_call _ _ _ _ _ _ _ _ K s f a k t o s1 t' o' s' C D)).
  { intros K s f a k t o s1 t' o' s' C D IH1 IH2 w E F. destruct (IH1 w E F) as [n1 E1]. destruct (IH2 (grown w s1 t) eq_refl (grown_fits K w _ _ F)) as [n2 E2].
    exists (S (Nat.max n1 n2)). change (match wrapped (Nat.max n1 n2) f a w with None => None | Some (o, w) => run (Nat.max n1 n2) w (k o) end = Some (o', grown w s' (t ++ t'))). rewrite (wrapped_mono n1 (Nat.max n1 n2) f a w _ ltac:(lia) E1).
    rewrite (run_mono n2 (Nat.max n1 n2) ltac:(lia) _ _ _ E2). unfold grown. cbn. now rewrite app_assoc. }
  assert (c1 : forall K s f a t o s' H D, P1 K s (body f a) t o s' D -> P2 K s f a (Enter f :: t) o s' (calls_plain _ _ _ _ _ _ _ _ K s f a t o s' H D)).
  { intros K s f a t o s' H D IH w E F. destruct (IH (emit (Enter f) w) E (fits_same K w _ F eq_refl)) as [n En]. exists n. unfold wrapped, Enforce_Model.wrapper.
    assert (X : run n (emit (Enter f) w) (body f a) = Some (o, grown w s' (Enter f :: t))) by (rewrite En; unfold grown; cbn; now rewrite <- app_assoc).
    destruct (conditions f) as [c|] eqn:C; [|exact X]. destruct H as [H|H]; [discriminate|]. apply F in H. rewrite H. exact X. }
  assert (c2 : forall K s f a c C N B, P2 K s f a [Checking f; Checked f] (TypeErr V) s (calls_bind _ _ _ _ _ _ _ _ K s f a c C N B)).
  { intros K s f a c C N B w E F. exists 0. unfold wrapped, Enforce_Model.wrapper. rewrite C, B. destruct (not_enforced f w) eqn:NE; [now apply F in NE|].
    f_equal. f_equal. assert (X := stop_start f w s [] NE). cbn [app] in X. rewrite <- X. f_equal. unfold grown, Enforce_Model.start_checking, Enforce_Model.emit. cbn. now rewrite app_nil_r, E. }
  assert (grow_start : forall f w s t, grown (start_checking f w) s t = W store s (fns_enforcing (start_checking f w)) (log w ++ Checking f :: t)).
  { intros. unfold grown. cbn. now rewrite <- app_assoc. }
  assert (c3 : forall K s f a c args t o s' C N B D, P3 (unless K f) f 0 (pre _ _ _ c) args s t (Some o) s' D -> P2 K s f a (Checking f :: t ++ [Checked f]) o s' (calls_pre _ _ _ _ _ _ _ _ K s f a c args t o s' C N B D)).
  { intros K s f a c args t o s' C N B D IH w E F. destruct (wf f c C) as [UM NN]. destruct (IH (start_checking f w) E (fits_start K w f F) NN) as [n En].
    exists n. unfold wrapped, Enforce_Model.wrapper. rewrite C, B, UM. destruct (not_enforced f w) eqn:NE; [now apply F in NE|]. rewrite En. now rewrite stop_start. }
  assert (c4 : forall K s f a c args t s1 t' o s' C N B D D' NR, P3 (unless K f) f 0 (pre _ _ _ c) args s t None s1 D -> P1 K s1 (body f a) t' o s' D' ->
    P2 K s f a (Checking f :: t ++ [Checked f; Enter f] ++ t') o s' (calls_raises _ _ _ _ _ _ _ _ K s f a c args t s1 t' o s' C N B D D' NR)).
  { intros K s f a c args t s1 t' o s' C N B D D' NR IH1 IH2 w E F. destruct (wf f c C) as [UM NN]. destruct (IH1 (start_checking f w) E (fits_start K w f F) NN) as [n1 E1].
    destruct (not_enforced f w) eqn:NE; [now apply F in NE|].
    destruct (IH2 (emit (Enter f) (grown w s1 ((Checking f :: t) ++ [Checked f]))) eq_refl (fits_same K w _ F eq_refl)) as [n2 E2].
    exists (Nat.max n1 n2). unfold wrapped, Enforce_Model.wrapper. rewrite C, B, UM, NE. rewrite (pre_mono _ _ _ _ (run_mono n1 (Nat.max n1 n2) ltac:(lia)) _ _ _ _ E1).
    rewrite stop_start by exact NE. rewrite (run_mono n2 (Nat.max n1 n2) ltac:(lia) _ _ _ E2).
    assert (X : Some (o, grown (emit (Enter f) (grown w s1 ((Checking f :: t) ++ [Checked f]))) s' t') = Some (o, grown w s' (Checking f :: t ++ [Checked f; Enter f] ++ t'))).
    { unfold grown. cbn. rewrite <- !app_assoc. cbn. now rewrite <- !app_assoc. }
    destruct o; auto. now elim (NR v). }
  assert (c5 : forall K s f a c args t s1 t' ret s2 t'' r s' C N B D D' D'', P3 (unless K f) f 0 (pre _ _ _ c) args s t None s1 D -> P1 K s1 (body f a) t' (Returned V ret) s2 D' ->
    P4 (unless K f) f 0 (post _ _ _ c) args (copy_args args s) ret s2 t'' r s' D'' ->
    P2 K s f a (Checking f :: t ++ [Checked f; Enter f] ++ t' ++ [Checking f] ++ t'' ++ [Checked f]) (match r with None => Returned V ret | Some e => e end) s'
      (calls_post _ _ _ _ _ _ _ _ K s f a c args t s1 t' ret s2 t'' r s' C N B D D' D'')).
  { intros K s f a c args t s1 t' ret s2 t'' r s' C N B D D' D'' IH1 IH2 IH3 w E F. destruct (wf f c C) as [UM NN]. destruct (IH1 (start_checking f w) E (fits_start K w f F) NN) as [n1 E1].
    destruct (not_enforced f w) eqn:NE; [now apply F in NE|].
    destruct (IH2 (emit (Enter f) (grown w s1 ((Checking f :: t) ++ [Checked f]))) eq_refl (fits_same K w _ F eq_refl)) as [n2 E2].
    set (w2 := grown (emit (Enter f) (grown w s1 ((Checking f :: t) ++ [Checked f]))) s2 t') in *.
    destruct (IH3 (start_checking f w2) eq_refl (fits_start K w2 f (fits_same K w w2 F eq_refl))) as [n3 E3].
    assert (Hn : exists n, n1 <= n /\ n2 <= n /\ n3 <= n) by (exists (n1 + n2 + n3); lia). destruct Hn as (n & H1 & H2 & H3). exists n. unfold wrapped, Enforce_Model.wrapper. rewrite C, B, UM, NE. rewrite (pre_mono _ _ _ _ (run_mono n1 n ltac:(lia)) _ _ _ _ E1).
    rewrite stop_start by exact NE. rewrite (run_mono n2 n ltac:(lia) _ _ _ E2).
    replace (st (start_checking f w)) with s by exact (eq_sym E).
    rewrite (post_mono _ _ _ _ _ _ (run_mono n3 n ltac:(lia)) _ _ _ _ E3). rewrite stop_start by exact NE.
    replace (grown w2 s' _) with (grown w s' (Checking f :: t ++ [Checked f; Enter f] ++ t' ++ [Checking f] ++ t'' ++ [Checked f])); [now destruct r|].
    unfold w2, grown. cbn. rewrite <- !app_assoc. cbn. rewrite <- !app_assoc. reflexivity. }
  assert (p1 : forall K f i a s, P3 K f i [] a s [] None s (pres_nil _ _ _ _ _ _ _ _ K f i a s)).
  { intros K f i a s w <- F _. exists 0. cbn. unfold grown. rewrite app_nil_r. now destruct w. }
  assert (p2 : forall K f i l a s t r s' D, P3 K f (S i) l a s t r s' D -> P3 K f i (None :: l) a s t r s' (pres_skip _ _ _ _ _ _ _ _ K f i l a s t r s' D)).
  { intros K f i l a s t r s' D IH w E F NN. exfalso. apply NN. now left. }
  assert (p3 : forall K f i p l a s t v s1 t' r s' D T D', P1 K s (p a) t (Returned V v) s1 D -> P3 K f (S i) l a s1 t' r s' D' ->
     P3 K f i (Some p :: l) a s (EvalPre f i :: t ++ t') r s' (pres_true _ _ _ _ _ _ _ _ K f i p l a s t v s1 t' r s' D T D')).
  { intros K f i p l a s t v s1 t' r s' D T D' IH1 IH2 w E F NN. destruct (IH1 (emit (EvalPre f i) w) E (fits_same K w _ F eq_refl)) as [n1 E1].
    destruct (IH2 (grown (emit (EvalPre f i) w) s1 t) eq_refl (fits_same K w _ F eq_refl) (fun H => NN (or_intror H))) as [n2 E2].
    exists (Nat.max n1 n2). cbn. rewrite (run_mono n1 (Nat.max n1 n2) ltac:(lia) _ _ _ E1), T, (pre_mono _ _ _ _ (run_mono n2 (Nat.max n1 n2) ltac:(lia)) _ _ _ _ E2).
    unfold grown. cbn. now rewrite <- !app_assoc. }
  assert (p4 : forall K f i p l a s t v s' D T, P1 K s (p a) t (Returned V v) s' D -> P3 K f i (Some p :: l) a s (EvalPre f i :: t) (Some (PreconditionFailed V f)) s' (pres_false _ _ _ _ _ _ _ _ K f i p l a s t v s' D T)).
  { intros K f i p l a s t v s' D T IH1 w E F NN. destruct (IH1 (emit (EvalPre f i) w) E (fits_same K w _ F eq_refl)) as [n1 E1].
    exists n1. cbn. rewrite E1, T. unfold grown. cbn. now rewrite <- !app_assoc. }
  assert (p5 : forall K f i p l a s t o s' D NR, P1 K s (p a) t o s' D -> P3 K f i (Some p :: l) a s (EvalPre f i :: t) (Some o) s' (pres_raise _ _ _ _ _ _ _ _ K f i p l a s t o s' D NR)).
  { intros K f i p l a s t o s' D NR IH1 w E F NN. destruct (IH1 (emit (EvalPre f i) w) E (fits_same K w _ F eq_refl)) as [n1 E1].
    exists n1. cbn. rewrite E1. unfold grown. cbn. rewrite <- !app_assoc. destruct o; auto. now elim (NR v). }
  assert (q1 : forall K f i a b x s, P4 K f i [] a b x s [] None s (posts_nil _ _ _ _ _ _ _ _ K f i a b x s)).
  { intros K f i a b x s w <- F. exists 0. cbn. unfold grown. rewrite app_nil_r. now destruct w. }
  assert (q2 : forall K f i l a b x s t r s' D, P4 K f (S i) l a b x s t r s' D -> P4 K f i (None :: l) a b x s t r s' (posts_skip _ _ _ _ _ _ _ _ K f i l a b x s t r s' D)).
  { intros K f i l a b x s t r s' D IH w E F. exact (IH w E F). }
  assert (q3 : forall K f i p l a b x s t v s1 t' r s' D T D', P1 K s (p a b x) t (Returned V v) s1 D -> P4 K f (S i) l a b x s1 t' r s' D' ->
     P4 K f i (Some p :: l) a b x s (EvalPost f i :: t ++ t') r s' (posts_true _ _ _ _ _ _ _ _ K f i p l a b x s t v s1 t' r s' D T D')).
  { intros K f i p l a b x s t v s1 t' r s' D T D' IH1 IH2 w E F. destruct (IH1 (emit (EvalPost f i) w) E (fits_same K w _ F eq_refl)) as [n1 E1].
    destruct (IH2 (grown (emit (EvalPost f i) w) s1 t) eq_refl (fits_same K w _ F eq_refl)) as [n2 E2].
    exists (Nat.max n1 n2). cbn. rewrite (run_mono n1 (Nat.max n1 n2) ltac:(lia) _ _ _ E1), T, (post_mono _ _ _ _ _ _ (run_mono n2 (Nat.max n1 n2) ltac:(lia)) _ _ _ _ E2).
    unfold grown. cbn. now rewrite <- !app_assoc. }
  assert (q4 : forall K f i p l a b x s t v s' D T, P1 K s (p a b x) t (Returned V v) s' D -> P4 K f i (Some p :: l) a b x s (EvalPost f i :: t) (Some (PostconditionFailed V f)) s' (posts_false _ _ _ _ _ _ _ _ K f i p l a b x s t v s' D T)).
  { intros K f i p l a b x s t v s' D T IH1 w E F. destruct (IH1 (emit (EvalPost f i) w) E (fits_same K w _ F eq_refl)) as [n1 E1].
    exists n1. cbn. rewrite E1, T. unfold grown. cbn. now rewrite <- !app_assoc. }
  assert (q5 : forall K f i p l a b x s t o s' D NR, P1 K s (p a b x) t o s' D -> P4 K f i (Some p :: l) a b x s (EvalPost f i :: t) (Some o) s' (posts_raise _ _ _ _ _ _ _ _ K f i p l a b x s t o s' D NR)).
  { intros K f i p l a b x s t o s' D NR IH1 w E F. destruct (IH1 (emit (EvalPost f i) w) E (fits_same K w _ F eq_refl)) as [n1 E1].
    exists n1. cbn. rewrite E1. unfold grown. cbn. rewrite <- !app_assoc. destruct o; auto. now elim (NR v). }
  split; [|split; [|split]]; intros.
  - eapply (does_m _ _ _ _ _ _ _ _ P1 P2 P3 P4); eauto.
  - eapply (calls_m _ _ _ _ _ _ _ _ P1 P2 P3 P4); eauto.
  - eapply (pres_m _ _ _ _ _ _ _ _ P1 P2 P3 P4); eauto.
  - eapply (posts_m _ _ _ _ _ _ _ _ P1 P2 P3 P4); eauto.
Qed.

(** ** Checks nest and are never re-entered *)
Lemma nesting : forall K s c t o s', does K s c t o s' -> forall open, (forall f, In f open -> K f) -> checks open t = Some open.
Proof.
  set (P1 := fun K s c t o s' (_ : does K s c t o s') => forall open, (forall f, In f open -> K f) -> checks open t = Some open).
  set (P2 := fun K s f a t o s' (_ : calls K s f a t o s') => forall open, (forall f, In f open -> K f) -> checks open t = Some open).
  set (P3 := fun K f i l a s t r s' (_ : pres K f i l a s t r s') => forall open, (forall f, In f open -> K f) -> checks open t = Some open).
  set (P4 := fun K f i l a b x s t r s' (_ : posts K f i l a b x s t r s') => forall open, (forall f, In f open -> K f) -> checks open t = Some open).
  assert (FR : forall (K : nat -> Prop) f open, ~ K f -> (forall f, In f open -> K f) -> existsb (Nat.eqb f) open = false).
  { intros K f open N I. destruct (existsb _ open) eqn:E; [|reflexivity]. apply existsb_exists in E as (g & G & E). apply Nat.eqb_eq in E. subst. now apply I in G. }
  assert (IN : forall (K : nat -> Prop) f open, (forall f, In f open -> K f) -> forall g, In g (f :: open) -> unless K f g).
  { intros K f open I g [ -> |G]; [now left|right; auto]. }
  intros K s c t o s' D. refine (does_m _ _ _ _ _ _ _ _ P1 P2 P3 P4 _ _ _ _ _ _ _ _ _ _ _ _ _ _ _ _ _ _ _ _ _ _ _ _ D); clear K s c t o s' D; unfold P1, P2, P3, P4; intros; cbn [checks app]; auto.
  - rewrite checks_app, H by assumption. auto.
  - rewrite (FR K f open) by auto. rewrite Nat.eqb_refl. reflexivity.
  - rewrite (FR K f open) by auto. rewrite checks_app, (H _ (IN K f open H0)). cbn. now rewrite Nat.eqb_refl.
  - rewrite (FR K f open) by auto. rewrite checks_app, (H _ (IN K f open H1)). cbn. rewrite Nat.eqb_refl. auto.
  - rewrite (FR K f open) by auto. rewrite checks_app, (H _ (IN K f open H2)). cbn. rewrite Nat.eqb_refl, checks_app, (H0 open) by auto. cbn. rewrite (FR K f open) by auto.
    rewrite checks_app, (H1 _ (IN K f open H2)). cbn. now rewrite Nat.eqb_refl.
  - rewrite checks_app, H by assumption. auto.
  - rewrite checks_app, H by assumption. auto.
Qed.
End Enforce.
