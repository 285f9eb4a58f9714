From Coq Require Import List Bool Arith Lia.
From Verif Require Import Patch_Model Patch_Spec.
Import ListNotations.

Section Dict.
  Context {K V : Type} (eqb : K -> K -> bool).
  Hypothesis eqb_eq : forall a b, eqb a b = true <-> a = b.
  Lemma lookup_remove (d : dict K V) k k2 : lookup eqb (remove eqb d k) k2 = if eqb k k2 then None else lookup eqb d k2.
  Proof.
    unfold remove. induction d as [|[a v] d IH]; cbn; [now destruct (eqb k k2)|].
    destruct (eqb a k) eqn:E; cbn.
    - apply eqb_eq in E. subst. rewrite IH. now destruct (eqb k k2).
    - rewrite IH. destruct (eqb a k2) eqn:E2; auto. apply eqb_eq in E2. subst.
      destruct (eqb k k2) eqn:E3; auto. apply eqb_eq in E3. subst. assert (eqb k2 k2 = true) by now apply eqb_eq. congruence.
  Qed.
  Lemma lookup_insert (d : dict K V) k v k2 : lookup eqb (insert eqb d k v) k2 = if eqb k k2 then Some v else lookup eqb d k2.
  Proof. unfold insert. cbn. destruct (eqb k k2) eqn:E; auto. rewrite lookup_remove. now rewrite E. Qed.
End Dict.
Lemma eqb2_eq a b : eqb2 a b = true <-> a = b.
Proof.
  destruct a, b. unfold eqb2. cbn. rewrite andb_true_iff, !Nat.eqb_eq. split; [intros (-> & ->); auto|intros E; now injection E].
Qed.

Section Code.
  Variable code : nat -> nat.
  Definition good (s : layers) : Prop := forall f, NoDup (map code (s f)) /\ ~ In f (s f).
  Definition inv (m : module) (s : layers) : Prop :=
    good s /\
    (forall f, match s f with
               | g :: _ => lookup Nat.eqb (overrides m) f = Some g
               | [] => lookup Nat.eqb (overrides m) f = None \/ lookup Nat.eqb (overrides m) f = Some f
               end) /\
    (forall c f, lookup eqb2 (nextfn m) (c, f) = below code c f (s f)).

  Lemma inv_empty : inv empty none.
  Proof.
    split; [|split]; cbn; auto. intros f. split; [constructor|easy].
  Qed.
  Lemma inv_hd m s f : inv m s -> match lookup Nat.eqb (overrides m) f with Some g => g | None => f end = hd f (s f).
  Proof.
    intros (_ & O & _). specialize (O f). destruct (s f) as [|g r]; cbn; [destruct O as [->| ->]; auto|now rewrite O].
  Qed.
  Lemma inv_push m s f g : inv m s -> g <> f -> ~ In (code g) (map code (s f)) ->
    inv (Module (insert Nat.eqb (overrides m) f g) (insert eqb2 (nextfn m) (code g, f) (hd f (s f)))) (push s f g).
  Proof.
    intros (G & O & N) D F. split; [|split].
    - intros h. unfold push. destruct (Nat.eqb h f) eqn:E; [|apply G]. apply Nat.eqb_eq in E. subst h.
      destruct (G f) as (G1 & G2). split; [cbn; now constructor|]. cbn. tauto.
    - intros h. unfold push. cbn [overrides]. rewrite (lookup_insert _ Nat.eqb_eq).
      rewrite (Nat.eqb_sym f h). destruct (Nat.eqb h f) eqn:E; [reflexivity|]. apply O.
    - intros c h. cbn [nextfn]. rewrite (lookup_insert _ eqb2_eq). unfold push. unfold eqb2. cbn [fst snd].
      rewrite (Nat.eqb_sym f h). destruct (Nat.eqb h f) eqn:E.
      + apply Nat.eqb_eq in E. subst h. cbn [below]. rewrite andb_true_r. destruct (Nat.eqb (code g) c); auto.
      + rewrite andb_false_r. apply N.
  Qed.
  Lemma below_none c f l : ~ In c (map code l) -> below code c f l = None.
  Proof.
    induction l as [|g l IH]; cbn; auto. intros N. destruct (Nat.eqb (code g) c) eqn:E; [|tauto].
    apply Nat.eqb_eq in E. tauto.
  Qed.
  Lemma inv_drop m s f g r : inv m s -> s f = g :: r ->
    lookup Nat.eqb (overrides m) f = Some g /\ lookup eqb2 (nextfn m) (code g, f) = Some (hd f r) /\
    inv (Module (insert Nat.eqb (overrides m) f (hd f r)) (remove eqb2 (nextfn m) (code g, f))) (drop s f).
  Proof.
    intros (G & O & N) E. split; [|split; [|split; [|split]]].
    - specialize (O f). now rewrite E in O.
    - rewrite N, E. cbn. now rewrite Nat.eqb_refl.
    - intros h. unfold drop. destruct (Nat.eqb h f) eqn:X; [|apply G]. apply Nat.eqb_eq in X. subst h.
      destruct (G f) as (G1 & G2). rewrite E in *. cbn in *. split; [now inversion G1|tauto].
    - intros h. unfold drop. cbn [overrides]. rewrite (lookup_insert _ Nat.eqb_eq).
      rewrite (Nat.eqb_sym f h). destruct (Nat.eqb h f) eqn:X; [|apply O]. apply Nat.eqb_eq in X. subst h.
      rewrite E. cbn [tl]. destruct r; cbn; auto.
    - intros c h. cbn [nextfn]. rewrite (lookup_remove _ eqb2_eq). unfold drop. unfold eqb2. cbn [fst snd].
      rewrite (Nat.eqb_sym f h). destruct (Nat.eqb h f) eqn:X.
      + apply Nat.eqb_eq in X. subst h. rewrite andb_true_r, N, E. cbn [tl below].
        destruct (Nat.eqb (code g) c) eqn:Y; auto. apply Nat.eqb_eq in Y. subst c. symmetry. apply below_none.
        destruct (G f) as (G1 & _). rewrite E in G1. now inversion G1.
      + rewrite andb_false_r. apply N.
  Qed.

  Lemma add_ok : forall l m s, inv m s -> fresh code s l -> exists m2, add code m l = Some m2 /\ inv m2 (pushes s l).
  Proof.
    induction l as [|[f g] l IH]; intros m s I F; [exists m; auto|]. cbn [fresh] in F. destruct F as (D & F & Fr).
    cbn [add]. rewrite (inv_hd m s f I).
    destruct (Nat.eqb (hd f (s f)) g) eqn:E.
    - exfalso. apply Nat.eqb_eq in E. destruct (s f) as [|g' r]; cbn in E; subst; [easy|]. apply F. now left.
    - apply IH; [now apply inv_push|auto].
  Qed.
  Lemma pop_ok : forall l m s, inv m s -> on_top s l -> exists m2, pop code m l = Some m2 /\ inv m2 (drops s l).
  Proof.
    induction l as [|[f g] l IH]; intros m s I T; [exists m; auto|]. cbn [on_top] in T. destruct T as (T1 & T2).
    destruct (s f) as [|g' r] eqn:E; cbn in T1; [easy|]. injection T1 as ->.
    destruct (inv_drop m s f g r I E) as (A & B & C). cbn [pop]. rewrite A, B, Nat.eqb_refl. now apply IH.
  Qed.
  Lemma run_ok : forall ops m s, inv m s -> history code s ops -> exists m2, run code m ops = Some m2 /\ inv m2 (after s ops).
  Proof.
    induction ops as [|[l|l] ops IH]; intros m s I Hh; [exists m; auto| |]; cbn [history] in Hh; destruct Hh as (A & B); cbn [run after].
    - destruct (add_ok l m s I A) as (m2 & -> & I2). now apply IH.
    - destruct (pop_ok l m s I A) as (m2 & -> & I2). now apply IH.
  Qed.
  Lemma called_ok m s c f : inv m s -> called m c f = goes_to code s c f.
  Proof.
    intros (G & O & N). unfold called, trace_call, goes_to. specialize (O f). rewrite N.
    destruct (s f) as [|g r] eqn:E.
    - cbn. destruct O as [-> | ->]; auto.
    - rewrite O. destruct (below code c f (g :: r)) as [n|] eqn:B; auto. destruct (Nat.eqb n f) eqn:X; auto.
      now apply Nat.eqb_eq in X.
  Qed.
End Code.

(** Pushing and then dropping the same functions changes nothing. *)
Lemma drops_pushes : forall l s, NoDup (map fst l) -> forall h, drops (pushes s l) l h = s h.
Proof.
  assert (D : forall l s h, ~ In h (map fst l) -> drops s l h = s h).
  { induction l as [|[f g] l IH]; intros s h N; cbn; auto. cbn in N. rewrite IH by tauto. unfold drop.
    destruct (Nat.eqb h f) eqn:E; auto. apply Nat.eqb_eq in E. subst. tauto. }
  assert (E : forall l (s t : layers), (forall h, s h = t h) -> forall h, drops s l h = drops t l h).
  { induction l as [|[f g] l IH]; intros s t Q h; cbn; auto. apply IH. intros k. unfold drop. now rewrite Q. }
  assert (P : forall l (s : layers) h, ~ In h (map fst l) -> pushes s l h = s h).
  { induction l as [|[f g] l IH]; intros s h N; cbn; auto. cbn in N. rewrite IH by tauto. unfold push.
    destruct (Nat.eqb h f) eqn:X; auto. apply Nat.eqb_eq in X. subst. tauto. }
  assert (C : forall l (s : layers) f g, ~ In f (map fst l) -> forall h, pushes (push s f g) l h = push (pushes s l) f g h).
  { induction l as [|[a b] l IH]; intros s f g N h; [reflexivity|]. cbn in N. cbn [pushes].
    assert (Q : forall k, push (push s f g) a b k = push (push s a b) f g k).
    { intros k. unfold push. destruct (Nat.eqb k a) eqn:X; destruct (Nat.eqb k f) eqn:Y; auto.
      apply Nat.eqb_eq in X. apply Nat.eqb_eq in Y. subst. tauto. }
    assert (Ep : forall l (s t : layers), (forall k, s k = t k) -> forall k, pushes s l k = pushes t l k).
    { clear. induction l as [|[a b] l IH]; intros s t Q k; cbn; auto. apply IH. intros x. unfold push. now rewrite Q. }
    rewrite (Ep _ _ _ Q). apply IH. tauto. }
  induction l as [|[f g] l IH]; intros s N h; [reflexivity|]. cbn [map fst] in N. inversion N as [|? ? N1 N2]; subst.
  cbn [pushes drops]. rewrite (E l _ (pushes s l)); [now apply IH|].
  intros k. unfold drop. rewrite C by auto. unfold push. destruct (Nat.eqb k f); reflexivity.
Qed.
Lemma on_top_pushes : forall l s, NoDup (map fst l) -> on_top (pushes s l) l.
Proof.
  assert (P : forall l (s : layers) h, ~ In h (map fst l) -> pushes s l h = s h).
  { induction l as [|[f g] l IH]; intros s h N; cbn; auto. cbn in N. rewrite IH by tauto. unfold push.
    destruct (Nat.eqb h f) eqn:X; auto. apply Nat.eqb_eq in X. subst. tauto. }
  assert (T : forall l (s t : layers), (forall h, In h (map fst l) -> s h = t h) -> on_top s l -> on_top t l).
  { induction l as [|[f g] l IH]; intros s t Q; cbn; auto. intros (A & B). split; [rewrite <- Q by (now left); auto|].
    apply (IH (drop s f)); auto. intros h I. unfold drop. rewrite Q; auto. now right. }
  induction l as [|[f g] l IH]; intros s N; [exact I|]. cbn [map fst] in N. inversion N as [|? ? N1 N2]; subst.
  cbn [pushes on_top]. split; [rewrite P by auto; unfold push; now rewrite Nat.eqb_refl|].
  apply (T l (pushes (push s f g) l)); [|now apply IH]. intros h I. unfold drop.
  destruct (Nat.eqb h f) eqn:X; auto. apply Nat.eqb_eq in X. subst. contradiction.
Qed.
