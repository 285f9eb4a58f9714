From Coq Require Import List Bool Arith Lia.
From Verif Require Import Py Unify_Model Unify_Spec.
Import ListNotations.

Fixpoint ty_ind' (P : ty -> Prop)
  (HAny : P Any) (HObj : P Object) (HVar : forall n, P (Var n))
  (HUnion : forall l, Forall P l -> P (Union l)) (HApp : forall c l, Forall P l -> P (App c l))
  (HTup : forall l, Forall P l -> P (Tup l)) (HTV : forall t, P t -> P (TupVar t)) (HRaw : P RawTup)
  (HFun : forall a r, (forall l, a = Some l -> Forall P l) -> P r -> P (Fun a r)) (HDots : P Dots)
  (t : ty) {struct t} : P t.
Proof.
  pose (rec := ty_ind' P HAny HObj HVar HUnion HApp HTup HTV HRaw HFun HDots).
  pose (recl := fix go (l : list ty) : Forall P l :=
    match l with [] => Forall_nil P | x :: l => Forall_cons x (rec x) (go l) end).
  destruct t as [| |n|l|c l|l|t| |a r|].
  - exact HAny.
  - exact HObj.
  - exact (HVar n).
  - exact (HUnion l (recl l)).
  - exact (HApp c l (recl l)).
  - exact (HTup l (recl l)).
  - exact (HTV t (rec t)).
  - exact HRaw.
  - refine (HFun a r _ (rec r)). destruct a as [l|]; intros l' E; [injection E as <-; exact (recl l)|discriminate].
  - exact HDots.
Defined.

Lemma ty_eqb_eq : forall a b, ty_eqb a b = true -> a = b.
Proof.
  assert (L : forall l, Forall (fun a => forall b, ty_eqb a b = true -> a = b) l -> forall l', list_eqb ty_eqb l l' = true -> l = l').
  { induction 1 as [|x l H F IH]; intros [|y l']; cbn; try discriminate; auto.
    intros E. apply andb_true_iff in E as (E1 & E2). f_equal; auto. }
  induction a as [| |n|l IH|c l IH|l IH|t IH| |a r IHa IHr|] using ty_ind'; intros [| |m|k|d k|k|u| |a' r'|]; cbn; try easy; intros E.
  - apply Nat.eqb_eq in E. now subst.
  - f_equal. now apply L.
  - apply andb_true_iff in E as (E1 & E2). apply Nat.eqb_eq in E1. subst. f_equal. now apply L.
  - f_equal. now apply L.
  - f_equal. now apply IH.
  - destruct a; discriminate.
  - destruct a; discriminate.
  - destruct a; discriminate.
  - destruct a; discriminate.
  - destruct a; discriminate.
  - destruct a; discriminate.
  - destruct a; discriminate.
  - destruct a; discriminate.
  - destruct a as [l|], a' as [l'|]; try discriminate.
    + apply andb_true_iff in E as (E1 & E2). f_equal; auto. f_equal. apply L; auto.
    + f_equal. now apply IHr.
  - destruct a; discriminate.
Qed.

Lemma map_id_closed : forall b l, Forall (fun t => closed t = true -> subst b t = t) l -> forallb closed l = true -> map (subst b) l = l.
Proof.
  intros b l F C. induction F as [|x l H F IH]; auto. cbn in *. apply andb_true_iff in C as (C1 & C2).
  now rewrite H, IH.
Qed.
Lemma subst_closed : forall b t, closed t = true -> subst b t = t.
Proof.
  intros b. induction t as [| |n|l IH|c l IH|l IH|t IH| |a r IHa IHr|] using ty_ind'; cbn; auto; try discriminate.
  1-3: intros C; now rewrite map_id_closed.
  - intros C. now rewrite IH.
  - intros C. apply andb_true_iff in C as (C1 & C2). rewrite IHr by auto. destruct a as [l|]; auto.
    rewrite map_id_closed; auto.
Qed.

Definition extends (b b' : binds) : Prop := forall n t, lookup b n = Some t -> lookup b' n = Some t.
Lemma extends_refl : forall b, extends b b.
Proof. easy. Qed.
Lemma extends_trans : forall a b c, extends a b -> extends b c -> extends a c.
Proof. unfold extends. auto. Qed.

Section Proofs.
  Variable issub : nat -> nat -> bool.
  Variable arity : nat -> nat.
  Hypothesis issub_refl : forall a, issub a a = true.
  Hypothesis issub_trans : forall a b c, issub a b = true -> issub b c = true -> issub a c = true.
  Hypothesis tuple_seq : issub ctuple csequence = true.
  Hypothesis arity_seq : arity csequence = 1.
  Hypothesis object_sub : forall d, issub cobject d = true -> d = cobject.
  Hypothesis sub_tuple : forall c, issub c ctuple = true -> c = ctuple.
  Hypothesis tuple_call : issub ctuple ccallable = false.
  Hypothesis seq_call : issub csequence ccallable = false.
  Hypothesis call_call : issub ccallable ccallable = true.
  Hypothesis call_sub : forall d, issub ccallable d = true -> d = cobject \/ issub d ccallable = true.
  Hypothesis call_arity : forall c d, issub c ccallable = true -> issub c d = true -> arity d <> 2.
  Hypothesis tuple_arity : forall d, issub ctuple d = true -> arity d <= 1.

  Notation sub := (sub issub).
  Notation wr := (written arity).

  Lemma object_top : forall r, sub Object r -> forall t, sub t r.
  Proof.
    intros r H. remember Object as o eqn:E. induction H; try discriminate; intros t; try (constructor; fail).
    eapply sub_union_r; eauto.
  Qed.
  Lemma seq_tup : forall a r, sub (App csequence [a]) r -> forall l, (forall v, In v l -> v = a) -> sub (Tup l) r.
  Proof.
    intros a r H. remember (App csequence [a]) as o eqn:E. induction H; try discriminate; intros k A; try (constructor; fail).
    - eapply sub_union_r; eauto.
    - injection E as -> ->. destruct l' as [|r [|]]; try discriminate. apply sub_tup_app.
      + eapply issub_trans; eauto.
      + intros v I. rewrite (A v I). apply H1. cbn. auto.
    - injection E as -> ->. apply sub_tup_class. eapply issub_trans; eauto.
  Qed.
  Lemma seq_var : forall a r, sub (App csequence [a]) r -> sub (TupVar a) r.
  Proof.
    intros a r H. remember (App csequence [a]) as o eqn:E. induction H; try discriminate; try (constructor; fail).
    - eapply sub_union_r; eauto.
    - injection E as -> ->. destruct l' as [|r [|]]; try discriminate. apply sub_var_app.
      + eapply issub_trans; eauto.
      + apply H1. cbn. auto.
    - injection E as -> ->. apply sub_var_class. eapply issub_trans; eauto.
  Qed.
  Lemma seq_raw : forall r, sub (App csequence [Object]) r -> sub RawTup r.
  Proof.
    intros r H. remember (App csequence [Object]) as o eqn:E. induction H; try discriminate; try (constructor; fail).
    - eapply sub_union_r; eauto.
    - injection E as -> ->. destruct l' as [|r [|]]; try discriminate. apply sub_raw_app.
      + eapply issub_trans; eauto.
      + apply H1. cbn. auto.
    - injection E as -> ->. apply sub_raw_class. eapply issub_trans; eauto.
  Qed.

  (** The pairs of types the theorem is about. *)
  Definition tuples (v r : ty) : Prop :=
    sized_tuples v = true /\ sized_tuples r = true \/ no_tuple_wanted false v = true /\ no_tuple_wanted true r = true.
  Definition fits (v r : ty) : Prop :=
    (closed v = true /\ closed r = true /\ tuples v r) \/
    (sized_tuples v = true /\ sized_tuples r = true /\
      (closed v = true /\ union_free v = true /\ unions_ok true r = true \/
       closed r = true /\ union_free r = true /\ unions_ok false v = true)).
  Definition okb (b : binds) : Prop :=
    forall n t, lookup b n = Some t -> closed t = true /\ union_free t = true /\ sized_tuples t = true /\ wr t = true.
  (** What a successful match means. *)
  Definition means (b : binds) (v r : ty) (b' : binds) : Prop :=
    okb b' /\ extends b b' /\ forall b2, extends b' b2 -> sub (subst b2 v) (subst b2 r).

  Ltac hb := repeat match goal with
    | H : _ && _ = true |- _ => apply andb_true_iff in H as (? & ?)
    | H : forallb _ (_ :: _) = true |- _ => cbn [forallb] in H
    end.

  Definition fitsl (l l' : list ty) : Prop :=
    (forallb closed l = true /\ forallb closed l' = true /\
      (forallb sized_tuples l = true /\ forallb sized_tuples l' = true \/
       forallb (no_tuple_wanted false) l = true /\ forallb (no_tuple_wanted true) l' = true)) \/
    (forallb sized_tuples l = true /\ forallb sized_tuples l' = true /\
      (forallb closed l = true /\ forallb union_free l = true /\ forallb (unions_ok true) l' = true \/
       forallb closed l' = true /\ forallb union_free l' = true /\ forallb (unions_ok false) l = true)).
  Lemma forallb_in : forall (f : ty -> bool) l x, forallb f l = true -> In x l -> f x = true.
  Proof. intros f l x H I. rewrite forallb_forall in H. auto. Qed.
  Lemma fitsl_in : forall l l' v r, fitsl l l' -> In v l -> In r l' -> fits v r.
  Proof.
    unfold fitsl, fits, tuples. intros l l' v r H I J.
    assert (A : forall f : ty -> bool, forallb f l = true -> f v = true) by (intros; eapply forallb_in; eauto).
    assert (B : forall f : ty -> bool, forallb f l' = true -> f r = true) by (intros; eapply forallb_in; eauto).
    intuition auto.
  Qed.
  Lemma combine_in : forall (l l' : list ty) v r, In (v, r) (combine l l') -> In v l /\ In r l'.
  Proof. intros l l' v r H. split; [eapply in_combine_l|eapply in_combine_r]; eauto. Qed.

  Lemma fits_app : forall c d l l', fits (App c l) (App d l') -> fitsl l l'.
  Proof. intros c d l l' H. exact H. Qed.
  Lemma fits_tup : forall l l', fits (Tup l) (Tup l') -> fitsl l l'.
  Proof. intros l l'. unfold fits, tuples, fitsl. cbn. intuition auto; discriminate. Qed.
  Lemma fits_tup_app : forall d l l', fits (Tup l) (App d l') -> fitsl l l'.
  Proof. intros d l l'. unfold fits, tuples, fitsl. cbn. intuition auto. Qed.
  Lemma fits_fun_ret : forall a v a' r, fits (Fun a v) (Fun a' r) -> fits v r.
  Proof.
    intros a v a' r. unfold fits, tuples. cbn. rewrite ?andb_true_iff. tauto.
  Qed.
  Lemma fits_fun_args : forall l v l' r, fits (Fun (Some l) v) (Fun (Some l') r) -> fitsl l' l.
  Proof.
    intros l v l' r. unfold fits, tuples, fitsl. cbn. rewrite ?andb_true_iff. tauto.
  Qed.
  Lemma fits_union_r : forall v l r, fits v (Union l) -> In r l -> fits v r.
  Proof.
    intros v l r H I. unfold fits, tuples in *. cbn in H.
    assert (B : forall f : ty -> bool, forallb f l = true -> f r = true) by (intros; eapply forallb_in; eauto).
    intuition (auto; discriminate).
  Qed.
  Lemma fits_union_l : forall l r, fits (Union l) r ->
    closed (Union l) = true /\ closed r = true /\ tuples (Union l) r.
  Proof.
    intros l r H. unfold fits, tuples in *. cbn in *. intuition (auto; discriminate).
  Qed.
  Lemma fits_object : forall v d l r, fits v (App d l) -> In r l -> fits Object r.
  Proof.
    intros v d l r H I. unfold fits, tuples in *. cbn in *.
    assert (B : forall f : ty -> bool, forallb f l = true -> f r = true) by (intros; eapply forallb_in; eauto).
    intuition auto.
  Qed.
  Lemma fits_var_object : forall n r, fits (Var n) r -> fits Object r.
  Proof. intros n r. unfold fits, tuples. cbn. intuition (auto; discriminate). Qed.
  Lemma fits_var : forall v n, fits v (Var n) -> closed v = true /\ union_free v = true /\ sized_tuples v = true.
  Proof. intros n r. unfold fits, tuples. cbn. intuition (auto; discriminate). Qed.
  Lemma fits_seq : forall l r, fits (Tup l) r -> fits (App csequence [hd Object l]) r.
  Proof.
    intros [|a l] r; unfold fits, tuples; cbn; rewrite ?andb_true_iff; tauto.
  Qed.
  Lemma fits_seq_var : forall a r, fits (TupVar a) r -> fits (App csequence [a]) r.
  Proof. intros a r. unfold fits, tuples. cbn. rewrite ?andb_true_iff. intuition (auto; discriminate). Qed.
  Lemma fits_seq_raw : forall r, fits RawTup r -> fits (App csequence [Object]) r.
  Proof. intros r. unfold fits, tuples. cbn. intuition (auto; discriminate). Qed.
  Lemma fits_sized : forall v r, fits v r -> match r with TupVar _ | RawTup => False | _ => True end.
  Proof. intros v r. destruct r; unfold fits, tuples; cbn; auto; intuition (auto; discriminate). Qed.
  Lemma fits_var_tup : forall v l, fits v (Tup l) -> match v with TupVar _ | RawTup => False | _ => True end.
  Proof. intros v k. destruct v; unfold fits, tuples; cbn; auto; intuition (auto; discriminate). Qed.
  Lemma fits_fun_any : forall a v r, fits (Fun a v) r -> fits v Any.
  Proof. intros a v r. unfold fits, tuples. cbn. rewrite ?andb_true_iff. tauto. Qed.

  Lemma get_ok : forall b v r, okb b -> fits v r -> wr v = true -> wr r = true ->
    fits (get b v) (get b r) /\ wr (get b v) = true /\ wr (get b r) = true.
  Proof.
    intros b v r B F W W'.
    assert (A : forall t, wr t = true -> wr (get b t) = true).
    { intros t Wt. destruct t; auto. cbn. destruct (lookup b n) eqn:L; auto. apply B in L. tauto. }
    split; [|split; auto].
    destruct v as [| |n| | | | | | |]; cbn [get]; try (destruct r as [| |m| | | | | | |]; cbn [get]; auto;
      destruct (lookup b m) as [t|] eqn:L; auto; apply B in L; apply fits_var in F; unfold fits, tuples; intuition auto).
    destruct r as [| |m| | | | | | |]; cbn [get];
      try (destruct (lookup b n) as [t|] eqn:L; auto; apply B in L; unfold fits, tuples in *; cbn in *; intuition (auto; discriminate)).
    exfalso. unfold fits, tuples in F. cbn in F. intuition (auto; discriminate).
  Qed.
  Lemma subst_get : forall b b2 t, okb b -> extends b b2 -> subst b2 (get b t) = subst b2 t.
  Proof.
    intros b b2 t B X. destruct t; auto. cbn. destruct (lookup b n) as [t|] eqn:L; auto.
    rewrite (X _ _ L). apply subst_closed. apply B in L. tauto.
  Qed.

  Lemma in_combine_self : forall (l : list ty) v r, In (v, r) (combine l l) -> v = r /\ In v l.
  Proof. induction l as [|x l IHl]; cbn; intros v r; [easy|]. intros [[= <- <-]|I]; auto. apply IHl in I as (-> & I). auto. Qed.
  Lemma sub_refl : forall t, closed t = true -> wr t = true -> sub t t.
  Proof.
    assert (L : forall l, Forall (fun t => closed t = true -> wr t = true -> sub t t) l -> forallb closed l = true -> forallb wr l = true ->
      forall v, In v l -> sub v v).
    { intros l F C W v I. rewrite Forall_forall in F. apply F; auto; eapply forallb_in; eauto. }
    induction t as [| |n|l IH|c l IH|l IH|t IH| |a r IHa IHr|] using ty_ind'; cbn; intros C W; try discriminate; try (constructor; auto; fail).
    - apply sub_union_l. intros v I. eapply sub_union_r; eauto.
    - hb. apply sub_app; auto. intros v r I. apply in_combine_self in I as (<- & I). eauto.
    - apply sub_tup; auto. intros v r I. apply in_combine_self in I as (<- & I). eauto.
    - hb. apply sub_fun; auto. intros l l' -> [= <-]. split; auto. intros v r' I. apply in_combine_self in I as (<- & I).
      apply (L l); auto.
  Qed.

  Section Rec.
    Variable un : binds -> ty -> ty -> res (option binds).
    Hypothesis IH : forall b v r b', okb b -> fits v r -> wr v = true -> wr r = true ->
      un b v r = Ok (Some b') -> means b v r b'.

    Lemma unify_list_ok : forall l l' b b', length l = length l' -> okb b ->
      (forall v r, In (v, r) (combine l l') -> fits v r) -> forallb wr l = true -> forallb wr l' = true ->
      unify_list un b l l' = Ok (Some b') ->
      okb b' /\ extends b b' /\
      forall b2, extends b' b2 -> forall v r, In (v, r) (combine l l') -> sub (subst b2 v) (subst b2 r).
    Proof.
      induction l as [|v l IHl]; intros [|r l'] b b' L B F W W' E; try discriminate; cbn [unify_list] in E.
      - injection E as <-. split; [exact B|split; [apply extends_refl|]]. intros b2 _ v r [].
      - destruct (un b v r) as [[b1|]|e] eqn:U; cbn in E; try discriminate.
        cbn in W, W'. apply andb_true_iff in W as (W1 & W2). apply andb_true_iff in W' as (W1' & W2').
        destruct (IH b v r b1) as (B1 & X1 & S1); auto. { apply F. cbn. auto. }
        destruct (IHl l' b1 b') as (B2 & X2 & S2); auto. { intros. apply F. cbn. auto. }
        split; auto. split; [eapply extends_trans; eauto|]. intros b2 X v0 r0 [[= <- <-]|I]; auto.
        apply S1. eapply extends_trans; eauto.
    Qed.

    Lemma unify_all_ok : forall l r b b', okb b -> closed (Union l) = true -> closed r = true -> tuples (Union l) r ->
      wr (Union l) = true -> wr r = true -> unify_all un b l r = Ok (Some b') ->
      b' = b /\ forall v, In v l -> sub v r.
    Proof.
      induction l as [|v l IHl]; intros r b b' B C C' T W W' E; cbn [unify_all] in E.
      - injection E as <-. split; [auto|intros v []].
      - destruct (un b v r) as [[b1|]|e] eqn:U; cbn in E; try discriminate. cbn in C, W. hb.
        assert (T1 : tuples v r) by (unfold tuples in *; cbn in T; rewrite ?andb_true_iff in T; tauto).
        assert (T2 : tuples (Union l) r) by (unfold tuples in *; cbn in T |- *; rewrite ?andb_true_iff in T; tauto).
        destruct (IHl r b b') as (-> & S); auto. split; auto. intros v0 [<-|I]; auto.
        destruct (IH b v r b1) as (_ & _ & S1); auto. { left. auto. }
        specialize (S1 b1 (extends_refl b1)). now rewrite !subst_closed in S1.
    Qed.
    Lemma unify_any_ok : forall l v b b', okb b -> (forall r, In r l -> fits v r) -> wr v = true -> forallb wr l = true ->
      unify_any un b v l = Ok (Some b') -> exists r, In r l /\ means b v r b'.
    Proof.
      induction l as [|r l IHl]; intros v b b' B F W W' E; cbn [unify_any] in E; [discriminate|]. hb.
      destruct (un b v r) as [[b1|]|e] eqn:U; cbn in E; try discriminate.
      - injection E as <-. exists r. split; [cbn; auto|]. apply IH; auto. apply F. cbn. auto.
      - destruct (IHl v b b') as (r' & I & M); auto. { intros. apply F. cbn. auto. } exists r'. cbn. auto.
    Qed.

    Lemma combine_map_subst : forall b2 (l l' : list ty),
      (forall v r, In (v, r) (combine l l') -> sub (subst b2 v) (subst b2 r)) ->
      forall v r, In (v, r) (combine (map (subst b2) l) (map (subst b2) l')) -> sub v r.
    Proof.
      induction l as [|x l IHl]; intros [|y l'] H v r; cbn; try easy. intros [[= <- <-]|I].
      - apply H. cbn. auto.
      - eapply IHl; eauto. intros. apply H. cbn. auto.
    Qed.
    Lemma combine_objects : forall (l : list ty) r, In r l -> In (Object, r) (combine (map (fun _ => Object) l) l).
    Proof. induction l as [|x l IHl]; cbn; intros r; [easy|]. intros [->|I]; auto. Qed.
    Lemma combine_objects' : forall (l : list ty) v r, In (v, r) (combine (map (fun _ => Object) l) l) -> v = Object /\ In r l.
    Proof. induction l as [|x l IHl]; cbn; intros v r; [easy|]. intros [[= <- <-]|I]; auto. apply IHl in I as (-> & I). auto. Qed.
    Lemma objects_ok : forall v d l b b', okb b -> fits v (App d l) -> forallb wr l = true ->
      unify_list un b (map (fun _ => Object) l) l = Ok (Some b') ->
      okb b' /\ extends b b' /\ forall b2, extends b' b2 -> forall r, In r (map (subst b2) l) -> sub Object r.
    Proof.
      intros v d l b b' B F W E. destruct (unify_list_ok (map (fun _ => Object) l) l b b') as (B1 & X & S); auto.
      - now rewrite map_length.
      - intros v0 r I. apply combine_objects' in I as (-> & I). eapply fits_object; eauto.
      - clear. induction l; auto.
      - split; auto. split; auto. intros b2 X2 r I. apply in_map_iff in I as (r0 & <- & I).
        apply (S b2 X2 Object r0). now apply combine_objects.
    Qed.

    (** The type as it is compared in the end. *)
    Definition shown (v v' : ty) : Prop :=
      match v with
      | TupVar _ | RawTup => v' = RawTup
      | Tup l => v' = v /\ l <> []
      | Any | Var _ | Union _ => False
      | _ => v' = v
      end.
    Lemma unify_classes_ok : forall v v' r b b', okb b -> fits v r -> wr v = true -> wr r = true -> shown v v' ->
      match r with Any | Var _ | Union _ => False | _ => True end ->
      unify_classes issub un b (origin v) v' r = Ok (Some b') -> means b v r b'.
    Proof.
      intros v v' r b b' B F W W' H R E. unfold unify_classes in E.
      destruct (issubclass issub (origin v) (origin r)) as [[|]|e] eqn:I1; try discriminate. cbn [bind negb] in E.
      assert (NT := fits_sized v r F).
      destruct (issubclass issub (origin r) (Some ccallable)) as [call|e] eqn:I2; try discriminate. cbn [bind] in E.
      destruct r as [| |n|l|d l|l|t| |a rr|]; try easy; cbn [origin issubclass] in I1, I2.
      - (* object *)
        assert (call = false). { destruct call; auto. injection I2 as I2. apply object_sub in I2. discriminate. } subst call.
        assert (b' = b /\ True) as (-> & _).
        { cbn [args_of length] in E. destruct (args_of issub v'); cbn in E; [injection E; auto|discriminate]. }
        split; [auto|split; [apply extends_refl|]]. intros. apply sub_object.
      - (* a class *)
        destruct (origin v) as [c|] eqn:O; try discriminate. cbn in I1, I2. injection I1 as I1. injection I2 as I2.
        cbn [written] in W'. apply andb_true_iff in W' as (W' & Wl). apply andb_true_iff in W' as (Wd & Wa). apply Nat.ltb_lt in Wd.
        assert (LA : length l = 0 \/ length l = arity d).
        { apply orb_true_iff in Wa as [Wa|Wa]; apply Nat.eqb_eq in Wa; auto. }
        destruct call.
        + (* to be called *)
          assert (l = []) as ->. { cbn [call_parts] in E. destruct (call_parts v') as [[va vr]|]; try discriminate.
            cbn in E. destruct l; [auto|discriminate]. }
          cbn [call_parts] in E.
          assert (S : forall b2, sub (subst b2 v) (App d [])).
          { intros b2. destruct v as [| |n|k|c' k|k|t| |a vr|]; cbn in O; try discriminate; injection O as <-; cbn in H.
            - apply object_sub in I1. unfold cobject in I1. lia.
            - apply sub_class; auto.
            - apply sub_tup_class; auto.
            - apply sub_var_class; auto.
            - apply sub_raw_class; auto.
            - apply sub_fun_class; auto. }
          assert (M : okb b' /\ extends b b').
          { destruct (call_parts v') as [[va vr]|] eqn:CP; try discriminate. cbn [bind] in E.
            assert (exists b1, un b vr Any = Ok (Some b1) /\ b' = b1) as (b1 & U & ->).
            { destruct (un b vr Any) as [[b1|]|]; cbn [bind] in E; try discriminate. exists b1. split; auto.
              unfold unify_callable_args in E. destruct va; injection E; auto. }
            assert (FV : fits vr Any /\ wr vr = true).
            { destruct v' as [| |n|k|c' k|k|t| |a vr'|]; try discriminate; cbn in CP.
              - destruct k; try discriminate. injection CP as <- <-. split; [left; unfold tuples; cbn; auto|auto].
              - injection CP as <- <-. destruct v; cbn in H; try easy; try (destruct H; discriminate).
                injection H as -> ->. split; [eapply fits_fun_any; eauto|]. cbn in W. hb. auto. }
            destruct FV as (FV & WV). destruct (IH b vr Any b1) as (B1 & X1 & _); auto. }
          destruct M as (M1 & M2). split; [auto|split; [auto|]]. intros. apply S.
        + (* not *)
          assert (AR : args_of issub (App d l) = l) by (cbn; destruct l; auto; now rewrite I2). rewrite AR in E.
          destruct v as [| |n|k|c' k|k|t| |a vr|]; cbn in O; try discriminate; injection O as <-; cbn in H.
          * apply object_sub in I1. unfold cobject in I1. lia.
          * subst v'. destruct k as [|x k].
            -- cbn [args_of] in E. destruct (issub c' ccallable) eqn:CC.
               ++ assert (A2 := call_arity c' d CC I1). cbn [length] in E.
                  destruct l as [|l1 [|l2 [|]]]; cbn in E; try discriminate. cbn in LA. lia.
               ++ cbn [length] in E. destruct (Nat.eqb_spec 0 (length l)) as [L|L].
                  ** destruct l; [|discriminate]. injection E as <-. split; [auto|split; [apply extends_refl|]].
                     intros. cbn. now apply sub_class.
                  ** destruct (objects_ok _ _ _ _ _ B F Wl E) as (B1 & X & S). split; [auto|split; [auto|]].
                     intros b2 X2. cbn [subst map]. apply sub_bare; [auto|exact (S b2 X2)].
            -- change (args_of issub (App c' (x :: k))) with (x :: k) in E.
               destruct (Nat.eqb_spec (length (x :: k)) (length l)) as [L|L]; [|discriminate].
               cbn [written] in W. apply andb_true_iff in W as (W & Wk).
               destruct (unify_list_ok (x :: k) l b b') as (B1 & X & S); auto.
               { intros v r I. apply combine_in in I as (I & J). eapply fitsl_in; [eapply fits_app; eauto| |]; auto. }
               split; [auto|split; [auto|]]. intros b2 X2. cbn [subst]. apply sub_app; auto.
               { now rewrite !map_length. }
               apply combine_map_subst. auto.
          * destruct H as (-> & NE). cbn [args_of] in E. destruct k as [|x k]; [easy|].
            destruct (Nat.eqb_spec (length (x :: k)) (length l)) as [L|L]; [|discriminate].
            assert (A2 := tuple_arity d I1). destruct k as [|]; [|cbn in L; lia].
            destruct l as [|y [|]]; cbn in L; try lia.
            cbn in W. hb. destruct (unify_list_ok [x] [y] b b') as (B1 & X & S); auto.
            { intros v r I. apply combine_in in I as (I & J). eapply fitsl_in; [eapply fits_tup_app; eauto| |]; auto. }
            { cbn. now rewrite H. }
            { cbn. now rewrite H1. }
            split; [auto|split; [auto|]]. intros b2 X2. cbn. apply sub_tup_app; auto. intros v [<-|[]].
            apply S; cbn; auto.
          * subst v'. cbn [args_of length] in E. destruct (Nat.eqb_spec 0 (length l)) as [L|L].
            -- destruct l; [|discriminate]. injection E as <-. split; [auto|split; [apply extends_refl|]].
               intros. cbn. now apply sub_var_class.
            -- destruct (objects_ok _ _ _ _ _ B F Wl E) as (B1 & X & S). split; [auto|split; [auto|]].
               assert (A2 := tuple_arity d I1). destruct l as [|y [|]]; cbn in L, LA; try lia.
               intros b2 X2. cbn. apply sub_var_app; auto. apply object_top. apply (S b2); cbn; auto.
          * subst v'. cbn [args_of length] in E. destruct (Nat.eqb_spec 0 (length l)) as [L|L].
            -- destruct l; [|discriminate]. injection E as <-. split; [auto|split; [apply extends_refl|]].
               intros. cbn. now apply sub_raw_class.
            -- destruct (objects_ok _ _ _ _ _ B F Wl E) as (B1 & X & S). split; [auto|split; [auto|]].
               assert (A2 := tuple_arity d I1). destruct l as [|y [|]]; cbn in L, LA; try lia.
               intros b2 X2. cbn. apply sub_raw_app; auto. apply (S b2); cbn; auto.
          * apply call_sub in I1 as [I1|I1]; [unfold cobject in I1; lia|congruence].
      - (* a tuple *)
        destruct (origin v) as [c|] eqn:O; try discriminate. cbn in I1, I2. injection I1 as I1. injection I2 as I2.
        assert (NV := fits_var_tup _ _ F). rewrite tuple_call in I2. subst call. apply sub_tuple in I1. subst c.
        destruct v as [| |n|k|c' k|k|t| |a vr|]; cbn in O; try discriminate; try easy; cbn in H.
        + injection O as ->. cbn in W. discriminate.
        + destruct H as (-> & NE). cbn [args_of] in E.
          destruct (Nat.eqb_spec (length k) (length l)) as [L|L]; [|destruct k; [easy|discriminate]].
          destruct (unify_list_ok k l b b') as (B1 & X & S); auto.
          { intros v r I. apply combine_in in I as (I & J). eapply fitsl_in; [eapply fits_tup; eauto| |]; auto. }
          split; [auto|split; [auto|]]. intros b2 X2. cbn. apply sub_tup.
          { now rewrite !map_length. }
          apply combine_map_subst. auto.
      - (* a callable *)
        cbn in I2. rewrite call_call in I2. injection I2 as <-.
        destruct (call_parts v') as [[va vr]|] eqn:CP; try discriminate. cbn [bind call_parts] in E.
        destruct (un b vr rr) as [[b1|]|] eqn:U; try discriminate. cbn [bind] in E. cbn in W'. hb.
        destruct v as [| |n|k|c' k|k|t| |va' vr'|]; cbn in H; try easy; try (destruct H as (-> & NE)); subst; try discriminate.
        + cbn in CP. destruct k; try discriminate. injection CP as <- <-. cbn in E. injection E as <-.
          assert (FR : fits Any rr).
          { clear - F. unfold fits, tuples in *. cbn in *. rewrite ?andb_true_iff in F. tauto. }
          destruct (IH b Any rr b1) as (B1 & X1 & S1); auto. split; [auto|split; [auto|]]. intros. cbn.
          apply sub_callable. cbn in I1. now injection I1.
        + cbn in CP. injection CP as <- <-. cbn in W. hb.
          destruct (IH b vr' rr b1) as (B1 & X1 & S1); auto. { eapply fits_fun_ret; eauto. }
          unfold unify_callable_args in E. destruct va' as [vl|], a as [rl|].
          2-4: injection E as <-; split; [auto|split; [auto|]]; intros b2 X2; cbn; apply sub_fun; [auto|]; intros; discriminate.
          destruct (Nat.eqb_spec (length vl) (length rl)) as [L|L]; [|discriminate].
          destruct (unify_list_ok rl vl b1 b') as (B2 & X2 & S2); auto.
          { intros v r I. apply combine_in in I as (I & J). eapply fitsl_in; [eapply fits_fun_args; eauto| |]; auto. }
          split; [auto|split; [eapply extends_trans; eauto|]]. intros b2 X3. cbn. apply sub_fun.
          { apply S1. eapply extends_trans; eauto. }
          intros l l' [= <-] [= <-]. rewrite !map_length. split; auto. apply combine_map_subst. auto.
    Qed.

    Lemma unify_to_tuple_ok : forall v v' r b b', okb b -> fits v r -> wr v = true -> wr r = true -> shown v v' ->
      match r with Any | Var _ | Union _ => False | _ => True end ->
      unify_to_tuple issub un b (origin v) v' r = Ok (Some b') -> means b v r b'.
    Proof.
      intros v v' r b b' B F W W' H R E. unfold unify_to_tuple in E. assert (NT := fits_sized v r F).
      assert (VA : forall l, wr (Tup l) = true -> variadic l = false).
      { intros [|x [|[] [|]]]; cbn; auto; try (destruct y; auto); rewrite ?andb_false_r; discriminate || auto. }
      destruct r as [| |n|l|d l|l|t| |a rr|]; try easy; cbn [origin] in E.
      - change (Nat.eqb cobject ctuple) with false in E. eapply unify_classes_ok; eauto.
      - destruct (Nat.eqb_spec d ctuple) as [->|]; [cbn in W'; discriminate|]. eapply unify_classes_ok; eauto.
      - change (Nat.eqb ctuple ctuple) with true in E. cbn [andb tuple_args] in E. rewrite VA in E by auto. eapply unify_classes_ok; eauto.
      - change (Nat.eqb ccallable ctuple) with false in E. eapply unify_classes_ok; eauto.
    Qed.
    Lemma uniform_all : forall a l, uniform (a :: l) = true -> forall v, In v (a :: l) -> v = a.
    Proof.
      intros a l U v [->|I]; auto. cbn in U. symmetry. apply ty_eqb_eq. eapply forallb_in with (f := ty_eqb a); eauto.
    Qed.
    Lemma unify_from_tuple_ok : forall v r b b', okb b -> fits v r -> wr v = true -> wr r = true ->
      match v with Any | Var _ | Union _ => False | _ => True end ->
      match r with Any | Var _ | Union _ => False | _ => True end ->
      unify_from_tuple issub un b v r = Ok (Some b') -> means b v r b'.
    Proof.
      intros v r b b' B F W W' V R E. unfold unify_from_tuple in E.
      assert (WS : forall a, wr a = true -> wr (App csequence [a]) = true) by (intros a Wa; cbn; now rewrite arity_seq, Wa).
      destruct v as [| |n|l|d l|l|t| |a rr|]; try easy; cbn [origin] in E.
      - change (Nat.eqb cobject ctuple) with false in E. eapply (unify_to_tuple_ok Object Object); eauto; reflexivity.
      - destruct (Nat.eqb_spec d ctuple) as [->|]; [cbn in W; discriminate|].
        eapply (unify_to_tuple_ok (App d l) (App d l)); eauto; reflexivity.
      - (* a tuple with given items *)
        change (Nat.eqb ctuple ctuple) with true in E. cbn [andb tuple_args] in E.
        assert (VA : variadic l = false).
        { clear - W. destruct l as [|x [|[] [|]]]; cbn in *; auto; rewrite ?andb_false_r in W; discriminate || auto. }
        rewrite VA in E. cbn [orb] in E. destruct (uniform l) eqn:U.
        + assert (Wh : wr (hd Object l) = true) by (destruct l; auto; cbn in W; hb; auto).
          destruct (un b (App csequence [hd Object l]) r) as [[b1|]|] eqn:U1; cbn [bind] in E; try discriminate.
          * injection E as <-. destruct (IH b (App csequence [hd Object l]) r b1) as (B1 & X & S); auto using fits_seq.
            split; [auto|split; [auto|]]. intros b2 X2. cbn [subst map].
            apply (seq_tup (subst b2 (hd Object l))); [apply S; auto|].
            intros v I. apply in_map_iff in I as (v0 & <- & I). destruct l as [|x l]; [easy|].
            now rewrite (uniform_all x l U v0 I).
          * destruct (rev l) as [|x k] eqn:RV; [discriminate|].
            assert (is_dots x = false).
            { assert (In x l) by (apply in_rev; rewrite RV; cbn; auto). destruct x; auto.
              cbn in W. assert (wr Dots = true) by (eapply forallb_in; eauto). discriminate. }
            rewrite H in E. eapply (unify_to_tuple_ok (Tup l) (Tup l)); eauto. split; auto. intros ->. discriminate.
        + eapply (unify_to_tuple_ok (Tup l) (Tup l)); eauto. split; auto. intros ->. discriminate.
      - change (Nat.eqb ctuple ctuple) with true in E. cbn [andb tuple_args variadic orb hd rev app is_dots] in E.
        destruct (un b (App csequence [t]) r) as [[b1|]|] eqn:U1; cbn [bind] in E; try discriminate.
        + injection E as <-. destruct (IH b (App csequence [t]) r b1) as (B1 & X & S); auto using fits_seq_var.
          split; [auto|split; [auto|]]. intros b2 X2. cbn [subst]. apply seq_var. apply (S b2 X2).
        + eapply (unify_to_tuple_ok (TupVar t) RawTup); eauto. reflexivity.
      - change (Nat.eqb ctuple ctuple) with true in E. cbn [andb tuple_args variadic orb hd rev app is_dots] in E.
        destruct (un b (App csequence [Object]) r) as [[b1|]|] eqn:U1; cbn [bind] in E; try discriminate.
        + injection E as <-. destruct (IH b (App csequence [Object]) r b1) as (B1 & X & S); auto using fits_seq_raw.
          split; [auto|split; [auto|]]. intros b2 X2. cbn [subst]. apply seq_raw. apply (S b2 X2).
        + eapply (unify_to_tuple_ok RawTup RawTup); eauto. reflexivity.
      - change (Nat.eqb ccallable ctuple) with false in E. eapply (unify_to_tuple_ok (Fun a rr) (Fun a rr)); eauto; reflexivity.
    Qed.

    Lemma bind_ok : forall b v n, okb b -> fits v (Var n) -> wr v = true -> lookup b n = None -> means b v (Var n) ((n, v) :: b).
    Proof.
      intros b v n B F W L. apply fits_var in F as (C & U & Z). split; [|split].
      - intros m t. cbn. destruct (Nat.eqb_spec n m) as [<-|]; [intros [= <-]; auto|apply B].
      - intros m t L'. cbn. destruct (Nat.eqb_spec n m) as [<-|]; [congruence|auto].
      - intros b2 X. assert (X' : lookup b2 n = Some v) by (apply X; cbn; now rewrite Nat.eqb_refl).
        cbn. rewrite X', subst_closed by auto. now apply sub_refl.
    Qed.
    Lemma var_ok : forall b n r b', means b Object r b' -> means b (Var n) r b'.
    Proof.
      intros b n r b' (B & X & S). split; [auto|split; [auto|]]. intros b2 X2. apply object_top. apply (S b2 X2).
    Qed.
    Lemma unify_step_ok : forall b v r b', okb b -> fits v r -> wr v = true -> wr r = true ->
      unify_step issub un b v r = Ok (Some b') -> means b v r b'.
    Proof.
      intros b v0 r0 b' B F0 W0 W0' E. unfold unify_step in E.
      destruct (get_ok b v0 r0 B F0 W0 W0') as (F & W & W').
      assert (M : means b (get b v0) (get b r0) b').
      2:{ destruct M as (B' & X & S). split; [auto|split; [auto|]]. intros b2 X2.
          rewrite <- (subst_get b b2 v0), <- (subst_get b b2 r0); auto; eapply extends_trans; eauto. }
      generalize dependent (get b r0). generalize dependent (get b v0). clear v0 r0 F0 W0 W0'. intros v W r E F W'.
      assert (T : v = Any \/ r = Any -> means b v r b).
      { intros [->| ->]; (split; [auto|split; [apply extends_refl|]]); intros; constructor. }
      destruct v as [| |n|l|d l|l|t| |a rr|] eqn:EV; cbn iota beta in E;
        [injection E as <-; auto| | | | | | | | | ];
        (destruct r as [| |n'|l'|d' l'|l'|t'| |a' rr'|] eqn:ER; cbn iota beta in E;
         [injection E as <-; auto| | | | | | | | | ]);
        try (eapply unify_from_tuple_ok; eauto; exact I);
        try (apply fits_union_l in F as (C & C' & TT); destruct (unify_all_ok _ _ _ _ B C C' TT W W' E) as (-> & S);
             (split; [auto|split; [apply extends_refl|]]); intros b2 _; rewrite !subst_closed by auto; now apply sub_union_l);
        try (destruct (unify_any_ok l' _ b b' B (fun r I => fits_union_r _ _ _ F I) W W' E) as (r2 & I2 & B' & X & S);
             (split; [auto|split; [auto|]]); intros b2 X2; eapply sub_union_r; [apply in_map; eauto|apply S; auto]);
        try (destruct (lookup b n') eqn:L; [discriminate|injection E as <-; now apply bind_ok]);
        try (apply var_ok; apply unify_from_tuple_ok; auto; eapply fits_var_object; eauto; fail);
        try discriminate.
    Qed.
  End Rec.

  Lemma unify_ok : forall fuel b v r b', okb b -> fits v r -> wr v = true -> wr r = true ->
    unify issub fuel b v r = Ok (Some b') -> means b v r b'.
  Proof.
    induction fuel as [|f IHf]; intros b v r b' B F W W' E; [discriminate|]. cbn [unify] in E.
    eapply unify_step_ok; eauto.
  Qed.
End Proofs.
