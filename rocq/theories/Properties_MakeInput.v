(** C173: arguments of built-in types range over the values of the type. *)
From Coq Require Import QArith ZArith List Bool Lia.
From Verif Require Import FloatPrec_Model MakeInput_Model MakeInput_Spec.
Import ListNotations.
Open Scope Z_scope.

Lemma ty_nested : forall P : ty -> Prop,
  P TInt -> P TBool -> P TFloat -> P TRange ->
  (forall ts, Forall P ts -> P (TTuple ts)) -> (forall t, P t -> P (TUniform t)) ->
  (forall ts, Forall P ts -> P (TUnion ts)) -> (forall k v, P k -> P v -> P (TDict k v)) -> forall t, P t.
Proof.
  intros P A B C D E F G H.
  refine (fix go (t : ty) : P t :=
            match t with
            | TInt => A | TBool => B | TFloat => C | TRange => D
            | TTuple ts => E ts _ | TUniform t => F t (go t) | TUnion ts => G ts _
            | TDict k v => H k v (go k) (go v)
            end).
  - induction ts as [|x r IH]; constructor; [apply go|exact IH].
  - induction ts as [|x r IH]; constructor; [apply go|exact IH].
Qed.

Section Keys.
Variable same : value -> value -> bool.

(** *** Only values of the type *)
Definition sound_for {A} (good : A -> Prop) (f : list draw -> out A) : Prop :=
  forall ds a rest, fair ds -> f ds = Got a rest -> good a /\ fair rest.
Lemma fair_tail : forall d ds, fair (d :: ds) -> fair ds.
Proof. intros d ds F x I. apply F. right. exact I. Qed.
Lemma andthen_sound : forall {A B} (good : A -> Prop) (ok : B -> Prop) f g,
  sound_for good f -> (forall a, good a -> sound_for ok (g a)) -> sound_for ok (fun ds => andthen (f ds) g).
Proof.
  intros A B good ok f g F G ds b rest Fa E. destruct (f ds) as [a ds'| |] eqn:X; try discriminate.
  destruct (F _ _ _ Fa X) as [Ga Fr]. exact (G a Ga ds' b rest Fr E).
Qed.
Lemma got_sound : forall {A} (ok : A -> Prop) a, ok a -> sound_for ok (fun ds => Got a ds).
Proof. intros A ok a O ds b rest F E. injection E as <- <-. split; assumption. Qed.
Lemma no_sound : forall {A} (ok : A -> Prop), sound_for ok (fun _ => NoPath) /\ sound_for ok (fun _ => Ignored).
Proof. intros A ok. split; intros ds b rest F E; discriminate. Qed.
Lemma int_sound : sound_for (fun _ => True) take_int.
Proof. intros [|[] ds] a rest F E; try discriminate. injection E as <- <-. split; [exact I|eapply fair_tail, F]. Qed.
Lemma fork_sound : sound_for (fun _ => True) take_fork.
Proof. intros [|[] ds] a rest F E; try discriminate. injection E as <- <-. split; [exact I|eapply fair_tail, F]. Qed.
Lemma len_sound : sound_for (fun _ => True) take_len.
Proof. intros [|[] ds] a rest F E; try discriminate. injection E as <- <-. split; [exact I|eapply fair_tail, F]. Qed.
Lemma real_sound : sound_for a_double (fun ds => match ds with DReal q :: ds => Got (of_real q) ds | _ => NoPath end).
Proof.
  intros [|[] ds] a rest F E; try discriminate. injection E as <- <-.
  split; [exact (F _ (or_introl eq_refl))|eapply fair_tail, F].
Qed.
Lemma double_sound : sound_for a_double (fun ds => match ds with DDouble f :: ds => Got f ds | _ => NoPath end).
Proof.
  intros [|[] ds] a rest F E; try discriminate. injection E as <- <-.
  split; [exact (F _ (or_introl eq_refl))|eapply fair_tail, F].
Qed.
Lemma float_sound : forall real, sound_for a_double (make_float real).
Proof.
  intros [|]; [|exact double_sound]. apply (andthen_sound (fun _ => True) a_double take_fork _ fork_sound).
  intros [|] _; [exact real_sound|]. apply (andthen_sound (fun _ => True) a_double take_fork _ fork_sound).
  intros [|] _; [apply got_sound; exact I|]. apply (andthen_sound (fun _ => True) a_double take_fork _ fork_sound).
  intros b _. apply got_sound. exact I.
Qed.
Lemma range_sound : sound_for (has same TRange) make_range.
Proof.
  apply (andthen_sound (fun _ => True) (has same TRange) take_int _ int_sound). intros step _.
  destruct (Z.eqb_spec step 0) as [E|N]; [apply no_sound|].
  apply (andthen_sound (fun _ => True) (has same TRange) take_int _ int_sound). intros start _.
  apply (andthen_sound (fun _ => True) (has same TRange) take_int _ int_sound). intros stop _.
  apply got_sound. exists start, stop, step. split; [reflexivity|exact N].
Qed.
Lemma many_sound : forall {A} (good : A -> Prop) f n, sound_for good f ->
  sound_for (fun l => forall x, In x l -> good x) (make_many f n).
Proof.
  intros A good f n F. induction n as [|n IH].
  - apply got_sound. intros x [].
  - apply (andthen_sound good _ f _ F). intros a Ga. apply (andthen_sound _ _ _ _ IH). intros r Gr.
    apply got_sound. intros x [X|X]; [subst; exact Ga|exact (Gr x X)].
Qed.

(** The set of keys is as long as the list exactly if no two are equal *)
Lemma set_len : forall ks seen, (length seen <= length (set_of same seen ks) <= length seen + length ks)%nat.
Proof.
  induction ks as [|k ks IH]; intros seen; cbn [set_of length]; [lia|]. destruct (existsb _ seen).
  - specialize (IH seen). lia.
  - specialize (IH (seen ++ [k])). rewrite app_length in IH. cbn [length] in IH. lia.
Qed.
Lemma set_full : forall ks seen,
  length (set_of same seen ks) = (length seen + length ks)%nat <->
  (forall a b, In a seen -> In b ks -> same a b = false) /\ ForallOrdPairs (fun a b => same a b = false) ks.
Proof.
  induction ks as [|k ks IH]; intros seen; cbn [set_of length].
  - split; [intros _; split; [intros a b _ []|constructor]|lia].
  - destruct (existsb (fun o => same o k) seen) eqn:X.
    + split.
      * intro L. pose proof (set_len ks seen). lia.
      * intros [H _]. apply existsb_exists in X as (o & I & S). rewrite (H o k I (or_introl eq_refl)) in S. discriminate.
    + assert (X' : forall o, In o seen -> same o k = false).
      { intros o I. destruct (same o k) eqn:S; [|reflexivity].
        assert (existsb (fun o => same o k) seen = true) by (apply existsb_exists; exists o; split; assumption). congruence. }
      specialize (IH (seen ++ [k])). rewrite app_length in IH. cbn [length] in IH.
      replace (length seen + S (length ks))%nat with (length seen + 1 + length ks)%nat by lia. rewrite IH. split.
      * intros [H1 H2]. split.
        -- intros a b Ia [<-|Ib]; [exact (X' a Ia)|]. apply H1; [apply in_or_app; left; exact Ia|exact Ib].
        -- constructor; [|exact H2]. apply Forall_forall. intros b Ib. apply H1; [apply in_or_app; right; left; reflexivity|exact Ib].
      * intros [H1 H2]. inversion H2 as [|k' ks' Fk Fr]; subst. split; [|exact Fr].
        intros a b Ia Ib. apply in_app_or in Ia as [Ia|[<-|[]]]; [apply H1; [exact Ia|right; exact Ib]|].
        rewrite Forall_forall in Fk. exact (Fk b Ib).
Qed.
Lemma unique_ok : forall kvs, keys_unique same kvs = true <-> ForallOrdPairs (fun a b => same a b = false) (map fst kvs).
Proof.
  intro kvs. unfold keys_unique. rewrite Nat.eqb_eq. pose proof (set_full (map fst kvs) []) as S.
  cbn [length Nat.add] in S. rewrite map_length in S. rewrite S. split; [tauto|]. intro H. split; [intros a b []|exact H].
Qed.

Theorem C173_sound_partial : forall real t ds v rest, fair ds ->
  make same real t ds = Got v rest -> has same t v.
Proof.
  intros real t. enough (S : sound_for (has same t) (make same real t)).
  { intros ds v rest F E. exact (proj1 (S ds v rest F E)). }
  induction t as [| | | |ts IH|t IH|ts IH|k v IHk IHv] using ty_nested.
  - apply (andthen_sound (fun _ => True) (has same TInt) take_int _ int_sound). intros z _. apply got_sound. exists z. reflexivity.
  - apply (andthen_sound (fun _ => True) (has same TBool) take_fork _ fork_sound). intros [|] _; apply got_sound; [left|right]; reflexivity.
  - apply (andthen_sound a_double (has same TFloat) (make_float real) _ (float_sound real)). intros f D. apply got_sound. exists f. split; [reflexivity|exact D].
  - exact range_sound.
  - intros ds v rest F E. cbn [make] in E.
    match type of E with andthen (?g _ _) _ = _ => set (each := g) in E end.
    destruct (each ts ds) as [vs ds'| |] eqn:X; try discriminate. injection E as <- <-.
    assert (G : (fix each (ts : list ty) (vs : list value) : Prop :=
         match ts, vs with [], [] => True | t :: ts, v :: vs => has same t v /\ each ts vs | _, _ => False end) ts vs /\ fair ds').
    { revert ds vs ds' F X. induction IH as [|t ts Ht Hts IH2]; intros ds vs ds' F X.
      - injection X as <- <-. split; [exact I|exact F].
      - change (each (t :: ts) ds) with (andthen (make same real t ds) (fun v ds => andthen (each ts ds) (fun r ds => Got (v :: r) ds))) in X.
        destruct (make same real t ds) as [v ds1| |] eqn:X1; try discriminate. cbn [andthen] in X.
        destruct (each ts ds1) as [r ds2| |] eqn:X2; try discriminate. cbn [andthen] in X. injection X as <- <-.
        destruct (Ht _ _ _ F X1) as [G1 F1]. destruct (IH2 _ _ _ F1 X2) as [G2 F2]. split; [split; assumption|exact F2]. }
    destruct G as [G Fr]. split; [exists vs; split; [reflexivity|exact G]|exact Fr].
  - apply (andthen_sound (fun _ => True) (has same (TUniform t)) take_len _ len_sound). intros n _.
    apply (andthen_sound _ _ _ _ (many_sound (has same t) (make same real t) n IH)). intros vs G.
    apply got_sound. exists vs. split; [reflexivity|exact G].
  - intros ds v rest F E. cbn [make has] in *. revert ds F E. induction IH as [|t ts Ht Hts IH2]; intros ds F E; [discriminate|].
    destruct ts as [|t2 ts].
    + destruct (Ht _ _ _ F E) as [G Fr]. split; [left; exact G|exact Fr].
    + destruct (take_fork ds) as [b ds1| |] eqn:X; try discriminate. cbn [andthen] in E.
      pose proof (proj2 (fork_sound _ _ _ F X)) as F1. destruct b.
      * destruct (Ht _ _ _ F1 E) as [G Fr]. split; [left; exact G|exact Fr].
      * destruct (IH2 _ F1 E) as [G Fr]. split; [right; exact G|exact Fr].
  - apply (andthen_sound (fun _ => True) (has same (TDict k v)) take_len _ len_sound). intros n _.
    apply (andthen_sound (fun l => forall x, In x l -> has same k (fst x) /\ has same v (snd x))).
    + apply (many_sound (fun x => has same k (fst x) /\ has same v (snd x))).
      apply (andthen_sound _ _ _ _ IHk). intros a Ga. apply (andthen_sound _ _ _ _ IHv). intros b Gb. apply got_sound. split; assumption.
    + intros kvs G. destruct (keys_unique same kvs) eqn:U; [|apply no_sound]. apply got_sound. exists kvs.
      split; [reflexivity|]. split; [|apply unique_ok; exact U]. intros x y I. exact (G (x, y) I).
Qed.

(** *** All values of the type *)
Definition reaches {A} (f : list draw -> out A) (a : A) : Prop :=
  exists ds, fair ds /\ forall rest, f (ds ++ rest) = Got a rest.

Lemma fair_app : forall a b, fair a -> fair b -> fair (a ++ b).
Proof. intros a b A B d I. apply in_app_or in I as [I|I]; [exact (A d I)|exact (B d I)]. Qed.
Lemma fair_one : forall d, match d with DDouble f => a_double f | DReal q => a_double (of_real q) | _ => True end -> fair [d].
Proof. intros d H x [<-|[]]. exact H. Qed.
Lemma fair_nil : fair [].
Proof. intros d []. Qed.
Lemma many_reach : forall {A} (f : list draw -> out A) l, (forall x, In x l -> reaches f x) ->
  reaches (make_many f (length l)) l.
Proof.
  intros A f l. induction l as [|x l IH]; intro H.
  - exists []. split; [exact fair_nil|reflexivity].
  - destruct (H x (or_introl eq_refl)) as (d1 & F1 & E1). destruct (IH (fun y I => H y (or_intror I))) as (d2 & F2 & E2).
    exists (d1 ++ d2). split; [apply fair_app; assumption|]. intro rest. cbn [length make_many].
    rewrite <- app_assoc, E1. cbn [andthen]. rewrite E2. reflexivity.
Qed.

(** On a path on which floats are doubles, every value of the type is met, whatever follows. *)
Theorem C173_complete : forall t v, has same t v ->
  exists ds, fair ds /\ forall rest, make same false t (ds ++ rest) = Got v rest.
Proof.
  intro t. change (forall v, has same t v -> reaches (make same false t) v).
  induction t as [| | | |ts IH|t IH|ts IH|k w IHk IHw] using ty_nested; intros v H.
  - destruct H as [z ->]. exists [DInt z]. split; [apply fair_one; exact I|reflexivity].
  - destruct H as [H|H]; subst; [exists [DFork true]|exists [DFork false]]; (split; [apply fair_one; exact I|reflexivity]).
  - destruct H as (f & -> & D). exists [DDouble f]. split; [apply fair_one; exact D|reflexivity].
  - destruct H as (a & b & c & -> & N). exists [DInt c; DInt a; DInt b]. split.
    + intros d [X|[X|[X|[]]]]; subst; exact I.
    + intro rest. cbn [make make_range app take_int andthen]. unfold make_range. cbn [take_int andthen].
      destruct (Z.eqb_spec c 0); [contradiction|reflexivity].
  - destruct H as (vs & -> & H). unfold reaches. cbn [make]. 
    match goal with |- exists ds, _ /\ forall rest, andthen (?g _ _) _ = _ => set (each := g) end.
    enough (R : reaches (each ts) vs).
    { destruct R as (ds & F & E). exists ds. split; [exact F|]. intro rest. rewrite E. reflexivity. }
    revert vs H. induction IH as [|t ts Ht Hts IH2]; intros [|v vs] H; try contradiction.
    + exists []. split; [exact fair_nil|reflexivity].
    + destruct H as [H1 H2]. destruct (Ht v H1) as (d1 & F1 & E1). destruct (IH2 vs H2) as (d2 & F2 & E2).
      exists (d1 ++ d2). split; [apply fair_app; assumption|]. intro rest.
      change (each (t :: ts) ((d1 ++ d2) ++ rest)) with
        (andthen (make same false t ((d1 ++ d2) ++ rest)) (fun v ds => andthen (each ts ds) (fun r ds => Got (v :: r) ds))).
      rewrite <- app_assoc, E1. cbn [andthen]. rewrite E2. reflexivity.
  - destruct H as (vs & -> & H). destruct (many_reach (make same false t) vs (fun x I => IH x (H x I))) as (ds & F & E).
    exists (DLen (length vs) :: ds). split; [apply (fair_app [_] ds); [apply fair_one; exact I|exact F]|].
    intro rest. cbn [make app take_len andthen]. rewrite E. reflexivity.
  - unfold reaches. cbn [make has] in *. induction IH as [|t ts Ht Hts IH2]; [contradiction|].
    destruct ts as [|t2 ts].
    + destruct H as [H|[]]. exact (Ht v H).
    + destruct H as [H|H].
      * destruct (Ht v H) as (ds & F & E). exists (DFork true :: ds).
        split; [apply (fair_app [_] ds); [apply fair_one; exact I|exact F]|]. intro rest. cbn [app take_fork andthen]. apply E.
      * destruct (IH2 H) as (ds & F & E). exists (DFork false :: ds).
        split; [apply (fair_app [_] ds); [apply fair_one; exact I|exact F]|]. intro rest. cbn [app take_fork andthen]. apply E.
  - destruct H as (kvs & -> & H & U).
    set (pair := fun ds => andthen (make same false k ds) (fun a ds => andthen (make same false w ds) (fun b ds => Got (a, b) ds))).
    assert (R : forall x, In x kvs -> reaches pair x).
    { intros [x y] I. destruct (H x y I) as [Hx Hy]. destruct (IHk x Hx) as (d1 & F1 & E1). destruct (IHw y Hy) as (d2 & F2 & E2).
      exists (d1 ++ d2). split; [apply fair_app; assumption|]. intro rest. unfold pair.
      rewrite <- app_assoc, E1. cbn [andthen]. rewrite E2. reflexivity. }
    destruct (many_reach pair kvs R) as (ds & F & E).
    exists (DLen (length kvs) :: ds). split; [apply (fair_app [_] ds); [apply fair_one; exact I|exact F]|].
    intro rest. cbn [make app take_len andthen]. fold pair. rewrite E. cbn [andthen].
    rewrite (proj2 (unique_ok kvs) U). reflexivity.
Qed.
End Keys.
Print Assumptions C173_sound_partial.
Print Assumptions C173_complete.

(** a dictionary from pairs to an int or a float, with -0.0 among its values *)
Definition int_eq (a b : value) : bool :=
  match a, b with VTuple [VInt x; VBool p], VTuple [VInt y; VBool q] => (x =? y) && Bool.eqb p q | _, _ => false end.
Definition sample_ty := TDict (TTuple [TInt; TBool]) (TUnion [TInt; TFloat]).
Definition sample_v :=
  VDict [(VTuple [VInt 1; VBool true], VInt 5); (VTuple [VInt 1; VBool false], VFloat (FFin true 0))].
Definition sample_ds :=
  [DLen 2; DInt 1; DFork true; DFork true; DInt 5; DInt 1; DFork false; DFork false; DDouble (FFin true 0)].
Example C173_example : fair sample_ds /\ make int_eq false sample_ty sample_ds = Got sample_v [] /\ has int_eq sample_ty sample_v.
Proof.
  assert (F : fair sample_ds).
  { intros d H. repeat (destruct H as [<-|H]; [first [exact I|reflexivity]|]). destruct H. }
  split; [exact F|]. assert (E : make int_eq false sample_ty sample_ds = Got sample_v []) by reflexivity.
  split; [exact E|]. exact (C173_sound_partial int_eq false sample_ty sample_ds sample_v [] F E).
Qed.
(** two equal keys: the path is ignored *)
Example C173_equal_keys :
  make int_eq false sample_ty [DLen 2; DInt 1; DFork true; DFork true; DInt 5; DInt 1; DFork true; DFork true; DInt 6] = Ignored.
Proof. reflexivity. Qed.

(** Refuted where floats are reals: a third, which is no float, is met, *)
Theorem C173_sound_refuted : exists ds v, forall same,
  make same true TFloat ds = Got v [] /\ ~ has same TFloat v.
Proof.
  exists [DFork true; DReal (1 # 3)], (VFloat (FFin false (1 # 3))). intro same. split; [reflexivity|].
  intros (f & E & D). injection E as <-. vm_compute in D. discriminate.
Qed.
Print Assumptions C173_sound_refuted.
(** and -0.0, which is one, is not. *)
Theorem C173_negative_zero_refuted : exists v, forall same, has same TFloat v /\
  forall ds rest, make same true TFloat ds <> Got v rest.
Proof.
  exists (VFloat (FFin true 0)). intro same. split; [exists (FFin true 0); split; reflexivity|].
  intros ds rest E. cbn [make] in E. unfold make_float in E.
  destruct ds as [|[|b| | |] ds]; try discriminate. cbn [take_fork andthen] in E. destruct b.
  - destruct ds as [|[| |q| |] ds]; try discriminate. cbn [andthen] in E. injection E as E1 E2 _.
    destruct q as [n d]. destruct n as [|n|n]; cbn in E1, E2; discriminate.
  - destruct ds as [|[|b| | |] ds]; try discriminate. cbn [take_fork andthen] in E. destruct b; [discriminate|].
    destruct ds as [|[|b| | |] ds]; discriminate.
Qed.
Print Assumptions C173_negative_zero_refuted.
