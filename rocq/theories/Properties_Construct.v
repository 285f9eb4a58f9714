(** C168: inputs of user classes; C169: enum inputs. *)
From Coq Require Import ZArith List Bool Lia.
From Verif Require Import Construct_Model Construct_Spec.
Import ListNotations.
Open Scope Z_scope.

Fixpoint input_nested (P : input -> Prop) (hi : forall z, P (IInt z)) (hl : forall l, P (IList l))
  (ho : forall c args, Forall P args -> P (IObj c args)) (i : input) : P i :=
  match i with
  | IInt z => hi z
  | IList l => hl l
  | IObj c args => ho c args ((fix go l : Forall P l := match l with
      | [] => Forall_nil P
      | x :: r => Forall_cons x (input_nested P hi hl ho x) (go r) end) args)
  end.

(** What becomes of a path, from what Python would do *)
Definition expected (o : outcome) : built :=
  match o with
  | Value v => Built v
  | Raises PreFailed => Ignored
  | Raises PostFailed => Ignored
  | Raises AnException => Unsupported
  | Raises BaseOnly => Escapes BaseOnly
  end.

(** Making an input is what Python does for its constructor calls.  If a contract fails there,
    the path is ignored; if a constructor raises, the path is unsupported: it never is a
    counterexample. *)
Theorem C168_build : forall ctor i, build ctor i = expected (eval ctor (call_of i)).
Proof.
  intro ctor. induction i as [z|l|c args IH] using input_nested; [reflexivity|reflexivity|].
  cbn [build call_of eval].
  match goal with |- ?g args [] = _ => set (gen := g) end.
  match goal with |- context [ ?g (map call_of args) ] => set (go := g) end.
  assert (X : forall acc, gen args acc =
    match go (map call_of args) with
    | inr p => expected (Raises p)
    | inl vs => match ctor c (rev acc ++ vs) with Made st after => Built (VObj c st after) | Raised p => expected (Raises p) end
    end).
  { induction IH as [|i is Hi _ IHs]; intro acc.
    - cbn. rewrite app_nil_r. destruct (ctor c (rev acc)) as [st after|p]; [reflexivity|]. destruct p; reflexivity.
    - change (gen (i :: is) acc) with (match build ctor i with Built v => gen is (v :: acc) | other => other end).
      change (go (map call_of (i :: is))) with
        (match eval ctor (call_of i) with
         | Raises p => inr p
         | Value v => match go (map call_of is) with inl vs => inl (v :: vs) | inr p => inr p end end).
      rewrite Hi. destruct (eval ctor (call_of i)) as [v|p].
      + cbn [expected]. rewrite IHs. destruct (go (map call_of is)) as [vs|p]; [|reflexivity].
        cbn [rev]. rewrite <- app_assoc. reflexivity.
      + destruct p; reflexivity. }
  rewrite (X []). destruct (go (map call_of args)) as [vs|p]; [|reflexivity]. cbn [rev app].
  destruct (ctor c vs) as [st after|p]; reflexivity.
Qed.
Print Assumptions C168_build.

(** If constructors do not change their arguments, what is printed for an input is the call it
    was made by, and evaluating it makes the input again. *)
Lemma printed_call : forall ctor, quiet ctor -> forall i v, build ctor i = Built v -> print v = call_of i.
Proof.
  intros ctor Q. induction i as [z|l|c args IH] using input_nested; intros v E.
  - injection E as <-. reflexivity.
  - injection E as <-. reflexivity.
  - cbn [build] in E. match type of E with ?g args [] = _ => set (gen := g) in E end.
    assert (X : forall acc, gen args acc = Built v -> exists vs st, map print vs = map call_of args /\ v = VObj c st (rev acc ++ vs)).
    { clear E. induction IH as [|i is Hi _ IHs]; intros acc E.
      - cbn in E. destruct (ctor c (rev acc)) as [st after|p] eqn:C; [|destruct p; discriminate].
        injection E as <-. exists [], st. split; [reflexivity|]. rewrite app_nil_r, (Q _ _ _ _ C). reflexivity.
      - change (gen (i :: is) acc) with (match build ctor i with Built v => gen is (v :: acc) | other => other end) in E.
        destruct (build ctor i) as [w| | |] eqn:B; try discriminate.
        destruct (IHs _ E) as (vs & st & M & V). exists (w :: vs), st. cbn [map]. rewrite M, (Hi w eq_refl).
        split; [reflexivity|]. rewrite V. cbn [rev]. rewrite <- app_assoc. reflexivity. }
    destruct (X [] E) as (vs & st & M & ->). cbn [rev app print call_of]. rewrite M. reflexivity.
Qed.
Theorem C168_printed_partial : forall ctor i v, quiet ctor -> build ctor i = Built v ->
  print v = call_of i /\ eval ctor (print v) = Value v.
Proof.
  intros ctor i v Q E. pose proof (printed_call ctor Q i v E) as P. split; [exact P|]. rewrite P.
  rewrite C168_build in E. destruct (eval ctor (call_of i)) as [w|p]; [cbn in E; congruence|destruct p; discriminate].
Qed.
Print Assumptions C168_printed_partial.

(** Class 0 keeps its arguments and does not take negative numbers; class 1 takes the first item
    off the list it is given. *)
Definition keeps (c : nat) (vs : list val) : ran :=
  match vs with [VInt z] => if z <? 0 then Raised AnException else Made vs vs | _ => Made vs vs end.
Definition pops (c : nat) (vs : list val) : ran :=
  match c, vs with
  | 1%nat, [VList (x :: r)] => Made [VInt x] [VList r]
  | _, _ => keeps c vs
  end.
Example C168_example : quiet keeps /\
  build keeps (IObj 0 [IObj 0 [IInt 3]; IList [1; 2]]) =
    Built (VObj 0 [VObj 0 [VInt 3] [VInt 3]; VList [1; 2]] [VObj 0 [VInt 3] [VInt 3]; VList [1; 2]]) /\
  build keeps (IObj 0 [IObj 0 [IInt (-3)]; IList [1; 2]]) = Unsupported.
Proof.
  split; [|split; reflexivity]. intros c vs st after E. unfold keeps in E.
  destruct vs as [|[z| |] [|? ?]]; try (injection E as <- <-; reflexivity).
  destruct (z <? 0); [discriminate|]. injection E as <- <-. reflexivity.
Qed.

(** Refuted: the arguments are printed as the constructor left them, and calling it with those
    may make another object, *)
Theorem C168_printed_refuted : exists ctor i v w, build ctor i = Built v /\
  eval ctor (print v) = Value w /\ print v <> call_of i /\
  (exists c a b, v = VObj c [VInt a] [VList [b]] /\ w = VObj c [VInt b] [VList []] /\ a <> b).
Proof.
  exists pops, (IObj 1 [IList [7; 8]]), (VObj 1 [VInt 7] [VList [8]]), (VObj 1 [VInt 8] [VList []]).
  split; [reflexivity|]. split; [reflexivity|]. split; [discriminate|].
  exists 1%nat, 7, 8. split; [reflexivity|]. split; [reflexivity|lia].
Qed.
Print Assumptions C168_printed_refuted.
(** or none. *)
Definition needs (c : nat) (vs : list val) : ran :=
  match vs with
  | [VList (x :: r)] => Made [VInt x] [VList r]
  | _ => Raised AnException
  end.
Theorem C168_printed_fails_refuted : exists ctor i v, build ctor i = Built v /\
  eval ctor (print v) = Raises AnException.
Proof. exists needs, (IObj 0 [IList [7]]), (VObj 0 [VInt 7] [VList []]). split; reflexivity. Qed.
Print Assumptions C168_printed_fails_refuted.

(** *** Enums *)
Lemma choose_in : forall {A} (l : list A) v, In v l <-> exists fork, choose_enum l fork = Chosen v.
Proof.
  intros A. induction l as [|x l IH]; intro v.
  - split; [intros []|intros [f E]; discriminate].
  - destruct l as [|y l].
    + split.
      * intros [<-|[]]. exists []. reflexivity.
      * intros [f E]. cbn in E. injection E as <-. left. reflexivity.
    + change (In v (x :: y :: l)) with (x = v \/ In v (y :: l)). rewrite IH. split.
      * intros [<-|[f E]]; [exists [true]; reflexivity|]. exists (false :: f). exact E.
      * intros [f E]. destruct f as [|[] f].
        -- left. cbn in E. congruence.
        -- left. cbn in E. congruence.
        -- right. exists f. exact E.
Qed.
Lemma once_in : forall l seen x, In x (once seen l) <-> In x l /\ ~ In x seen.
Proof.
  induction l as [|y l IH]; intros seen x; cbn [once In]; [tauto|].
  destruct (existsb (Z.eqb y) seen) eqn:E.
  - rewrite IH. apply existsb_exists in E as (z & I & Z). apply Z.eqb_eq in Z. subst z.
    split; [tauto|]. intros [[<-|I'] N]; [contradiction|tauto].
  - assert (N : ~ In y seen). { intro I. assert (existsb (Z.eqb y) seen = true); [|congruence].
      apply existsb_exists. exists y. split; [exact I|apply Z.eqb_refl]. }
    cbn [In]. rewrite IH. cbn [In]. destruct (Z.eq_dec y x) as [<-|D]; intuition congruence.
Qed.
(** An enum input may be each of the enum's values and nothing else; a class without values is
    ignored. *)
Theorem C169_enum_partial : forall e v, is_flag e = false ->
  ((exists fork, m_enum e fork = Chosen v) <-> is_value e v).
Proof.
  intros e v F. unfold m_enum, members. rewrite F, <- choose_in, once_in. split.
  - intros [I _]. apply IsMember, I.
  - intro H. destruct H as [z I| |]; [tauto|congruence|congruence].
Qed.
Print Assumptions C169_enum_partial.
Lemma choose_none : forall {A} (l : list A) fork, choose_enum l fork = NoValues <-> l = [].
Proof.
  intros A. induction l as [|x l IH]; intro fork; [split; reflexivity|].
  destruct l as [|y l]; [split; discriminate|]. destruct fork as [|[] fork]; [split; discriminate|split; discriminate|].
  change (choose_enum (x :: y :: l) (false :: fork)) with (choose_enum (y :: l) fork). rewrite IH. split; discriminate.
Qed.
Theorem C169_ignored : forall e fork, is_flag e = false ->
  (m_enum e fork = NoValues <-> forall v, ~ is_value e v).
Proof.
  intros e fork F. unfold m_enum. rewrite choose_none. unfold members. rewrite F. split.
  - intros E v H. apply (C169_enum_partial e v F) in H as [f C]. unfold m_enum, members in C. rewrite F, E in C. discriminate.
  - intro N. destruct (once [] (written e)) as [|x r] eqn:E; [reflexivity|]. exfalso. apply (N x).
    apply (C169_enum_partial e x F). unfold m_enum, members. rewrite F, E. apply choose_in. left. reflexivity.
Qed.
Print Assumptions C169_ignored.
Example C169_example :
  (exists fork, m_enum (Enum false [5; 3; 5; 9]) fork = Chosen 9) /\
  members (Enum false [5; 3; 5; 9]) = [5; 3; 9] /\ m_enum (Enum false []) [true] = NoValues.
Proof. split; [exists [false; false]; reflexivity|]. split; reflexivity. Qed.

(** Of a Flag, what is chosen is a value; *)
Theorem C169_flag_sound : forall e fork v, m_enum e fork = Chosen v -> is_value e v.
Proof.
  intros e fork v E. assert (I : In v (members e)) by (apply choose_in; exists fork; exact E).
  apply IsMember. unfold members in I. destruct (is_flag e).
  - apply filter_In in I as [I _]. apply once_in in I. tauto.
  - apply once_in in I. tauto.
Qed.
Print Assumptions C169_flag_sound.
(** exactly the members of one bit are chosen; *)
Theorem C169_flag_exact : forall e v, is_flag e = true ->
  ((exists fork, m_enum e fork = Chosen v) <-> In v (written e) /\ exists n, 0 <= n /\ v = 2 ^ n).
Proof.
  intros e v F. unfold m_enum, members. rewrite F, <- choose_in, filter_In, once_in. unfold one_bit.
  rewrite andb_true_iff, Z.ltb_lt, Z.eqb_eq. split.
  - intros [[I _] [P E]]. split; [exact I|]. exists (Z.log2 v). split; [apply Z.log2_nonneg|exact E].
  - intros [I (n & N & ->)]. split; [split; [exact I|intros []]|]. split; [apply Z.pow_pos_nonneg; lia|].
    rewrite Z.log2_pow2 by exact N. reflexivity.
Qed.
Print Assumptions C169_flag_exact.
(** refuted: values of more than one member, and the one of none, never are, so that a
    condition that fails for them is confirmed. *)
Theorem C169_flag_refuted : exists e (holds : Z -> bool),
  (forall fork, exists v, m_enum e fork = Chosen v /\ holds v = true) /\
  (exists v, is_value e v /\ holds v = false) /\ is_value e 0 /\ holds 0 = false.
Proof.
  exists (Enum true [1; 2]), (fun v => (v =? 1) || (v =? 2)). split.
  - intro fork. destruct fork as [|[] fork]; [exists 1|exists 1|exists 2]; split; reflexivity.
  - split; [|split; [apply IsNone; reflexivity|reflexivity]]. exists 3. split; [|reflexivity].
    change 3 with (Z.lor 1 2). apply IsOr; [reflexivity| |]; apply IsMember; cbn; tauto.
Qed.
Print Assumptions C169_flag_refuted.
