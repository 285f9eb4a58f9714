(** Constructors (C78).

    Full property: the signature worked out for a class is defined, and accepts every
    call (keywords passed by keyword) that the class's __new__ and __init__ accept. *)
From Coq Require Import String.
From Coq Require Import List Bool Arith Lia.
From Verif Require Import Py Sig_Model Sig_Spec Sig_Proofs.
Import ListNotations.
Open Scope string_scope.
Open Scope list_scope.
Open Scope nat_scope.

Section T.
Variable ann value : Type.
Variable unify : ann -> ann -> bool.
Variable has : value -> ann -> Prop.
Notation accepts := (accepts ann value has).
Notation keyword_style := (keyword_style ann value).

(** A call accepted by both signatures is accepted by their intersection.  Missing:
    signatures that use a name in different ways. *)
Theorem intersection_covers_partial s1 s2 r pos kw :
  well_formed ann s1 -> well_formed ann s2 -> agree ann s1 s2 -> intersect ann unify s1 s2 = Ok r ->
  accepts s1 pos kw -> accepts s2 pos kw -> keyword_style s1 pos -> keyword_style s2 pos -> accepts r pos kw.
Proof. intros W1 W2 AG E. apply make_ok in E; auto. subst r. now apply covers. Qed.

(** The intersection accepts nothing that is unknown to a signature without variable
    arguments. *)
Theorem intersection_within_partial s1 s2 r pos kw :
  well_formed ann s1 -> well_formed ann s2 -> agree ann s1 s2 -> intersect ann unify s1 s2 = Ok r -> accepts r pos kw ->
  forall s, s = s1 \/ s = s2 -> ~ variadic ann s ->
  length pos <= length (positional ann s) /\ forall k v, kw k = Some v -> exists p, In p s /\ name ann p = k /\ by_keyword (kind ann p) = true.
Proof.
  intros W1 W2 AG E A s SS NV. apply make_ok in E; auto. subst r.
  destruct (within ann value unify has s1 s2 W1 W2 AG pos kw A s SS NV) as [L K]. split; [|exact K].
  rewrite positional_split by (destruct SS; subst; [exact (proj1 (proj2 W1))|exact (proj1 (proj2 W2))]). rewrite app_length. lia.
Qed.

(** It is defined unless both take variable positional arguments, or positional-only
    parameters have defaults. *)
Theorem intersection_defined_partial s1 s2 :
  well_formed ann s1 -> well_formed ann s2 -> agree ann s1 s2 ->
  ~ (exists p q, In p s1 /\ In q s2 /\ kind ann p = VarPos /\ kind ann q = VarPos) ->
  (forall p, In p s1 \/ In p s2 -> kind ann p = PosOnly -> default ann p = false) ->
  exists r, intersect ann unify s1 s2 = Ok r.
Proof. intros W1 W2 AG NB D. eexists. now apply defined. Qed.

Lemma well_formed_tl p t : well_formed ann (p :: t) -> well_formed ann t.
Proof.
  intros (N & S & U). split; [now inversion N|]. split.
  - intros i j a b L A B. apply (S (Datatypes.S i) (Datatypes.S j)); auto with arith.
  - intros a b A B. apply U; now right.
Qed.
Lemma agree_tl p1 t1 p2 t2 : kind ann p1 = PosKw -> kind ann p2 = PosKw -> agree ann (p1 :: t1) (p2 :: t2) -> agree ann t1 t2.
Proof.
  intros K1 K2 [A B]. split; [intros p q P Q; apply A; now right|].
  intros i j p q P Q K E. assert (X : S i = S j); [|now injection X].
  apply (B (S i) (S j) p q); auto; unfold positional in *; cbn; rewrite ?K1, ?K2; exact P || exact Q.
Qed.

(** A class whose __new__ and __init__ are written in Python, where just one of them
    takes variable arguments: the calls of the class are those of its constructor's
    signature.  Missing: both or none take variable arguments. *)
Theorem constructor_covers_partial p1 t1 p2 t2 r c o pos kw :
  let new := p1 :: t1 in let init := p2 :: t2 in
  well_formed ann new -> well_formed ann init -> agree ann new init ->
  kind ann p1 = PosKw -> kind ann p2 = PosKw -> ~ In (name ann p1) (map (name ann) init) -> ~ In (name ann p2) (map (name ann) new) ->
  (variadic ann new <-> ~ variadic ann init) ->
  constructor ann unify (Some new) (Some init) = Ok r ->
  class_accepts ann value has (Some new) (Some init) c o pos kw -> keyword_style t1 pos -> keyword_style t2 pos ->
  accepts r pos kw.
Proof.
  intros new init W1 W2 AG K1 K2 F1 F2 V E (A1 & A2 & _) S1 S2.
  assert (Q : squishy ann new = negb (squishy ann init)).
  { rewrite <- !squishy_variadic in V. destruct (squishy ann new), (squishy ann init); cbn; intuition congruence. }
  destruct (peel_two ann unify p1 t1 p2 t2) as (h & _ & O); auto; try exact (proj1 W1); try exact (proj1 W2); try exact (proj1 (proj2 W1)); try exact (proj1 (proj2 W2)).
  cbn [constructor] in E. unfold intersect in E. destruct (make ann (out_params ann unify new init)) as [x|] eqn:M; [|discriminate].
  apply make_ok in M; auto. cbn in E. subst x. unfold new, init in E. rewrite O in E. cbn [tl] in E. apply make_ok in E; auto. subst r.
  apply covers; eauto using well_formed_tl, agree_tl.
  - apply accepts_tl in A1; [exact A1|now rewrite K1].
  - apply accepts_tl in A2; [exact A2|now rewrite K2].
Qed.
(** A class with a built-in __new__, which takes any arguments. *)
Theorem constructor_of_builtin_covers_partial new p2 t2 r c o pos kw :
  let init := p2 :: t2 in
  (forall p, In p new -> kind ann p = VarPos \/ kind ann p = VarKw) -> variadic ann new ->
  well_formed ann new -> well_formed ann init -> agree ann new init ->
  by_position (kind ann p2) = true -> ~ In (name ann p2) (map (name ann) new) ->
  constructor ann unify (Some new) (Some init) = Ok r ->
  class_accepts ann value has (Some new) (Some init) c o pos kw -> keyword_style t2 pos ->
  accepts r pos kw.
Proof.
  intros init NV V W1 W2 AG K2 F2 E (A1 & A2 & _) S2.
  assert (P : forall f, (forall p, In p new -> f p = false) -> filter f new = []).
  { intros f H. destruct (filter f new) as [|p l] eqn:X; [reflexivity|]. assert (I : In p (filter f new)) by (rewrite X; now left).
    apply filter_In in I. destruct I as [I Y]. rewrite H in Y; [discriminate|auto]. }
  assert (PN : positional ann new = []) by (apply P; intros p I; destruct (NV p I) as [K|K]; now rewrite K).
  destruct (peel_one ann unify new p2 t2) as (h & O); auto; try exact (proj1 W2); try exact (proj1 (proj2 W2)).
  - apply P. intros p I. destruct (NV p I) as [K|K]; now rewrite K.
  - apply P. intros p I. destruct (NV p I) as [K|K]; now rewrite K.
  - now apply squishy_variadic.
  - cbn [constructor] in E. unfold intersect in E. destruct (make ann (out_params ann unify new init)) as [x|] eqn:M; [|discriminate].
    apply make_ok in M; auto. cbn in E. subst x. unfold init in E. rewrite O in E. cbn [tl] in E. apply make_ok in E; auto. subst r.
    apply covers; eauto using well_formed_tl.
    + destruct AG as [A _]. split; [intros p q I J; apply A; [auto|now right]|]. intros i j p q X. rewrite PN in X. destruct i; discriminate.
    + now apply accepts_drop with c.
    + apply accepts_tl in A2; auto.
    + intros i p X. rewrite PN in X. destruct i; discriminate.
Qed.
(** With only one of __new__ and __init__, the constructor's signature accepts exactly
    the calls of the class. *)
Theorem constructor_of_one_exact p t r c pos kw : by_position (kind ann p) = true ->
  has c (annot ann p) -> kw (name ann p) = None ->
  constructor ann unify None (Some (p :: t)) = Ok r ->
  (class_accepts ann value has None (Some (p :: t)) c c pos kw <-> accepts r pos kw).
Proof.
  intros B H N E. cbn [constructor tl] in E. apply make_ok in E; auto. subst r. unfold class_accepts. split.
  - intros (_ & A & _). now apply accepts_tl in A.
  - intro A. split; [auto|]. split; [|discriminate]. now apply accepts_cons.
Qed.
End T.
Print Assumptions intersection_covers_partial.
Print Assumptions intersection_within_partial.
Print Assumptions intersection_defined_partial.
Print Assumptions constructor_covers_partial.
Print Assumptions constructor_of_builtin_covers_partial.
Print Assumptions constructor_of_one_exact.

(** ** Examples and refutations
    Types are numbers, and a value is of the types up to it. *)
Notation has_type := (fun v t => t <= v).
Definition fits (t u : nat) : bool := u <=? t.
Notation P n k d t := (mkParam n k d t).
Definition call (l : list (string * nat)) (k : string) : option nat :=
  match find (fun e => String.eqb (fst e) k) l with Some e => Some (snd e) | None => None end.
Lemma call_in l k v : call l k = Some v -> In (k, v) l.
Proof.
  unfold call. destruct (find _ l) as [[k' v']|] eqn:F; [|discriminate]. intro E. injection E as <-.
  apply find_some in F. destruct F as [I E]. cbn in E. apply String.eqb_eq in E. now subst.
Qed.
Notation constructor' := (constructor nat fits).
Notation class_accepts' := (class_accepts nat nat has_type).
Notation accepts' := (accepts nat nat has_type).

Ltac ev := repeat match goal with
  | H : In _ _ |- _ => cbn in H; repeat (destruct H as [H|H]; [subst|]); try contradiction
  | H : nth_error _ ?i = Some _ |- _ => destruct i; cbn in H; try (injection H as <-); try discriminate
  end.

(** def __new__(cls, *args, **kw) and def __init__(self, a, b=..., *, c=...) *)
Definition new1 := [P "cls" PosKw false 0; P "args" VarPos false 0; P "kw" VarKw false 0].
Definition init1 := [P "self" PosKw false 0; P "a" PosKw false 1; P "b" PosKw true 2; P "c" KwOnly true 3].
Lemma wf_by_evaluation (s : list (param nat)) : valid_from nat 0 false [] s = true ->
  length (filter (fun p => match kind nat p with VarPos => true | _ => false end) s) <= 1 ->
  length (filter (fun p => match kind nat p with VarKw => true | _ => false end) s) <= 1 -> well_formed nat s.
Proof.
  intros V L1 L2. split; [|split].
  - assert (H : forall l top sd seen, valid_from nat top sd seen l = true -> NoDup (map (name nat) l) /\ forall p, In p l -> ~ In (name nat p) seen).
    { induction l as [|p l IH]; intros top sd seen H; [split; [constructor|intros ? []]|]. cbn [valid_from] in H.
      destruct (rank _ <? top); [discriminate|]. destruct (_ && sd); [discriminate|].
      destruct (existsb _ seen) eqn:X; [discriminate|]. apply IH in H. destruct H as [H1 H2]. split.
      - cbn. constructor; [|auto]. intro I. apply in_map_iff in I. destruct I as (q & E & I). apply (H2 q I). left. auto.
      - intros q [<-|I]; [|intro J; apply (H2 q I); now right]. intro J.
        assert (Y : existsb (String.eqb (name nat p)) seen = true) by (apply existsb_exists; exists (name nat p); split; [auto|apply String.eqb_refl]).
        congruence. }
    apply (H s 0 false []). exact V.
  - assert (H : forall l top sd seen, valid_from nat top sd seen l = true -> (forall q, In q l -> top <= rank (kind nat q)) /\ sorted nat l).
    { induction l as [|p l IH]; intros top sd seen H.
      - split; [intros ? []|]. intros i j a b _ A. destruct i; discriminate.
      - cbn [valid_from] in H. destruct (Nat.ltb_spec (rank (kind nat p)) top); [discriminate|]. destruct (_ && sd); [discriminate|].
        destruct (existsb _ seen); [discriminate|]. apply IH in H. destruct H as [H1 H2]. split.
        + intros q [<-|I]; [auto|]. specialize (H1 q I). lia.
        + intros [|i] [|j] a b L A B; try lia.
          * injection A as <-. cbn in B. apply nth_error_In in B. exact (H1 b B).
          * apply (H2 i j); auto with arith. }
    apply (H s 0 false []). exact V.
  - intros p q A B E K.
    assert (U : forall f : param nat -> bool, length (filter f s) <= 1 -> f p = true -> f q = true -> p = q).
    { intros f L X Y. assert (I : In p (filter f s)) by (apply filter_In; auto). assert (J : In q (filter f s)) by (apply filter_In; auto).
      destruct (filter f s) as [|x [|y l]]; cbn in *; try lia; try contradiction. destruct I as [<-|[]], J as [<-|[]]. reflexivity. }
    destruct K as [K|K]; [apply (U _ L1)|apply (U _ L2)]; rewrite <- ?E, K; reflexivity.
Qed.
Ltac wf := apply wf_by_evaluation; [reflexivity|cbn; lia|cbn; lia].
Ltac agrees := split; [intros p q I J E; ev; try discriminate; reflexivity|
                       intros i j p q I J K E; ev; try discriminate; try reflexivity].
Ltac accepting := split; [intros i p E; ev; cbn; try (split; [lia|]); auto; try discriminate; lia|
  split; [intros p I K; ev; try discriminate; cbn; auto; lia|
  split; [intros i v L E; cbn in L; ev; try lia|]]].

Example constructor_example :
  let new := new1 in let init := init1 in
  well_formed nat new /\ well_formed nat init /\ agree nat new init /\ (variadic nat new <-> ~ variadic nat init) /\
  constructor' (Some new) (Some init) = Ok [P "a" KwOnly false 1; P "b" KwOnly true 2; P "c" KwOnly true 3] /\
  class_accepts' (Some new) (Some init) 5 5 [] (call [("c", 4); ("a", 4)]).
Proof.
  split; [wf|]. split; [wf|]. split; [agrees|]. split; [|split; [reflexivity|]].
  - split.
    + intros _ (p & I & K). ev; destruct K; discriminate.
    + intros _. exists (P "args" VarPos false 0). split; [cbn; auto|now left].
  - split; [|split; [|intro X; discriminate X]].
    + accepting. intros k v E _. exists (P "kw" VarKw false 0). cbn. split; [auto|]. split; [reflexivity|lia].
    + accepting. intros k v E N. exfalso. apply call_in in E. destruct E as [E|[E|[]]]; injection E as <- <-.
      * discriminate (N (P "c" KwOnly true 3)); cbn; auto.
      * discriminate (N (P "a" PosKw false 1)); cbn; auto.
Qed.

(** def __new__(cls, x) and def __init__(self, x): the argument is lost. *)
Theorem same_parameters_refuted : exists new init r c o pos kw,
  well_formed nat new /\ well_formed nat init /\ agree nat new init /\ constructor' (Some new) (Some init) = Ok r /\
  class_accepts' (Some new) (Some init) c o pos kw /\ ~ accepts' r pos kw.
Proof.
  exists [P "cls" PosKw false 0; P "x" PosKw false 0], [P "self" PosKw false 0; P "x" PosKw false 0], [], 1, 1, [], (call [("x", 1)]).
  split; [wf|]. split; [wf|]. split; [agrees|]. split; [reflexivity|]. split; [split; [|split; [|intro X; discriminate X]]|].
  - accepting. intros k v E N. exfalso. apply call_in in E. destruct E as [E|[]]. injection E as <- <-.
    discriminate (N (P "x" PosKw false 0)); cbn; auto.
  - accepting. intros k v E N. exfalso. apply call_in in E. destruct E as [E|[]]. injection E as <- <-.
    discriminate (N (P "x" PosKw false 0)); cbn; auto.
  - intros (_ & _ & _ & A). destruct (A "x" 1 eq_refl) as (p & [] & _). intros p [].
Qed.
Print Assumptions same_parameters_refuted.

(** def __new__(cls, **kw) and def __init__(self, **kw): an argument named self is asked
    for. *)
Theorem receiver_left_refuted : exists new init r c o pos kw,
  well_formed nat new /\ well_formed nat init /\ agree nat new init /\ constructor' (Some new) (Some init) = Ok r /\
  class_accepts' (Some new) (Some init) c o pos kw /\ ~ accepts' r pos kw.
Proof.
  exists [P "cls" PosKw false 0; P "kw" VarKw false 0], [P "self" PosKw false 0; P "kw" VarKw false 0],
    [P "self" KwOnly false 0; P "kw" VarKw false 0], 1, 1, [], (call []).
  split; [wf|]. split; [wf|]. split; [agrees|]. split; [reflexivity|]. split; [split; [|split; [|intro X; discriminate X]]|].
  - accepting. discriminate.
  - accepting. discriminate.
  - intros (_ & A & _). specialize (A (P "self" KwOnly false 0) (or_introl eq_refl) eq_refl). discriminate.
Qed.
Print Assumptions receiver_left_refuted.

(** A built-in __new__ and def __init__(self, x, *args): there is no signature. *)
Theorem two_variable_refuted : exists new init,
  well_formed nat new /\ well_formed nat init /\ agree nat new init /\ constructor' (Some new) (Some init) = Err ValueError.
Proof.
  exists [P "args" VarPos false 0; P "kwargs" VarKw false 0], [P "self" PosKw false 0; P "x" PosKw false 0; P "args" VarPos false 0].
  split; [wf|]. split; [wf|]. split; [agrees|reflexivity].
Qed.
Print Assumptions two_variable_refuted.

(** Only a built-in __new__: its positional arguments are lost. *)
Theorem builtin_new_refuted : exists new r c pos kw,
  well_formed nat new /\ constructor' (Some new) None = Ok r /\
  class_accepts' (Some new) None c c pos kw /\ ~ accepts' r pos kw.
Proof.
  exists [P "args" VarPos false 0; P "kwargs" VarKw false 0], [P "kwargs" VarKw false 0], 1, [1], (call []).
  split; [wf|]. split; [reflexivity|]. split; [split; [|split; [exact I|intro X; discriminate X]]|].
  - accepting.
    + exists (P "args" VarPos false 0). cbn. split; [auto|]. split; [reflexivity|lia].
    + exists (P "args" VarPos false 0). cbn. split; [auto|]. split; [reflexivity|lia].
    + discriminate.
  - intros (_ & _ & A & _). destruct (A 0 1) as (p & I & K & _); [cbn; lia|reflexivity|]. ev. discriminate.
Qed.
Print Assumptions builtin_new_refuted.

(** def f(a, /, **kw) and def g(b, /, a): the two uses of a name are mixed up. *)
Theorem names_mixed_refuted : exists s1 s2 r pos kw,
  well_formed nat s1 /\ well_formed nat s2 /\ intersect nat fits s1 s2 = Ok r /\
  accepts' s1 pos kw /\ accepts' s2 pos kw /\ keyword_style nat nat s1 pos /\ keyword_style nat nat s2 pos /\ ~ accepts' r pos kw.
Proof.
  exists [P "a" PosOnly false 0; P "kw" VarKw false 0], [P "b" PosOnly false 0; P "a" PosKw false 0],
    [P "a" KwOnly false 0], [1], (call [("a", 1)]).
  split; [wf|]. split; [wf|]. split; [reflexivity|]. split; [|split; [|split; [|split]]].
  - accepting. intros k v E _. exists (P "kw" VarKw false 0). cbn. split; [auto|]. split; [reflexivity|lia].
  - accepting. intros k v E N. exfalso. apply call_in in E. destruct E as [E|[]]. injection E as <- <-.
    discriminate (N (P "a" PosKw false 0)); cbn; auto.
  - intros i p E L. ev; reflexivity.
  - intros i p E L. cbn in L. ev; try reflexivity; lia.
  - intros (_ & _ & A & _). destruct (A 0 1) as (p & I & K & _); [cbn; lia|reflexivity|]. ev. discriminate.
Qed.
Print Assumptions names_mixed_refuted.
