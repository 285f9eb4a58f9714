(** C165: texts of nested containers while tracing. *)
From Coq Require Import String List Bool Arith Lia.
From Verif Require Import NestRepr_Model NestRepr_Spec.
Import ListNotations.
Open Scope string_scope.
Open Scope list_scope.
Open Scope nat_scope.

Lemma all_listed : forall l, match all l with Some ss => listed l = Text (String.concat ", " ss) | None => listed l = TooDeep end.
Proof.
  induction l as [|x r IH]; [reflexivity|]. destruct r as [|y r].
  - destruct x; reflexivity.
  - change (listed (x :: y :: r)) with
      (match x, listed (y :: r) with Text a, Text b => Text (a ++ ", " ++ b) | _, _ => TooDeep end).
    change (all (x :: y :: r)) with
      (match x with Text s => match all (y :: r) with Some ss => Some (s :: ss) | None => None end | TooDeep => None end).
    destruct x as [s|]; [|reflexivity].
    destruct (all (y :: r)) as [ss|] eqn:E; rewrite IH; [|reflexivity].
    destruct ss as [|a ss]; [|reflexivity].
    cbn [all] in E. destruct y; [|discriminate]. destruct (all r); discriminate.
Qed.
Lemma joined_within : forall a l b, joined a l b = within a (listed l) b.
Proof.
  intros a l b. unfold joined. pose proof (all_listed l) as A. destruct (all l); rewrite A; reflexivity.
Qed.

Lemma all_map : forall {A} (f g : A -> outcome) l ss,
  all (map f l) = Some ss -> (forall x s, In x l -> f x = Text s -> g x = Text s) -> all (map g l) = Some ss.
Proof.
  intros A f g. induction l as [|x r IH]; intros ss E H; [exact E|].
  cbn [map all] in *. destruct (f x) as [s|] eqn:F; [|discriminate].
  rewrite (H x s (or_introl eq_refl) F). destruct (all (map f r)) as [rs|] eqn:R; [|discriminate].
  rewrite (IH rs eq_refl); [exact E|]. intros y t I. apply H. now right.
Qed.
Lemma joined_map : forall {A} (f g : A -> outcome) a l b s,
  joined a (map f l) b = Text s -> (forall x t, In x l -> f x = Text t -> g x = Text t) ->
  joined a (map g l) b = Text s.
Proof.
  intros A f g a l b s E H. unfold joined in *. destruct (all (map f l)) as [ss|] eqn:F; [|discriminate].
  now rewrite (all_map f g l ss F H).
Qed.

(** What a text needs of the objects inside. *)
Definition contents (f g : nat -> outcome) (h : heap) (i : nat) : Prop :=
  forall j t, holds h i j -> f j = Text t -> g j = Text t.

Lemma traced_more : forall h n i s, traced h n i = Text s -> forall m, n <= m -> traced h m i = Text s.
Proof.
  intros h. induction n as [|n IH]; intros i s E m L; [discriminate|].
  destruct m as [|m]; [lia|]. cbn [traced] in *.
  assert (K : forall j t, traced h n j = Text t -> traced h m j = Text t) by (intros j t X; apply (IH j t X); lia).
  destruct (h i) as [x|l|l|l|c l|c l].
  - exact E.
  - eapply joined_map; [exact E|]. intros x t _. apply K.
  - eapply joined_map; [exact E|]. intros x t _. apply K.
  - eapply joined_map; [exact E|]. intros [k v] t _. unfold colon. cbn [fst snd].
    destruct (traced h n k) as [a|] eqn:F; [|discriminate]. destruct (traced h n v) as [b|] eqn:G; [|discriminate].
    now rewrite (K _ _ F), (K _ _ G).
  - destruct l as [|y l]; [exact E|]. eapply joined_map; [exact E|]. intros x t _. apply K.
  - destruct l as [|y l]; [exact E|]. eapply joined_map; [exact E|]. intros x t _. apply K.
Qed.

Lemma all_each : forall {A} (f : A -> outcome) l ss x, all (map f l) = Some ss -> In x l -> exists s, f x = Text s.
Proof.
  intros A f. induction l as [|y r IH]; intros ss x E I; [destruct I|].
  cbn [map all] in E. destruct (f y) as [s|] eqn:F; [|discriminate].
  destruct (all (map f r)) as [rs|] eqn:R; [|discriminate].
  destruct I as [I|I]; [subst; eauto|]. now apply (IH rs).
Qed.
Lemma joined_each : forall {A} (f : A -> outcome) a l b s x, joined a (map f l) b = Text s -> In x l -> exists t, f x = Text t.
Proof.
  intros A f a l b s x E I. unfold joined in E. destruct (all (map f l)) as [ss|] eqn:F; [|discriminate].
  now apply (all_each f l ss).
Qed.
(** A text of a container has texts of all that it holds. *)
Lemma traced_inner : forall h n i s, traced h (S n) i = Text s -> forall j, holds h i j -> exists t, traced h n j = Text t.
Proof.
  intros h n i s E j H. cbn [traced] in E. unfold holds in H. destruct (h i) as [x|l|l|l|c l|c l].
  - destruct H.
  - eapply joined_each; eauto.
  - eapply joined_each; eauto.
  - destruct H as ([k v] & I & H). destruct (joined_each _ _ _ _ _ _ E I) as [t T].
    unfold colon in T. cbn [fst snd] in *. destruct (traced h n k) eqn:F; [|discriminate].
    destruct (traced h n v) eqn:G; [|discriminate]. destruct H; subst; eauto.
  - destruct l as [|y l]; [destruct H|]. eapply joined_each; eauto.
  - destruct l as [|y l]; [destruct H|]. eapply joined_each; eauto.
Qed.

(** The least depth at which there is a text. *)
Lemma least : forall h n i s, traced h n i = Text s ->
  exists m, m < n /\ traced h (S m) i = Text s /\ traced h m i = TooDeep.
Proof.
  intros h. induction n as [|n IH]; intros i s E; [discriminate|].
  destruct (traced h n i) as [s'|] eqn:F.
  - destruct (IH i s' F) as (m & L & A & B). exists m. split; [lia|].
    pose proof (traced_more h n i s' F (S n) (le_S _ _ (le_n n))) as X. rewrite E in X. injection X as X. subst. auto.
  - exists n. auto.
Qed.

Section Agree.
Variable h : heap.
Hypothesis P : forall i, plain h i.

Lemma inner_text : forall m i, traced h m i = TooDeep ->
  (forall n, n <= m -> forall j s printing, traced h n j = Text s ->
     (forall a, In a printing -> traced h n a = TooDeep) -> forall k, n <= k -> repr h k printing j = Text s) ->
  forall printing, (forall a, In a printing -> traced h (S m) a = TooDeep) ->
  forall k, m <= k -> forall j t, traced h m j = Text t -> repr h k (i :: printing) j = Text t.
Proof.
  intros m i N IH printing Q k L j t T. apply (IH m (le_n m)); auto.
  intros a [A|A]; [now subst|]. destruct (traced h m a) as [s|] eqn:F; [|reflexivity].
  pose proof (traced_more h m a s F (S m) (le_S _ _ (le_n m))) as X. rewrite (Q a A) in X. discriminate.
Qed.

Lemma agree : forall n i s printing, traced h n i = Text s ->
  (forall a, In a printing -> traced h n a = TooDeep) ->
  forall k, n <= k -> repr h k printing i = Text s.
Proof.
  induction n as [n IH] using (well_founded_induction lt_wf). intros i s printing E Q k L.
  destruct (least h n i s E) as (m & M & A & B).
  assert (Q' : forall a, In a printing -> traced h (S m) a = TooDeep).
  { intros a I. destruct (traced h (S m) a) as [x|] eqn:F; [|reflexivity].
    pose proof (traced_more h (S m) a x F n M) as X. rewrite (Q a I) in X. discriminate. }
  destruct k as [|k]; [lia|].
  assert (C : forall j t, traced h m j = Text t -> repr h k (i :: printing) j = Text t).
  { apply (inner_text m i B); auto; [|lia]. intros n' L' j x pr T R k' K. apply (IH n'); auto. lia. }
  assert (X : existsb (Nat.eqb i) printing = false).
  { destruct (existsb (Nat.eqb i) printing) eqn:X; [|reflexivity]. apply existsb_exists in X.
    destruct X as (a & I & Ea). apply Nat.eqb_eq in Ea. subst a. rewrite (Q' i I) in A. discriminate. }
  cbn [repr]. rewrite X. pose proof (P i) as Pi. unfold plain in Pi.
  cbn [traced] in A. destruct (h i) as [x|l|l|l|c l|c l].
  - exact A.
  - rewrite <- joined_within. eapply joined_map; [exact A|]. intros y t _. apply C.
  - destruct l as [|y [|z l]]; [|destruct Pi|].
    + exact A.
    + rewrite <- joined_within. eapply joined_map; [exact A|]. intros w t _. apply C.
  - rewrite <- joined_within. eapply joined_map; [exact A|]. intros [u v] t _. unfold colon, pair. cbn [fst snd].
    destruct (traced h m u) as [a|] eqn:F; [|discriminate]. destruct (traced h m v) as [b|] eqn:G; [|discriminate].
    now rewrite (C _ _ F), (C _ _ G).
  - destruct c as [c|]; [destruct Pi|]. destruct l as [|y l]; [exact A|]. cbn [class_name].
    rewrite <- joined_within. eapply joined_map; [exact A|]. intros w t _. apply C.
  - destruct c as [c|]; [destruct Pi|]. destruct l as [|y l]; [exact A|].
    change (class_name "frozenset" None ++ "({")%string with "frozenset({".
    rewrite <- joined_within. eapply joined_map; [exact A|]. intros w t _. apply C.
Qed.
End Agree.

(** For all objects, whatever they hold: a text given while tracing is the text of
    CPython.  Missing: derived sets, tuples of one item (plain), and that there is a text. *)
Theorem C165_text_partial : forall h, (forall i, plain h i) ->
  forall n i s, traced h n i = Text s -> forall k, n <= k -> repr h k [] i = Text s.
Proof. intros h P n i s E k L. apply (agree h P n i s [] E); [intros a []|exact L]. Qed.
Print Assumptions C165_text_partial.

(** There is a text exactly if no container that is reached holds itself. *)
Lemma reaches_text : forall h i j, reaches h i j -> forall n s, traced h n i = Text s ->
  exists m t, m < n /\ traced h m j = Text t.
Proof.
  intros h i j R. induction R as [i j H|i j k H R IH]; intros n s E.
  - destruct n as [|n]; [discriminate|]. destruct (traced_inner h n i s E j H) as [t T]. exists n, t. auto.
  - destruct n as [|n]; [discriminate|]. destruct (traced_inner h n i s E j H) as [t T].
    destruct (IH n t T) as (m & u & L & U). exists m, u. split; [lia|exact U].
Qed.
Theorem C165_cycle_no_text : forall h i j, (i = j \/ reaches h i j) -> reaches h j j ->
  forall n, traced h n i = TooDeep.
Proof.
  intros h i j R C n.
  assert (K : forall n, traced h n j = TooDeep).
  { clear n. induction n as [n IH] using (well_founded_induction lt_wf).
    destruct (traced h n j) as [s|] eqn:E; [|reflexivity].
    destruct (reaches_text h j j C n s E) as (m & t & L & T). rewrite (IH m L) in T. discriminate. }
  destruct R as [R|R]; [subst; apply K|]. destruct (traced h n i) as [s|] eqn:E; [|reflexivity].
  destruct (reaches_text h i j R n s E) as (m & t & L & T). rewrite K in T. discriminate.
Qed.
Print Assumptions C165_cycle_no_text.

Lemma all_ex : forall {A} (f : A -> outcome) l, (forall x, In x l -> exists s, f x = Text s) -> exists ss, all (map f l) = Some ss.
Proof.
  intros A f. induction l as [|x r IH]; intro H; [now exists []|].
  destruct (H x (or_introl eq_refl)) as [s F]. destruct IH as [ss E]; [intros y I; apply H; now right|].
  exists (s :: ss). cbn [map all]. now rewrite F, E.
Qed.
Lemma joined_ex : forall {A} (f : A -> outcome) a l b, (forall x, In x l -> exists s, f x = Text s) -> exists s, joined a (map f l) b = Text s.
Proof. intros A f a l b H. unfold joined. destruct (all_ex f l H) as [ss E]. rewrite E. eauto. Qed.

(** If containers are nested to a finite depth, there is a text. *)
Theorem C165_acyclic : forall h (rank : nat -> nat), (forall i j, holds h i j -> rank j < rank i) ->
  forall i n, rank i < n -> exists s, traced h n i = Text s.
Proof.
  intros h rank R i n. revert i. induction n as [|n IH]; intros i L; [lia|].
  assert (K : forall j, holds h i j -> exists s, traced h n j = Text s).
  { intros j H. apply IH. specialize (R i j H). lia. }
  cbn [traced]. unfold holds in K. destruct (h i) as [x|l|l|l|c l|c l].
  - eauto.
  - now apply joined_ex.
  - now apply joined_ex.
  - apply joined_ex. intros [k v] I. unfold colon. cbn [fst snd].
    destruct (K k) as [a A]; [exists (k, v); auto|]. destruct (K v) as [b B]; [exists (k, v); auto|].
    rewrite A, B. eauto.
  - destruct l as [|y l]; [eauto|]. now apply joined_ex.
  - destruct l as [|y l]; [eauto|]. now apply joined_ex.
Qed.
Print Assumptions C165_acyclic.

(** {'a': [1, (), frozenset()], 'b': {2}} *)
Definition nested : heap := fun i =>
  match i with
  | 0 => ODict [(1, 2); (3, 4)]
  | 1 => Atom "'a'" | 2 => OList [5; 6; 7] | 3 => Atom "'b'" | 4 => OSet None [8]
  | 5 => Atom "1" | 6 => OTuple [] | 7 => OFrozen None [] | _ => Atom "2"
  end.
Example nested_plain : forall i, plain nested i.
Proof. intro i. unfold plain. do 9 (destruct i as [|i]; [exact I|]). exact I. Qed.
Example nested_text : traced nested 3 0 = Text "{'a': [1, (), frozenset()], 'b': {2}}".
Proof. reflexivity. Qed.

(** A list that holds itself: CPython prints it, here the stack is exhausted. *)
Theorem C165_ellipsis_refuted : exists h i,
  (forall j, plain h j) /\ (forall k, 2 <= k -> repr h k [] i = Text "[[...]]") /\ (forall n, traced h n i = TooDeep).
Proof.
  exists (fun _ => OList [0]), 0. split; [intro; exact I|]. split.
  - intros k L. destruct k as [|[|k]]; try lia. reflexivity.
  - apply (C165_cycle_no_text _ 0 0); [now left|]. apply reach_one. cbn. now left.
Qed.
Print Assumptions C165_ellipsis_refuted.

(** Sets of derived classes lose the name of their class. *)
Theorem C165_derived_refuted : exists h i j s t,
  traced h 2 i = Text s /\ repr h 2 [] i = Text ("Tags(" ++ s ++ ")")
  /\ traced h 2 j = Text t /\ repr h 2 [] j = Text "Frozen({1})" /\ t = "frozenset({1})".
Proof.
  exists (fun i => match i with 0 => OSet (Some "Tags") [2] | 1 => OFrozen (Some "Frozen") [2] | _ => Atom "1" end),
    0, 1, "{1}", "frozenset({1})".
  split; [reflexivity|]. split; [reflexivity|]. split; [reflexivity|]. split; reflexivity.
Qed.
Print Assumptions C165_derived_refuted.
