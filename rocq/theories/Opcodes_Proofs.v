From Coq Require Import ZArith List Bool Arith Lia.
From Verif Require Import Py Opcodes_Model Opcodes_Spec.
Import ListNotations.

Section Proofs.
  Variables K W : Type.
  Variables eqb ident : K -> K -> bool.
  Variable hash : K -> Z.
  Variables hashable atomic symbolic : K -> bool.
  Hypothesis eqb_refl : forall a, eqb a a = true.
  Hypothesis eqb_sym : forall a b, eqb a b = eqb b a.
  Hypothesis eqb_trans : forall a b c, eqb a b = true -> eqb b c = true -> eqb a c = true.
  Hypothesis eqb_hash : forall a b, eqb a b = true -> hash a = hash b.
  Hypothesis ident_eqb : forall a b, ident a b = true -> eqb a b = true.

  Lemma same_eqb : forall a b, same K eqb ident hash a b = eqb a b.
  Proof.
    intros a b. unfold same. destruct (eqb a b) eqn:E.
    - rewrite (eqb_hash a b E), Z.eqb_refl. now destruct (ident a b).
    - destruct (ident a b) eqn:I; [apply ident_eqb in I; congruence|]. now destruct (Z.eqb _ _).
  Qed.
  Lemma real_put_simple : forall d k v, real_put K W eqb ident hash d k v = simple_put K W eqb d k v.
  Proof. induction d as [|[k' v'] d IH]; intros; cbn; auto. now rewrite same_eqb, IH. Qed.

  (** Keys that differ. *)
  Fixpoint distinct (l : list K) : Prop :=
    match l with [] => True | k :: r => existsb (eqb k) r = false /\ distinct r end.
  Lemma existsb_ext' : forall A (f g : A -> bool) l, (forall x, f x = g x) -> existsb f l = existsb g l.
  Proof. intros A f g l E. induction l; cbn; auto. now rewrite E, IHl. Qed.
  Lemma existsb_fst : forall (d : list (K * W)) k, existsb (fun e => eqb (fst e) k) d = existsb (eqb k) (map fst d).
  Proof. intros. induction d; cbn; auto. now rewrite IHd, (eqb_sym k). Qed.
  Lemma existsb_cong : forall k k' l, eqb k k' = true -> existsb (eqb k) l = existsb (eqb k') l.
  Proof.
    intros k k' l E. induction l as [|x l IH]; cbn; auto. rewrite IH. f_equal.
    destruct (eqb k x) eqn:A, (eqb k' x) eqn:B; auto.
    - rewrite eqb_sym in E. rewrite (eqb_trans k' k x) in B; auto.
    - rewrite (eqb_trans k k' x) in A; auto.
  Qed.
  Lemma assign_absent : forall (d : list (K * W)) k v, existsb (fun e => eqb (fst e) k) d = false ->
    map (fun e => if eqb (fst e) k then (fst e, v) else e) d = d.
  Proof.
    induction d as [|[k' v'] d IH]; intros k v; cbn; auto. intros E. apply orb_false_iff in E as (E1 & E2).
    rewrite E1. now rewrite IH.
  Qed.
  Lemma put_assign : forall d k v, distinct (map fst d) -> simple_put K W eqb d k v = assign K W eqb d k v.
  Proof.
    unfold assign. induction d as [|[k' v'] d IH]; intros k v D; auto. destruct D as (D1 & D2).
    cbn [simple_put existsb map fst]. destruct (eqb k' k) eqn:E.
    - cbn. rewrite assign_absent; auto. rewrite existsb_fst, <- D1. apply existsb_cong. now rewrite eqb_sym.
    - rewrite IH by exact D2. cbn [orb]. now destruct (existsb _ d).
  Qed.
  Lemma distinct_app : forall l x, distinct l -> existsb (eqb x) l = false -> distinct (l ++ [x]).
  Proof.
    induction l as [|y l IH]; intros x; cbn; auto. intros (D1 & D2) E. apply orb_false_iff in E as (E1 & E2).
    rewrite existsb_app, D1. cbn. rewrite (eqb_sym y x), E1. auto.
  Qed.
  Lemma assign_distinct : forall d k v, distinct (map fst d) -> distinct (map fst (assign K W eqb d k v)).
  Proof.
    intros d k v D. unfold assign. destruct (existsb _ d) eqn:E.
    - rewrite map_map. replace (map _ d) with (map fst d); auto. apply map_ext. intros [a w]. cbn. now destruct (eqb a k).
    - rewrite map_app. apply distinct_app; auto. now rewrite <- existsb_fst.
  Qed.

  Lemma nth_below : forall n (c : cell K W) l, nth_error (repeat (Junk K W) n ++ c :: l) n = Some c.
  Proof. induction n; cbn; auto. Qed.
  Lemma set_below_ : forall n (c c' : cell K W) l, set_nth K W n c' (repeat (Junk K W) n ++ c :: l) = repeat (Junk K W) n ++ c' :: l.
  Proof. induction n; cbn; auto. intros. now rewrite IHn. Qed.

  Notation madd := (map_add K W eqb ident hash hashable atomic).
  Notation sadd := (set_add K W eqb ident hash hashable symbolic).
  Lemma madd_ok : forall n d c k v, distinct (map fst d) -> c = RealDict K W d \/ c = Simple K W d ->
    (atomic k = true -> hashable k = true) ->
    if hashable k
    then exists c', (c' = RealDict K W (assign K W eqb d k v) \/ c' = Simple K W (assign K W eqb d k v)) /\
      madd (S n) (Value K W v :: Item K W k :: repeat (Junk K W) n ++ [c]) = Ok (repeat (Junk K W) n ++ [c'])
    else madd (S n) (Value K W v :: Item K W k :: repeat (Junk K W) n ++ [c]) = Err TypeError.
  Proof.
    intros n d c k v D C A. unfold map_add. replace (S n + 2 - 1)%nat with (S (S n)) by lia.
    replace (S n + 2 - 2 - 1)%nat with n by lia. replace (S n - 1)%nat with n by lia. cbn [nth_error].
    rewrite nth_below. unfold real_setitem, simple_setitem.
    destruct C as [-> | ->]; rewrite ?real_put_simple, ?put_assign by auto.
    - destruct (atomic k) eqn:At; [rewrite (A eq_refl)|destruct (hashable k)]; auto; cbn [bind];
        rewrite set_below_; eexists; (split; [|reflexivity]); auto.
    - destruct (hashable k); auto. cbn [bind]. rewrite set_below_. eexists; (split; [|reflexivity]); auto.
  Qed.
  Lemma run_map_ok : forall n l d c, distinct (map fst d) -> c = RealDict K W d \/ c = Simple K W d ->
    (forall k, atomic k = true -> hashable k = true) ->
    dict_below n (py_dict K W eqb hashable l d) (run_map K W eqb ident hash hashable atomic (S n) l (repeat (Junk K W) n ++ [c])).
  Proof.
    intros n l. induction l as [|[k v] l IH]; intros d c D C A; cbn [py_dict run_map].
    - exists c. auto.
    - assert (H := madd_ok n d c k v D C (A k)). destruct (hashable k).
      + destruct H as (c' & C' & ->). cbn [bind]. apply IH; auto. now apply assign_distinct.
      + now rewrite H.
  Qed.

  Lemma sadd_ok : forall n l c k, c = RealSet K W l \/ c = Shell K W l ->
    let l' := if existsb (eqb k) l then l else l ++ [k] in
    if hashable k
    then exists c', (c' = RealSet K W l' \/ c' = Shell K W l') /\
      sadd (S n) (Item K W k :: repeat (Junk K W) n ++ [c]) = Ok (repeat (Junk K W) n ++ [c'])
    else sadd (S n) (Item K W k :: repeat (Junk K W) n ++ [c]) = Err TypeError.
  Proof.
    intros n l c k C l'. unfold set_add. replace (S n + 1 - 1)%nat with (S n) by lia.
    replace (S n - 1)%nat with n by lia. cbn [nth_error].
    rewrite nth_below. unfold real_add, shell_add, real_in.
    destruct C as [-> | ->]; rewrite ?(existsb_ext' _ (fun k0 => same K eqb ident hash k0 k) (eqb k) l) by (intros; now rewrite same_eqb).
    - destruct (symbolic k), (hashable k); auto; cbn [bind]; rewrite set_below_; eexists; (split; [|reflexivity]); auto.
    - destruct (hashable k); auto; cbn [bind]; rewrite set_below_; eexists; (split; [|reflexivity]); auto.
  Qed.
  Lemma run_set_ok : forall n l s c, c = RealSet K W s \/ c = Shell K W s ->
    set_below n (py_set K eqb hashable l s) (run_set K W eqb ident hash hashable symbolic (S n) l (repeat (Junk K W) n ++ [c])).
  Proof.
    intros n l. induction l as [|k l IH]; intros s c C; cbn [py_set run_set].
    - exists c. auto.
    - assert (H := sadd_ok n s c k C). cbn zeta in H. destruct (hashable k).
      + destruct H as (c' & C' & ->). cbn [bind]. now apply IH.
      + now rewrite H.
  Qed.

  Lemma contains_ok : forall x,
    (forall l, contains_op K W eqb ident hash hashable symbolic x (RealSet K W l) = py_in K eqb hashable l x) /\
    (forall d, contains_op K W eqb ident hash hashable symbolic x (RealDict K W d) = py_in K eqb hashable (map fst d) x).
  Proof.
    intros x. unfold contains_op, linear_in, simple_in, py_in, real_in. split; intros d; destruct (symbolic x), (hashable x); auto; f_equal.
    - apply existsb_ext'. intros. now rewrite same_eqb.
    - rewrite <- existsb_fst. apply existsb_ext'. intros e. destruct (ident (fst e) x) eqn:I; auto. cbn. symmetry. now apply ident_eqb.
    - apply existsb_ext'. intros. now rewrite same_eqb.
  Qed.
End Proofs.

Lemma not_ok : forall t, (is_symbolic t = true -> bool_method t <> None) -> unary_not t = py_not t.
Proof.
  intros [s m n] H. unfold unary_not, stash_not, is_true. cbn in *.
  destruct s, m as [[v|e]|]; auto; try (now destruct (H eq_refl)). cbn. destruct n as [[[|n]|e]|]; auto.
Qed.
Lemma is_ok : forall a b, (forall i t, a <> SymType i t) -> (forall i t, b <> SymType i t) ->
  is_op a b = true <-> stands_for a = stands_for b.
Proof.
  intros a b A B. unfold is_op.
  destruct a as [i u|u|i t|t|i]; try (now destruct (A i t)); destruct b as [j u'|u'|j t'|t'|j]; try (now destruct (B j t'));
    cbn; rewrite ?Nat.eqb_eq, ?Bool.eqb_true_iff; (split; [intros H|intros [=]]; subst; auto; congruence || easy).
Qed.
