(** C138: only the arguments declared as mutable may change.  Model: [MutArgs_Model]; spec: [MutArgs_Spec]. *)
From Coq Require Import ZArith List Bool.
Import ListNotations.
From Verif Require Import MutArgs_Model MutArgs_Spec.

Fixpoint size (v : value) : nat := match v with Lst l => S (list_sum (map size l)) | _ => 1 end.
Lemma size_in x l : In x l -> size x < size (Lst l).
Proof.
  cbn. induction l as [|y l IH]; [intros []|]. cbn. intros [->|I]; [apply le_n_S, PeanoNat.Nat.le_add_r|].
  specialize (IH I). eapply PeanoNat.Nat.lt_le_trans; [exact IH|]. apply le_n_S. rewrite PeanoNat.Nat.add_comm. apply PeanoNat.Nat.le_add_r.
Qed.
Definition elem (x y : value) : bool := match x, y with NaN i, NaN j => Nat.eqb i j | _, _ => py_eq x y end.
Fixpoint elems (a b : list value) : bool := match a, b with [], [] => true | x :: a, y :: b => elem x y && elems a b | _, _ => false end.
Lemma py_eq_list a b : py_eq (Lst a) (Lst b) = elems a b.
Proof. cbn. revert b. induction a as [|x a IH]; intros [|y b]; reflexivity. Qed.
Lemma plain_eq n : forall a b, size a <= n -> plain a -> plain b -> (py_eq a b = true <-> a = b).
Proof.
  induction n as [|n IH]; intros a b S A B; [destruct a; cbn in S; inversion S|].
  destruct A as [x|l L], B as [y|k K].
  - cbn. rewrite Z.eqb_eq. split; congruence.
  - cbn. split; discriminate.
  - cbn. split; discriminate.
  - rewrite py_eq_list. assert (E : elems l k = true <-> l = k); [|rewrite E; split; congruence].
    assert (SL : forall x, In x l -> size x <= n) by (intros x I; pose proof (size_in x l I) as P; apply PeanoNat.Nat.lt_succ_r; eapply PeanoNat.Nat.lt_le_trans; eassumption).
    clear S. revert k K. induction l as [|x l IHl]; intros [|y k] K; cbn [elems]; [split; reflexivity|split; discriminate|split; discriminate|].
    rewrite andb_true_iff. rewrite IHl; [|intros z I; apply L; now right|intros z I; apply SL; now right|intros z I; apply K; now right].
    assert (X : elem x y = true <-> x = y).
    { destruct (L x (or_introl eq_refl)) as [PX|[i ->]], (K y (or_introl eq_refl)) as [PY|[j ->]].
      - replace (elem x y) with (py_eq x y) by (destruct PX; reflexivity). apply IH; [apply SL; now left|exact PX|exact PY].
      - destruct PX; cbn; split; discriminate.
      - destruct PY; cbn; split; discriminate.
      - cbn. rewrite PeanoNat.Nat.eqb_eq. split; congruence. }
    rewrite X. split; [intros [-> ->]; reflexivity|intros E; injection E as -> ->; now split].
Qed.
Lemma find_has (old : arguments) name o : NoDup (map fst old) -> has old name o -> find (fun p => Z.eqb (fst p) name) old = Some (name, o).
Proof.
  unfold has. induction old as [|[k w] old IH]; [intros _ []|]. cbn. intros N I. inversion N as [|? ? N1 N2]; subst.
  destruct (Z.eqb_spec k name) as [->|E].
  - destruct I as [I|I]; [congruence|]. exfalso. apply N1. change name with (fst (name, o)). now apply in_map.
  - destruct I as [I|I]; [congruence|]. now apply IH.
Qed.

(** C138, partial.  For arguments whose differences show in ==: nothing is reported exactly if only declared
    arguments differ, and what is reported is an argument not declared that differs.  Missing: not-a-number as an
    argument, and changes between equal values; refuted below. *)
Theorem C138_only_declared_change_partial (mutable : list Z) (old new : arguments) :
  NoDup (map fst old) -> map fst new = map fst old -> (forall name v, has old name v \/ has new name v -> plain v) ->
  (changed_argument (Some mutable) old new = None <-> kept mutable old new) /\
  (forall name, changed_argument (Some mutable) old new = Some name ->
     ~ In name mutable /\ exists o v, has old name o /\ has new name v /\ o <> v).
Proof.
  intros N M P.
  assert (ST : forall l, incl l new -> (changed_argument (Some mutable) old l = None <-> kept mutable old l) /\
    (forall name, changed_argument (Some mutable) old l = Some name -> ~ In name mutable /\ exists o v, has old name o /\ has l name v /\ o <> v)); [|apply ST; apply incl_refl].
  induction l as [|[name v] l IH]; intros IN.
  - cbn. split; [|discriminate]. split; [|reflexivity]. intros _ k o v _ [].
  - assert (IL : incl l new) by (intros x I; apply IN; now right). destruct (IH IL) as [IH1 IH2].
    assert (HN : has new name v) by (apply IN; now left).
    assert (HO : exists o, has old name o).
    { assert (J : In name (map fst old)) by (rewrite <- M; change name with (fst (name, v)); now apply in_map).
      apply in_map_iff in J as ([k o] & <- & J). now exists o. }
    destruct HO as [o HO]. cbn [changed_argument]. rewrite (find_has old name o N HO).
    assert (UO : forall o', has old name o' -> o' = o).
    { intros o' H. pose proof (find_has old name o' N H) as F. rewrite (find_has old name o N HO) in F. congruence. }
    assert (REST : changed_argument (Some mutable) old l = None <-> kept mutable old l) by exact IH1.
    destruct (existsb (Z.eqb name) mutable) eqn:X.
    + apply existsb_exists in X as (y & Y & E). apply Z.eqb_eq in E. subst y. split.
      * rewrite IH1. unfold kept. split; intros H k a b KA KB NM.
        -- destruct KB as [KB|KB]; [injection KB as <- <-; contradiction|]. exact (H k a b KA KB NM).
        -- apply (H k a b KA (or_intror KB) NM).
      * intros k H. destruct (IH2 k H) as (A & a & b & B1 & B2 & B3). split; [exact A|]. exists a, b. split; [exact B1|]. split; [now right|exact B3].
    + assert (NI : ~ In name mutable).
      { intros I. assert (existsb (Z.eqb name) mutable = true) by (apply existsb_exists; exists name; split; [exact I|apply Z.eqb_refl]). congruence. }
      assert (EQ : py_eq o v = true <-> o = v) by (apply (plain_eq (size o)); [apply le_n|exact (P name o (or_introl HO))|exact (P name v (or_intror HN))]).
      destruct (py_eq o v) eqn:EV; cbn [negb].
      * assert (o = v) by now apply EQ. subst v. split.
        -- rewrite IH1. unfold kept. split; intros H k a b KA KB NM.
           ++ destruct KB as [KB|KB]; [injection KB as <- <-; now apply UO|]. exact (H k a b KA KB NM).
           ++ apply (H k a b KA (or_intror KB) NM).
        -- intros k H. destruct (IH2 k H) as (A & a & b & B1 & B2 & B3). split; [exact A|]. exists a, b. split; [exact B1|]. split; [now right|exact B3].
      * assert (D : o <> v) by (intros E; apply EQ in E; discriminate). split.
        -- split; [discriminate|]. intros H. exfalso. apply D. exact (H name o v HO (or_introl eq_refl) NI).
        -- intros k H. injection H as <-. split; [exact NI|]. exists o, v. split; [exact HO|]. split; [now left|exact D].
Qed.
Print Assumptions C138_only_declared_change_partial.
Example C138_only_declared_change_partial_witness :
  let old := [(1, Num 5); (2, Lst [Num 1; NaN 0]); (3, Lst [])]%Z in
  (forall name v, has old name v -> plain v) /\
  changed_argument (Some [3%Z]) old [(1, Num 5); (2, Lst [Num 1; NaN 0]); (3, Lst [Num 9])]%Z = None /\
  changed_argument (Some [3%Z]) old [(1, Num 5); (2, Lst [Num 2; NaN 0]); (3, Lst [Num 9])]%Z = Some 2%Z.
Proof.
  split; [|split; reflexivity]. intros name v [E|[E|[E|[]]]]; injection E as <- <-.
  - constructor.
  - constructor. intros x [<-|[<-|[]]]; [left; constructor|right; now exists 0].
  - constructor. intros x [].
Qed.
(** without "post[...]" nothing is reported *)
Theorem C138_undeclared_unchecked (old new : arguments) : changed_argument None old new = None.
Proof. induction new as [|[k v] l IH]; [reflexivity|]. exact IH. Qed.
Print Assumptions C138_undeclared_unchecked.
Example C138_undeclared_unchecked_witness : changed_argument None [(1, Num 5)]%Z [(1, Num 6)]%Z = None.
Proof. reflexivity. Qed.

(** C138, violated.  A float argument that is not-a-number is always reported to have changed, though the function
    does nothing: nan != nan.  (Such arguments are made for every float parameter.) *)
Theorem C138_nan_refuted : exists (old : arguments) name, kept [] old old /\ changed_argument (Some []) old old = Some name.
Proof.
  exists [(1%Z, NaN 0)], 1%Z. split; [|reflexivity]. intros k o v [H|[]] [G|[]] _. congruence.
Qed.
Print Assumptions C138_nan_refuted.
(** C138, violated.  A change to an equal value of another kind is not seen. *)
Theorem C138_equal_values_refuted : exists (old new : arguments), ~ kept [] old new /\ ~ kept [] new old /\
  changed_argument (Some []) old new = None /\ changed_argument (Some []) new old = None.
Proof.
  exists [(1%Z, Lst [Num 1])], [(1%Z, Lst [Boolean true])].
  split; [|split; [|split; reflexivity]]; intros H; specialize (H 1%Z _ _ (or_introl eq_refl) (or_introl eq_refl) (fun x => x)); discriminate.
Qed.
Print Assumptions C138_equal_values_refuted.
