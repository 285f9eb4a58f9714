From Coq Require Import List Bool ZArith Lia.
From Verif Require Import FlexEq_Model FlexEq_Spec.
Import ListNotations.
Open Scope Z_scope.

Section Ind.
  Variable P : val -> Prop.
  Hypothesis Hnum : forall z, P (VNum z).
  Hypothesis Hstr : forall s, P (VStr s).
  Hypothesis Hnan : forall i, P (VNan i).
  Hypothesis Hobj : forall t i, P (VObj t i).
  Hypothesis Hun : P VUnreal.
  Hypothesis Hseq : forall t l, Forall P l -> P (VSeq t l).
  Hypothesis Hdict : forall l, Forall (fun kv => P (snd kv)) l -> P (VDict l).
  Hypothesis Hset : forall l, P (VSet l).
  Hypothesis Hiter : forall t i l, Forall P l -> P (VIter t i l).
  Fixpoint val_ind2 (v : val) : P v :=
    match v with
    | VNum z => Hnum z | VStr s => Hstr s | VNan i => Hnan i | VObj t i => Hobj t i
    | VUnreal => Hun | VSet l => Hset l
    | VSeq t l => Hseq t l ((fix go (l : list val) : Forall P l :=
        match l with [] => Forall_nil _ | x :: r => Forall_cons _ (val_ind2 x) (go r) end) l)
    | VIter t i l => Hiter t i l ((fix go (l : list val) : Forall P l :=
        match l with [] => Forall_nil _ | x :: r => Forall_cons _ (val_ind2 x) (go r) end) l)
    | VDict l => Hdict l ((fix go (l : list (Z * val)) : Forall (fun kv => P (snd kv)) l :=
        match l with [] => Forall_nil _ | (k, x) :: r => Forall_cons (k, x) (val_ind2 x) (go r) end) l)
    end.
End Ind.

Lemma every_here Q v : Every Q v -> Q v.
Proof. destruct v; cbn; tauto. Qed.
Lemma every_seq Q t l : Every Q (VSeq t l) <-> Q (VSeq t l) /\ Forall (Every Q) l.
Proof.
  cbn. apply and_iff_compat_l. induction l as [|x r IH]; [split; auto|].
  rewrite Forall_cons_iff, <- IH. tauto.
Qed.
Lemma every_iter Q t i l : Every Q (VIter t i l) <-> Q (VIter t i l) /\ Forall (Every Q) l.
Proof.
  cbn. apply and_iff_compat_l. induction l as [|x r IH]; [split; auto|].
  rewrite Forall_cons_iff, <- IH. tauto.
Qed.
Lemma every_dict Q l : Every Q (VDict l) <-> Q (VDict l) /\ Forall (fun kv => Every Q (snd kv)) l.
Proof.
  cbn. apply and_iff_compat_l. induction l as [|[k x] r IH]; [split; auto|].
  rewrite Forall_cons_iff, <- IH. cbn. tauto.
Qed.

(** the loops of flexible_equal, by name *)
Fixpoint items (l m : list val) : bool :=
  match l, m with
  | [], [] => true
  | x :: l, y :: m => flexible_equal x y && items l m
  | _, _ => false
  end.
Definition entry (m : list (Z * val)) (kv : Z * val) : bool :=
  match get (fst kv) m with
  | Some w => flexible_equal (snd kv) w
  | None => match snd kv with VUnreal => true | _ => false end
  end.
Lemma flex_seq t u l m : flexible_equal (VSeq t l) (VSeq u m) = if t =? u then items l m else false.
Proof.
  cbn. destruct (t =? u); reflexivity.
Qed.
Lemma flex_iter t u i j l m : flexible_equal (VIter t i l) (VIter u j m) = if t =? u then true else items l m.
Proof.
  cbn. destruct (t =? u); reflexivity.
Qed.
Lemma flex_dict l m : flexible_equal (VDict l) (VDict m) =
  (Z.of_nat (length l) =? Z.of_nat (length m)) && forallb (entry m) l.
Proof.
  cbn. f_equal. induction l as [|[k v] r IH]; cbn; [reflexivity|now rewrite IH].
Qed.

Lemma items_iff l : forall m, items l m = true <-> Forall2 (fun x y => flexible_equal x y = true) l m.
Proof.
  induction l as [|x r IH]; intros [|y m]; cbn; split; intro H; auto; try discriminate; try (inversion H; fail).
  - apply andb_prop in H as [A B]. constructor; auto. now apply IH.
  - inversion H; subst. apply andb_true_intro. split; auto. now apply IH.
Qed.
Lemma get_in {A} k (l : list (Z * A)) v : get k l = Some v -> In (k, v) l.
Proof.
  induction l as [|[j w] r IH]; cbn; [discriminate|]. destruct (Z.eqb_spec j k) as [->|N]; intro H; auto.
  injection H as ->. auto.
Qed.
Lemma in_get k (l : list (Z * val)) v : NoDup (keys l) -> In (k, v) l -> get k l = Some v.
Proof.
  unfold keys. induction l as [|[j w] r IH]; cbn; intros D I; [destruct I|]. inversion D as [|j' r' N D']; subst.
  destruct I as [E|I].
  - inversion E; subst. now rewrite Z.eqb_refl.
  - destruct (Z.eqb_spec j k) as [->|Ne]; auto. exfalso. apply N. apply in_map_iff. now exists (k, v).
Qed.
Lemma in_keys k l : In k (keys l) <-> exists v, In (k, v) l.
Proof.
  unfold keys. rewrite in_map_iff. split; [intros ([j v] & <- & I); eauto|intros (v & I); now exists (k, v)].
Qed.
Lemma keys_length l m : NoDup (keys l) -> NoDup (keys m) ->
  (forall k, In k (keys l) <-> In k (keys m)) -> length l = length m.
Proof.
  intros D E H. rewrite <- (map_length fst l), <- (map_length fst m).
  apply Nat.le_antisymm; apply NoDup_incl_length; auto; intros k; apply H.
Qed.
Lemma keys_incl l m : NoDup (keys l) -> NoDup (keys m) -> length l = length m ->
  incl (keys l) (keys m) -> forall k, In k (keys l) <-> In k (keys m).
Proof.
  intros D E L I k. split; [apply I|]. apply (NoDup_length_incl D); auto.
  unfold keys. rewrite !map_length. lia.
Qed.
Lemma subset_iff a b : subset a b && subset b a = true <-> forall x, In x a <-> In x b.
Proof.
  unfold subset. rewrite andb_true_iff, !forallb_forall.
  assert (M : forall x l, existsb (Z.eqb x) l = true <-> In x l).
  { intros x l. rewrite existsb_exists. split; [intros (y & I & E); apply Z.eqb_eq in E; now subst|].
    intro I. exists x. split; auto. apply Z.eqb_refl. }
  split.
  - intros [A B] x. split; intro I; apply M; auto.
  - intros H. split; intros x I; apply M, H, I.
Qed.
Lemma zs_eqb_iff a b : zs_eqb a b = true <-> a = b.
Proof. unfold zs_eqb. destruct (list_eq_dec Z.eq_dec a b); split; auto; discriminate. Qed.

(** Dictionaries, given what is known of their values. *)
Lemma dict_iff (R : val -> val -> Prop) l m : NoDup (keys l) -> NoDup (keys m) ->
  Forall (fun kv => snd kv <> VUnreal) l ->
  (forall k v w, In (k, v) l -> In (k, w) m -> (flexible_equal v w = true <-> R v w)) ->
  (flexible_equal (VDict l) (VDict m) = true <->
   (forall k, In k (keys l) <-> In k (keys m)) /\
   (forall k v w, In (k, v) l -> In (k, w) m -> R v w)).
Proof.
  intros D E U H. rewrite flex_dict, andb_true_iff, Z.eqb_eq, forallb_forall. rewrite Forall_forall in U.
  split.
  - intros [L F]. split.
    + apply keys_incl; auto; [lia|]. intros k I. apply in_keys in I as (v & I).
      pose proof (F _ I) as G. pose proof (U _ I) as N. unfold entry in G. cbn [fst snd] in *.
      destruct (get k m) eqn:Q; [|destruct v; discriminate || congruence].
      apply in_keys. exists v0. now apply get_in.
    + intros k v w I J. apply (H k); auto. pose proof (F _ I) as G. unfold entry in G. cbn [fst snd] in G.
      now rewrite (in_get k m w) in G.
  - intros [K F]. split; [f_equal; now apply keys_length|]. intros [k v] I. unfold entry. cbn [fst snd].
    assert (J : In k (keys m)) by (apply K, in_keys; eauto). apply in_keys in J as (w & J).
    rewrite (in_get k m w); auto. apply (H k); auto. now apply (F k).
Qed.

Lemma alike_iff a : wf a -> realized a -> no_iterators a -> forall b, wf b -> realized b ->
  (flexible_equal a b = true <-> Alike a b).
Proof.
  induction a as [z|s|i|t i| |t l IH|l IH|l|t i l IH] using val_ind2; intros W R N b Wb Rb.
  5:{ apply every_here in R. congruence. }
  8:{ apply every_here in N. exfalso. eapply N. eauto. }
  all: assert (NB : b <> VUnreal) by (now apply every_here in Rb).
  all: destruct b as [z'|s'|i'|t' i'| |t' l'|l'|l'|t' i' l']; try congruence;
    try (split; intro H; [discriminate H|inversion H]; fail).
  - cbn. rewrite Z.eqb_eq. split; intro H; [subst; constructor|now inversion H].
  - cbn. rewrite zs_eqb_iff. split; intro H; [subst; constructor|now inversion H].
  - split; [constructor|reflexivity].
  - cbn. rewrite Z.eqb_eq. split; intro H; [subst; constructor|now inversion H].
  - rewrite flex_seq. apply every_seq in W as [_ W], R as [_ R], N as [_ N], Wb as [_ Wb], Rb as [_ Rb].
    assert (E : Forall2 (fun x y => flexible_equal x y = true) l l' <-> Forall2 Alike l l').
    { clear -IH W R N Wb Rb. revert l' Wb Rb. induction l as [|x r IHr]; intros [|y m] Wb Rb.
      1-3: split; intro H; auto; inversion H.
      inversion IH; inversion W; inversion R; inversion N; inversion Wb; inversion Rb; subst.
      split; intro H; inversion H; subst; constructor; try (apply IHr; auto).
      - apply H1; auto.
      - apply H1; auto. }
    destruct (Z.eqb_spec t t') as [->|Ne].
    + rewrite items_iff, E. split; intro H; [now constructor|now inversion H].
    + split; intro H; [discriminate|]. inversion H; congruence.
  - apply every_dict in W as [D W], R as [_ R], N as [_ N], Wb as [D' Wb], Rb as [_ Rb]. cbn in D, D'.
    rewrite Forall_forall in *.
    rewrite (dict_iff Alike).
    + split; [intros [A B]; now constructor|intro H; inversion H; auto].
    + auto.
    + auto.
    + apply Forall_forall. intros x I. now apply (every_here (fun v => v <> VUnreal)), R.
    + intros k v w I J.
      apply (IH (k, v) I (W _ I) (R _ I) (N _ I) w (Wb _ J) (Rb _ J)).
  - cbn -[subset]. rewrite subset_iff. split; intro H; [now constructor|now inversion H].
Qed.

Lemma alike_sym a : wf a -> forall b, Alike a b -> Alike b a.
Proof.
  assert (F2 : forall l m, Forall (fun a => wf a -> forall b, Alike a b -> Alike b a) l -> Forall wf l ->
    Forall2 Alike l m -> Forall2 Alike m l).
  { intros l m IH W H. induction H as [|x y l m H H' IHl]; auto.
    inversion IH; inversion W; subst. constructor; auto. }
  induction a as [z|s|i|t i| |t l IH|l IH|l|t i l IH] using val_ind2; intros W b H; inversion H; subst; try (constructor; fail).
  - constructor. apply F2; auto. now apply every_seq in W as [_ W].
  - apply every_dict in W as [_ W]. rewrite Forall_forall in *. constructor.
    + intro k. symmetry. auto.
    + intros k v w I J. apply (IH (k, w) J (W _ J)). eauto.
  - constructor. intro x. symmetry. auto.
  - constructor. apply F2; auto. now apply every_iter in W as [_ W].
Qed.

Lemma plain_parts v : plain v -> realized v /\ no_iterators v.
Proof.
  unfold plain, realized, no_iterators.
  induction v as [z|s|i|t i| |t l IH|l IH|l|t i l IH] using val_ind2; intro H.
  1-2: (split; (split; [discriminate|exact Logic.I])).
  1-3: (apply every_here in H; destruct H).
  - apply every_seq in H as [_ H]. rewrite !every_seq, !Forall_forall. rewrite Forall_forall in IH, H.
    (split; (split; [discriminate|]); intros x I; now apply (IH x I), H).
  - apply every_dict in H as [_ H]. rewrite !every_dict, !Forall_forall. rewrite Forall_forall in IH, H.
    (split; (split; [discriminate|]); intros x I; now apply (IH x I), H).
  - (split; (split; [discriminate|exact Logic.I])).
  - apply every_here in H. destruct H.
Qed.

Lemma plain_alike a : plain a -> forall b, plain b -> (Alike a b <-> PyEq a b).
Proof.
  unfold plain. induction a as [z|s|i|t i| |t l IH|l IH|l|t i l IH] using val_ind2; intros Pa b Pb.
  3-5: (apply every_here in Pa; destruct Pa).
  6: (apply every_here in Pa; destruct Pa).
  all: assert (NB := every_here _ _ Pb); destruct b as [z'|s'|i'|t' i'| |t' l'|l'|l'|t' i' l']; try (now destruct NB);
    try (split; intro H; inversion H; subst; constructor; auto; fail).
  - apply every_seq in Pa as [_ Pa], Pb as [_ Pb].
    assert (E : Forall2 Alike l l' <-> Forall2 PyEqIs l l').
    { clear NB. revert l' Pb. induction l as [|x r IHr]; intros [|y m] Pb.
      1-3: split; intro H; auto; inversion H.
      inversion IH; inversion Pa; inversion Pb; subst.
      split; intro H; inversion H; subst; constructor; try (apply IHr; auto).
      - constructor. now apply H1.
      - apply H1; auto. match goal with K : PyEqIs _ _ |- _ => inversion K; subst; auto end.
        match goal with K : Every _ (VNan _) |- _ => apply every_here in K; destruct K end. }
    split; intro H; inversion H; subst; constructor; now apply E.
  - apply every_dict in Pa as [_ Pa], Pb as [_ Pb]. rewrite Forall_forall in *.
    split; intro H.
    + inversion H as [| | | | | | | | |l1 m1 K F]; subst. constructor; auto. intros k v w I J. constructor. apply (IH (k, v) I (Pa _ I) w (Pb _ J)). eauto.
    + inversion H as [| | | | | | |l2 m2 K2 F2]; subst. constructor; auto.
      intros k v w I J. apply (IH (k, v) I (Pa _ I) w (Pb _ J)). specialize (F2 _ _ _ I J).
      inversion F2; subst; auto. specialize (Pa _ I). apply every_here in Pa. destruct Pa.
Qed.

Lemma pyeq_flex a : wf a -> forall b, wf b -> PyEq a b -> flexible_equal a b = true.
Proof.
  induction a as [z|s|i|t i| |t l IH|l IH|l|t i l IH] using val_ind2; intros W b Wb H.
  - inversion H; subst. cbn. apply Z.eqb_refl.
  - inversion H; subst. now apply zs_eqb_iff.
  - inversion H.
  - inversion H; subst. cbn. apply Z.eqb_refl.
  - reflexivity.
  - inversion H as [| | | | | |t' l' m F|]; subst. rewrite flex_seq, Z.eqb_refl. apply items_iff.
    apply every_seq in W as [_ W], Wb as [_ Wb]. clear H. induction F as [|x y l m Q F IHF]; auto.
    inversion IH; inversion W; inversion Wb; subst. constructor; auto. inversion Q; subst; auto.
  - inversion H as [| | | | | | |l' m K F]; subst. apply every_dict in W as [D W], Wb as [D' Wb]. cbn in D, D'.
    rewrite Forall_forall in *. rewrite flex_dict. apply andb_true_intro. split.
    + apply Z.eqb_eq. f_equal. now apply keys_length.
    + apply forallb_forall. intros [k v] I. unfold entry. cbn [fst snd].
      assert (J : In k (keys m)) by (apply K, in_keys; eauto). apply in_keys in J as (w & J).
      rewrite (in_get k m w); auto. specialize (F _ _ _ I J). inversion F; subst; auto.
      apply (IH (k, v) I (W _ I) w (Wb _ J)). auto.
  - inversion H; subst. now apply subset_iff.
  - inversion H; subst. now rewrite flex_iter, Z.eqb_refl.
Qed.

Lemma flex_refl a : wf a -> flexible_equal a a = true.
Proof.
  induction a as [z|s|i|t i| |t l IH|l IH|l|t i l IH] using val_ind2; intros W.
  - cbn. apply Z.eqb_refl.
  - now apply zs_eqb_iff.
  - reflexivity.
  - cbn. apply Z.eqb_refl.
  - reflexivity.
  - rewrite flex_seq, Z.eqb_refl. apply items_iff. apply every_seq in W as [_ W].
    induction l as [|x r IHr]; auto. inversion IH; inversion W; subst. constructor; auto.
  - rewrite flex_dict, Z.eqb_refl. apply every_dict in W as [D W]. cbn in D. rewrite Forall_forall in *.
    apply forallb_forall. intros [k v] I. unfold entry. cbn [fst snd]. rewrite (in_get k l v); auto.
    apply (IH (k, v) I (W _ I)).
  - apply subset_iff. tauto.
  - now rewrite flex_iter, Z.eqb_refl.
Qed.
