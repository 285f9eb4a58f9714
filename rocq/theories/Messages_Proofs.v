From Coq Require Import ZArith List Bool Lia ZifyBool ZifyNat Sorted Permutation.
From Verif Require Import Py Str_Model Messages_Model Messages_Spec.
Import ListNotations.
Open Scope Z_scope.

Section Collect.
Variable unable : str -> bool.
Notation worse_eq := (worse_eq unable).
Notation max_msg := (max_msg unable).
Notation append_ := (append_ unable).
Notation extend := (extend unable).

Lemma key_eq a b : tuple_eqb (key a) (key b) = true <-> same_place a b.
Proof. unfold key, same_place. cbn. lia. Qed.
Lemma key_lt a b : tuple_lt (key a) (key b) = true <-> before a b.
Proof. unfold key, before. cbn. lia. Qed.
Lemma same_place_sym a b : same_place a b -> same_place b a. Proof. unfold same_place. lia. Qed.
Lemma same_place_trans a b c : same_place a b -> same_place b c -> same_place a c. Proof. unfold same_place. lia. Qed.
Lemma worse_refl a : worse_eq a a. Proof. right. split; [reflexivity|]. right. split; [reflexivity|lia]. Qed.
Lemma worse_trans a b c : worse_eq a b -> worse_eq b c -> worse_eq a c.
Proof.
  unfold worse_eq. destruct (unable (m_text a)), (unable (m_text b)), (unable (m_text c)); intros; try lia;
  destruct H as [H|(H & [[H1 H2]|[H1 H2]])], H0 as [H0|(H0 & [[H3 H4]|[H3 H4]])]; try discriminate; try lia; right; (split; [lia|]);
  try (left; auto; fail); right; split; auto; lia.
Qed.
Lemma max_ok a b : (max_msg a b = a \/ max_msg a b = b) /\ worse_eq a (max_msg a b) /\ worse_eq b (max_msg a b).
Proof.
  unfold max_msg, Messages_Model.max_msg. destruct (tuple_lt (sort_key unable a) (sort_key unable b)) eqn:E; (split; [auto|]);
  unfold sort_key in E; cbn [tuple_lt] in E; change m_order with severity in E.
  - split; [|apply worse_refl]. unfold Messages_Spec.worse_eq. destruct (unable (m_text a)), (unable (m_text b)); cbn [negb] in E; lia.
  - split; [apply worse_refl|]. unfold Messages_Spec.worse_eq. destruct (unable (m_text a)), (unable (m_text b)); cbn [negb] in E; lia.
Qed.

(** The dictionary after collecting [l] *)
Definition dict_ok (l : list message) (d : list (list Z * message)) : Prop :=
  Forall (fun x => fst x = key (snd x)) d /\
  StronglySorted (fun x y => ~ same_place (snd x) (snd y)) d /\
  (forall m, In m (map snd d) -> In m l /\ forall m', In m' l -> same_place m' m -> worse_eq m' m) /\
  (forall m, In m l -> exists m', In m' (map snd d) /\ same_place m m').
Lemma append_keys d m x : In x (append_ d m) -> Forall (fun x => fst x = key (snd x)) d ->
  fst x = key (snd x) /\ (In x d \/ same_place (snd x) m).
Proof.
  induction d as [|[k old] d IH]; cbn [Messages_Model.append_].
  - intros [<-|[]] _. cbn. split; [reflexivity|]. right. unfold same_place. lia.
  - intros I F. inversion F as [|? ? Fk F']; subst. cbn in Fk. subst k.
    destruct (tuple_eqb (key old) (key m)) eqn:E.
    + apply key_eq in E. destruct I as [<-|I].
      * cbn. destruct (max_ok old m) as [[M|M] _]; rewrite M; split; auto.
        -- unfold key. destruct E as (? & ? & ?). congruence.
        -- right. unfold same_place. lia.
      * rewrite Forall_forall in F'. split; [now apply F'|]. left. now right.
    + destruct I as [<-|I]; [split; [reflexivity|left; now left]|]. destruct (IH I F') as [A [B|B]]; split; auto. left. now right.
Qed.
Lemma append_ok l d m : dict_ok l d -> dict_ok (l ++ [m]) (append_ d m).
Proof.
  intros (F & S & A & B).
  assert (F1 : Forall (fun x => fst x = key (snd x)) (append_ d m)).
  { apply Forall_forall. intros x I. now apply (append_keys d m x I F). }
  assert (S1 : StronglySorted (fun x y => ~ same_place (snd x) (snd y)) (append_ d m)).
  { clear A B F1. induction d as [|[k old] d IH]; cbn [Messages_Model.append_]; [constructor; constructor|].
    inversion F as [|? ? Fk F']; subst. inversion S as [|? ? S' N]; subst. cbn in Fk. subst k.
    destruct (tuple_eqb (key old) (key m)) eqn:E.
    - apply key_eq in E. constructor; [assumption|]. eapply Forall_impl; [|exact N]. intros x H. cbn in *.
      destruct (max_ok old m) as [[M|M] _]; rewrite M; [assumption|]. intro X. apply H. eapply same_place_trans; eauto.
    - constructor; [now apply IH|]. apply Forall_forall. intros x I. destruct (append_keys d m x I F') as [_ [H|H]].
      + rewrite Forall_forall in N. now apply N.
      + cbn. intro X. assert (same_place old m) by (eapply same_place_trans; eauto). apply key_eq in H0. congruence. }
  assert (P : forall x, In x (append_ d m) -> (In x d /\ ~ same_place (snd x) m) \/
     (snd x = m /\ forall y, In y d -> ~ same_place (snd y) m) \/
     (exists old, In (key old, old) d /\ same_place old m /\ snd x = max_msg old m)).
  { clear A B F1 S1. induction d as [|[k old] d IH]; cbn [Messages_Model.append_].
    - intros x [<-|[]]. right. left. cbn. auto.
    - inversion F as [|? ? Fk F']; subst. inversion S as [|? ? S' N]; subst. cbn in Fk. subst k. rewrite Forall_forall in N.
      destruct (tuple_eqb (key old) (key m)) eqn:E.
      + apply key_eq in E. intros x [<-|I].
        * right. right. exists old. cbn. auto.
        * left. split; [now right|]. intro X. apply (N x I). cbn. eapply same_place_trans; [exact E|now apply same_place_sym].
      + assert (NE : ~ same_place old m) by (intro X; apply key_eq in X; congruence). intros x [<-|I].
        * left. split; [now left|assumption].
        * destruct (IH F' S' x I) as [[H1 H2]|[[H1 H2]|(o & H1 & H2 & H3)]].
          -- left. split; [now right|assumption].
          -- right. left. split; [assumption|]. intros y [<-|Iy]; [assumption|now apply H2].
          -- right. right. exists o. split; [now right|auto]. }
  assert (Q : (exists x, In x (append_ d m) /\ same_place (snd x) m) /\ forall y, In y d -> exists x, In x (append_ d m) /\ same_place (snd y) (snd x)).
  { clear A B F1 S1 P. induction d as [|[k old] d IH]; cbn [Messages_Model.append_].
    - split; [|intros y []]. eexists. split; [now left|]. cbn. unfold same_place. lia.
    - inversion F as [|? ? Fk F']; subst. inversion S as [|? ? S' N]; subst. cbn in Fk. subst k.
      destruct (IH F' S') as [[x [X1 X2]] Y]. destruct (tuple_eqb (key old) (key m)) eqn:E.
      + apply key_eq in E. assert (M : same_place (max_msg old m) m).
        { destruct (max_ok old m) as [[M|M] _]; rewrite M; [assumption|]. unfold same_place. lia. }
        split; [eexists; split; [now left|exact M]|]. intros y [<-|I].
        * eexists. split; [now left|]. cbn. eapply same_place_trans; [exact E|now apply same_place_sym].
        * exists y. split; [now right|]. unfold same_place. lia.
      + split; [exists x; split; [now right|assumption]|]. intros y [<-|I].
        * eexists. split; [now left|]. cbn. unfold same_place. lia.
        * destruct (Y y I) as (z & Z1 & Z2). exists z. split; [now right|assumption]. }
  assert (KD : forall o, In o (map snd d) -> exists x, In x d /\ snd x = o) by (intros o I; apply in_map_iff in I as (x & ? & ?); eauto).
  repeat split; auto.
  - apply in_map_iff in H as (x & <- & I). apply in_app_iff. destruct (P x I) as [[H1 _]|[[H1 _]|(o & H1 & _ & H3)]].
    + left. apply A. now apply in_map.
    + right. rewrite H1. now left.
    + rewrite H3. destruct (max_ok o m) as [[M|M] _]; rewrite M; [|right; now left]. left. apply A. apply in_map_iff. exists (key o, o). auto.
  - intros m' I' SP. apply in_map_iff in H as (x & <- & I). apply in_app_iff in I' as [I'|[<-|[]]].
    + destruct (P x I) as [[H1 _]|[[H1 H2]|(o & H1 & H2 & H3)]].
      * apply A; auto. now apply in_map.
      * exfalso. destruct (B m' I') as (y & Iy & Sy). destruct (KD y Iy) as (z & Iz & <-). apply (H2 z Iz).
        rewrite H1 in SP. eapply same_place_trans; [apply same_place_sym; exact Sy|exact SP].
      * rewrite H3. destruct (max_ok o m) as (M & M1 & _). eapply worse_trans; [|exact M1]. apply A; auto.
        -- apply in_map_iff. exists (key o, o). auto.
        -- rewrite H3 in SP. destruct M as [M|M]; rewrite M in SP; [assumption|]. eapply same_place_trans; [exact SP|now apply same_place_sym].
    + destruct (P x I) as [[H1 H2]|[[H1 H2]|(o & H1 & H2 & H3)]].
      * exfalso. apply H2. now apply same_place_sym.
      * rewrite H1. apply worse_refl.
      * rewrite H3. apply max_ok.
  - intros m0 I. apply in_app_iff in I as [I|[<-|[]]].
    + destruct (B m0 I) as (m' & I' & S'). destruct (KD m' I') as (y & Iy & <-). destruct Q as [_ Q]. destruct (Q y Iy) as (x & Ix & Sx).
      exists (snd x). split; [now apply in_map|]. eapply same_place_trans; eauto.
    + destruct Q as [(x & Ix & Sx) _]. exists (snd x). split; [now apply in_map|now apply same_place_sym].
Qed.
Lemma extend_ok l2 : forall l d, dict_ok l d -> dict_ok (l ++ l2) (extend d l2).
Proof.
  induction l2 as [|m l2 IH]; intros l d H; cbn; [now rewrite app_nil_r|].
  change (m :: l2) with ([m] ++ l2). rewrite app_assoc. apply IH. now apply append_ok.
Qed.
Lemma extend_all_ok ls : forall l d, dict_ok l d -> dict_ok (l ++ concat ls) (fold_left extend ls d).
Proof.
  induction ls as [|x ls IH]; intros l d H; cbn; [now rewrite app_nil_r|]. rewrite app_assoc. apply IH. now apply extend_ok.
Qed.
Lemma insert_perm x l : Permutation (insert_ x l) (x :: l).
Proof. induction l as [|y l IH]; cbn [insert_]; [auto|]. destruct (tuple_lt _ _); [auto|]. rewrite IH. constructor. Qed.
Lemma sort_perm d : Permutation (fold_right insert_ [] d) d.
Proof. induction d as [|x d IH]; cbn; [auto|]. rewrite insert_perm. now constructor. Qed.
Lemma before_trans a b c : before a b -> before b c -> before a c. Proof. unfold before. lia. Qed.
Lemma insert_sorted x l : fst x = key (snd x) -> Forall (fun x => fst x = key (snd x)) l ->
  Forall (fun y => ~ same_place (snd x) (snd y)) l -> StronglySorted before (map snd l) -> StronglySorted before (map snd (insert_ x l)).
Proof.
  intros Kx. induction l as [|y l IH]; intros F N S; cbn [insert_ map]; [constructor; constructor|].
  inversion F as [|? ? Ky F']; subst. inversion N as [|? ? Ny N']; subst. cbn [map] in S. inversion S as [|? ? S' H]; subst.
  rewrite Kx, Ky. destruct (tuple_lt (key (snd x)) (key (snd y))) eqn:E.
  - apply key_lt in E. cbn [map]. constructor; [assumption|]. constructor; [assumption|]. eapply Forall_impl; [|exact H].
    intros z. now apply before_trans.
  - cbn [map]. constructor; [now apply IH|].
    assert (B : before (snd y) (snd x)).
    { destruct (tuple_lt (key (snd y)) (key (snd x))) eqn:E2; [now apply key_lt|]. exfalso. apply Ny.
      unfold key, same_place in *. cbn in E, E2. lia. }
    eapply Permutation_Forall; [apply Permutation_map; symmetry; apply insert_perm|]. cbn [map]. constructor; assumption.
Qed.
Lemma get_ok l d : dict_ok l d -> shows unable l (get d).
Proof.
  intros (F & S & A & B). unfold get.
  assert (P : forall m, In m (map snd (fold_right insert_ [] d)) <-> In m (map snd d)).
  { intro m. split; apply Permutation_in; apply Permutation_map; [|symmetry]; apply sort_perm. }
  split; [|split].
  - clear A B P. induction d as [|x d IH]; cbn; [constructor|]. inversion F as [|? ? F1 F2]; subst. inversion S as [|? ? S1 S2]; subst.
    apply insert_sorted; [exact F1| | |now apply IH]; (eapply Permutation_Forall; [symmetry; apply sort_perm|assumption]).
  - intros m I. apply P in I. auto.
  - intros m I. destruct (B m I) as (m' & I' & S'). exists m'. split; [now apply P|assumption].
Qed.
Lemma dict_nil : dict_ok [] [].
Proof. split; [constructor|]. split; [constructor|]. split; intros m []. Qed.
Lemma run_checkables_ok ls : shows unable (concat ls) (run_checkables unable ls).
Proof. apply get_ok. exact (extend_all_ok ls [] [] dict_nil). Qed.

(** What is shown at each place is as severe whatever the order of arrival. *)
Definition summary (m : message) : Z * Z * Z * Z := (m_file m, m_line m, m_col m, severity (m_state m)).
Lemma shows_unique l1 l2 o1 o2 : (forall m, In m l1 <-> In m l2) -> shows unable l1 o1 -> shows unable l2 o2 ->
  map summary o1 = map summary o2.
Proof.
  intros E (S1 & A1 & B1) (S2 & A2 & B2).
  assert (M : forall x y, In x o1 -> In y o2 -> same_place x y -> summary x = summary y).
  { intros x y X Y SP. destruct (A1 x X) as [X1 X2], (A2 y Y) as [Y1 Y2].
    specialize (X2 y (proj2 (E y) Y1) (same_place_sym _ _ SP)). specialize (Y2 x (proj1 (E x) X1) SP).
    unfold summary. destruct SP as (-> & -> & ->). f_equal. unfold Messages_Spec.worse_eq in *. lia. }
  assert (C1 : forall x, In x o1 -> exists y, In y o2 /\ same_place x y) by (intros x X; apply B2, E, A1, X).
  assert (C2 : forall y, In y o2 -> exists x, In x o1 /\ same_place x y).
  { intros y Y. destruct (A2 y Y) as [Y1 _]. apply E, B1 in Y1 as (x & X & Sx). exists x. split; [assumption|now apply same_place_sym]. }
  clear A1 A2 B1 B2 E. revert o2 S2 M C1 C2. induction o1 as [|a o1 IH]; intros o2 S2 M C1 C2.
  - destruct o2 as [|b o2]; [reflexivity|]. destruct (C2 b) as (x & [] & _). now left.
  - destruct o2 as [|b o2]; [destruct (C1 a) as (x & [] & _); now left|].
    inversion S1 as [|? ? S1' H1]; subst. inversion S2 as [|? ? S2' H2]; subst. rewrite Forall_forall in H1, H2.
    assert (AB : same_place a b).
    { destruct (C1 a) as (y & [<-|Y] & Sy); [now left|assumption|]. destruct (C2 b) as (x & [<-|X] & Sx); [now left|assumption|].
      exfalso. specialize (H1 x X). specialize (H2 y Y). unfold same_place, before in *. lia. }
    cbn [map]. f_equal; [apply M; auto; now left|]. apply IH; auto.
    + intros x y X Y. apply M; now right.
    + intros x X. destruct (C1 x) as (y & [<-|Y] & Sy); [now right| |eauto].
      exfalso. specialize (H1 x X). unfold same_place, before in *. lia.
    + intros y Y. destruct (C2 y) as (x & [<-|X] & Sx); [now right| |eauto].
      exfalso. specialize (H2 y Y). unfold same_place, before in *. lia.
Qed.
End Collect.
