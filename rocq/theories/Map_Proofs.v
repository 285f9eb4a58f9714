From Coq Require Import ZArith List Bool Lia Permutation.
From Coq Require Import ZifyBool ZifyNat.
From Verif Require Import Py Map_Model Map_Spec.
Import ListNotations.
Open Scope Z_scope.

Definition opt {A} (r : res A) : option A := match r with Ok x => Some x | Err _ => None end.

Section SD.
  Context {K : Type} (eqb : K -> K -> bool) (eq_dec : forall x y : K, {x = y} + {x <> y}).
  Hypothesis EQ : forall x y, eqb x y = true <-> x = y.

  Lemma eqb_dec x y : eqb x y = if eq_dec x y then true else false.
  Proof.
    destruct (eq_dec x y) as [E|N]; [now apply EQ|]. apply not_true_is_false. now rewrite EQ.
  Qed.
  Lemma eqb_refl x : eqb x x = true. Proof. now apply EQ. Qed.
  Lemma memb_in x l : memb eqb x l = true <-> In x l.
  Proof.
    unfold memb. rewrite existsb_exists. split.
    - intros (y & I & E). apply EQ in E. now subst.
    - intro. exists x. split; auto. apply eqb_refl.
  Qed.

  Section W.
    Context {W : Type}.
    Implicit Types d : list (K * W).
    Notation get := (sd_get eqb).

    Lemma get_err d k e : get d k = Err e -> e = KeyError.
    Proof.
      induction d as [|[k' v] d IH]; cbn; [congruence|]. destruct (eqb k' k); [discriminate|auto].
    Qed.
    Lemma get_in d k v : get d k = Ok v -> In (k, v) d.
    Proof.
      induction d as [|[k' w] d IH]; cbn; [discriminate|]. destruct (eqb k' k) eqn:E.
      - apply EQ in E as ->. intro H. injection H as ->. auto.
      - auto.
    Qed.
    Lemma in_get d k v : NoDup (map fst d) -> In (k, v) d -> get d k = Ok v.
    Proof.
      induction d as [|[k' w] d IH]; cbn; [easy|]. intro N. inversion N; subst. intros [E|I].
      - injection E as -> ->. now rewrite eqb_refl.
      - rewrite eqb_dec. destruct (eq_dec k' k) as [->|]; [|auto].
        exfalso. apply H1. apply in_map_iff. exists (k, v). auto.
    Qed.
    Lemma get_key d k : (exists v, get d k = Ok v) <-> In k (map fst d).
    Proof.
      split.
      - intros [v H]. apply get_in in H. apply in_map_iff. exists (k, v). auto.
      - induction d as [|[k' w] d IH]; cbn; [easy|]. rewrite eqb_dec. intros H.
        destruct (eq_dec k' k) as [->|N]; [eauto|]. apply IH. tauto.
    Qed.
    Lemma get_none d k : opt (get d k) = None <-> ~ In k (map fst d).
    Proof.
      rewrite <- get_key. destruct (get d k); cbn; split; try discriminate; auto.
      - intro H. exfalso. eauto.
      - intros _ [v H]. discriminate.
    Qed.

    Lemma get_set d k v k' : get (sd_set eqb d k v) k' = if eq_dec k' k then Ok v else get d k'.
    Proof.
      induction d as [|[k0 w] d IH]; cbn.
      - rewrite eqb_dec. destruct (eq_dec k k'), (eq_dec k' k); congruence.
      - rewrite (eqb_dec k0 k). destruct (eq_dec k0 k) as [->|N]; cbn.
        + rewrite eqb_dec. destruct (eq_dec k k'), (eq_dec k' k); congruence.
        + rewrite eqb_dec. destruct (eq_dec k0 k') as [->|]; [|exact IH].
          destruct (eq_dec k' k); congruence.
    Qed.
    Lemma keys_set d k v : map fst (sd_set eqb d k v)
      = match opt (get d k) with Some _ => map fst d | None => map fst d ++ [k] end.
    Proof.
      induction d as [|[k0 w] d IH]; cbn; auto. rewrite (eqb_dec k0 k).
      destruct (eq_dec k0 k) as [->|N]; cbn; auto. rewrite IH. now destruct (opt (get d k)).
    Qed.
    Lemma nodup_set d k v : NoDup (map fst d) -> NoDup (map fst (sd_set eqb d k v)).
    Proof.
      intro N. rewrite keys_set. destruct (opt (get d k)) eqn:E; auto. apply get_none in E.
      apply (NoDup_Add (a := k) (l := map fst d)).
      - pose proof (Add_app k (map fst d) []) as H. now rewrite app_nil_r in H.
      - auto.
    Qed.
    Lemma remove_notin (l : list K) k : ~ In k l -> remove eq_dec k l = l.
    Proof. apply notin_remove. Qed.
    Lemma del_ok d k v : NoDup (map fst d) -> get d k = Ok v ->
      exists d', sd_del eqb d k = Ok d' /\ map fst d' = remove eq_dec k (map fst d)
      /\ (forall k', opt (get d' k') = if eq_dec k' k then None else opt (get d k'))
      /\ NoDup (map fst d').
    Proof.
      intros N. induction d as [|[k0 w] d IH]; cbn; [discriminate|]. inversion N; subst.
      rewrite (eqb_dec k0 k). destruct (eq_dec k0 k) as [->|M].
      - intros _. exists d. split; auto. destruct (eq_dec k k) as [_|]; [|congruence].
        rewrite remove_notin by auto. split; auto. split; auto. intro k'. rewrite (eqb_dec k k').
        destruct (eq_dec k' k) as [->|M]; [now apply get_none|]. destruct (eq_dec k k'); congruence.
      - intro G. destruct (IH H2 G) as (d' & -> & E & H & N'). cbn [map_res].
        exists ((k0, w) :: d'). split; auto. destruct (eq_dec k k0); [congruence|]. cbn. rewrite E.
        split; auto. split.
        + intro k'. rewrite (eqb_dec k0 k'). destruct (eq_dec k0 k') as [->|]; auto. 
          destruct (eq_dec k' k); congruence.
        + rewrite <- E. constructor; auto. rewrite E. intro I. apply in_remove in I. tauto.
    Qed.
    Lemma del_err d k e : get d k = Err e -> sd_del eqb d k = Err KeyError.
    Proof.
      induction d as [|[k0 w] d IH]; cbn; auto. destruct (eqb k0 k); [discriminate|].
      intro H. now rewrite IH.
    Qed.
  End W.

  (** *** Facts about the reference dict *)
  Context {V : Type}.
  Notation dict := (dict K V).
  Implicit Types D : dict.

  Lemma dset_ok D k v : d_ok D -> d_ok (d_set eq_dec D k v).
  Proof.
    intros [N H]. unfold d_set. split; cbn.
    - destruct (value D k) eqn:E; auto. apply (NoDup_Add (a := k) (l := order D)).
      + pose proof (Add_app k (order D) []) as Q. now rewrite app_nil_r in Q.
      + split; auto. rewrite H, E. auto.
    - intro k'. destruct (eq_dec k' k) as [->|M].
      + split; [discriminate|]. intros _. destruct (value D k) eqn:E; [|apply in_app_iff; cbn; auto].
        rewrite H, E. discriminate.
      + destruct (value D k); [apply H|]. rewrite in_app_iff, <- H. cbn. intuition congruence.
  Qed.
  Lemma dremove_ok D k : d_ok D -> d_ok (d_remove eq_dec D k).
  Proof.
    intros [N H]. split; cbn.
    - clear H. induction N; cbn; [constructor|]. destruct (eq_dec k x); auto. constructor; auto.
      intro I. apply in_remove in I. tauto.
    - intro k'. destruct (eq_dec k' k) as [->|M].
      + split; [|congruence]. intro I. now apply remove_In in I.
      + rewrite <- H. split; [apply in_remove|]. intro. now apply in_in_remove.
  Qed.
  Lemma remove_len (l : list K) k : NoDup l -> In k l -> Z.of_nat (length (remove eq_dec k l)) = Z.of_nat (length l) - 1.
  Proof.
    induction 1 as [|x l N ND IH]; cbn [In]; [easy|]. intros I. cbn [remove length].
    destruct (eq_dec k x) as [->|M].
    - rewrite remove_notin by auto. lia.
    - cbn [length]. assert (In k l) by intuition congruence. specialize (IH H). lia.
  Qed.

  (** *** SimpleDict *)
  Definition R (d : list (K * V)) D : Prop :=
    NoDup (map fst d) /\ order D = map fst d /\ forall k, value D k = opt (sd_get eqb d k).

  Lemma iter_fst {W} (d : list (K * W)) : sd_iter d = map fst d.
  Proof. unfold sd_iter. apply map_ext. now intros []. Qed.
  Lemma reversed_fst {W} (d : list (K * W)) : sd_reversed d = rev (map fst d).
  Proof. unfold sd_reversed. rewrite <- map_rev. apply map_ext. now intros []. Qed.

  Lemma R_set d D k v : R d D -> R (sd_set eqb d k v) (d_set eq_dec D k v).
  Proof.
    intros (N & O & G). split; [now apply nodup_set|]. split.
    - cbn. rewrite keys_set, G, O. reflexivity.
    - intro k'. cbn. rewrite get_set. destruct (eq_dec k' k); auto.
  Qed.
  Lemma R_update l : forall d D, R d D ->
    R (fold_left (fun d '(k, v) => sd_set eqb d k v) l d) (d_update eq_dec D l).
  Proof.
    induction l as [|[k v] l IH]; intros d D H; cbn; auto. apply IH. now apply R_set.
  Qed.
  Lemma R_del d D k v : R d D -> sd_get eqb d k = Ok v ->
    exists d', sd_del eqb d k = Ok d' /\ R d' (d_remove eq_dec D k).
  Proof.
    intros (N & O & G) H. destruct (del_ok d k v N H) as (d' & E & M & Q & N').
    exists d'. split; auto. split; auto. split; cbn; [congruence|]. intro k'. rewrite Q, G. auto.
  Qed.
  Lemma R_ok d D : R d D -> d_ok D.
  Proof.
    intros (N & O & G). split; [congruence|]. intro k. rewrite O, G, <- get_key.
    destruct (sd_get eqb d k) as [v|e]; cbn; split; try congruence; try (intros _; eauto; fail).
    intros [v H]. discriminate.
  Qed.
  Lemma R_init d : NoDup (map fst d) -> R d (d_of eq_dec d).
  Proof.
    intro N. unfold d_of. assert (E : forall (l p : list (K * V)), NoDup (map fst (p ++ l)) ->
      fold_left (fun d '(k, v) => sd_set eqb d k v) l p = p ++ l).
    { induction l as [|[k v] l IH]; intros p H; cbn; [now rewrite app_nil_r|].
      assert (S1 : sd_set eqb p k v = p ++ [(k, v)]).
      { rewrite map_app in H. apply NoDup_remove_2 in H. cbn in H.
        assert (NI : ~ In k (map fst p)) by (intro; apply H; apply in_app_iff; auto).
        clear H IH. induction p as [|[k0 w] p IH]; cbn; auto. cbn in NI.
        rewrite eqb_dec. destruct (eq_dec k0 k); [tauto|]. rewrite IH; auto. }
      rewrite S1, IH; rewrite <- app_assoc; auto. }
    rewrite <- (E d []) at 1 by auto. apply R_update. split; [constructor|]. split; auto.
  Qed.
  Lemma R_empty : R [] d_empty.
  Proof. split; [constructor|]. split; auto. Qed.

  Lemma popitem_snoc (d : list (K * V)) kv : sd_popitem (d ++ [kv]) = Ok (kv, d).
  Proof. unfold sd_popitem. rewrite rev_app_distr. cbn. now rewrite rev_involutive. Qed.
  Lemma sd_clear_ok : forall d : list (K * V), sd_clear (S (length d)) d = Ok [].
  Proof.
    induction d as [|kv d IH] using rev_ind; [reflexivity|].
    rewrite app_length. cbn [length]. rewrite Nat.add_comm. cbn [Nat.add].
    cbn [sd_clear]. rewrite popitem_snoc. exact IH.
  Qed.

  Lemma sd_step_ok d D o : R d D ->
    fst (sd_step eqb d o) = fst (d_step eq_dec D o) /\ R (snd (sd_step eqb d o)) (snd (d_step eq_dec D o)).
  Proof.
    intro H. pose proof H as (N & O & G).
    assert (GE : forall k e, sd_get eqb d k = Err e -> e = KeyError) by (intros; eapply get_err; eauto).
    destruct o as [[k|k| | |k v|k|k x|k v|l|]| | |]; cbn [sd_step d_step fst snd];
      try (rewrite G); try (destruct (sd_get eqb d k) as [w|e] eqn:E; cbn [opt]).
    - auto.
    - cbn. rewrite (GE _ _ E). auto.
    - auto.
    - auto.
    - split; auto. unfold sd_len. now rewrite O, map_length.
    - split; auto. rewrite O. unfold sd_len. now destruct d.
    - split; auto. now apply R_set.
    - split; auto. now apply R_set.
    - destruct (R_del d D k w H E) as (d' & -> & R'). auto.
    - rewrite (del_err _ _ _ E). auto.
    - unfold sdv_pop. rewrite E. destruct (R_del d D k w H E) as (d' & -> & R'). auto.
    - unfold sdv_pop. rewrite E. destruct x; auto.
    - auto.
    - cbn. split; auto. now apply R_set.
    - split; auto. now apply R_update.
    - rewrite sd_clear_ok. cbn. split; auto. apply R_empty.
    - destruct d as [|kv d _] using rev_ind.
      + cbn. rewrite O. cbn. auto.
      + rewrite popitem_snoc. destruct kv as [k v]. rewrite O, map_app, rev_app_distr. cbn [map rev app fst].
        assert (E : sd_get eqb (d ++ [(k, v)]) k = Ok v) by (apply in_get; auto; apply in_app_iff; cbn; auto).
        rewrite G, E. cbn [opt fst snd]. split; auto. destruct (R_del _ D k v H E) as (d' & E' & R').
        assert (d' = d) as ->; auto.
        rewrite map_app in N. apply NoDup_remove_2 in N. rewrite app_nil_r in N.
        clear - E' N EQ eq_dec. revert d' E'. induction d as [|[k0 w] d IH]; intros d'; cbn.
        * rewrite eqb_refl. congruence.
        * cbn in N. rewrite eqb_dec. destruct (eq_dec k0 k); [tauto|].
          destruct (sd_del eqb (d ++ [(k, v)]) k) as [x|]; [|discriminate]. cbn. intro Q. injection Q as <-.
          f_equal. apply IH; auto.
    - now rewrite iter_fst, O.
    - now rewrite reversed_fst, O.
  Qed.
  Theorem sd_run_ok : forall ops d D, R d D ->
    fst (sd_run eqb d ops) = fst (d_run eq_dec D ops) /\ R (snd (sd_run eqb d ops)) (snd (d_run eq_dec D ops)).
  Proof.
    induction ops as [|o ops IH]; intros d D H; cbn; auto.
    destruct (sd_step_ok d D o H) as [E H'].
    destruct (sd_step eqb d o) as [r d'], (d_step eq_dec D o) as [r' D']. cbn [fst snd] in *. subst.
    destruct (IH d' D' H') as [E H2].
    destruct (sd_run eqb d' ops), (d_run eq_dec D' ops). cbn [fst snd] in *. subst. auto.
  Qed.

  (** *** ShellMutableMap *)
  Notation shell := (shell K V).
  Implicit Types s : shell.
  Definition RS s D : Prop :=
    NoDup (map fst (muts s)) /\ NoDup (map fst (inner s)) /\ d_ok D
    /\ (forall k, value D k = opt (sh_get eqb s k)) /\ slen s = Z.of_nat (length (order D)).

  Lemma sh_get_err s k e : sh_get eqb s k = Err e -> e = KeyError.
  Proof.
    unfold sh_get. destruct (sd_get eqb (muts s) k) as [[v|]|]; try congruence. apply get_err.
  Qed.

  Lemma RS_init l : NoDup (map fst l) -> RS (sh_init l) (d_of eq_dec l).
  Proof.
    intro N. pose proof (R_init l N) as H. pose proof (R_ok _ _ H) as Q. destruct H as (_ & O & G).
    split; [constructor|]. split; [exact N|]. split; auto. split.
    - intro k. rewrite G. reflexivity.
    - cbn. unfold sd_len. now rewrite O, map_length.
  Qed.

  Lemma RS_set s D k v : RS s D -> RS (sh_set eqb s k v) (d_set eq_dec D k v).
  Proof.
    intros (N1 & N2 & OK & G & L). split; [now apply nodup_set|]. split; [exact N2|]. split; [now apply dset_ok|]. split.
    - intro k'. cbn. unfold sh_get. cbn [muts inner sh_set]. rewrite get_set. rewrite G.
      destruct (eq_dec k' k); auto.
    - cbn. unfold sh_contains. rewrite L, G. destruct (sh_get eqb s k); cbn; auto.
      rewrite app_length. cbn. lia.
  Qed.
  Lemma RS_update l : forall s D, RS s D -> RS (sh_update eqb s l) (d_update eq_dec D l).
  Proof.
    induction l as [|[k v] l IH]; intros s D H; cbn; auto. apply IH. now apply RS_set.
  Qed.
  Lemma RS_del s D k v : RS s D -> sh_get eqb s k = Ok v ->
    exists s', sh_del eqb s k = Ok s' /\ RS s' (d_remove eq_dec D k).
  Proof.
    intros (N1 & N2 & OK & G & L) H.
    exists (mkShell (sd_set eqb (muts s) k None) (inner s) (slen s - 1)). split.
    - unfold sh_del. unfold sh_get in H. destruct (sd_get eqb (muts s) k) as [[w|]|]; auto; [discriminate|].
      now rewrite H.
    - split; [now apply nodup_set|]. split; auto. split; [now apply dremove_ok|]. split.
      + intro k'. cbn. unfold sh_get. cbn [muts inner]. rewrite get_set, G. destruct (eq_dec k' k); auto.
      + cbn. destruct OK as [N OK]. rewrite remove_len, L; auto. apply OK. rewrite G, H. discriminate.
  Qed.
  Lemma del_missing s k e : sh_get eqb s k = Err e -> sh_del eqb s k = Err KeyError.
  Proof.
    unfold sh_get, sh_del. destruct (sd_get eqb (muts s) k) as [[w|]|]; auto; [discriminate|].
    intro H. now rewrite H.
  Qed.

  Lemma in_filter_keys {W} (f : W -> bool) (l : list (K * W)) k :
    In k (map (fun '(k, v) => k) (filter (fun '(k, v) => f v) l)) <-> exists v, In (k, v) l /\ f v = true.
  Proof.
    rewrite in_map_iff. split.
    - intros ([k' v] & <- & I). apply filter_In in I as [I F]. eauto.
    - intros (v & I & F). exists (k, v). split; auto. apply filter_In. auto.
  Qed.

  Lemma iter_in s k : NoDup (map fst (muts s)) ->
    (In k (sh_iter eqb s) <-> exists v, sh_get eqb s k = Ok v).
  Proof.
    intros N. unfold sh_iter, sh_get. rewrite in_app_iff, filter_In, !iter_fst.
    rewrite (in_filter_keys (fun v => match v with None => false | Some _ => true end)).
    destruct (sd_get eqb (muts s) k) as [[w|]|e] eqn:E.
    - split; [eauto|]. intros _. right. exists (Some w). split; auto. now apply get_in.
    - split.
      + intros [[_ H]|([v|] & I & F)]; try discriminate.
        * apply negb_true_iff, not_true_iff_false in H. rewrite memb_in, <- get_key in H. exfalso. apply H. eauto.
        * rewrite (in_get _ _ _ N I) in E. discriminate.
      + intros [v H]. discriminate.
    - assert (NI : ~ In k (map fst (muts s))) by (rewrite <- get_key; intros [v H]; congruence).
      rewrite get_key. split.
      + intros [[I _]|(v & I & _)]; auto. exfalso. apply NI. apply in_map_iff. exists (k, v). auto.
      + intro I. left. split; auto. apply negb_true_iff, not_true_iff_false. now rewrite memb_in.
  Qed.
  Lemma nodup_filter_keys {W} (f : W -> bool) (l : list (K * W)) :
    NoDup (map fst l) -> NoDup (map (fun '(k, v) => k) (filter (fun '(k, v) => f v) l)).
  Proof.
    induction l as [|[k v] l IH]; cbn; intro N; [constructor|]. inversion N; subst.
    destruct (f v); auto. cbn. constructor; auto. rewrite in_filter_keys. intros (w & I & _).
    apply H1. apply in_map_iff. exists (k, w). auto.
  Qed.
  Lemma nodup_app (l1 l2 : list K) : NoDup l1 -> NoDup l2 -> (forall x, In x l1 -> ~ In x l2) -> NoDup (l1 ++ l2).
  Proof.
    induction 1 as [|x l1 NI N IH]; cbn; auto. intros N2 D. constructor.
    - rewrite in_app_iff. intros [H|H]; [auto|]. exact (D x (or_introl eq_refl) H).
    - apply IH; auto.
  Qed.
  Lemma iter_nodup s : NoDup (map fst (muts s)) -> NoDup (map fst (inner s)) -> NoDup (sh_iter eqb s).
  Proof.
    intros N1 N2. unfold sh_iter. rewrite !iter_fst. apply nodup_app.
    - now apply NoDup_filter.
    - exact (nodup_filter_keys (fun v => match v with None => false | Some _ => true end) (muts s) N1).
    - intros k I J. apply filter_In in I as [_ I]. apply negb_true_iff, not_true_iff_false in I. rewrite memb_in in I.
      apply (in_filter_keys (fun v => match v with None => false | Some _ => true end)) in J as (v & J & _).
      apply I. apply in_map_iff. exists (k, v). auto.
  Qed.
  Lemma RS_iter s D : RS s D -> Permutation (sh_iter eqb s) (order D).
  Proof.
    intros (N1 & N2 & [N OK] & G & L). apply NoDup_Permutation; auto using iter_nodup.
    intro k. rewrite iter_in, OK, G by auto. destruct (sh_get eqb s k) as [v|e]; cbn; split; try congruence; eauto.
    intros [v H]; discriminate.
  Qed.

  Lemma in_filter_rev {W} (f : W -> bool) (l : list (K * W)) k :
    In k (map (fun '(k, v) => k) (filter (fun '(k, v) => f v) (rev l))) <-> exists v, In (k, v) l /\ f v = true.
  Proof. rewrite in_filter_keys. split; intros (v & I & F); exists v; split; auto; now apply in_rev in I || apply in_rev. Qed.

  Lemma reversed_in s k : NoDup (map fst (muts s)) ->
    (In k (sh_reversed eqb s) <-> exists v, sh_get eqb s k = Ok v).
  Proof.
    intros N. unfold sh_reversed, sh_get. rewrite in_app_iff, filter_In, reversed_fst.
    rewrite (in_filter_rev (fun v => match v with None => false | Some _ => true end)).
    assert (MD : memb eqb k (map (fun '(k, _) => k) (filter (fun '(_, v) => match v with None => true | Some _ => false end) (rev (muts s)))) = true
                 <-> sd_get eqb (muts s) k = Ok None).
    { rewrite memb_in, (in_filter_rev (fun v => match v with None => true | Some _ => false end)). split.
      - intros ([v|] & I & F); [discriminate|]. now apply in_get.
      - intro E. exists None. split; auto. now apply get_in. }
    rewrite <- in_rev.
    destruct (sd_get eqb (muts s) k) as [[w|]|e] eqn:E.
    - split; [eauto|]. intros _. left. exists (Some w). split; auto. now apply get_in.
    - split.
      + intros [([v|] & I & F)|[_ H]]; try discriminate.
        * rewrite (in_get _ _ _ N I) in E. discriminate.
        * apply negb_true_iff, not_true_iff_false in H. exfalso. apply H, MD, eq_refl.
      + intros [v H]. discriminate.
    - rewrite get_key. split.
      + intros [(v & I & _)|[I _]]; auto. rewrite (in_get _ _ _ N I) in E. discriminate.
      + intro I. right. split; auto. apply negb_true_iff, not_true_iff_false. rewrite MD. discriminate.
  Qed.

  (** popitem removes some present item. *)
  Lemma popitem_some s D : RS s D ->
    match sh_popitem eqb s with
    | Ok ((k, v), s') => sh_get eqb s k = Ok v /\ RS s' (d_remove eq_dec D k)
    | Err e => e = KeyError /\ order D = []
    end.
  Proof.
    intro H. pose proof H as (N1 & N2 & [N OK] & G & L). unfold sh_popitem.
    destruct (sh_reversed eqb s) as [|k l] eqn:E.
    - split; auto. destruct (order D) as [|k l] eqn:O; auto. exfalso.
      assert (I : In k (k :: l)) by (cbn; auto). apply OK in I. rewrite G in I.
      destruct (sh_get eqb s k) as [v|e] eqn:Q; [|now apply I].
      assert (In k (sh_reversed eqb s)) by (apply reversed_in; eauto). rewrite E in H0. easy.
    - assert (I : In k (sh_reversed eqb s)) by (rewrite E; cbn; auto).
      apply reversed_in in I as [v Q]; auto. rewrite Q. cbn [bind].
      destruct (RS_del s D k v H Q) as (s' & -> & H'). cbn [bind]. auto.
  Qed.

  Lemma RS_empty s D : RS s D -> order D = [] -> RS s d_empty.
  Proof.
    intros (N1 & N2 & [N OK] & G & L) O. repeat split; auto; try (now cbn in *); try constructor.
    - intro k. cbn. rewrite <- G. specialize (OK k). rewrite O in OK. destruct (value D k); auto.
      destruct OK as [_ OK]. destruct OK. discriminate.
    - cbn. rewrite L, O. reflexivity.
  Qed.

  Lemma clear_ok n : forall s D, RS s D -> (length (order D) < n)%nat ->
    exists s', sh_clear eqb n s = Ok s' /\ RS s' d_empty.
  Proof.
    induction n as [|n IH]; intros s D H L; [lia|]. cbn [sh_clear].
    pose proof (popitem_some s D H) as P. destruct (sh_popitem eqb s) as [[[k v] s']|e].
    - destruct P as [Q P]. apply (IH s' _ P). pose proof H as (_ & _ & [N OK] & G & _). cbn.
      pose proof (remove_len (order D) k N) as RL.
      assert (In k (order D)) by (apply OK; rewrite G, Q; discriminate). specialize (RL H0). lia.
    - destruct P as [_ P]. exists s. split; auto. eapply RS_empty; eauto.
  Qed.

  Lemma sh_step_ok s D o : RS s D ->
    fst (sh_step eqb s o) = fst (d_step eq_dec D (DMap o)) /\ RS (snd (sh_step eqb s o)) (snd (d_step eq_dec D (DMap o))).
  Proof.
    intro H. pose proof H as (N1 & N2 & [N OK] & G & L).
    destruct o as [k|k| | |k v|k|k x|k v|l|]; cbn [sh_step d_step fst snd];
      try (rewrite G); try (destruct (sh_get eqb s k) as [w|e] eqn:E; cbn [opt]).
    - auto.
    - cbn. rewrite (sh_get_err _ _ _ E). auto.
    - unfold sh_contains. rewrite E. auto.
    - unfold sh_contains. rewrite E. auto.
    - unfold sh_len. now rewrite L.
    - unfold sh_bool. rewrite L. split; auto. now destruct (order D).
    - split; auto. now apply RS_set.
    - split; auto. now apply RS_set.
    - destruct (RS_del s D k w H E) as (s' & -> & R'). auto.
    - rewrite (del_missing _ _ _ E). auto.
    - unfold sh_pop. rewrite E. destruct (RS_del s D k w H E) as (s' & -> & R'). cbn [bind].
      assert (In k (order D)) by (apply OK; rewrite G, E; discriminate).
      replace (0 <? slen s) with true by (rewrite L; destruct (order D); [easy|cbn; lia]). auto.
    - unfold sh_pop. rewrite E. destruct (0 <? slen s); destruct x; auto.
    - unfold sh_setdefault. rewrite E. auto.
    - unfold sh_setdefault. rewrite E. cbn. split; auto. now apply RS_set.
    - split; auto. now apply RS_update.
    - destruct (clear_ok (S (Z.to_nat (slen s))) s D H ltac:(lia)) as (s' & -> & H'). auto.
  Qed.
  Theorem sh_run_ok : forall ops s D, RS s D ->
    fst (sh_run eqb s ops) = fst (d_run eq_dec D (map DMap ops))
    /\ RS (snd (sh_run eqb s ops)) (snd (d_run eq_dec D (map DMap ops))).
  Proof.
    induction ops as [|o ops IH]; intros s D H; [cbn; auto|]. cbn [sh_run map d_run].
    destruct (sh_step_ok s D o H) as [E H'].
    destruct (sh_step eqb s o) as [r s'], (d_step eq_dec D (DMap o)) as [r' D']. cbn [fst snd] in *. subst.
    destruct (IH s' D' H') as [E H2].
    destruct (sh_run eqb s' ops), (d_run eq_dec D' (map DMap ops)). cbn [fst snd] in *. subst. auto.
  Qed.

  (** *** Equality *)
  Section Eq.
    Variable veqb : V -> V -> bool.
    Hypothesis VEQ : forall x y, veqb x y = true <-> x = y.

    Lemma search_ok k v other : inner_search eqb veqb k v other = true <-> sd_get eqb other k = Ok v.
    Proof.
      induction other as [|[k0 w] other IH]; cbn; [split; discriminate|].
      destruct (eqb k0 k); cbn; auto. rewrite VEQ. split; congruence.
    Qed.
    Lemma eq_loop_ok items other : eq_loop eqb veqb items other = true <->
      Forall (fun '(k, v) => sd_get eqb other k = Ok v) items.
    Proof.
      induction items as [|[k v] items IH]; cbn; [intuition|].
      destruct (inner_search eqb veqb k v other) eqn:E.
      - apply search_ok in E. rewrite IH. split; [auto|]. now inversion 1.
      - split; [discriminate|]. inversion 1; subst. apply search_ok in H2. congruence.
    Qed.
    (** Two key-unique lists of equal length, the one inside the other. *)
    Lemma inclusion_eq (l1 l2 : list K) : NoDup l1 -> length l1 = length l2 -> incl l1 l2 -> incl l2 l1.
    Proof. intros. apply NoDup_length_incl; auto. lia. Qed.

    Lemma mapbase_eq_ok items other : NoDup (map fst items) -> NoDup (map fst other) ->
      mapbase_eq eqb veqb items other = true <-> forall k, opt (sd_get eqb items k) = opt (sd_get eqb other k).
    Proof.
      intros N1 N2. unfold mapbase_eq. split.
      - destruct (Nat.eqb _ _) eqn:E; [|discriminate]. apply Nat.eqb_eq in E. cbn [negb].
        rewrite eq_loop_ok, Forall_forall. intros F k.
        destruct (sd_get eqb items k) as [v|e] eqn:G.
        + apply get_in in G. apply F in G. now rewrite G.
        + cbn. symmetry. apply get_none.
          assert (NI : ~ In k (map fst items)) by (rewrite <- get_key; intros [v H]; congruence).
          intro I. apply NI. refine (inclusion_eq (map fst items) (map fst other) N1 _ _ k I); [now rewrite !map_length|].
          intros x X. apply in_map_iff in X as ([x' v] & <- & X). apply F in X. apply get_key. eauto.
      - intro F.
        assert (P : Permutation (map fst items) (map fst other)).
        { apply NoDup_Permutation; auto. intro k. rewrite <- !get_key. specialize (F k).
          destruct (sd_get eqb items k), (sd_get eqb other k); cbn in F; try discriminate; split; eauto;
            intros [v H]; discriminate. }
        apply Permutation_length in P. rewrite !map_length in P. rewrite P, Nat.eqb_refl. cbn [negb].
        apply eq_loop_ok, Forall_forall. intros [k v] I. specialize (F k).
        rewrite (in_get _ _ _ N1 I) in F. destruct (sd_get eqb other k); cbn in F; congruence.
    Qed.

    Lemma shell_loop_ok s other : shell_eq_loop eqb veqb s other = true <->
      Forall (fun '(k, v) => sh_get eqb s k = Ok v) other.
    Proof.
      induction other as [|[k v] other IH]; cbn; [intuition|].
      destruct (sh_get eqb s k) as [w|e] eqn:E.
      - destruct (veqb w v) eqn:Q; cbn.
        + apply VEQ in Q as ->. rewrite IH. split; [auto|]. now inversion 1.
        + split; [discriminate|]. inversion 1; subst. assert (w = v) as -> by congruence.
          rewrite (proj2 (VEQ v v)) in Q; auto.
      - split; [discriminate|]. inversion 1; subst. congruence.
    Qed.
    Lemma sh_eq_ok s D other : RS s D -> NoDup (map fst other) ->
      sh_eq eqb veqb s other = true <-> d_equal D (d_of eq_dec other).
    Proof.
      intros H N3. pose proof H as (N1 & N2 & [N OK] & G & L).
      destruct (R_init other N3) as (_ & O3 & G3). unfold d_equal.
      assert (E : (forall k, value D k = value (d_of eq_dec other) k) <->
                  forall k, opt (sh_get eqb s k) = opt (sd_get eqb other k)).
      { split; intros F k; specialize (F k); rewrite G3, G in *; auto. }
      rewrite E. unfold sh_eq. destruct (muts s) as [|m ms] eqn:M.
      - rewrite mapbase_eq_ok by auto. unfold sh_get. rewrite M. cbn. reflexivity.
      - split.
        + destruct (_ =? _) eqn:Q; [|discriminate]. cbn [negb]. rewrite shell_loop_ok, Forall_forall. intros F k.
          destruct (sd_get eqb other k) as [v|e] eqn:Gk.
          * apply get_in in Gk. apply F in Gk. now rewrite Gk.
          * cbn. destruct (sh_get eqb s k) as [v|] eqn:S1; auto. exfalso.
            assert (I : In k (order D)) by (apply OK; rewrite G, S1; discriminate).
            assert (J : In k (map fst other)).
            { refine (inclusion_eq (map fst other) (order D) N3 _ _ k I).
              - rewrite map_length. unfold sh_len in Q. lia.
              - intros x X. apply in_map_iff in X as ([x' v'] & <- & X). apply F in X. apply OK. cbn. rewrite G, X. discriminate. }
            rewrite <- get_key in J. destruct J as [w J]. congruence.
        + intro F.
          assert (P : Permutation (order D) (map fst other)).
          { apply NoDup_Permutation; auto. intro k. rewrite OK, G, <- get_key. rewrite F.
            destruct (sd_get eqb other k); cbn; split; try congruence; eauto. intros [v Hv]; discriminate. }
          apply Permutation_length in P. rewrite map_length in P. unfold sh_len. rewrite L, P, Z.eqb_refl. cbn [negb].
          apply shell_loop_ok, Forall_forall. intros [k v] I. specialize (F k).
          rewrite (in_get _ _ _ N3 I) in F. destruct (sh_get eqb s k); cbn in F; congruence.
    Qed.
  End Eq.

  (** *** Order, when only keys that are not in the inner mapping are set and none deleted *)
  Definition adds_only (l : list (K * V)) (o : mop K V) : Prop :=
    match o with
    | MSet k _ | MSetDefault k _ => ~ In k (map fst l)
    | MUpdate u => forall k, In k (map fst u) -> ~ In k (map fst l)
    | MGet _ | MContains _ | MLen | MBool => True
    | MDel _ | MPop _ _ | MClear => False
    end.
  (** the mutations are all additions of other keys *)
  Definition added s : Prop :=
    Forall (fun '(k, v) => v <> None /\ ~ In k (map fst (inner s))) (muts s).
  Definition RO s D : Prop := RS s D /\ added s /\ order D = map fst (inner s) ++ map fst (muts s).

  Lemma added_set s k v : added s -> ~ In k (map fst (inner s)) -> added (sh_set eqb s k v).
  Proof.
    unfold added. cbn. intros F N. induction (muts s) as [|[k0 w] l IH]; cbn.
    - constructor; auto. split; [discriminate|auto].
    - inversion F; subst. destruct (eqb k0 k); constructor; auto. split; [discriminate|]. apply H1.
  Qed.
  Lemma RO_set s D k v : RO s D -> ~ In k (map fst (inner s)) -> RO (sh_set eqb s k v) (d_set eq_dec D k v).
  Proof.
    intros (H & AD & O) N. split; [now apply RS_set|]. split; [now apply added_set|].
    cbn. rewrite keys_set, O. pose proof H as (_ & _ & _ & G & _). rewrite G. unfold sh_get.
    assert (sd_get eqb (inner s) k = Err KeyError) as ->.
    { destruct (sd_get eqb (inner s) k) as [x|e] eqn:E; [|now rewrite (get_err _ _ _ E)].
      exfalso. apply N. apply get_key. eauto. }
    destruct (sd_get eqb (muts s) k) as [[w|]|e] eqn:E; cbn; auto.
    - exfalso. apply get_in in E. unfold added in AD. rewrite Forall_forall in AD. now destruct (AD _ E).
    - now rewrite app_assoc.
  Qed.
  Lemma RO_update l : forall s D, RO s D -> (forall k, In k (map fst l) -> ~ In k (map fst (inner s))) ->
    RO (sh_update eqb s l) (d_update eq_dec D l).
  Proof.
    induction l as [|[k v] l IH]; intros s D H N; cbn; auto. apply IH.
    - apply RO_set; auto. apply N. cbn. auto.
    - intros k' I. apply N. cbn. auto.
  Qed.
  Lemma inner_update l : forall s, inner (sh_update eqb s l) = inner s.
  Proof. induction l as [|[k v] l IH]; intro s; [reflexivity|].
    change (inner (sh_update eqb (sh_set eqb s k v) l) = inner s). now rewrite IH. Qed.
  Lemma RO_step s D o : RO s D -> adds_only (inner s) o ->
    RO (snd (sh_step eqb s o)) (snd (d_step eq_dec D (DMap o))) /\ inner (snd (sh_step eqb s o)) = inner s.
  Proof.
    intros H AO. pose proof H as (HS & AD & O). pose proof HS as (_ & _ & _ & G & _).
    destruct o as [k|k| | |k v|k|k x|k v|l|]; cbn [sh_step d_step snd adds_only] in *; try tauto.
    - split; auto. now apply RO_set.
    - unfold sh_setdefault. rewrite G. destruct (sh_get eqb s k); cbn; auto. split; auto. now apply RO_set.
    - split; [now apply RO_update|apply inner_update].
  Qed.
  Lemma RO_run : forall ops s D, RO s D -> Forall (adds_only (inner s)) ops ->
    RO (snd (sh_run eqb s ops)) (snd (d_run eq_dec D (map DMap ops))).
  Proof.
    induction ops as [|o ops IH]; intros s D H F; [auto|]. cbn [sh_run map d_run]. inversion F; subst.
    destruct (RO_step s D o H H2) as [H' E].
    destruct (sh_step eqb s o) as [r s'], (d_step eq_dec D (DMap o)) as [r' D']. cbn [snd] in *.
    rewrite <- E in H3. specialize (IH s' D' H' H3).
    destruct (sh_run eqb s' ops), (d_run eq_dec D' (map DMap ops)). auto.
  Qed.
  Lemma filter_all {B} (f : B -> bool) l : (forall x, In x l -> f x = true) -> filter f l = l.
  Proof. induction l; cbn; intro H; auto. rewrite H; auto. f_equal. auto. Qed.
  Lemma filter_none {B} (f : B -> bool) l : (forall x, In x l -> f x = false) -> filter f l = [].
  Proof. induction l; cbn; intro H; auto. rewrite H; auto. Qed.
  Lemma fst_eta {W} (l : list (K * W)) : map (fun '(k, v) => k) l = map fst l.
  Proof. apply map_ext. now intros []. Qed.
  Lemma RO_iter s D : RO s D -> sh_iter eqb s = order D /\ sh_reversed eqb s = rev (order D).
  Proof.
    intros (H & AD & O). unfold added in AD. rewrite Forall_forall in AD. unfold sh_iter, sh_reversed. rewrite O, !iter_fst, !fst_eta.
    rewrite filter_all. 2:{ intros k I. apply negb_true_iff, not_true_iff_false. rewrite memb_in. intro J.
      apply in_map_iff in J as ([k' v] & <- & J). apply AD in J. now apply J. }
    rewrite (filter_all _ (muts s)). 2:{ intros [k v] I. apply AD in I. destruct v; tauto. }
    split; auto. rewrite rev_app_distr, reversed_fst. 
    rewrite (filter_all _ (rev (muts s))). 2:{ intros [k v] I. apply in_rev in I. apply AD in I. destruct v; tauto. }
    rewrite (filter_none _ (rev (muts s))). 2:{ intros [k v] I. apply in_rev in I. apply AD in I. destruct v; tauto. }
    cbn [map]. f_equal; [apply map_rev|].  apply filter_all. auto.
  Qed.
  Lemma RO_init l : NoDup (map fst l) -> RO (sh_init l) (d_of eq_dec l).
  Proof.
    intro N. split; [now apply RS_init|]. split; [constructor|]. cbn. rewrite app_nil_r.
    now destruct (R_init l N) as (_ & O & _).
  Qed.

  (** *** Copies *)
  Lemma copy_lookup s k : sh_get eqb (sh_copy s) k = sh_get eqb s k.
  Proof. reflexivity. Qed.
  Lemma copy_iter s : sh_iter eqb (sh_copy s) = sh_iter eqb s.
  Proof. reflexivity. Qed.
  Lemma copy_fresh l : RS (sh_copy (sh_init l)) (d_of eq_dec l) <-> RS (sh_init l) (d_of eq_dec l).
  Proof. reflexivity. Qed.
End SD.
