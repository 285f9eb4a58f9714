From Coq Require Import ZArith List Bool Lia Permutation.
From Coq Require Import ZifyBool ZifyNat.
From Verif Require Import Py Set_Model Set_Spec.
Import ListNotations.
Open Scope Z_scope.

Section P.
  Context {A : Type} (eqb : A -> A -> bool) (eq_dec : forall x y : A, {x = y} + {x <> y}).
  Hypothesis EQ : forall x y, eqb x y = true <-> x = y.
  Notation heap := (list (fset A)).
  Implicit Types (s t : fset A) (h : heap).

  Lemma eqb_refl x : eqb x x = true. Proof. now apply EQ. Qed.
  Lemma memb_in x l : memb eqb x l = true <-> In x l.
  Proof.
    unfold memb. rewrite existsb_exists. split.
    - intros (y & I & E). apply EQ in E. now subst.
    - intro. exists x. split; auto. apply eqb_refl.
  Qed.
  Lemma memb_of x l : memb eqb x l = of_list eq_dec l x.
  Proof.
    unfold of_list. destruct (in_dec eq_dec x l) as [I|I]; [now apply memb_in|].
    apply not_true_is_false. now rewrite memb_in.
  Qed.

  (** What a set without references contains *)
  Fixpoint mem (s : fset A) (x : A) : bool :=
    match s with
    | FLin l => memb eqb x l
    | FSing y => eqb x y
    | FEmpty | FRef _ => false
    | FComb o a b => lop_fn o (mem a x) (mem b x)
    end.
  Lemma contains_ok fuel h s x : ok s -> contains eqb fuel h s x = Ok (mem s x).
  Proof.
    intro H. induction s; destruct fuel; cbn in *; try easy;
      destruct H as [H1 H2]; specialize (IHs1 H1); specialize (IHs2 H2); cbn in *;
      rewrite IHs1; cbn [bind]; rewrite IHs2; reflexivity.
  Qed.

  Lemma filterM_ok (f : A -> res bool) (g : A -> bool) l :
    (forall x, f x = Ok (g x)) -> filterM f l = Ok (filter g l).
  Proof.
    intro H. induction l as [|x l IH]; cbn; auto. rewrite H, IH. cbn. now destruct (g x).
  Qed.
  Lemma nodup_app (l1 l2 : list A) : NoDup l1 -> NoDup l2 -> (forall x, In x l1 -> ~ In x l2) -> NoDup (l1 ++ l2).
  Proof.
    induction 1 as [|x l1 NI N IH]; cbn; auto. intros N2 D. constructor.
    - rewrite in_app_iff. intros [H|H]; [auto|]. exact (D x (or_introl eq_refl) H).
    - apply IH; auto.
  Qed.
  Lemma iter_ok fuel h s : ok s -> exists l, iter eqb fuel h s = Ok l /\ lists (mem s) l.
  Proof.
    intro H. induction s as [l|y| |o a IHa b IHb|n].
    - exists l. split; [now destruct fuel|]. split; auto. intro x. cbn. symmetry. apply memb_in.
    - exists [y]. split; [now destruct fuel|]. split; [repeat constructor; auto|]. intro x. cbn. rewrite EQ. intuition.
    - exists []. split; [now destruct fuel|]. split; [constructor|]. cbn. intuition discriminate.
    - destruct H as [Ha Hb]. destruct (IHa Ha) as (la & Ea & Na & La), (IHb Hb) as (lb & Eb & Nb & Lb).
      exists (filter (fun x => lop_fn o true (mem b x)) la
              ++ filter (fun x => if mem a x then false else lop_fn o (mem a x) true) lb). split.
      + assert (E : iter eqb fuel h (FComb o a b) =
          (do la <- iter eqb fuel h a;
          do ra <- filterM (fun x => do inb <- contains eqb fuel h b x; Ok (lop_fn o true inb)) la;
          do lb <- iter eqb fuel h b;
          do rb <- filterM (fun x => do ina <- contains eqb fuel h a x;
                                     Ok (if ina then false else lop_fn o ina true)) lb;
          Ok (ra ++ rb))) by (destruct fuel; reflexivity).
        rewrite E, Ea. cbn [bind].
        rewrite (filterM_ok _ (fun x => lop_fn o true (mem b x))) by (intro x; now rewrite contains_ok).
        cbn [bind]. rewrite Eb. cbn [bind].
        rewrite (filterM_ok _ (fun x => if mem a x then false else lop_fn o (mem a x) true))
          by (intro x; now rewrite contains_ok). reflexivity.
      + split.
        * apply nodup_app; try now apply NoDup_filter. intros x I J.
          apply filter_In in I as [I _]. apply filter_In in J as [_ J]. apply La in I. now rewrite I in J.
        * intro x. rewrite in_app_iff, !filter_In, La, Lb. cbn.
          destruct (mem a x), (mem b x); cbn; intuition; destruct o; discriminate.
    - destruct H.
  Qed.

  Lemma uniq_ok l : NoDup (uniq eqb l) /\ forall x, In x (uniq eqb l) <-> In x l.
  Proof.
    unfold uniq. assert (H : forall l acc, NoDup acc ->
      NoDup (fold_left (fun accepted item => if memb eqb item accepted then accepted else accepted ++ [item]) l acc)
      /\ forall x, In x (fold_left (fun accepted item => if memb eqb item accepted then accepted else accepted ++ [item]) l acc)
                   <-> In x acc \/ In x l).
    { clear l. induction l as [|y l IH]; intros acc N; cbn; [intuition|].
      destruct (memb eqb y acc) eqn:M.
      - apply memb_in in M. destruct (IH acc N) as [N' H]. split; auto. intro x. rewrite H. intuition. now subst; left.
      - assert (NI : ~ In y acc) by (rewrite <- memb_in; congruence).
        assert (N2 : NoDup (acc ++ [y])).
        { apply nodup_app; auto; [repeat constructor; auto|]. intros x I [<-|[]]. auto. }
        destruct (IH _ N2) as [N' H]. split; auto. intro x. rewrite H, in_app_iff. cbn. intuition. }
    destruct (H l [] (NoDup_nil _)) as [N I]. split; auto. intro x. rewrite I. cbn. intuition.
  Qed.
  Lemma lists_len p (l l' : list A) : lists p l -> lists p l' -> length l = length l'.
  Proof.
    intros [N H] [N' H']. apply Permutation_length, NoDup_Permutation; auto. intro x. now rewrite H, H'.
  Qed.
  Lemma ok_uniq l : ok (FLin (uniq eqb l)). Proof. apply uniq_ok. Qed.
  Lemma mem_uniq l x : mem (FLin (uniq eqb l)) x = of_list eq_dec l x.
  Proof.
    cbn. rewrite memb_of. unfold of_list. destruct (uniq_ok l) as [_ H].
    destruct (in_dec eq_dec x (uniq eqb l)) as [I|I], (in_dec eq_dec x l) as [J|J]; auto; exfalso; firstorder.
  Qed.
  Lemma bool_ext (a b : bool) : (a = true <-> b = true) -> a = b.
  Proof. destruct a, b; intuition congruence. Qed.

  (** *** abc.Set operations *)
  Definition den (r : res (fset A)) (p : A -> bool) : Prop :=
    exists s, r = Ok s /\ ok s /\ forall x, mem s x = p x.
  Lemma abc_sub_ok fuel h a b : ok a -> ok b -> den (abc_sub eqb fuel h a b) (fun x => mem a x && negb (mem b x)).
  Proof.
    intros Ha Hb. unfold abc_sub. destruct (iter_ok fuel h a Ha) as (l & -> & N & L). cbn [bind].
    rewrite (filterM_ok _ (fun x => negb (mem b x))) by (intro; now rewrite contains_ok). cbn [bind].
    eexists. split; [reflexivity|]. split; [apply ok_uniq|]. intro x. apply bool_ext.
    rewrite mem_uniq, <- memb_of, memb_in, filter_In, L. destruct (mem a x), (mem b x); cbn; intuition.
  Qed.
  Lemma abc_and_ok fuel h a b : ok a -> ok b -> den (abc_and eqb fuel h a b) (fun x => mem a x && mem b x).
  Proof.
    intros Ha Hb. unfold abc_and. destruct (iter_ok fuel h b Hb) as (l & -> & N & L). cbn [bind].
    rewrite (filterM_ok _ (fun x => mem a x)) by (intro; now rewrite contains_ok). cbn [bind].
    eexists. split; [reflexivity|]. split; [apply ok_uniq|]. intro x. apply bool_ext.
    rewrite mem_uniq, <- memb_of, memb_in, filter_In, L. destruct (mem a x), (mem b x); cbn; intuition.
  Qed.
  Lemma abc_or_ok fuel h a b : ok a -> ok b -> den (abc_or eqb fuel h a b) (fun x => mem a x || mem b x).
  Proof.
    intros Ha Hb. unfold abc_or. destruct (iter_ok fuel h a Ha) as (l & -> & N & L). cbn [bind].
    destruct (iter_ok fuel h b Hb) as (l' & -> & N' & L'). cbn [bind].
    eexists. split; [reflexivity|]. split; [apply ok_uniq|]. intro x. apply bool_ext.
    rewrite mem_uniq, <- memb_of, memb_in, in_app_iff, L, L'. destruct (mem a x), (mem b x); cbn; intuition.
  Qed.
  Lemma abc_xor_ok fuel h a b : ok a -> ok b -> den (abc_xor eqb fuel h a b) (fun x => xorb (mem a x) (mem b x)).
  Proof.
    intros Ha Hb. unfold abc_xor.
    destruct (abc_sub_ok fuel h a b Ha Hb) as (u & -> & Hu & Mu). cbn [bind].
    destruct (abc_sub_ok fuel h b a Hb Ha) as (v & -> & Hv & Mv). cbn [bind].
    destruct (abc_or_ok fuel h u v Hu Hv) as (w & -> & Hw & Mw). exists w. split; auto. split; auto.
    intro x. rewrite Mw, Mu, Mv. now destruct (mem a x), (mem b x).
  Qed.

  (** A set given as a value, or by one reference to a reference-free object *)
  Definition through h (s t : fset A) : Prop := ok t /\ (s = t \/ exists n, s = FRef n /\ nth_error h n = Some t).
  Lemma through_contains f h s t x : through h s t -> contains eqb (S f) h s x = Ok (mem t x).
  Proof.
    intros [H [->|(n & -> & E)]]; [now apply contains_ok|]. cbn. rewrite E. now apply contains_ok.
  Qed.
  Lemma through_iter f h s t : through h s t -> exists l, iter eqb (S f) h s = Ok l /\ lists (mem t) l.
  Proof.
    intros [H [->|(n & -> & E)]]; [now apply iter_ok|]. cbn. rewrite E. now apply iter_ok.
  Qed.
  Lemma through_self h s : ok s -> through h s s. Proof. intro; split; auto. Qed.
  Lemma all_in_ok f h l s t : through h s t ->
    exists b, all_in eqb (S f) h l s = Ok b /\ (b = true <-> forall x, In x l -> mem t x = true).
  Proof.
    intro H. induction l as [|y l (b & E & S1)]; cbn [all_in].
    - exists true. split; auto. split; [easy|auto].
    - rewrite (through_contains f h s t y H). cbn [bind]. destruct (mem t y) eqn:M.
      + exists b. split; auto. rewrite S1. cbn. split; intros Q x.
        * intros [<-|I]; auto.
        * auto.
      + exists false. split; auto. split; [discriminate|]. intro Q. specialize (Q y (or_introl eq_refl)). congruence.
  Qed.

  Lemma le_len p q (l l' : list A) : lists p l -> lists q l' -> subset p q -> (length l <= length l')%nat.
  Proof. intros [N H] [N' H'] S1. apply NoDup_incl_length; auto. intros x I. apply H', S1, H, I. Qed.
  Lemma ge_len p q (l l' : list A) : lists p l -> lists q l' -> subset p q -> (length l' <= length l)%nat -> subset q p.
  Proof.
    intros [N H] [N' H'] S1 L x Q. apply H. apply (NoDup_length_incl (l := l) (l' := l')); auto.
    - intros y I. apply H', S1, H, I.
    - apply H', Q.
  Qed.

  Section Cmp.
    Variables (f : nat) (h : heap) (s s' t t' : fset A).
    Hypothesis (HS : through h s s') (HT : through h t t').
    Let P := mem s'. Let Q := mem t'.
    Lemma abc_le_ok : exists b, abc_le eqb (S f) h s t = Ok b /\ says b (subset P Q).
    Proof.
      unfold abc_le, len. destruct (through_iter f h s s' HS) as (l & -> & L). cbn [bind].
      destruct (through_iter f h t t' HT) as (m & -> & M). cbn [bind].
      destruct (Z.of_nat (length m) <? Z.of_nat (length l)) eqn:C.
      - exists false. split; auto. split; [discriminate|]. intro S1.
        pose proof (le_len _ _ _ _ L M S1). lia.
      - destruct (all_in_ok f h l t t' HT) as (b & -> & B). exists b. split; auto. unfold says. rewrite B.
        destruct L as [_ L]. unfold subset. split; intros W x X; apply W; now apply L.
    Qed.
    Lemma abc_ge_ok : exists b, abc_ge eqb (S f) h s t = Ok b /\ says b (subset Q P).
    Proof.
      unfold abc_ge, len. destruct (through_iter f h s s' HS) as (l & -> & L). cbn [bind].
      destruct (through_iter f h t t' HT) as (m & -> & M). cbn [bind].
      destruct (Z.of_nat (length l) <? Z.of_nat (length m)) eqn:C.
      - exists false. split; auto. split; [discriminate|]. intro S1.
        pose proof (le_len _ _ _ _ M L S1). lia.
      - destruct (all_in_ok f h m s s' HS) as (b & -> & B). exists b. split; auto. unfold says. rewrite B.
        destruct M as [_ M]. unfold subset. split; intros W x X; apply W; now apply M.
    Qed.
    Lemma abc_lt_ok : exists b, abc_lt eqb (S f) h s t = Ok b /\ says b (subset P Q /\ ~ subset Q P).
    Proof.
      destruct abc_le_ok as (b & E & B). unfold abc_lt, len. destruct (through_iter f h s s' HS) as (l & -> & L). cbn [bind].
      destruct (through_iter f h t t' HT) as (m & -> & M). cbn [bind].
      destruct (Z.of_nat (length l) <? Z.of_nat (length m)) eqn:C.
      - exists b. split; auto. split.
        + intro X. apply B in X. split; auto. intro Y. pose proof (le_len _ _ _ _ M L Y). lia.
        + intros [X _]. now apply B.
      - exists false. split; auto. split; [discriminate|]. intros [X Y]. exfalso. apply Y.
        apply (ge_len _ _ _ _ L M X). lia.
    Qed.
    Lemma abc_gt_ok : exists b, abc_gt eqb (S f) h s t = Ok b /\ says b (subset Q P /\ ~ subset P Q).
    Proof.
      destruct abc_ge_ok as (b & E & B). unfold abc_gt, len. destruct (through_iter f h s s' HS) as (l & -> & L). cbn [bind].
      destruct (through_iter f h t t' HT) as (m & -> & M). cbn [bind].
      destruct (Z.of_nat (length m) <? Z.of_nat (length l)) eqn:C.
      - exists b. split; auto. split.
        + intro X. apply B in X. split; auto. intro Y. pose proof (le_len _ _ _ _ L M Y). lia.
        + intros [X _]. now apply B.
      - exists false. split; auto. split; [discriminate|]. intros [X Y]. exfalso. apply Y.
        apply (ge_len _ _ _ _ M L X). lia.
    Qed.
    Lemma abc_eq_ok : exists b, abc_eq eqb (S f) h s t = Ok b /\ says b (forall x, P x = Q x).
    Proof.
      destruct abc_le_ok as (b & E & B). unfold abc_eq, len. destruct (through_iter f h s s' HS) as (l & -> & L). cbn [bind].
      destruct (through_iter f h t t' HT) as (m & -> & M). cbn [bind].
      destruct (Z.of_nat (length l) =? Z.of_nat (length m)) eqn:C.
      - exists b. split; auto. split.
        + intros X x. apply B in X. assert (Y : subset Q P) by (apply (ge_len _ _ _ _ L M X); lia).
          apply bool_ext. split; auto.
        + intro X. apply B. intros x Y. now rewrite <- X.
      - exists false. split; auto. split; [discriminate|]. intro X.
        assert (lists P m) by (destruct M as [N M]; split; auto; intro; rewrite M; now rewrite X).
        pose proof (lists_len _ _ _ L H). lia.
    Qed.
  End Cmp.

  (** *** Histories *)
  Definition good h : Prop := Forall ok h.
  Definition abs h : world := map mem h.

  Definition args_ok h (a : sarg A) : Prop :=
    match a with ASet n => (n < length h)%nat | AFrozen l => NoDup l | AIter _ => True end.
  Lemma good_nth h n s : good h -> nth_error h n = Some s -> ok s.
  Proof. intros G E. unfold good in G. rewrite Forall_forall in G. apply G. eapply nth_error_In; eauto. Qed.
  Lemma nth_ex h n : (n < length h)%nat -> exists s, nth_error h n = Some s.
  Proof. intro H. destruct (nth_error h n) eqn:E; eauto. apply nth_error_None in E. exfalso. apply (Nat.lt_irrefl n). eapply Nat.lt_le_trans; eauto. Qed.
  Lemma set_nth_len h : forall n s, length (set_nth h n s) = length h.
  Proof. induction h as [|x h IH]; intros [|n] s; cbn; auto. Qed.
  Lemma set_nth_nth h : forall n s m, (n < length h)%nat ->
    nth_error (set_nth h n s) m = if Nat.eq_dec m n then Some s else nth_error h m.
  Proof.
    induction h as [|x h IH]; intros [|n] s [|m]; cbn [length set_nth nth_error]; intro L; try lia;
      [reflexivity|reflexivity|reflexivity|].
    rewrite IH by lia. destruct (Nat.eq_dec m n), (Nat.eq_dec (S m) (S n)); auto; lia.
  Qed.
  Lemma good_set h n s : good h -> ok s -> good (set_nth h n s).
  Proof.
    unfold good. intros G. revert n. induction G as [|x h Hx G IH]; intros [|n] H; cbn; constructor; auto.
  Qed.
  Lemma upd_set h n s p : (n < length h)%nat -> (forall x, mem s x = p x) -> upd (abs h) n p (abs (set_nth h n s)).
  Proof.
    intros L H. unfold upd, abs. rewrite !map_length, set_nth_len. split; auto. intros m q.
    rewrite !nth_error_map, set_nth_nth by auto. destruct (Nat.eq_dec m n); cbn; intro E; auto.
    injection E as <-. auto.
  Qed.
  Lemma created_new h s p : (forall x, mem s x = p x) -> created (abs h) p (fst (new h s)) (abs (snd (new h s))).
  Proof.
    intro H. unfold created, new, abs. cbn. rewrite map_length, map_app. split; auto. exists (mem s). auto.
  Qed.
  Lemma force_ok h a : good h -> args_ok h a -> exists t, force eqb h a = Ok t /\ ok t /\
    exists q, p_arg eq_dec (abs h) a q /\ forall x, mem t x = q x.
  Proof.
    intros G H. destruct a as [n|l|l]; cbn in *.
    - destruct (nth_ex h n H) as [s E]. rewrite E. exists s. split; auto. split; [eapply good_nth; eauto|].
      exists (mem s). unfold abs. rewrite nth_error_map, E. auto.
    - exists (FLin l). split; auto. split; auto. eexists. split; [reflexivity|]. intro. apply memb_of.
    - eexists. split; [reflexivity|]. split; [apply ok_uniq|]. eexists. split; [reflexivity|]. apply mem_uniq.
  Qed.
  Lemma lop_p_op o (p q : A -> bool) x : lop_fn o (p x) (q x) = p_op o p q x.
  Proof. unfold p_op. destruct o; cbn; auto. now destruct (p x), (q x). Qed.
  Lemma fold_ok o h l : good h -> Forall (args_ok h) l -> forall s p, ok s -> (forall x, mem s x = p x) ->
    exists t q, fold_meth eqb o h s l = Ok t /\ ok t /\ (forall x, mem t x = q x) /\ p_fold eq_dec (abs h) o p l q.
  Proof.
    intros G. induction 1 as [|a l Ha Hl IH]; intros s p Hs Hp.
    - exists s, p. split; auto. split; auto. split; auto. constructor.
    - destruct (force_ok h a G Ha) as (t & E & Ht & q & Q & Hq).
      destruct (IH (FComb o s t) (p_op o p q)) as (u & r & Eu & Hu & Hr & F).
      + cbn. auto.
      + intro x. cbn. rewrite Hp, Hq. apply lop_p_op.
      + exists u, r. split; [|split; [auto|split; [auto|econstructor; eauto]]].
        unfold fold_meth in *. cbn [fold_left bind]. rewrite E. cbn [bind]. exact Eu.
  Qed.

  Lemma step_ok f h o : good h -> no_alias o -> Forall (args_ok h) (objs o) ->
    let '(r, h') := step eqb (S f) h o in
    good h' /\ spec_step eq_dec (abs h) o r (abs h')
    /\ length h' = (if creates o then S (length h) else length h).
  Proof.
    intros G NA OA.
    assert (GET : forall n, args_ok h (ASet n) -> exists s, get h n = Ok s /\ ok s /\ nth_error h n = Some s
                       /\ nth_error (abs h) n = Some (mem s) /\ (n < length h)%nat).
    { intros n H. cbn in H. destruct (nth_ex h n H) as [s E]. exists s. unfold get, abs. rewrite nth_error_map, E.
      repeat split; auto. eapply good_nth; eauto. }
    assert (APP : forall s, ok s -> good (h ++ [s]) /\ length (h ++ [s]) = S (length h)).
    { intros s Hs. split; [apply Forall_app; split; auto|]. rewrite app_length. cbn. lia. }
    destruct o as [l|n|n x|n|n|n|n x|n x|n x|n|n|o n a|o n a|n l|o n a|o l n|o n l|c n a|n a|n a|n a];
      cbn [objs] in OA; cbn [step].
    - destruct (APP _ (ok_uniq l)). split; [auto|]. split; [|auto]. cbn [spec_step]. apply created_new. apply mem_uniq.
    - inversion OA; subst. destruct (GET n H1) as (s & E & Hs & En & Ew & L). rewrite E. cbn [ret bind].
      destruct (APP _ Hs). split; [auto|]. split; [|auto]. cbn [spec_step]. exists (mem s). split; auto. now apply created_new.
    - inversion OA; subst. destruct (GET n H1) as (s & E & Hs & En & Ew & L). rewrite E. cbn [ret bind].
      rewrite contains_ok by auto. cbn [ret bind]. split; [auto|]. split; [|auto]. cbn [spec_step]. exists (mem s). auto.
    - inversion OA; subst. destruct (GET n H1) as (s & E & Hs & En & Ew & L). rewrite E. cbn [ret bind]. unfold len.
      destruct (iter_ok (S f) h s Hs) as (l & -> & I). cbn [ret bind]. split; [auto|]. split; [|auto]. exists (mem s), l. auto.
    - inversion OA; subst. destruct (GET n H1) as (s & E & Hs & En & Ew & L). rewrite E. cbn [ret bind]. unfold truth.
      destruct (iter_ok (S f) h s Hs) as (l & -> & I). cbn [ret bind]. split; [auto|]. split; [|auto].
      exists (mem s). eexists. split; [auto|]. split; [|split; reflexivity]. destruct I as [_ I]. destruct l as [|x l].
      + split; [discriminate|]. intros [x X]. apply I in X. easy.
      + split; auto. intros _. exists x. apply I. cbn; auto.
    - inversion OA; subst. destruct (GET n H1) as (s & E & Hs & En & Ew & L). rewrite E. cbn [ret bind].
      destruct (iter_ok (S f) h s Hs) as (l & -> & I). cbn [ret bind]. split; [auto|]. split; [|auto]. exists (mem s), l. auto.
    - inversion OA; subst. destruct (GET n H1) as (s & E & Hs & En & Ew & L). rewrite E. cbn [ret bind].
      split; [apply good_set; auto; cbn; auto|]. split; [|apply set_nth_len]. cbn [spec_step]. exists (mem s). split; auto. split; auto. apply upd_set; auto.
      intro y. cbn. destruct (eq_dec y x) as [->|N]; [rewrite eqb_refl; apply orb_true_r|].
      rewrite <- EQ in N. apply not_true_is_false in N. rewrite N. apply orb_false_r.
    - inversion OA; subst. destruct (GET n H1) as (s & E & Hs & En & Ew & L). unfold discard. rewrite E. cbn [ret bind].
      split; [apply good_set; auto; cbn; auto|]. split; [|apply set_nth_len]. cbn [spec_step]. exists (mem s). split; auto. split; auto. apply upd_set; auto.
      intro y. cbn. destruct (eq_dec y x) as [->|N]; [rewrite eqb_refl; apply andb_false_r|].
      rewrite <- EQ in N. apply not_true_is_false in N. rewrite N. apply andb_true_r.
    - inversion OA; subst. destruct (GET n H1) as (s & E & Hs & En & Ew & L). unfold remove, discard. rewrite E. cbn [ret bind].
      rewrite contains_ok by auto. cbn [bind]. destruct (mem s x) eqn:M; cbn [ret bind].
      + split; [apply good_set; auto; cbn; auto|]. split; [|apply set_nth_len]. cbn [spec_step]. exists (mem s). split; auto. rewrite M. split; auto. apply upd_set; auto.
        intro y. cbn. destruct (eq_dec y x) as [->|N]; [rewrite eqb_refl; apply andb_false_r|].
        rewrite <- EQ in N. apply not_true_is_false in N. rewrite N. apply andb_true_r.
      + split; [auto|]. split; [|auto]. cbn [spec_step]. exists (mem s). rewrite M. auto.
    - inversion OA; subst. destruct (GET n H1) as (s & E & Hs & En & Ew & L). rewrite E. cbn [ret bind].
      destruct (iter_ok (S f) h s Hs) as (l & -> & I). cbn [ret bind]. destruct I as [_ I]. destruct l as [|x l]; cbn [ret bind].
      + split; [auto|]. split; [|auto]. cbn [spec_step]. exists (mem s). split; auto. left. split; auto. split; auto.
        intro x. apply not_true_is_false. rewrite <- I. easy.
      + assert (M : mem s x = true) by (apply I; cbn; auto). unfold remove, discard. rewrite E. cbn [bind].
        rewrite contains_ok by auto. cbn [bind]. rewrite M. cbn [ret bind].
        split; [apply good_set; auto; cbn; auto|]. split; [|apply set_nth_len]. cbn [spec_step]. exists (mem s). split; auto. right. exists x. split; auto. split; auto. apply upd_set; auto.
        intro y. cbn. destruct (eq_dec y x) as [->|N]; [rewrite eqb_refl; apply andb_false_r|].
        rewrite <- EQ in N. apply not_true_is_false in N. rewrite N. apply andb_true_r.
    - inversion OA; subst. destruct (GET n H1) as (s & E & Hs & En & Ew & L). rewrite E. cbn [ret bind].
      split; [apply good_set; auto; cbn; constructor|]. split; [|apply set_nth_len]. cbn [spec_step]. exists (mem s). split; auto. split; auto. apply upd_set; auto.
    - inversion OA; subst. inversion H2; subst. destruct (GET n H1) as (s & E & Hs & En & Ew & L).
      destruct a as [m|l|l]; cbn [is_set]; [| |cbn; auto].
      + destruct (force_ok h (ASet m) G H3) as (t & -> & Ht & q & Q & Hq). rewrite E. cbn [ret bind].
        split; [apply good_set; auto; cbn; auto|]. split; [|apply set_nth_len]. cbn [spec_step]. exists (mem s), q. split; auto. split; auto. split; auto. apply upd_set; auto.
        intro x. cbn. rewrite Hq. apply lop_p_op.
      + destruct (force_ok h (AFrozen l) G H3) as (t & -> & Ht & q & Q & Hq). rewrite E. cbn [ret bind].
        split; [apply good_set; auto; cbn; auto|]. split; [|apply set_nth_len]. cbn [spec_step]. exists (mem s), q. split; auto. split; auto. split; auto. apply upd_set; auto.
        intro x. cbn. rewrite Hq. apply lop_p_op.
    - inversion OA; subst. inversion H2; subst. destruct (GET n H1) as (s & E & Hs & En & Ew & L). rewrite E. cbn [ret bind].
      unfold inner_op. destruct (force_ok h a G H3) as (t & -> & Ht & q & Q & Hq). cbn [bind].
      assert (D : den (match o with LOr => Ok (FComb LOr s t) | LAnd => abc_and eqb (S f) h s t | LXor => abc_xor eqb (S f) h s t
                       | LSub => abc_sub eqb (S f) h s t | LRsub => abc_sub eqb (S f) h t s end) (p_op o (mem s) q)).
      { assert (X : forall p', (forall x, p' x = lop_fn o (mem s x) (mem t x)) -> forall x, p' x = p_op o (mem s) q x).
        { intros p' Hp x. rewrite Hp, Hq. apply lop_p_op. }
        destruct o; [| destruct (abc_and_ok (S f) h s t Hs Ht) as (u & -> & Hu & Mu)
          | destruct (abc_xor_ok (S f) h s t Hs Ht) as (u & -> & Hu & Mu)
          | destruct (abc_sub_ok (S f) h s t Hs Ht) as (u & -> & Hu & Mu)
          | destruct (abc_sub_ok (S f) h t s Ht Hs) as (u & -> & Hu & Mu)].
        - eexists. split; [reflexivity|]. split; [cbn; auto|]. apply X. reflexivity.
        - exists u. auto.
        - exists u. auto.
        - exists u. auto.
        - exists u. auto. }
      destruct D as (u & -> & Hu & Mu). cbn [ret bind].
      split; [apply good_set; auto|]. split; [|apply set_nth_len]. cbn [spec_step]. exists (mem s), q. split; auto. split; auto. split; auto. apply upd_set; auto.
    - inversion OA; subst. destruct (GET n H1) as (s & E & Hs & En & Ew & L). rewrite E. cbn [ret bind].
      destruct (fold_ok LOr h l G H2 s (mem s) Hs) as (t & q & -> & Ht & Hq & F); auto. cbn [ret bind].
      split; [apply good_set; auto|]. split; [|apply set_nth_len]. cbn [spec_step]. exists (mem s), q. split; auto. split; auto. split; auto. apply upd_set; auto.
    - inversion OA; subst. inversion H2; subst. destruct (GET n H1) as (s & E & Hs & En & Ew & L).
      destruct a as [m|l|l]; cbn [is_set]; [| |cbn; auto].
      + assert (OP : operand eqb o h (ASet m) = force eqb h (ASet m)) by (destruct o; try reflexivity; destruct NA).
        destruct (force_ok h (ASet m) G H3) as (t & FE & Ht & q & Q & Hq). rewrite E. cbn [ret bind].
        rewrite OP, FE. cbn [ret bind]. destruct (APP (FComb o s t)) as [G' L']; [cbn; auto|].
        split; [exact G'|]. split; [|destruct o; exact L']. cbn [spec_step]. exists (mem s), q. split; auto. split; auto. apply created_new.
        intro x. cbn. rewrite Hq. apply lop_p_op.
      + assert (OP : operand eqb o h (AFrozen l) = force eqb h (AFrozen l)) by (destruct o; reflexivity).
        destruct (force_ok h (AFrozen l) G H3) as (t & FE & Ht & q & Q & Hq). rewrite E. cbn [ret bind].
        rewrite OP, FE. cbn [ret bind]. destruct (APP (FComb o s t)) as [G' L']; [cbn; auto|].
        split; [exact G'|]. split; [|destruct o; exact L']. cbn [spec_step]. exists (mem s), q. split; auto. split; auto. apply created_new.
        intro x. cbn. rewrite Hq. apply lop_p_op.
    - inversion OA; subst. inversion H2; subst. destruct (GET n H1) as (s & E & Hs & En & Ew & L). rewrite E. cbn [ret bind].
      match goal with |- context [new h ?s'] => destruct (APP s') as [G' L']; [cbn; auto|] end.
      split; [exact G'|]. split; [|exact L']. cbn [spec_step]. exists (mem s). split; auto. apply created_new.
      intro x. cbn [mem]. rewrite memb_of. unfold p_op. destruct o; cbn; destruct (mem s x), (of_list eq_dec l x); reflexivity.
    - inversion OA; subst. destruct (GET n H1) as (s & E & Hs & En & Ew & L). destruct l as [|a l]; [destruct NA|].
      destruct (fold_ok o h (a :: l) G H2 s (mem s) Hs) as (t & q & FE & Ht & Hq & F); auto.
      rewrite E. cbn [ret bind]. rewrite FE. cbn [ret bind]. destruct (APP t Ht) as [G' L'].
      split; [exact G'|]. split; [|exact L']. cbn [spec_step]. exists (mem s), q. split; auto. split; auto. now apply created_new.
    - inversion OA; subst. inversion H2; subst. destruct (GET n H1) as (s & E & Hs & En & Ew & L). rewrite E. cbn [ret bind].
      unfold compare. destruct a as [m|l|l]; cbn [is_set].
      + destruct (GET m H3) as (t & Em & Ht & En' & Ew' & L'). cbn [bind].
        assert (T : through h (FRef m) t) by (split; eauto). pose proof (through_self h s Hs) as TS.
        assert (X : exists b, match c with CEq => abc_eq eqb (S f) h s (FRef m)
                   | CNe => do b <- abc_eq eqb (S f) h s (FRef m); Ok (negb b) | CLe => abc_le eqb (S f) h s (FRef m)
                   | CLt => abc_lt eqb (S f) h s (FRef m) | CGe => abc_ge eqb (S f) h s (FRef m) | CGt => abc_gt eqb (S f) h s (FRef m) end = Ok b
                   /\ compares c (mem s) (mem t) b).
        { destruct c; cbn [compares].
          - now apply abc_eq_ok.
          - destruct (abc_eq_ok f h s s (FRef m) t TS T) as (b & -> & B). exists (negb b). split; auto.
            unfold says in *. rewrite <- B. destruct b; cbn; intuition congruence.
          - now apply abc_le_ok.
          - now apply abc_lt_ok.
          - now apply abc_ge_ok.
          - now apply abc_gt_ok. }
        destruct X as (b & -> & B). cbn [ret bind]. split; [auto|]. split; [|auto]. cbn [spec_step]. exists (mem s), (mem t), b. cbn [p_arg]. auto.
      + cbn [force bind]. assert (T : through h (FLin l) (FLin l)) by (apply through_self; exact H3). pose proof (through_self h s Hs) as TS.
        assert (X : exists b, match c with CEq => abc_eq eqb (S f) h s (FLin l)
                   | CNe => do b <- abc_eq eqb (S f) h s (FLin l); Ok (negb b) | CLe => abc_le eqb (S f) h s (FLin l)
                   | CLt => abc_lt eqb (S f) h s (FLin l) | CGe => abc_ge eqb (S f) h s (FLin l) | CGt => abc_gt eqb (S f) h s (FLin l) end = Ok b
                   /\ compares c (mem s) (of_list eq_dec l) b).
        { assert (XX : exists b, match c with CEq => abc_eq eqb (S f) h s (FLin l)
                   | CNe => do b <- abc_eq eqb (S f) h s (FLin l); Ok (negb b) | CLe => abc_le eqb (S f) h s (FLin l)
                   | CLt => abc_lt eqb (S f) h s (FLin l) | CGe => abc_ge eqb (S f) h s (FLin l) | CGt => abc_gt eqb (S f) h s (FLin l) end = Ok b
                   /\ compares c (mem s) (mem (FLin l)) b).
          { destruct c; cbn [compares].
          - now apply abc_eq_ok.
          - destruct (abc_eq_ok f h s s (FLin l) (FLin l) TS T) as (b & -> & B). exists (negb b). split; auto.
            unfold says in *. rewrite <- B. destruct b; cbn; intuition congruence.
          - now apply abc_le_ok.
          - now apply abc_lt_ok.
          - now apply abc_ge_ok.
          - now apply abc_gt_ok. }
          destruct XX as (b & -> & B). exists b. split; auto.
          assert (EX : forall x, mem (FLin l) x = of_list eq_dec l x) by (intro; apply memb_of).
          clear - B EX. unfold compares, says, subset in *. destruct c; rewrite B; setoid_rewrite EX; reflexivity. }
        destruct X as (b & -> & B). cbn [ret bind]. split; [auto|]. split; [|auto]. cbn [spec_step]. exists (mem s), (of_list eq_dec l), b. cbn [p_arg]. auto.
      + destruct c; cbn; auto.
    - inversion OA; subst. inversion H2; subst. destruct (GET n H1) as (s & E & Hs & En & Ew & L). rewrite E. cbn [ret bind].
      destruct (force_ok h a G H3) as (t & -> & Ht & q & Q & Hq). cbn [ret bind].
      destruct (abc_le_ok f h s s t t (through_self h s Hs) (through_self h t Ht)) as (b & -> & B). cbn [ret bind].
      split; [auto|]. split; [|auto]. cbn [spec_step]. exists (mem s), q, b. split; auto. split; auto. split; auto.
      unfold says, subset in *. rewrite B. setoid_rewrite Hq. reflexivity.
    - inversion OA; subst. inversion H2; subst. destruct (GET n H1) as (s & E & Hs & En & Ew & L). rewrite E. cbn [ret bind].
      destruct (force_ok h a G H3) as (t & -> & Ht & q & Q & Hq). cbn [ret bind].
      destruct (abc_ge_ok f h s s t t (through_self h s Hs) (through_self h t Ht)) as (b & -> & B). cbn [ret bind].
      split; [auto|]. split; [|auto]. cbn [spec_step]. exists (mem s), q, b. split; auto. split; auto. split; auto.
      unfold says, subset in *. rewrite B. setoid_rewrite Hq. reflexivity.
    - inversion OA; subst. inversion H2; subst. destruct (GET n H1) as (s & E & Hs & En & Ew & L). rewrite E. cbn [ret bind].
      unfold inner_op. destruct (force_ok h a G H3) as (t & -> & Ht & q & Q & Hq). cbn [ret bind].
      destruct (abc_and_ok (S f) h s t Hs Ht) as (u & -> & Hu & Mu). cbn [ret bind]. unfold truth.
      destruct (iter_ok (S f) h u Hu) as (l & -> & N & I). cbn [ret bind].
      split; [auto|]. split; [|auto]. cbn [spec_step]. exists (mem s), q. eexists. split; auto. split; [eassumption|]. split; [|split; reflexivity].
      destruct l as [|x l]; cbn [negb].
      + split; auto. intros _ x [X Y]. rewrite <- Hq in Y. assert (mem u x = true) by now rewrite Mu, X, Y. apply I in H. easy.
      + split; [discriminate|]. intro X. exfalso. assert (M : mem u x = true) by (apply I; cbn; auto).
        rewrite Mu in M. apply andb_true_iff in M as [M1 M2]. apply (X x). rewrite <- Hq. auto.
  Qed.

  Lemma run_ok f : forall ops h, good h -> sized (length h) ops -> Forall no_alias ops ->
    let '(rs, h') := run eqb (S f) h ops in spec_run eq_dec (abs h) ops rs (abs h') /\ good h'.
  Proof.
    induction ops as [|o ops IH]; intros h G SZ NA; cbn [run]; [split; [constructor|auto]|].
    destruct SZ as [SA SZ]. inversion NA; subst. pose proof (step_ok f h o G H1 SA) as H.
    destruct (step eqb (S f) h o) as [r h']. destruct H as (G' & S1 & L). rewrite <- L in SZ.
    specialize (IH h' G' SZ H2). destruct (run eqb (S f) h' ops) as [rs h'']. destruct IH. split; [econstructor|]; eauto.
  Qed.
  Lemma run_sized f : forall ops h more, good h -> sized (length h) (ops ++ more) -> Forall no_alias ops ->
    sized (length (snd (run eqb (S f) h ops))) more.
  Proof.
    induction ops as [|o ops IH]; intros h more G SZ NA; cbn [run]; [exact SZ|].
    destruct SZ as [SA SZ]. inversion NA; subst. pose proof (step_ok f h o G H1 SA) as H.
    destruct (step eqb (S f) h o) as [r h']. destruct H as (G' & S1 & L). rewrite <- L in SZ.
    specialize (IH h' more G' SZ H2). destruct (run eqb (S f) h' ops) as [rs h'']. exact IH.
  Qed.
  Lemma mem_denotes s x : mem s x = denotes eq_dec s x.
  Proof.
    induction s as [l|y| |o a IHa b IHb|n]; cbn; auto.
    - apply memb_of.
    - rewrite <- memb_of. cbn. now rewrite orb_false_r.
    - rewrite IHa, IHb. apply lop_p_op.
  Qed.

  (** [s - t] observed before anything else happens *)
  Lemma diff_contains f h s m t x : ok s -> ok t -> nth_error h m = Some t ->
    contains eqb (S f) h (FComb LSub s (FRef m)) x = Ok (mem s x && negb (mem t x)).
  Proof.
    intros Hs Ht E. assert (X : contains eqb (S f) h (FComb LSub s (FRef m)) x =
      (do a <- contains eqb (S f) h s x; do b <- contains eqb (S f) h (FRef m) x; Ok (lop_fn LSub a b))) by reflexivity.
    rewrite X, contains_ok by auto. cbn [bind].
    rewrite (through_contains f h (FRef m) t) by (split; eauto). reflexivity.
  Qed.
End P.
