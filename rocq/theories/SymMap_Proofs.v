From Coq Require Import ZArith List Bool Lia ZifyBool ZifyNat.
From Verif Require Import SymMap_Model SymMap_Spec.
Import ListNotations.
Local Open Scope Z_scope.

(** ** lists *)
Definition prefix {A} (a b : list A) : Prop := exists c, b = a ++ c.
Lemma prefix_refl {A} (a : list A) : prefix a a.
Proof. exists []. now rewrite app_nil_r. Qed.
Lemma prefix_trans {A} (a b c : list A) : prefix a b -> prefix b c -> prefix a c.
Proof. intros (x & ->) (y & ->). exists (x ++ y). now rewrite app_assoc. Qed.
Lemma prefix_length {A} (a b : list A) : prefix a b -> (length a <= length b)%nat.
Proof. intros (x & ->). rewrite app_length. lia. Qed.
Lemma prefix_nth {A} (a b : list A) n x : prefix a b -> nth_error a n = Some x -> nth_error b n = Some x.
Proof.
  intros (c & ->) H. rewrite nth_error_app1; auto. apply nth_error_Some. congruence.
Qed.
Lemma prefix_firstn {A} (a b : list A) n : prefix a b -> (n <= length a)%nat -> firstn n b = firstn n a.
Proof.
  intros (c & ->) H. rewrite firstn_app. replace (n - length a)%nat with 0%nat by lia.
  now rewrite firstn_O, app_nil_r.
Qed.
Lemma prefix_same {A} (a b : list A) : prefix a b -> length a = length b -> a = b.
Proof.
  intros (c & ->) H. rewrite app_length in H. destruct c; [now rewrite app_nil_r|cbn in H; lia].
Qed.
Lemma firstn_S {A} (l : list A) n x : nth_error l n = Some x -> firstn (S n) l = firstn n l ++ [x].
Proof.
  revert n. induction l as [|y l IH]; intros [|n] H; cbn in *; try easy.
  - injection H as ->. reflexivity.
  - now rewrite <- IH.
Qed.
Lemma skipn_nth {A} (l : list A) n x : nth_error l n = Some x -> skipn n l = x :: skipn (S n) l.
Proof.
  revert n. induction l as [|y l IH]; intros [|n] H; cbn in *; try easy.
  - injection H as ->. reflexivity.
  - now rewrite IH.
Qed.

Section Proofs.
  Variables (K V : Type).
  Variable keqb : K -> K -> bool.
  Variable veqb : V -> V -> bool.
  Variable covered : list K -> bool.
  Hypothesis KE : forall a b, keqb a b = true <-> a = b.
  Hypothesis VE : forall a b, veqb a b = true <-> a = b.
  Hypothesis CV : forall l, if covered l then forall k, In k l else exists k, ~ In k l.

  Notation select := (select K V keqb).
  Notation store := (store K V).
  Notation arr_eqb := (arr_eqb K V keqb veqb covered).
  Notation lookup := (lookup K V keqb).

  Lemma keqb_refl k : keqb k k = true. Proof. now apply KE. Qed.
  Lemma keqb_dec (a b : K) : {a = b} + {a <> b}.
  Proof. destruct (keqb a b) eqn:E; [left; now apply KE|right; intros ->; rewrite keqb_refl in E; easy]. Qed.
  Lemma oeqb_spec a b : oeqb V veqb a b = true <-> a = b.
  Proof.
    destruct a, b; cbn; split; intros H; try easy.
    - f_equal. now apply VE.
    - apply VE. congruence.
  Qed.
  Lemma memk_in k l : existsb (keqb k) l = true <-> In k l.
  Proof.
    rewrite existsb_exists. split.
    - intros (x & I & E). apply KE in E. now subst.
    - intros I. exists k. split; auto. apply keqb_refl.
  Qed.
  Lemma memk_not k l : existsb (keqb k) l = false <-> ~ In k l.
  Proof. rewrite <- memk_in. destruct (existsb (keqb k) l); split; easy. Qed.

  Lemma assoc_none l k : ~ In k (map fst l) -> assoc K V keqb l k = None.
  Proof.
    induction l as [|[j x] l IH]; cbn; auto. intros N. destruct (keqb j k) eqn:E.
    - apply KE in E. tauto.
    - apply IH. tauto.
  Qed.

  Lemma arr_eqb_spec a b : arr_eqb a b = true <-> forall k, select a k = select b k.
  Proof.
    unfold SymMap_Model.arr_eqb. cbv zeta. set (ks := map fst (exc a ++ exc b)).
    assert (O : forall k, ~ In k ks -> select a k = dflt a /\ select b k = dflt b).
    { intros k N. unfold ks in N. rewrite map_app, in_app_iff in N.
      unfold SymMap_Model.select. rewrite !assoc_none by tauto. auto. }
    rewrite andb_true_iff, forallb_forall, orb_true_iff, oeqb_spec. split.
    - intros (A & B) k. destruct (in_dec keqb_dec k ks) as [I|N].
      + apply oeqb_spec, A, I.
      + destruct (O k N) as (-> & ->). destruct B as [B|B]; auto.
        pose proof (CV ks) as C. rewrite B in C. exfalso. exact (N (C k)).
    - intros E. split.
      + intros k _. apply oeqb_spec. apply E.
      + pose proof (CV ks) as C. destruct (covered ks); auto. left.
        destruct C as (k & N). destruct (O k N) as (<- & <-). apply E.
  Qed.

  Lemma select_empty k : select empty k = None. Proof. reflexivity. Qed.
  Lemma select_store a k x j : select (store a k x) j = if keqb k j then x else select a j.
  Proof. unfold SymMap_Model.select, SymMap_Model.store. cbn. destruct (keqb k j); auto. Qed.

  Lemma is_empty a : arr_eqb a empty = true <-> forall k, select a k = None.
  Proof. rewrite arr_eqb_spec. split; intros H k; rewrite (H k); auto. Qed.
  Lemma not_empty a : arr_eqb a empty = false -> ~ forall k, select a k = None.
  Proof. intros H E. apply is_empty in E. congruence. Qed.

  Section Object.
    Variable arr : array K V.
    Variable len : Z.
    Variable fresh : nat -> nat -> K.
    Notation dict_next := (dict_next K V keqb veqb covered len fresh).
    Notation set_next := (set_next K V keqb veqb covered len fresh).
    Notation iter := (iter K V).
    Notation shared := (shared K).
    Notation take := (take K V keqb).
    Notation finish := (finish K V keqb veqb covered).

    Definition inv (s : shared) : Prop :=
      NoDup (cache s) /\ (forall k, In k (cache s) -> select arr k <> None) /\
      Z.of_nat (length (cache s)) <= len.
    Definition itinv (c : list K) (it : iter) : Prop :=
      (i_idx it <= length c)%nat /\
      (forall k, select (i_arr it) k = if existsb (keqb k) (firstn (i_idx it) c) then None else select arr k) /\
      (i_done it = true -> Z.of_nat (i_idx it) = len /\ forall k, select (i_arr it) k = None).

    Lemma itinv_mono c c' it : prefix c c' -> itinv c it -> itinv c' it.
    Proof.
      intros P (A & B & D). split; [|split]; auto.
      - apply prefix_length in P. lia.
      - rewrite (prefix_firstn c c'); auto.
    Qed.

    Lemma itinv_new c : itinv c (new_iter K V arr).
    Proof. split; [cbn; lia|]. split; [reflexivity|easy]. Qed.

    (** what one step of an iterator guarantees *)
    Definition next_ok (it : iter) (s : shared) (r : option K) (it' : iter) (s' : shared) : Prop :=
      inv s' /\ prefix (cache s) (cache s') /\ itinv (cache s') it' /\
      match r with
      | Some k => nth_error (cache s') (i_idx it) = Some k /\ i_idx it' = S (i_idx it)
      | None => i_idx it' = i_idx it /\ i_done it' = true
      end.

    Lemma take_old it s k u r it' s' : inv s -> itinv (cache s) it -> i_done it = false ->
      nth_error (cache s) (i_idx it) = Some k ->
      take it k (Shared (cache s) u) = Ran (r, it') s' -> next_ok it s r it' s'.
    Proof.
      intros I (A & B & D) ND N H. unfold SymMap_Model.take in H.
      destruct (select (i_arr it) k) eqn:E; [|easy]. injection H as <- <- <-.
      assert (L : (i_idx it < length (cache s))%nat) by (apply nth_error_Some; congruence).
      split; [exact I|]. split; [apply prefix_refl|]. cbn. split; [|auto].
      split; [cbn; lia|]. split; [|easy]. intros j. cbn [i_idx i_arr cache].
      rewrite (firstn_S _ _ _ N), existsb_app, select_store. cbn. rewrite orb_false_r, B.
      destruct (keqb k j) eqn:E1.
      - apply KE in E1. subst j. rewrite keqb_refl, orb_true_r. reflexivity.
      - destruct (keqb j k) eqn:E2; [apply KE in E2; subst; rewrite keqb_refl in E1; easy|].
        now rewrite orb_false_r.
    Qed.

    Lemma take_new it s k u r it' s' : inv s -> itinv (cache s) it -> i_done it = false ->
      nth_error (cache s) (i_idx it) = None -> Z.of_nat (i_idx it) < len ->
      take it k (Shared (cache s ++ [k]) u) = Ran (r, it') s' -> next_ok it s r it' s'.
    Proof.
      intros (N & P & L) (A & B & D) ND E Q H. unfold SymMap_Model.take in H.
      destruct (select (i_arr it) k) eqn:E0; [|easy]. injection H as <- <- <-.
      apply nth_error_None in E. assert (X : i_idx it = length (cache s)) by lia.
      assert (NI : ~ In k (cache s)).
      { rewrite B, X, firstn_all in E0. destruct (existsb (keqb k) (cache s)) eqn:M; [easy|].
        now apply memk_not. }
      assert (SA : select arr k <> None).
      { rewrite B in E0. destruct (existsb _ _); congruence. }
      cbn [cache].
      assert (NE : nth_error (cache s ++ [k]) (i_idx it) = Some k).
      { rewrite X, nth_error_app2, Nat.sub_diag by lia. reflexivity. }
      split; [split; [|split]|].
      - cbn. clear - N NI. induction (cache s) as [|x c IH]; cbn.
        + constructor; [easy|constructor].
        + inversion N as [|? ? N1 N2]; subst. constructor.
          * rewrite in_app_iff. cbn in *. intros [I|[I|[]]]; [easy|]. subst; tauto.
          * apply IH; auto. cbn in NI. tauto.
      - cbn. intros j J. apply in_app_or in J. destruct J as [J|[<-|[]]]; auto.
      - cbn. rewrite app_length. cbn. lia.
      - split; [exists [k]; reflexivity|]. cbn [cache]. split; [|auto].
        split; [cbn; rewrite app_length; cbn; lia|]. split; [|easy]. intros j. cbn [i_idx i_arr].
        rewrite (firstn_S _ _ _ NE), existsb_app, select_store. cbn. rewrite orb_false_r, B.
        rewrite firstn_app. replace (i_idx it - length (cache s))%nat with 0%nat by lia.
        rewrite firstn_O, app_nil_r.
        destruct (keqb k j) eqn:E1.
        + apply KE in E1. subst j. rewrite keqb_refl, orb_true_r. reflexivity.
        + destruct (keqb j k) eqn:E2; [apply KE in E2; subst; rewrite keqb_refl in E1; easy|].
          now rewrite orb_false_r.
    Qed.

    Lemma finish_ok it s r it' s' : inv s -> itinv (cache s) it -> len <= Z.of_nat (i_idx it) ->
      finish it s = Ran (r, it') s' -> next_ok it s r it' s'.
    Proof.
      intros I (A & B & D) Q H. unfold SymMap_Model.finish in H.
      destruct (arr_eqb (i_arr it) empty) eqn:E; [|easy]. injection H as <- <- <-.
      split; [exact I|]. split; [apply prefix_refl|]. cbn. split; [|auto].
      split; [cbn; lia|]. split; [exact B|]. intros _. cbn.
      split; [destruct I as (_ & _ & I); lia|]. now apply is_empty.
    Qed.

    Lemma done_ok it s : inv s -> itinv (cache s) it -> i_done it = true -> next_ok it s None it s.
    Proof. intros I J D. split; auto. split; [apply prefix_refl|]. auto. Qed.

    Lemma dict_next_ok it s r it' s' : inv s -> itinv (cache s) it ->
      dict_next it s = Ran (r, it') s' -> next_ok it s r it' s'.
    Proof.
      intros I J H. unfold SymMap_Model.dict_next in H. destruct (i_done it) eqn:D.
      { injection H as <- <- <-. now apply done_ok. }
      destruct (Z.of_nat (i_idx it) <? len) eqn:Q; [|apply finish_ok; auto; lia].
      destruct (arr_eqb (i_arr it) empty); [easy|]. cbv zeta in H.
      destruct (nth_error (cache s) (i_idx it)) as [c|] eqn:E.
      - destruct (keqb (fresh (uniq s) (i_idx it)) c) eqn:E1; [|easy].
        apply KE in E1. rewrite E1 in H. eapply take_old; eauto.
      - eapply take_new; eauto. lia.
    Qed.

    Lemma set_next_ok it s r it' s' : inv s -> itinv (cache s) it ->
      set_next it s = Ran (r, it') s' -> next_ok it s r it' s'.
    Proof.
      intros I J H. unfold SymMap_Model.set_next in H. destruct (i_done it) eqn:D.
      { injection H as <- <- <-. now apply done_ok. }
      destruct (nth_error (cache s) (i_idx it)) as [c|] eqn:E.
      - eapply take_old; eauto.
      - destruct (Z.of_nat (i_idx it) <? len) eqn:Q; [|apply finish_ok; auto; lia].
        destruct (arr_eqb (i_arr it) empty); [easy|]. cbv zeta in H.
        eapply take_new; eauto. lia.
    Qed.

    Section Generic.
      Variable next : iter -> shared -> ran K (option K * iter).
      Hypothesis next_spec : forall it s r it' s', inv s -> itinv (cache s) it ->
        next it s = Ran (r, it') s' -> next_ok it s r it' s'.

      (** a complete order of the keys *)
      Definition full (c cf : list K) : Prop := prefix c cf /\ Z.of_nat (length cf) = len.

      Lemma scan_ok fuel p : forall it s r s', inv s -> itinv (cache s) it ->
        scan K V next fuel p it s = Ran r s' ->
        inv s' /\ prefix (cache s) (cache s') /\
        (forall cf, full (cache s') cf -> r = find p (skipn (i_idx it) cf)) /\
        (r = None -> Z.of_nat (length (cache s')) = len /\
                     forall k, select arr k <> None -> In k (cache s')).
      Proof.
        induction fuel as [|fuel IH]; intros it s r s' I J H; [easy|]. cbn in H.
        destruct (next it s) as [[[k|] it1] s1| |] eqn:E; try easy.
        - destruct (next_spec _ _ _ _ _ I J E) as (I1 & P1 & J1 & N1 & X1).
          assert (NF : forall cf, full (cache s1) cf -> skipn (i_idx it) cf = k :: skipn (i_idx it1) cf).
          { intros cf (P & _). rewrite X1. apply skipn_nth. eapply prefix_nth; eauto. }
          destruct (p k) eqn:Pk.
          + injection H as <- <-. split; auto. split; auto. split; [|easy].
            intros cf F. rewrite (NF cf F). cbn. now rewrite Pk.
          + destruct (IH _ _ _ _ I1 J1 H) as (I2 & P2 & R2 & N2).
            split; auto. split; [eapply prefix_trans; eauto|]. split; [|exact N2].
            intros cf F. rewrite (NF cf); [cbn; rewrite Pk; auto|].
            destruct F as (F1 & F2). split; auto. eapply prefix_trans; eauto.
        - injection H as <- <-.
          destruct (next_spec _ _ _ _ _ I J E) as (I1 & P1 & J1 & X1 & D1).
          destruct J1 as (A & B & D). destruct (D D1) as (D2 & D3).
          destruct I1 as (I1 & I2 & I3).
          assert (LE : Z.of_nat (length (cache s1)) = len) by lia.
          split; [split; auto|]. split; auto. split.
          + intros cf (F1 & F2).
            assert (Q : (length cf <= i_idx it)%nat) by lia.
            rewrite (skipn_all2 cf Q). reflexivity.
          + intros _. split; auto. intros k Hk.
            specialize (D3 k). rewrite B in D3.
            destruct (existsb (keqb k) (firstn (i_idx it1) (cache s1))) eqn:M; [|congruence].
            apply memk_in in M. clear - M. revert M. generalize (i_idx it1).
            induction (cache s1) as [|x c IHc]; intros n M; destruct n; cbn in *; try easy.
            destruct M as [M|M]; [auto|right; eauto].
      Qed.
    End Generic.

    (** ** from a complete order of the keys to the dictionary *)
    Definition items_of (cf : list K) : list (K * V) :=
      flat_map (fun k => match select arr k with Some v => [(k, v)] | None => [] end) cf.

    Definition complete (cf : list K) : Prop :=
      NoDup cf /\ Z.of_nat (length cf) = len /\ forall k, In k cf <-> select arr k <> None.

    Lemma items_keys cf : (forall k, In k cf -> select arr k <> None) -> map fst (items_of cf) = cf.
    Proof.
      induction cf as [|k cf IH]; cbn; auto. intros H.
      destruct (select arr k) eqn:E; [|exfalso; apply (H k); auto].
      cbn. f_equal. apply IH. auto.
    Qed.

    Lemma items_length cf : (forall k, In k cf -> select arr k <> None) -> length (items_of cf) = length cf.
    Proof. intros H. rewrite <- (items_keys cf H) at 2. now rewrite map_length. Qed.

    Lemma items_in cf k v : In (k, v) (items_of cf) <-> In k cf /\ select arr k = Some v.
    Proof.
      unfold items_of. rewrite in_flat_map. split.
      - intros (j & I & J). destruct (select arr j) eqn:E; [|easy]. destruct J as [J|[]].
        injection J as -> ->. auto.
      - intros (I & E). exists k. rewrite E. cbn. auto.
    Qed.

    Lemma lookup_items cf : (forall k, In k cf <-> select arr k <> None) ->
      forall k, lookup (items_of cf) k = select arr k.
    Proof.
      intros H k.
      assert (G : forall c, incl c cf -> lookup (items_of c) k = if existsb (keqb k) c then select arr k else None).
      { induction c as [|j c IH]; cbn; auto. intros S1.
        destruct (select arr j) as [v|] eqn:E; [|exfalso; apply (proj1 (H j)); auto; apply S1; now left].
        cbn. destruct (keqb j k) eqn:Q.
        - apply KE in Q. subst j. rewrite keqb_refl. cbn. congruence.
        - destruct (keqb k j) eqn:Q2; [apply KE in Q2; subst; rewrite keqb_refl in Q; easy|].
          cbn. apply IH. intros x X. apply S1. now right. }
      rewrite (G cf (incl_refl _)). destruct (existsb (keqb k) cf) eqn:M; auto.
      apply memk_not in M. destruct (select arr k) eqn:E; auto. exfalso. apply M, H. congruence.
    Qed.

    Lemma nth_items cf n : (forall k, In k cf -> select arr k <> None) ->
      option_map fst (nth_error (items_of cf) n) = nth_error cf n.
    Proof.
      intros H. rewrite <- (items_keys cf H) at 2. rewrite nth_error_map. reflexivity.
    Qed.

    Lemma find_items cf p : (forall k, In k cf -> select arr k <> None) ->
      option_map fst (find (fun kv => p (fst kv)) (items_of cf)) = find p cf.
    Proof.
      induction cf as [|k cf IH]; cbn; auto. intros H.
      destruct (select arr k) eqn:E; [|exfalso; apply (H k); auto].
      cbn. destruct (p k); cbn; auto.
    Qed.

    Notation same_dict := (same_dict K V keqb veqb).
    Notation sub_dict := (sub_dict K V keqb veqb).

    Lemma lookup_in l k v : lookup l k = Some v -> In (k, v) l.
    Proof.
      induction l as [|[j w] l IH]; cbn; [easy|]. destruct (keqb j k) eqn:E.
      - apply KE in E. intros [= ->]. subst. auto.
      - auto.
    Qed.
    Lemma lookup_key l k : In k (map fst l) -> exists v, lookup l k = Some v.
    Proof.
      induction l as [|[j w] l IH]; cbn; [easy|]. destruct (keqb j k) eqn:E; [eauto|].
      intros [->|I]; [rewrite keqb_refl in E; easy|auto].
    Qed.

    Lemma sub_keys a b : sub_dict a b = true -> incl (map fst a) (map fst b).
    Proof.
      unfold SymMap_Spec.sub_dict. rewrite forallb_forall. intros H k I.
      apply in_map_iff in I. destruct I as ([j v] & <- & I). specialize (H _ I). cbn in H.
      destruct (lookup b j) eqn:E; [|easy]. apply lookup_in in E. cbn.
      apply in_map_iff. exists (j, v0). auto.
    Qed.

    Lemma veqb_sym a b : veqb a b = veqb b a.
    Proof.
      destruct (veqb a b) eqn:E, (veqb b a) eqn:F; auto.
      - apply VE in E. subst. assert (X : veqb b b = true) by now apply VE. congruence.
      - apply VE in F. subst. assert (X : veqb a a = true) by now apply VE. congruence.
    Qed.

    Lemma same_by_length l o : NoDup (map fst l) -> NoDup (map fst o) ->
      same_dict l o = (Z.of_nat (length l) =? Z.of_nat (length o)) && sub_dict o l.
    Proof.
      intros Nl No. unfold SymMap_Spec.same_dict.
      destruct (sub_dict o l) eqn:S1; [|now rewrite !andb_false_r]. rewrite !andb_true_r.
      destruct (Z.of_nat (length l) =? Z.of_nat (length o)) eqn:Q.
      - assert (I : incl (map fst l) (map fst o)).
        { apply NoDup_length_incl; [exact No|rewrite !map_length; lia|apply sub_keys; auto]. }
        unfold SymMap_Spec.sub_dict in *. rewrite forallb_forall in S1. apply forallb_forall.
        intros [k v] J. cbn.
        destruct (lookup_key o k) as (w & E).
        { apply I. apply in_map_iff. exists (k, v). auto. }
        rewrite E. pose proof (S1 _ (lookup_in _ _ _ E)) as H. cbn in H.
        destruct (lookup l k) as [v'|] eqn:F; [|easy].
        assert (v = v'); [|subst; now rewrite veqb_sym].
        apply lookup_in in F. clear - Nl J F. induction l as [|[j x] l IH]; cbn in *; [easy|].
        inversion Nl as [|? ? N1 N2]; subst. destruct J as [J|J], F as [F|F].
        + congruence.
        + exfalso. apply N1. injection J as -> ->. apply in_map_iff. exists (k, v'). auto.
        + exfalso. apply N1. injection F as -> ->. apply in_map_iff. exists (k, v). auto.
        + auto.
      - destruct (sub_dict l o) eqn:S2; auto. exfalso.
        apply sub_keys in S1. apply sub_keys in S2.
        pose proof (NoDup_incl_length Nl S2). pose proof (NoDup_incl_length No S1).
        rewrite !map_length in *. lia.
    Qed.

    Notation dict_get := (dict_get K V keqb arr len).
    Notation dict_eq := (dict_eq K V keqb veqb arr len).

    Lemma eq_items_ok l o : (forall k, lookup l k = select arr k) -> forall s a s',
      eq_items K V keqb veqb arr len o s = Ran a s' -> s' = s /\ a = ABool (sub_dict o l).
    Proof.
      intros L. induction o as [|[k v] o IH]; intros s a s'; cbn.
      - intros [= <- <-]. auto.
      - unfold SymMap_Model.dict_get. rewrite L. destruct (select arr k) as [w|] eqn:E.
        + destruct (len =? 0); [easy|]. rewrite (veqb_sym v w). destruct (veqb w v); cbn.
          * apply IH.
          * intros [= <- <-]. auto.
        + intros [= <- <-]. auto.
    Qed.

    Notation state := (state K V).
    Definition stinv (st : state) : Prop :=
      inv (sh st) /\ Forall (itinv (cache (sh st))) (its st).
    Definition pos (st : state) : list nat := map (@i_idx K V) (its st).

    Lemma set_nth_map i it l x : nth_error l i = Some x ->
      map (@i_idx K V) (set_nth K V i it l) =
      firstn i (map (@i_idx K V) l) ++ [i_idx it] ++ skipn (S i) (map (@i_idx K V) l).
    Proof.
      revert i. induction l as [|y l IH]; intros [|i] H; cbn in *; try easy.
      f_equal. rewrite (IH i H). reflexivity.
    Qed.
    Lemma put_back {A} (l : list A) i x : nth_error l i = Some x ->
      firstn i l ++ [x] ++ skipn (S i) l = l.
    Proof.
      revert i. induction l as [|y l IH]; intros [|i] H; cbn in *; try easy.
      - congruence.
      - f_equal. apply IH, H.
    Qed.
    Lemma set_nth_Forall (P : iter -> Prop) i it l :
      P it -> Forall P l -> Forall P (set_nth K V i it l).
    Proof.
      intros X. revert i. induction l as [|y l IH]; intros [|i] H; cbn; auto;
        inversion H; subst; constructor; auto.
    Qed.

    (** what one operation guarantees *)
    Definition step_ok (py : list (K * V) -> op K V -> list nat -> answer K V * list nat)
        (o : op K V) (st : state) (a : answer K V) (st' : state) : Prop :=
      stinv st' /\ prefix (cache (sh st)) (cache (sh st')) /\
      forall cf, prefix (cache (sh st')) cf -> complete cf ->
        py (items_of cf) o (pos st) = (a, pos st').

    Lemma advance_ok next i st a st' l0 :
      (forall it s r it' s', inv s -> itinv (cache s) it ->
         next it s = Ran (r, it') s' -> next_ok it s r it' s') ->
      stinv st -> advance K V next i st = Did a st' ->
      l0 = ONext i -> step_ok (py_common K V keqb veqb) l0 st a st'.
    Proof.
      intros NS (I & F) H ->. unfold advance in H.
      destruct (nth_error (its st) i) as [it|] eqn:E.
      - assert (J : itinv (cache (sh st)) it).
        { rewrite Forall_forall in F. apply F. eapply nth_error_In; eauto. }
        destruct (next it (sh st)) as [[r it1] s1| |] eqn:Q; try easy. injection H as <- <-.
        destruct (NS _ _ _ _ _ I J Q) as (I1 & P1 & J1 & R1). unfold step_ok. cbn [sh its].
        split; [split; auto|].
        { apply set_nth_Forall; auto. eapply Forall_impl; [|exact F].
          intros x X. eapply itinv_mono; eauto. }
        split; auto. intros cf P C. cbn.
        unfold pos. rewrite nth_error_map, E. cbn [option_map].
        destruct C as (C1 & C2 & C3).
        assert (C4 : forall k, In k cf -> select arr k <> None) by (intros; now apply C3).
        pose proof (nth_items cf (i_idx it) C4) as NI. cbn [its].
        rewrite (set_nth_map _ _ _ _ E).
        destruct r as [k|].
        + destruct R1 as (R1 & R2). rewrite (prefix_nth _ _ _ _ P R1) in NI.
          destruct (nth_error (items_of cf) (i_idx it)) as [kv|]; [|easy]. cbn in NI.
          injection NI as ->. rewrite R2. reflexivity.
        + destruct R1 as (R1 & R2). destruct J1 as (A1 & B1 & D1). destruct (D1 R2) as (D2 & _).
          assert (NN : nth_error cf (i_idx it) = None).
          { apply nth_error_None. rewrite R1 in D2. lia. }
          rewrite NN in NI. destruct (nth_error (items_of cf) (i_idx it)); [easy|].
          rewrite R1, put_back; auto. rewrite nth_error_map, E. reflexivity.
      - injection H as <- <-. split; [split; auto|]. split; [apply prefix_refl|].
        intros cf P C. cbn. unfold pos. rewrite nth_error_map, E. reflexivity.
    Qed.

    Lemma find_key_ok next p st r s' :
      (forall it s r it' s', inv s -> itinv (cache s) it ->
         next it s = Ran (r, it') s' -> next_ok it s r it' s') ->
      stinv st -> find_key K V arr len next p (sh st) = Ran r s' ->
      stinv (State s' (its st)) /\ prefix (cache (sh st)) (cache s') /\
      forall cf, prefix (cache s') cf -> complete cf ->
        r = find p cf /\ r = option_map fst (find (fun kv => p (fst kv)) (items_of cf)).
    Proof.
      intros NS (I & F) H. unfold find_key in H.
      destruct (scan_ok next NS _ _ _ _ _ _ I (itinv_new _) H) as (I1 & P1 & R1 & _).
      split; [split; auto|].
      { cbn. eapply Forall_impl; [|exact F]. intros x X. eapply itinv_mono; eauto. }
      split; auto. intros cf P (C1 & C2 & C3).
      assert (C4 : forall k, In k cf -> select arr k <> None) by (intros; now apply C3).
      rewrite (find_items cf p C4). rewrite (R1 cf (conj P C2)). cbn [new_iter i_idx skipn]. auto.
    Qed.

    Lemma items_nodup cf : complete cf -> NoDup (map fst (items_of cf)).
    Proof.
      intros (C1 & C2 & C3). rewrite items_keys; auto. intros; now apply C3.
    Qed.
    Lemma items_len cf : complete cf -> Z.of_nat (length (items_of cf)) = len.
    Proof.
      intros (C1 & C2 & C3). rewrite items_length; auto. intros; now apply C3.
    Qed.

    Lemma simple_ok py o st a :
      stinv st -> (forall cf, complete cf -> py (items_of cf) o (pos st) = (a, pos st)) ->
      step_ok py o st a st.
    Proof. intros I H. split; auto. split; [apply prefix_refl|]. intros cf _ C. auto. Qed.

    Lemma new_ok py st : stinv st -> (forall l p, py l ONew p = (ANone, p ++ [0%nat])) ->
      step_ok py ONew st ANone (State (sh st) (its st ++ [new_iter K V arr])).
    Proof.
      intros (I & F) H. split; [split; auto|].
      - cbn. apply Forall_app. split; auto. constructor; [apply itinv_new|constructor].
      - split; [apply prefix_refl|]. intros cf _ _. rewrite H. unfold pos. cbn.
        now rewrite map_app.
    Qed.

    Lemma bool_ok py st : stinv st ->
      (forall l p, py l OBool p = (ABool (match l with [] => false | _ => true end), p)) ->
      step_ok py OBool st (ABool (negb (len =? 0))) st.
    Proof.
      intros I H. apply simple_ok; auto. intros cf C. rewrite H. f_equal. f_equal.
      pose proof (items_len cf C) as L. destruct (items_of cf); cbn in *; lia.
    Qed.

    Lemma dict_step_ok o st a st' : stinv st -> proper_op K V o ->
      dict_step K V keqb veqb covered arr len fresh o st = Did a st' ->
      step_ok (py_dict K V keqb veqb) o st a st'.
    Proof.
      intros I W H. destruct o as [|i|k|p| | |o]; cbn in H.
      - injection H as <- <-. apply new_ok; auto.
      - apply (advance_ok _ i st a st' (ONext i) dict_next_ok I H eq_refl).
      - unfold SymMap_Model.dict_get in H. destruct (select arr k) as [v|] eqn:E; cbn in H.
        + destruct (len =? 0); [easy|]. injection H as <- <-. destruct st as [s its]. apply simple_ok; auto.
          intros cf (C1 & C2 & C3). cbn. rewrite lookup_items, E; auto.
        + injection H as <- <-. destruct st as [s its]. apply simple_ok; auto.
          intros cf (C1 & C2 & C3). cbn. rewrite lookup_items, E; auto.
      - unfold dict_get_other in H.
        destruct (find_key K V arr len dict_next p (sh st)) as [r s1| |] eqn:E; try easy.
        destruct (find_key_ok _ p st r s1 dict_next_ok I E) as (I1 & P1 & R1).
        destruct r as [k|].
        + unfold SymMap_Model.dict_get in H. destruct (select arr k) as [v|] eqn:G; cbn in H.
          * destruct (len =? 0); [easy|]. injection H as <- <-. split; auto. split; auto.
            intros cf P C. cbn. destruct (R1 cf P C) as (_ & R).
            destruct (find _ (items_of cf)) as [[j w]|] eqn:Q; [|easy]. cbn in R. injection R as <-.
            apply find_some in Q. destruct Q as (Q & _). apply items_in in Q. cbn.
            destruct Q as (_ & Q). rewrite Q in G. injection G as ->. reflexivity.
          * injection H as <- <-. split; auto. split; auto. intros cf P C. exfalso.
            destruct (R1 cf P C) as (R & _). symmetry in R. apply find_some in R.
            destruct R as (R & _). destruct C as (C1 & C2 & C3). apply C3 in R. auto.
        + injection H as <- <-. split; auto. split; auto.
          intros cf P C. cbn. destruct (R1 cf P C) as (_ & R).
          destruct (find _ (items_of cf)); [easy|reflexivity].
      - injection H as <- <-. apply simple_ok; auto. intros cf C. cbn.
        now rewrite (items_len cf C).
      - injection H as <- <-. apply bool_ok; auto.
      - cbn in W. unfold SymMap_Model.dict_eq in H.
        destruct (len =? Z.of_nat (length o)) eqn:Q.
        + destruct (eq_items K V keqb veqb arr len o (sh st)) as [b s1| |] eqn:E; try easy.
          cbn in H. injection H as -> <-.
          assert (s1 = sh st).
          { clear - E. revert E. generalize (sh st). intros s. revert s a s1.
            induction o as [|[k v] o IH]; cbn; intros s a s1; [congruence|].
            unfold SymMap_Model.dict_get. destruct (select arr k) as [w|].
            - destruct (len =? 0); [easy|]. destruct (veqb w v); [eauto|congruence].
            - congruence. }
          subst s1. destruct st as [s its]. apply simple_ok; auto. intros cf C. cbn.
          rewrite same_by_length; auto using items_nodup. rewrite (items_len cf C), Q. cbn [andb].
          destruct (eq_items_ok (items_of cf) o (lookup_items cf (proj2 (proj2 C))) _ _ _ E) as (_ & ->).
          reflexivity.
        + cbn in H. injection H as <- <-. destruct st as [s its]. apply simple_ok; auto. intros cf C. cbn.
          rewrite same_by_length; auto using items_nodup. rewrite (items_len cf C), Q. reflexivity.
    Qed.

    Lemma set_step_ok o st a st' : (forall a b : V, a = b) -> stinv st -> proper_op K V o ->
      set_step K V keqb veqb covered arr len fresh o st = Did a st' ->
      step_ok (py_set K V keqb veqb) o st a st'.
    Proof.
      intros U I W H. destruct o as [|i|k|p| | |o]; cbn in H.
      - injection H as <- <-. apply new_ok; auto.
      - apply (advance_ok _ i st a st' (ONext i) set_next_ok I H eq_refl).
      - injection H as <- <-. destruct st as [s its]. apply simple_ok; auto.
        intros cf (C1 & C2 & C3). cbn. f_equal. f_equal.
        destruct (select arr k) as [v|] eqn:E.
        + apply existsb_exists. exists (k, v). cbn. rewrite keqb_refl. split; auto.
          apply items_in. split; auto. apply C3. congruence.
        + destruct (existsb _ _) eqn:X; auto. apply existsb_exists in X. destruct X as ([j w] & X & Y).
          cbn in Y. apply KE in Y. subst j. apply items_in in X. destruct X; congruence.
      - unfold set_contains_other in H.
        destruct (find_key K V arr len set_next p (sh st)) as [r s1| |] eqn:E; try easy.
        destruct (find_key_ok _ p st r s1 set_next_ok I E) as (I1 & P1 & R1).
        destruct r as [k|]; injection H as <- <-; (split; [auto|]); (split; [auto|]);
          intros cf P C; cbn; destruct (R1 cf P C) as (_ & R);
          destruct (find _ (items_of cf)) as [kv|] eqn:Q; try easy; f_equal; f_equal.
        + apply find_some in Q. apply existsb_exists. eauto.
        + destruct (existsb _ _) eqn:X; auto. apply existsb_exists in X. destruct X as (x & X & Y).
          pose proof (find_none _ _ Q x X) as Z. cbn in Z. congruence.
      - injection H as <- <-. apply simple_ok; auto. intros cf C. cbn.
        now rewrite (items_len cf C).
      - injection H as <- <-. apply bool_ok; auto.
      - cbn in W. unfold set_eq in H. rewrite map_length in H.
        destruct (len =? Z.of_nat (length o)) eqn:Q.
        + destruct (find_key K V arr len set_next _ (sh st)) as [r s1| |] eqn:E; try easy.
          destruct (find_key_ok _ _ st r s1 set_next_ok I E) as (I1 & P1 & R1).
          assert (G : a = ABool (match r with None => true | Some _ => false end) /\ st' = State s1 (its st)).
          { destruct r; injection H as <- <-; auto. }
          destruct G as (-> & ->). split; auto. split; auto. intros cf P C. cbn.
          rewrite same_by_length; auto using items_nodup. rewrite (items_len cf C), Q. cbn [andb].
          f_equal. f_equal. destruct (R1 cf P C) as (R & _). clear R1 E H.
          destruct C as (C1 & C2 & C3).
          assert (C4 : forall k, In k cf -> select arr k <> None) by (intros; now apply C3).
          assert (LL : length cf = length o) by lia.
          assert (VV : forall x y, veqb x y = true) by (intros; apply VE; apply U).
          assert (SK : sub_dict o (items_of cf) = true <-> incl (map fst o) cf).
          { split.
            - intros X. apply sub_keys in X. now rewrite items_keys in X.
            - intros X. apply forallb_forall. intros [k v] Y. cbn.
              destruct (lookup_key (items_of cf) k) as (w & ->); auto.
              rewrite items_keys by auto. apply X. apply in_map_iff. exists (k, v). auto. }
          destruct r as [k|].
          * symmetry in R. apply find_some in R. destruct R as (R1 & R2).
            destruct (sub_dict o (items_of cf)) eqn:X; auto. exfalso.
            assert (Y : incl cf (map fst o)).
            { apply NoDup_length_incl; auto. rewrite map_length. lia. now apply SK. }
            apply Y in R1. apply memk_in in R1. rewrite R1 in R2. easy.
          * assert (Y : incl cf (map fst o)).
            { intros k X. pose proof (find_none _ _ (eq_sym R) k X) as Z. cbn in Z.
              apply negb_false_iff in Z. now apply memk_in. }
            apply SK. apply NoDup_length_incl; auto. rewrite map_length. lia.
        + injection H as <- <-. destruct st as [s its]. apply simple_ok; auto. intros cf C. cbn.
          rewrite same_by_length; auto using items_nodup. rewrite (items_len cf C), Q. reflexivity.
    Qed.

    Lemma run_ok step py : (forall o st a st', stinv st -> proper_op K V o ->
        step o st = Did a st' -> step_ok py o st a st') ->
      forall p st l st', stinv st -> Forall (proper_op K V) p -> run K V step p st = Finished l st' ->
        stinv st' /\ prefix (cache (sh st)) (cache (sh st')) /\
        forall cf, prefix (cache (sh st')) cf -> complete cf ->
          py_run K V (py (items_of cf)) p (pos st) = l.
    Proof.
      intros SO. induction p as [|o p IH]; intros st l st' I W H; cbn in H.
      - injection H as <- <-. split; auto. split; [apply prefix_refl|auto].
      - destruct (step o st) as [a st1| |] eqn:E; try easy.
        destruct (run K V step p st1) as [l1 st2| |] eqn:R; try easy. injection H as <- <-.
        inversion W as [|? ? W1 W2]; subst.
        destruct (SO _ _ _ _ I W1 E) as (I1 & P1 & S1).
        destruct (IH _ _ _ I1 W2 R) as (I2 & P2 & S2).
        split; auto. split; [eapply prefix_trans; eauto|].
        intros cf P C. cbn. rewrite (S1 cf); auto.
        + cbn. f_equal. auto.
        + eapply prefix_trans; eauto.
    Qed.

    Lemma stinv_start : 0 <= len -> stinv (start K V).
    Proof.
      intros L. split; [|constructor]. split; [constructor|]. split; [easy|cbn; lia].
    Qed.

    Lemma scan_never next fuel : forall it s r s',
      scan K V next fuel (fun _ => false) it s = Ran r s' -> r = None.
    Proof.
      induction fuel as [|fuel IH]; intros it s r s' H; cbn in H; [easy|].
      destruct (next it s) as [[[k|] it1] s1| |]; try easy; [eauto|congruence].
    Qed.

    Lemma dict_complete_order st : stinv st -> dict_consistent K V keqb veqb covered arr len fresh st = true ->
      exists cf, prefix (cache (sh st)) cf /\ complete cf.
    Proof.
      intros (I & F) H. unfold dict_consistent in H.
      destruct (iterate_all K V arr len dict_next (sh st)) as [r s1| |] eqn:E; try easy.
      unfold iterate_all in E. pose proof (scan_never _ _ _ _ _ _ E) as ->.
      destruct (scan_ok dict_next dict_next_ok _ _ _ _ _ _ I (itinv_new _) E) as (I1 & P1 & _ & N1).
      destruct (N1 eq_refl) as (L & S1). destruct I1 as (A & B & C).
      exists (cache s1). split; auto. split; auto. split; auto. intros k. split; auto.
    Qed.

    Lemma select_stores present ks : forall a j,
      select (fold_left (fun a k => store a k (Some present)) ks a) j =
      if existsb (keqb j) ks then Some present else select a j.
    Proof.
      induction ks as [|k ks IH]; intros a j; cbn; auto. rewrite IH, select_store.
      destruct (existsb (keqb j) ks); [now rewrite orb_true_r|]. rewrite orb_false_r.
      destruct (keqb k j) eqn:E, (keqb j k) eqn:F; auto.
      - apply KE in E. subst. rewrite keqb_refl in F. easy.
      - apply KE in F. subst. rewrite keqb_refl in E. easy.
    Qed.

    Lemma distinct_nodup l : distinct K keqb l = true <-> NoDup l.
    Proof.
      induction l as [|x l IH]; cbn; [split; [constructor|auto]|].
      rewrite andb_true_iff, negb_true_iff, memk_not, IH. split.
      - intros (A & B). now constructor.
      - intros N. inversion N; auto.
    Qed.

    Lemma NoDup_app_intro {A} (a b : list A) : NoDup a -> NoDup b ->
      (forall x, In x a -> ~ In x b) -> NoDup (a ++ b).
    Proof.
      intros Na Nb D. induction Na as [|x a N1 N2 IH]; cbn; auto.
      constructor.
      - rewrite in_app_iff. intros [I|I]; [auto|]. apply (D x); cbn; auto.
      - apply IH. intros y Y. apply D. now right.
    Qed.

    Lemma set_complete_order item present st : 0 <= len -> stinv st ->
      set_consistent K V keqb veqb covered arr len item present = true ->
      exists cf, prefix (cache (sh st)) cf /\ complete cf.
    Proof.
      intros L0 ((N & P & L) & F) H. unfold set_consistent in H. apply andb_true_iff in H.
      destruct H as (D & E). apply distinct_nodup in D. rewrite arr_eqb_spec in E.
      set (its := items K len item) in *.
      assert (LI : Z.of_nat (length its) = len).
      { unfold its, items. rewrite map_length, seq_length. lia. }
      assert (SI : forall k, In k its <-> select arr k <> None).
      { intros k. rewrite <- E, select_stores. rewrite <- memk_in.
        rewrite select_empty. destruct (existsb (keqb k) its); split; intros; congruence. }
      set (c := cache (sh st)) in *.
      exists (c ++ filter (fun k => negb (existsb (keqb k) c)) its).
      split; [eexists; reflexivity|].
      assert (FI : forall k, In k (filter (fun k => negb (existsb (keqb k) c)) its) <-> In k its /\ ~ In k c).
      { intros k. rewrite filter_In, negb_true_iff, memk_not. tauto. }
      assert (ND : NoDup (c ++ filter (fun k => negb (existsb (keqb k) c)) its)).
      { apply NoDup_app_intro; auto using NoDup_filter. intros k A B. apply FI in B. tauto. }
      assert (SAME : forall k, In k (c ++ filter (fun k => negb (existsb (keqb k) c)) its) <-> In k its).
      { intros k. rewrite in_app_iff, FI. split.
        - intros [A|A]; [|tauto]. apply SI. auto.
        - intros A. destruct (in_dec keqb_dec k c); tauto. }
      split; auto. split; [|intros k; rewrite SAME; apply SI].
      rewrite <- LI. f_equal. apply Nat.le_antisymm; apply NoDup_incl_length; auto; intros k; apply SAME.
    Qed.

    (** ** every dictionary is represented *)
    Section Represent.
      Variable cf : list K.
      Hypothesis C : complete cf.
      Hypothesis Fr : forall u i k, nth_error cf i = Some k -> fresh u i = k.

      Definition good (st : state) : Prop := stinv st /\ prefix (cache (sh st)) cf.

      Lemma len_nonneg : 0 <= len. Proof. destruct C as (_ & L & _). lia. Qed.

      Lemma left_over s it k : inv s -> itinv (cache s) it -> prefix (cache s) cf ->
        nth_error cf (i_idx it) = Some k -> exists v, select (i_arr it) k = Some v.
      Proof.
        intros I (A & B & D) P N. rewrite B.
        assert (X : firstn (i_idx it) (cache s) = firstn (i_idx it) cf) by (symmetry; now apply prefix_firstn).
        rewrite X. destruct C as (C1 & C2 & C3).
        assert (NI : ~ In k (firstn (i_idx it) cf)).
        { intros J. apply In_nth_error in J. destruct J as (n & J).
          assert (Q : (n < length (firstn (i_idx it) cf))%nat) by (apply nth_error_Some; congruence).
          rewrite firstn_length in Q.
          assert (J2 : nth_error cf n = Some k).
          { rewrite <- (firstn_skipn (i_idx it) cf). rewrite nth_error_app1; auto.
            rewrite firstn_length. lia. }
          assert (n = i_idx it); [|lia]. eapply NoDup_nth_error; eauto; [|congruence].
          apply nth_error_Some. congruence. }
        apply memk_not in NI. rewrite NI. destruct (select arr k) eqn:E; [eauto|].
        exfalso. apply (C3 k); auto. eapply nth_error_In; eauto.
      Qed.

      Lemma take_goes s it k s' : inv s -> itinv (cache s) it -> prefix (cache s) cf ->
        nth_error cf (i_idx it) = Some k -> prefix (cache s') cf ->
        exists r it' s2, take it k s' = Ran (r, it') s2 /\ prefix (cache s2) cf.
      Proof.
        intros I J P N P'. destruct (left_over s it k I J P N) as (v & E).
        unfold SymMap_Model.take. rewrite E. eauto.
      Qed.

      Lemma nth_before (it : iter) : Z.of_nat (i_idx it) < len -> exists k, nth_error cf (i_idx it) = Some k.
      Proof.
        intros Q. destruct C as (_ & L & _). destruct (nth_error cf (i_idx it)) eqn:E; [eauto|].
        apply nth_error_None in E. lia.
      Qed.

      Lemma snoc_prefix s it k : itinv (cache s) it -> prefix (cache s) cf ->
        nth_error (cache s) (i_idx it) = None -> nth_error cf (i_idx it) = Some k ->
        prefix (cache s ++ [k]) cf.
      Proof.
        intros (A & _) (r & Pr) N E. apply nth_error_None in N.
        assert (X : i_idx it = length (cache s)) by lia. rewrite Pr, X in E.
        rewrite nth_error_app2, Nat.sub_diag in E by lia. destruct r as [|x r]; [easy|].
        cbn in E. injection E as ->. exists r. rewrite Pr, <- app_assoc. reflexivity.
      Qed.

      Lemma not_exhausted s it k : inv s -> itinv (cache s) it -> prefix (cache s) cf ->
        nth_error cf (i_idx it) = Some k -> arr_eqb (i_arr it) empty = false.
      Proof.
        intros I J P N. destruct (left_over s it k I J P N) as (v & E).
        destruct (arr_eqb (i_arr it) empty) eqn:Q; auto. rewrite is_empty in Q. rewrite Q in E. easy.
      Qed.

      Lemma finish_goes s it : inv s -> itinv (cache s) it -> prefix (cache s) cf ->
        len <= Z.of_nat (i_idx it) ->
        exists r it' s2, finish it s = Ran (r, it') s2 /\ prefix (cache s2) cf.
      Proof.
        intros I (A & B & D) P Q. destruct C as (C1 & C2 & C3). pose proof (prefix_length _ _ P) as PL.
        assert (X : cache s = cf) by (apply prefix_same; auto; lia).
        unfold SymMap_Model.finish. assert (E : arr_eqb (i_arr it) empty = true).
        { apply is_empty. intros k. rewrite B, X, firstn_all2 by lia.
          destruct (existsb (keqb k) cf) eqn:M; auto. apply memk_not in M.
          destruct (select arr k) eqn:S1; auto. exfalso. apply M, C3. congruence. }
        rewrite E. eauto.
      Qed.

      Lemma dict_next_goes s it : inv s -> itinv (cache s) it -> prefix (cache s) cf ->
        exists r it' s2, dict_next it s = Ran (r, it') s2 /\ prefix (cache s2) cf.
      Proof.
        intros I J P. unfold SymMap_Model.dict_next. destruct (i_done it); [eauto|].
        destruct (Z.of_nat (i_idx it) <? len) eqn:Q; [|apply finish_goes; auto; lia].
        destruct (nth_before it) as (k & N); [lia|]. rewrite (not_exhausted s it k I J P N). cbv zeta.
        rewrite (Fr _ _ k N). destruct (nth_error (cache s) (i_idx it)) as [c|] eqn:E.
        - pose proof (prefix_nth _ _ _ _ P E) as X. rewrite X in N. injection N as ->.
          rewrite keqb_refl. eapply take_goes; eauto.
        - eapply take_goes; eauto. cbn. eapply snoc_prefix; eauto.
      Qed.

      Lemma set_next_goes s it : inv s -> itinv (cache s) it -> prefix (cache s) cf ->
        exists r it' s2, set_next it s = Ran (r, it') s2 /\ prefix (cache s2) cf.
      Proof.
        intros I J P. unfold SymMap_Model.set_next. destruct (i_done it); [eauto|].
        destruct (nth_error (cache s) (i_idx it)) as [c|] eqn:E.
        - pose proof (prefix_nth _ _ _ _ P E) as X. eapply take_goes; eauto.
        - destruct (Z.of_nat (i_idx it) <? len) eqn:Q; [|apply finish_goes; auto; lia].
          destruct (nth_before it) as (k & N); [lia|]. rewrite (not_exhausted s it k I J P N). cbv zeta.
          rewrite (Fr _ _ k N). eapply take_goes; eauto. cbn. eapply snoc_prefix; eauto.
      Qed.

      Section Goes.
        Variable next : iter -> shared -> ran K (option K * iter).
        Hypothesis next_spec : forall it s r it' s', inv s -> itinv (cache s) it ->
          next it s = Ran (r, it') s' -> next_ok it s r it' s'.
        Hypothesis next_goes : forall s it, inv s -> itinv (cache s) it -> prefix (cache s) cf ->
          exists r it' s2, next it s = Ran (r, it') s2 /\ prefix (cache s2) cf.

        Lemma scan_goes p fuel : forall it s, inv s -> itinv (cache s) it -> prefix (cache s) cf ->
          (length cf - i_idx it < fuel)%nat ->
          exists r s', scan K V next fuel p it s = Ran r s' /\ prefix (cache s') cf.
        Proof.
          induction fuel as [|fuel IH]; intros it s I J P Q; [lia|]. cbn.
          destruct (next_goes s it I J P) as (r & it1 & s1 & E & P1). rewrite E.
          destruct (next_spec _ _ _ _ _ I J E) as (I1 & _ & J1 & R1).
          destruct r as [k|]; [|eauto]. destruct (p k); [eauto|]. destruct R1 as (R1 & R2).
          apply IH; auto.
          assert (i_idx it < length cf)%nat; [|lia].
          apply prefix_length in P1.
          assert (i_idx it < length (cache s1))%nat by (apply nth_error_Some; congruence). lia.
        Qed.

        Lemma find_goes p s : inv s -> prefix (cache s) cf ->
          exists r s', find_key K V arr len next p s = Ran r s' /\ prefix (cache s') cf.
        Proof.
          intros I P. unfold find_key. apply scan_goes; auto using itinv_new.
          destruct C as (_ & L & _). cbn. lia.
        Qed.

        Lemma all_goes s : inv s -> prefix (cache s) cf ->
          exists r s', iterate_all K V arr len next s = Ran r s'.
        Proof.
          intros I P. unfold iterate_all.
          destruct (scan_goes (fun _ => false) (S (S (Z.to_nat len + length (cache s)))) (new_iter K V arr) s)
            as (r & s' & E & _); auto using itinv_new; [|eauto].
          destruct C as (_ & L & _). cbn. lia.
        Qed.

        Lemma advance_goes i st : good st ->
          exists a st', advance K V next i st = Did a st' /\ prefix (cache (sh st')) cf.
        Proof.
          intros ((I & F) & P). unfold advance. destruct (nth_error (its st) i) as [it|] eqn:E; [|eauto].
          rewrite Forall_forall in F. pose proof (F _ (nth_error_In _ _ E)) as J.
          destruct (next_goes (sh st) it I J P) as (r & it1 & s1 & -> & P1). eauto.
        Qed.
      End Goes.

      Lemma get_goes k s : exists a, dict_get k s = Ran a s.
      Proof.
        unfold SymMap_Model.dict_get. destruct (select arr k) eqn:E; [|eauto].
        destruct C as (C1 & C2 & C3).
        assert (In k cf) by (apply C3; congruence).
        destruct (len =? 0) eqn:Q; [|eauto]. destruct cf; cbn in *; [easy|lia].
      Qed.

      Lemma dict_step_goes o st : good st ->
        exists a st', dict_step K V keqb veqb covered arr len fresh o st = Did a st' /\
                      prefix (cache (sh st')) cf.
      Proof.
        intros G. pose proof G as ((I & F) & P). destruct o as [|i|k|p| | |o]; cbn; try solve [eauto].
        - apply advance_goes; auto using dict_next_goes.
        - destruct (get_goes k (sh st)) as (a & ->). cbn. eauto.
        - unfold dict_get_other.
          destruct (find_goes dict_next dict_next_ok dict_next_goes p (sh st) I P) as (r & s' & -> & P').
          destruct r as [k|]; cbn; [|eauto]. destruct (get_goes k s') as (a & ->). cbn. eauto.
        - unfold SymMap_Model.dict_eq. destruct (len =? Z.of_nat (length o)); [|cbn; eauto].
          assert (X : exists a, eq_items K V keqb veqb arr len o (sh st) = Ran a (sh st)).
          { clear G F. induction o as [|[k v] o IH]; cbn; [eauto|].
            destruct (get_goes k (sh st)) as (a & ->). destruct a; eauto.
            destruct (veqb v0 v); eauto. }
          destruct X as (a & ->). cbn. eauto.
      Qed.

      Lemma set_step_goes o st : good st ->
        exists a st', set_step K V keqb veqb covered arr len fresh o st = Did a st' /\
                      prefix (cache (sh st')) cf.
      Proof.
        intros G. pose proof G as ((I & F) & P). destruct o as [|i|k|p| | |o]; cbn; try solve [eauto].
        - apply advance_goes; auto using set_next_goes.
        - unfold set_contains_other.
          destruct (find_goes set_next set_next_ok set_next_goes p (sh st) I P) as (r & s' & -> & P').
          destruct r; cbn; eauto.
        - unfold set_eq. destruct (len =? _); [|cbn; eauto].
          destruct (find_goes set_next set_next_ok set_next_goes
                      (fun k => negb (existsb (keqb k) (map fst o))) (sh st) I P) as (r & s' & -> & P').
          destruct r; cbn; eauto.
      Qed.

      Lemma run_goes step py : (forall o st a st', stinv st -> proper_op K V o ->
          step o st = Did a st' -> step_ok py o st a st') ->
        (forall o st, good st -> exists a st', step o st = Did a st' /\ prefix (cache (sh st')) cf) ->
        forall p st, good st -> Forall (proper_op K V) p ->
          exists l st', run K V step p st = Finished l st' /\ good st'.
      Proof.
        intros SO SG. induction p as [|o p IH]; intros st G W; cbn; [eauto|].
        inversion W as [|? ? W1 W2]; subst.
        destruct (SG o st G) as (a & st1 & E & P1). rewrite E.
        destruct (SO _ _ _ _ (proj1 G) W1 E) as (I1 & _).
        destruct (IH st1 (conj I1 P1) W2) as (l & st2 & -> & G2). eauto.
      Qed.

      Lemma good_start : good (start K V).
      Proof. split; [apply stinv_start, len_nonneg|]. exists cf. reflexivity. Qed.
    End Represent.
  End Object.
End Proofs.
