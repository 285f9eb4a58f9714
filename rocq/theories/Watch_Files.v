(* Proofs about listing files and noticing changes. *)
From Coq Require Import ZArith List Bool Lia ZifyBool ZifyNat Arith.
From Verif Require Import Watch_Model Watch_Spec.
Import ListNotations.
Local Open Scope Z_scope.

Lemma zlist_eqb_ok : forall a b, zlist_eqb a b = true <-> a = b.
Proof.
  induction a as [|x a IH]; intros [|y b]; cbn; split; intro H; try discriminate; auto.
  - apply andb_prop in H. destruct H as [H1 H2].
    apply Z.eqb_eq in H1. apply IH in H2. subst. reflexivity.
  - injection H as -> ->. rewrite Z.eqb_refl. cbn. apply IH. reflexivity.
Qed.

Lemma path_eqb_ok : forall a b, path_eqb a b = true <-> a = b.
Proof.
  induction a as [|x a IH]; intros [|y b]; cbn; split; intro H; try discriminate; auto.
  - apply andb_prop in H. destruct H as [H1 H2].
    apply zlist_eqb_ok in H1. apply IH in H2. subst. reflexivity.
  - injection H as -> ->. rewrite (proj2 (zlist_eqb_ok y y) eq_refl). cbn. apply IH. reflexivity.
Qed.

Lemma path_eqb_refl : forall a, path_eqb a a = true.
Proof. intro a. apply path_eqb_ok. reflexivity. Qed.

Lemma path_eqb_no : forall a b, path_eqb a b = false <-> a <> b.
Proof.
  intros a b. destruct (path_eqb a b) eqn:E.
  - apply path_eqb_ok in E. split; [discriminate|contradiction].
  - split; auto. intros _ H. apply path_eqb_ok in H. congruence.
Qed.

Lemma path_dec : forall a b : path, {a = b} + {a <> b}.
Proof. intros a b. destruct (path_eqb a b) eqn:E; [left; apply path_eqb_ok | right; apply path_eqb_no]; exact E. Qed.

(* ------------------------------------------------------------------ *)
(** * The file system *)

Lemma node_ind_deep : forall P : node -> Prop,
  (forall m, P (File m)) ->
  (forall l, (forall n x, In (n, x) l -> P x) -> P (Dir l)) ->
  forall x, P x.
Proof.
  intros P HF HD. fix IH 1. intros [m|l].
  - apply HF.
  - apply HD. induction l as [|[k y] l IHl].
    + intros n x [].
    + intros n x [H|H].
      * assert (Hy : P y) by apply IH. injection H as _ <-. exact Hy.
      * eapply IHl. exact H.
Qed.

Lemma find_entry_in : forall n l x, find_entry n l = Some x -> In (n, x) l.
Proof.
  induction l as [|[m y] l IH]; cbn; intros x H; [discriminate|].
  destruct (zlist_eqb n m) eqn:E.
  - injection H as ->. apply zlist_eqb_ok in E. subst. now left.
  - right. auto.
Qed.

Lemma find_entry_of : forall n l x, NoDup (map fst l) -> In (n, x) l -> find_entry n l = Some x.
Proof.
  induction l as [|[m y] l IH]; cbn; intros x HN H; [contradiction|].
  inversion HN as [|? ? H1 H2]; subst.
  destruct H as [H|H].
  - injection H as -> ->. rewrite (proj2 (zlist_eqb_ok n n) eq_refl). reflexivity.
  - destruct (zlist_eqb n m) eqn:E.
    + apply zlist_eqb_ok in E. subst m. exfalso. apply H1.
      apply in_map_iff. exists (n, x). auto.
    + auto.
Qed.

Lemma node_at_holds : forall p root x, well_formed root ->
  (node_at root p = Some x <-> holds_at root p x).
Proof.
  induction p as [|n p IH]; intros root x HW; cbn.
  - split; intro H.
    + injection H as ->. constructor.
    + inversion H; subst. reflexivity.
  - split; intro H.
    + destruct root as [m|l]; [discriminate|].
      destruct (find_entry n l) as [y|] eqn:E; [|discriminate].
      apply find_entry_in in E. inversion HW as [|? HN HA]; subst.
      apply ha_down with y; auto. apply IH; auto. eapply HA; eauto.
    + inversion H as [|? ? y ? ? Hin Hy]; subst. inversion HW as [|? HN HA]; subst.
      rewrite (find_entry_of n l y HN Hin). apply IH; auto. eapply HA; eauto.
Qed.

Lemma holds_app : forall p q x y z, holds_at x p y -> holds_at y q z -> holds_at x (p ++ q) z.
Proof.
  intros p q x y z H. revert z. induction H; cbn; intros z Hz; auto.
  eapply ha_down; eauto.
Qed.

Lemma holds_split : forall p q x z, holds_at x (p ++ q) z -> exists y, holds_at x p y /\ holds_at y q z.
Proof.
  induction p as [|n p IH]; cbn; intros q x z H.
  - exists x. split; [constructor|exact H].
  - inversion H as [|? ? w ? ? Hin Hw]; subst. destruct (IH _ _ _ Hw) as [y [H1 H2]].
    exists y. split; auto. eapply ha_down; eauto.
Qed.

Lemma holds_wf : forall p x y, well_formed x -> holds_at x p y -> well_formed y.
Proof.
  intros p x y HW H. induction H as [|l n x p y Hin H IH]; auto.
  inversion HW as [|? HN HA]; subst. apply IH. eapply HA; eauto.
Qed.

Lemma holds_fun : forall p x y z, well_formed x -> holds_at x p y -> holds_at x p z -> y = z.
Proof.
  intros p x y z HW H1 H2.
  apply (node_at_holds p x y HW) in H1. apply (node_at_holds p x z HW) in H2. congruence.
Qed.

(* ------------------------------------------------------------------ *)
(** * Names *)

Section Names.
  Variable isalpha isidentifier : Z -> bool.

  Lemma ends_with_ok : forall sf n, ends_with sf n = true <-> exists stem, n = stem ++ sf.
  Proof.
    intros sf n. unfold ends_with. rewrite andb_true_iff, zlist_eqb_ok, Nat.leb_le. split.
    - intros [H1 H2]. exists (firstn (length n - length sf) n).
      rewrite <- H1 at 2. rewrite firstn_skipn. reflexivity.
    - intros [stem ->]. rewrite app_length. split; [|lia].
      replace (length stem + length sf - length sf)%nat with (length stem) by lia.
      rewrite skipn_app, skipn_all, Nat.sub_diag. reflexivity.
  Qed.

  Lemma analyzable_ok : forall n,
    analyzable_filename isalpha isidentifier n = true <-> source_name isalpha isidentifier n.
  Proof.
    intro n. unfold analyzable_filename, source_name.
    destruct (ends_with dot_py n) eqn:E; cbn [negb].
    - apply ends_with_ok in E. destruct n as [|c rest].
      { exfalso. destruct E as [stem E]. symmetry in E. apply app_eq_nil in E.
        destruct E as [_ E]. discriminate. }
      cbn [hd].
      destruct (zlist_eqb (c :: rest) setup_py) eqn:E2.
      + apply zlist_eqb_ok in E2.
        split.
        * destruct (negb (isalpha c) && negb (isidentifier c)); discriminate.
        * intros [_ [_ H]]. exfalso. apply H. exact E2.
      + destruct (isalpha c) eqn:E3, (isidentifier c) eqn:E4; cbn [negb andb].
        4: { split; [discriminate|]. intros [_ [[c' [r' [H1 H2]]] _]]. injection H1 as <- <-.
             rewrite E3, E4 in H2. destruct H2; discriminate. }
        all: split; [intros _|reflexivity]; split; [exact E|]; split;
          [exists c, rest; auto|]; intro HC; change (c :: rest = setup_py) in HC;
          apply zlist_eqb_ok in HC; congruence.
    - split; [discriminate|]. intros [H _]. exfalso.
      assert (ends_with dot_py n = true) by (apply ends_with_ok; exact H). congruence.
  Qed.

  (** the inner loop of [walk_dir], named *)
  Fixpoint walk_subs (here : path) (l : list (name * node)) : list path :=
    match l with
    | [] => []
    | (n, y) :: l' => walk_dir isalpha isidentifier (here ++ [n]) y ++ walk_subs here l'
    end.

  Lemma walk_dir_eq : forall here l,
    walk_dir isalpha isidentifier here (Dir l) =
    map (fun e => here ++ [fst e])
        (filter (fun e => is_file (snd e) && analyzable_filename isalpha isidentifier (fst e)) l)
    ++ walk_subs here l.
  Proof.
    intros here l. cbn [walk_dir]. f_equal.
    induction l as [|[n y] l IH]; cbn; [reflexivity|]. now rewrite IH.
  Qed.

  Lemma walk_subs_in : forall here l p,
    In p (walk_subs here l) <->
    exists n y, In (n, y) l /\ In p (walk_dir isalpha isidentifier (here ++ [n]) y).
  Proof.
    induction l as [|[n y] l IH]; intro p; cbn [walk_subs].
    - split; [intros []|intros [n [y [[] _]]]].
    - rewrite in_app_iff, IH. split.
      + intros [H|[n' [y' [H1 H2]]]].
        * exists n, y. split; [now left|exact H].
        * exists n', y'. split; [now right|exact H2].
      + intros [n' [y' [[H|H] H2]]].
        * injection H as <- <-. now left.
        * right. exists n', y'. auto.
  Qed.

  Lemma walk_dir_in : forall x here p,
    In p (walk_dir isalpha isidentifier here x) <->
    exists q n m, p = here ++ q ++ [n] /\ holds_at x (q ++ [n]) (File m)
                  /\ source_name isalpha isidentifier n.
  Proof.
    induction x as [m|l IH] using node_ind_deep; intros here p.
    - cbn. split; [intros []|]. intros [q [n [k [_ [H _]]]]].
      destruct q; inversion H.
    - rewrite walk_dir_eq, in_app_iff, in_map_iff, walk_subs_in. split.
      + intros [[[n x] [<- H]]|[n [y [Hin H]]]].
        * apply filter_In in H. destruct H as [Hin H]. apply andb_prop in H.
          destruct H as [Hf Ha]. cbn [fst snd] in *. destruct x as [m|]; [|discriminate].
          exists [], n, m. split; [reflexivity|]. split; [|apply analyzable_ok; exact Ha].
          cbn. eapply ha_down; [exact Hin|constructor].
        * apply (IH n y Hin) in H. destruct H as [q [k [m [-> [H1 H2]]]]].
          exists (n :: q), k, m. split; [now rewrite <- app_assoc|]. split; [|exact H2].
          cbn. eapply ha_down; eauto.
      + intros [q [n [m [-> [H1 H2]]]]]. destruct q as [|k q].
        * left. cbn in H1. inversion H1 as [|? ? x ? ? Hin Hx]; subst.
          inversion Hx; subst. exists (n, File m). split; [reflexivity|].
          apply filter_In. split; [exact Hin|]. cbn. apply analyzable_ok. exact H2.
        * right. cbn in H1. inversion H1 as [|? ? x ? ? Hin Hx]; subst.
          exists k, x. split; [exact Hin|]. apply (IH k x Hin).
          exists q, n, m. split; [now rewrite <- app_assoc|]. auto.
  Qed.

  Lemma walk_paths_in : forall root paths p, well_formed root ->
    (In p (walk_paths isalpha isidentifier root paths) <->
     exists m, watched isalpha isidentifier paths root p m).
  Proof.
    intros root paths p HW. induction paths as [|q paths IH]; cbn [walk_paths].
    - split; [intros []|]. intros [m H]. inversion H as [? ? []|? ? ? ? ? []].
    - assert (Hrest : (exists m, watched isalpha isidentifier paths root p m) ->
                      exists m, watched isalpha isidentifier (q :: paths) root p m).
      { intros [m H]. exists m. inversion H; subst.
        - constructor; [now right|assumption].
        - eapply w_below; eauto. now right. }
      destruct (node_at root q) as [[m|l]|] eqn:E.
      + apply (node_at_holds q root _ HW) in E. cbn [In]. rewrite IH. split.
        * intros [<-|H]; [|auto]. exists m. constructor; [now left|exact E].
        * intros [k H]. inversion H as [? ? Hin Hh|d l s n ? Hin Hd Hh Hn]; subst.
          -- destruct Hin as [->|Hin]; [now left|]. right. exists k. now constructor.
          -- destruct Hin as [<-|Hin].
             ++ pose proof (holds_fun _ _ _ _ HW E Hd). discriminate.
             ++ right. exists k. eapply w_below; eauto.
      + apply (node_at_holds q root _ HW) in E. rewrite in_app_iff, IH, walk_dir_in. split.
        * intros [[s [n [m [-> [H1 H2]]]]]|H]; [|auto].
          exists m. eapply w_below; eauto. now left.
        * intros [k H]. inversion H as [? ? Hin Hh|d l' s n ? Hin Hd Hh Hn]; subst.
          -- destruct Hin as [->|Hin].
             ++ pose proof (holds_fun _ _ _ _ HW E Hh). discriminate.
             ++ right. exists k. now constructor.
          -- destruct Hin as [<-|Hin].
             ++ left. pose proof (holds_fun _ _ _ _ HW E Hd) as HE. injection HE as <-.
                exists s, n, k. auto.
             ++ right. exists k. eapply w_below; eauto.
      + rewrite IH. split; [auto|]. intros [k H].
        inversion H as [? ? Hin Hh|d l' s n ? Hin Hd Hh Hn]; subst.
        * destruct Hin as [->|Hin].
          -- apply (node_at_holds p root _ HW) in Hh. congruence.
          -- exists k. now constructor.
        * destruct Hin as [<-|Hin].
          -- apply (node_at_holds q root _ HW) in Hd. congruence.
          -- exists k. eapply w_below; eauto.
  Qed.

  Lemma watched_mtime : forall root paths p m, well_formed root ->
    In p (walk_paths isalpha isidentifier root paths) ->
    (watched isalpha isidentifier paths root p m <-> mtime root p = Some m).
  Proof.
    intros root paths p m HW Hin. apply (walk_paths_in _ _ _ HW) in Hin.
    assert (Hat : forall k, watched isalpha isidentifier paths root p k -> holds_at root p (File k)).
    { intros k H. inversion H as [|d l s n ? Hd Hh Hq Hn]; subst; auto.
      eapply holds_app; eauto. }
    unfold mtime. split; intro H.
    - apply Hat in H. apply (node_at_holds p root _ HW) in H. rewrite H. reflexivity.
    - destruct Hin as [k Hk]. pose proof (Hat k Hk) as Hh.
      apply (node_at_holds p root _ HW) in Hh. rewrite Hh in H. injection H as ->. exact Hk.
  Qed.

  (* no file is listed twice *)
  Lemma nodup_app : forall (A : Type) (a b : list A),
    NoDup a -> NoDup b -> (forall x, In x a -> In x b -> False) -> NoDup (a ++ b).
  Proof.
    induction a as [|x a IH]; cbn; intros b Ha Hb Hd; auto.
    inversion Ha as [|? ? H1 H2]; subst. constructor.
    - rewrite in_app_iff. intros [H|H]; [auto|]. eapply Hd; [now left|exact H].
    - apply IH; auto. intros y Hy. apply Hd. now right.
  Qed.

  Lemma nodup_map_filter : forall (A B : Type) (f : A -> B) (g : A -> bool) l,
    NoDup (map f l) -> NoDup (map f (filter g l)).
  Proof.
    induction l as [|x l IH]; cbn; intro H; [constructor|].
    inversion H as [|? ? H1 H2]; subst. destruct (g x); cbn; [|auto].
    constructor; auto. intro HC. apply H1. apply in_map_iff in HC.
    destruct HC as [y [Hy Hin]]. apply filter_In in Hin. apply in_map_iff. exists y. tauto.
  Qed.

  Lemma nodup_map_inj : forall (A B : Type) (f : A -> B) l,
    (forall x y, f x = f y -> x = y) -> NoDup l -> NoDup (map f l).
  Proof.
    intros A B f l Hf. induction l as [|x l IH]; cbn; intro H; [constructor|].
    inversion H; subst. constructor; auto. intro HC. apply in_map_iff in HC.
    destruct HC as [y [Hy Hin]]. apply Hf in Hy. subst. contradiction.
  Qed.

  Lemma walk_dir_nodup : forall x here, well_formed x ->
    NoDup (walk_dir isalpha isidentifier here x).
  Proof.
    induction x as [m|l IH] using node_ind_deep; intros here HW; [constructor|].
    inversion HW as [|? HN HA]; subst. rewrite walk_dir_eq. apply nodup_app.
    - rewrite <- (map_map fst (fun n => here ++ [n])).
      apply nodup_map_inj.
      + intros x y H. apply app_inv_head in H. now injection H.
      + apply nodup_map_filter. exact HN.
    - clear HW. induction l as [|[n y] l IHl]; cbn [walk_subs]; [constructor|].
      cbn in HN. inversion HN as [|? ? H1 H2]; subst. apply nodup_app.
      + eapply IH; [now left|]. eapply HA. now left.
      + apply IHl; auto.
        * intros k z Hz. eapply IH. right. exact Hz.
        * intros k z Hz. eapply HA. right. exact Hz.
      + intros p Hp Hq. apply walk_dir_in in Hp. destruct Hp as [q [k [m [-> _]]]].
        apply walk_subs_in in Hq. destruct Hq as [n' [y' [Hin Hq]]].
        apply walk_dir_in in Hq. destruct Hq as [q' [k' [m' [He _]]]].
        rewrite <- !app_assoc in He. apply app_inv_head in He. cbn in He.
        injection He as <- _. apply H1. apply in_map_iff. exists (n, y'). auto.
    - intros p Hp Hq. apply in_map_iff in Hp. destruct Hp as [[n y] [<- Hp]]. cbn [fst] in Hq.
      apply walk_subs_in in Hq. destruct Hq as [k [z [Hin Hq]]].
      apply walk_dir_in in Hq. destruct Hq as [q [j [m [He _]]]].
      rewrite <- !app_assoc in He. apply app_inv_head in He. cbn in He.
      injection He as _ He. destruct q; discriminate.
  Qed.

  Lemma prefix_cmp : forall (a b c d : path), a ++ b = c ++ d ->
    (exists e, c = a ++ e) \/ (exists e, a = c ++ e).
  Proof.
    induction a as [|x a IH]; intros b c d H.
    - left. exists c. reflexivity.
    - destruct c as [|y c].
      + right. exists (x :: a). reflexivity.
      + cbn in H. injection H as -> H. destruct (IH _ _ _ H) as [[e ->]|[e ->]].
        * left. exists e. reflexivity.
        * right. exists e. reflexivity.
  Qed.

  Lemma disjoint_tail : forall p paths, disjoint_targets (p :: paths) -> disjoint_targets paths.
  Proof.
    intros p paths [H1 H2]. inversion H1; subst. split; auto.
    intros q r Hq Hr. apply (H2 q r); now right.
  Qed.

  Lemma walked_below : forall root paths p,
    In p (walk_paths isalpha isidentifier root paths) -> exists q e, In q paths /\ p = q ++ e.
  Proof.
    induction paths as [|q paths IH]; cbn [walk_paths]; intros p H; [contradiction|].
    assert (Hr : (exists q0 e, In q0 paths /\ p = q0 ++ e) ->
                 exists q0 e, In q0 (q :: paths) /\ p = q0 ++ e).
    { intros [a [e [Ha He]]]. exists a, e. split; [now right|exact He]. }
    destruct (node_at root q) as [[m|l]|].
    - destruct H as [<-|H]; [|auto]. exists q, []. split; [now left|now rewrite app_nil_r].
    - apply in_app_iff in H. destruct H as [H|H]; [|auto].
      apply walk_dir_in in H. destruct H as [s [n [m [-> _]]]].
      exists q, (s ++ [n]). split; [now left|reflexivity].
    - auto.
  Qed.

  Lemma walk_paths_nodup : forall root paths, well_formed root -> disjoint_targets paths ->
    NoDup (walk_paths isalpha isidentifier root paths).
  Proof.
    intros root paths HW. induction paths as [|p paths IH]; intro HD; cbn [walk_paths].
    { constructor. }
    pose proof (IH (disjoint_tail _ _ HD)) as Hrest.
    assert (Hapart : forall e, In (p ++ e) (walk_paths isalpha isidentifier root paths) -> False).
    { intros e H. apply walked_below in H. destruct H as [q [f [Hq He]]].
      destruct HD as [HN HP]. inversion HN; subst.
      destruct (prefix_cmp _ _ _ _ He) as [[g Hg]|[g Hg]].
      - subst q. assert (g = []) by (apply (HP p g); [now left|now right]).
        subst g. rewrite app_nil_r in Hq. contradiction.
      - subst p. assert (g = []) by (apply (HP q g); [now right|now left]).
        subst g. rewrite app_nil_r in *. contradiction. }
    destruct (node_at root p) as [[m|l]|] eqn:E; auto.
    - constructor; auto. intro H. apply (Hapart []). now rewrite app_nil_r.
    - apply nodup_app; auto.
      + apply walk_dir_nodup. apply (node_at_holds p root _ HW) in E.
        eapply holds_wf; eauto.
      + intros x Hx Hy. apply walk_dir_in in Hx. destruct Hx as [q [n [m [-> _]]]].
        eapply Hapart. exact Hy.
  Qed.
End Names.

(* ------------------------------------------------------------------ *)
(** * The dictionary *)

Lemma md_get_del : forall d p q, md_get (md_del d p) q = if path_eqb p q then None else md_get d q.
Proof.
  unfold md_del. induction d as [|[k m] d IH]; intros p q; cbn.
  - now destruct (path_eqb p q).
  - destruct (path_eqb p k) eqn:E; cbn.
    + rewrite IH. apply path_eqb_ok in E. subst k.
      destruct (path_eqb p q) eqn:E2; [reflexivity|].
      destruct (path_eqb q p) eqn:E3; [|reflexivity].
      apply path_eqb_ok in E3. apply path_eqb_no in E2. congruence.
    + rewrite IH. destruct (path_eqb q k) eqn:E2; [|reflexivity].
      apply path_eqb_ok in E2. subst k. rewrite E. reflexivity.
Qed.

Lemma md_get_set : forall d p m q,
  md_get (md_set d p m) q = if path_eqb p q then Some m else md_get d q.
Proof.
  induction d as [|[k v] d IH]; intros p m q; cbn.
  - destruct (path_eqb q p) eqn:E, (path_eqb p q) eqn:E2; auto.
    + apply path_eqb_ok in E. apply path_eqb_no in E2. congruence.
    + apply path_eqb_ok in E2. apply path_eqb_no in E. congruence.
  - destruct (path_eqb p k) eqn:E; cbn.
    + apply path_eqb_ok in E. subst k. destruct (path_eqb q p) eqn:E2, (path_eqb p q) eqn:E3; auto.
      * apply path_eqb_ok in E2. apply path_eqb_no in E3. congruence.
      * apply path_eqb_ok in E3. apply path_eqb_no in E2. congruence.
    + rewrite IH. destruct (path_eqb q k) eqn:E2; [|reflexivity].
      apply path_eqb_ok in E2. subst k. rewrite E. reflexivity.
Qed.

Lemma md_nil : forall d, (forall p, md_get d p = None) -> d = [].
Proof.
  intros [|[k m] d] H; auto. specialize (H k). cbn in H. rewrite path_eqb_refl in H. discriminate.
Qed.

Lemma md_dels_get : forall u d p,
  md_get (fold_left (fun acc (e : path * Z) => md_del acc (fst e)) u d) p =
  match md_get u p with Some _ => None | None => md_get d p end.
Proof.
  induction u as [|[k m] u IH]; intros d p; cbn [fold_left md_get fst]; [reflexivity|].
  rewrite IH, md_get_del. destruct (md_get u p) eqn:E.
  - now destruct (path_eqb p k).
  - destruct (path_eqb p k) eqn:E2, (path_eqb k p) eqn:E3; auto.
    + apply path_eqb_ok in E2. apply path_eqb_no in E3. congruence.
    + apply path_eqb_ok in E3. apply path_eqb_no in E2. congruence.
Qed.

(* ------------------------------------------------------------------ *)
(** * One check *)

(** Every entry of the listing shows what [now] says. *)
Definition consistent (now : path -> option Z) (listing : list (path * option Z)) : Prop :=
  forall p o, In (p, o) listing -> o = now p.

Definition listed (listing : list (path * option Z)) (p : path) : Prop := In p (map fst listing).

Lemma listed_dec : forall listing p, {listed listing p} + {~ listed listing p}.
Proof. intros. apply in_dec. apply path_dec. Qed.

Lemma check_files_ok : forall now listing u d ch u' d' ch',
  consistent now listing ->
  (forall p k, md_get u p = Some k -> md_get d p = Some k) ->
  check_files listing u d ch = (u', d', ch') ->
  (forall p, md_get u' p = if listed_dec listing p then
                             match now p with Some _ => None | None => md_get u p end
                           else md_get u p)
  /\ (forall p, md_get d' p = if listed_dec listing p then
                             match now p with Some m => Some m | None => md_get d p end
                           else md_get d p)
  /\ (ch' = false -> ch = false /\ forall p m, listed listing p -> now p = Some m -> md_get u p = Some m)
  /\ (NoDup (map fst listing) -> ch = false ->
      (forall p m, listed listing p -> now p = Some m -> md_get u p = Some m) -> ch' = false).
Proof.
  intros now. induction listing as [|[p o] rest IH]; intros u d ch u' d' ch' HC HU HE.
  - cbn in HE. injection HE as <- <- <-. split; [|split; [|split]].
    + intro p. destruct (listed_dec [] p) as [[]|]; reflexivity.
    + intro p. destruct (listed_dec [] p) as [[]|]; reflexivity.
    + intros ->. split; auto. intros p m [].
    + auto.
  - assert (HCr : consistent now rest) by (intros q x Hq; apply HC; now right).
    assert (Ho : o = now p) by (apply HC; now left).
    cbn [check_files] in HE. destruct o as [m|].
    + remember (match md_get u p with Some k => m =? k | None => false end) as hit eqn:Hhit.
      assert (HU1 : forall q k, md_get (md_del u p) q = Some k -> md_get d q = Some k).
      { intros q k H. rewrite md_get_del in H. destruct (path_eqb p q); [discriminate|]. auto. }
      destruct hit.
      * destruct (md_get u p) as [k|] eqn:Ek; [|discriminate].
        symmetry in Hhit. apply Z.eqb_eq in Hhit. subst k.
        destruct (IH _ _ _ _ _ _ HCr HU1 HE) as [H1 [H2 [H3 H4]]].
        split; [|split; [|split]].
        -- intro q. rewrite H1, md_get_del.
           destruct (listed_dec rest q) as [L|L], (listed_dec ((p, Some m) :: rest) q) as [L2|L2].
           ++ destruct (now q) eqn:Eq; [reflexivity|].
              destruct (path_eqb p q) eqn:Epq; [|reflexivity].
              apply path_eqb_ok in Epq. subst q. congruence.
           ++ exfalso. apply L2. now right.
           ++ destruct L2 as [L2|L2]; [|contradiction]. cbn in L2. subst q.
              rewrite path_eqb_refl, <- Ho. reflexivity.
           ++ destruct (path_eqb p q) eqn:Epq; [|reflexivity].
              apply path_eqb_ok in Epq. subst q. exfalso. apply L2. now left.
        -- intro q. rewrite H2.
           destruct (listed_dec rest q) as [L|L], (listed_dec ((p, Some m) :: rest) q) as [L2|L2]; auto.
           ++ exfalso. apply L2. now right.
           ++ destruct L2 as [L2|L2]; [|contradiction]. cbn in L2. subst q.
              rewrite <- Ho. auto.
        -- intro Hf. destruct (H3 Hf) as [H5 H6]. split; auto. intros q k Hq Hk.
           destruct (path_dec p q) as [<-|Hn].
           ++ congruence.
           ++ destruct Hq as [Hq|Hq]; [cbn in Hq; contradiction|].
              specialize (H6 q k Hq Hk). rewrite md_get_del in H6.
              destruct (path_eqb p q); [discriminate|exact H6].
        -- intros HN Hc Hall. cbn in HN. inversion HN as [|? ? Hn1 Hn2]; subst.
           apply H4; auto. intros q k Hq Hk. rewrite md_get_del.
           destruct (path_eqb p q) eqn:Epq.
           ++ apply path_eqb_ok in Epq. subst q. contradiction.
           ++ apply Hall; auto. now right.
      * assert (HU2 : forall q k, md_get (md_del u p) q = Some k -> md_get (md_set d p m) q = Some k).
        { intros q k H. rewrite md_get_set. rewrite md_get_del in H.
          destruct (path_eqb p q); [discriminate|]. auto. }
        destruct (IH _ _ _ _ _ _ HCr HU2 HE) as [H1 [H2 [H3 H4]]].
        split; [|split; [|split]].
        -- intro q. rewrite H1, md_get_del.
           destruct (listed_dec rest q) as [L|L], (listed_dec ((p, Some m) :: rest) q) as [L2|L2].
           ++ destruct (now q) eqn:Eq; [reflexivity|].
              destruct (path_eqb p q) eqn:Epq; [|reflexivity].
              apply path_eqb_ok in Epq. subst q. congruence.
           ++ exfalso. apply L2. now right.
           ++ destruct L2 as [L2|L2]; [|contradiction]. cbn in L2. subst q.
              rewrite path_eqb_refl, <- Ho. reflexivity.
           ++ destruct (path_eqb p q) eqn:Epq; [|reflexivity].
              apply path_eqb_ok in Epq. subst q. exfalso. apply L2. now left.
        -- intro q. rewrite H2, md_get_set.
           destruct (listed_dec rest q) as [L|L], (listed_dec ((p, Some m) :: rest) q) as [L2|L2].
           ++ destruct (now q) eqn:Eq; [reflexivity|].
              destruct (path_eqb p q) eqn:Epq; [|reflexivity].
              apply path_eqb_ok in Epq. subst q. congruence.
           ++ exfalso. apply L2. now right.
           ++ destruct L2 as [L2|L2]; [|contradiction]. cbn in L2. subst q.
              rewrite path_eqb_refl, <- Ho. reflexivity.
           ++ destruct (path_eqb p q) eqn:Epq; [|reflexivity].
              apply path_eqb_ok in Epq. subst q. exfalso. apply L2. now left.
        -- intro Hf. destruct (H3 Hf) as [H5 _]. discriminate.
        -- intros HN Hc Hall. exfalso.
           assert (He : md_get u p = Some m) by (apply Hall; [now left|now symmetry]).
           rewrite He, Z.eqb_refl in Hhit. discriminate.
    + destruct (IH _ _ _ _ _ _ HCr HU HE) as [H1 [H2 [H3 H4]]].
      split; [|split; [|split]].
      * intro q. rewrite H1.
        destruct (listed_dec rest q) as [L|L], (listed_dec ((p, None) :: rest) q) as [L2|L2]; auto.
        -- exfalso. apply L2. now right.
        -- destruct L2 as [L2|L2]; [|contradiction]. cbn in L2. subst q. now rewrite <- Ho.
      * intro q. rewrite H2.
        destruct (listed_dec rest q) as [L|L], (listed_dec ((p, None) :: rest) q) as [L2|L2]; auto.
        -- exfalso. apply L2. now right.
        -- destruct L2 as [L2|L2]; [|contradiction]. cbn in L2. subst q. now rewrite <- Ho.
      * intro Hf. destruct (H3 Hf) as [H5 H6]. split; auto. intros q k [Hq|Hq] Hk.
        -- cbn in Hq. subst q. congruence.
        -- auto.
      * intros HN Hc Hall. cbn in HN. inversion HN; subst. apply H4; auto.
        intros q k Hq Hk. apply Hall; auto. now right.
Qed.

(** What the listing shows of a path *)
Definition seen (now : path -> option Z) (listing : list (path * option Z)) (p : path) : option Z :=
  if listed_dec listing p then now p else None.

Lemma check_changed_ok : forall now listing d d' ch,
  consistent now listing ->
  check_changed d listing = (d', ch) ->
  (forall p, md_get d' p = seen now listing p)
  /\ (ch = false -> forall p, md_get d p = seen now listing p)
  /\ (NoDup (map fst listing) -> (forall p, md_get d p = seen now listing p) -> ch = false).
Proof.
  intros now listing d d' ch HC HE. unfold check_changed in HE.
  destruct (check_files listing d d false) as [[u' d1] c1] eqn:EF.
  destruct (check_files_ok now listing d d false u' d1 c1 HC (fun _ _ H => H) EF)
    as [H1 [H2 [H3 H4]]].
  unfold seen.
  assert (Hd : forall p, match md_get u' p with Some _ => None | None => md_get d1 p end
                         = if listed_dec listing p then now p else None).
  { intro p. rewrite H1, H2. destruct (listed_dec listing p).
    - destruct (now p); auto. now destruct (md_get d p).
    - now destruct (md_get d p). }
  destruct u' as [|e u'].
  - injection HE as <- <-. split; [|split].
    + intro p. rewrite <- Hd. reflexivity.
    + intros Hf p. destruct (H3 Hf) as [_ H5]. specialize (H1 p). cbn [md_get] in H1.
      destruct (listed_dec listing p) as [L|L]; [|now symmetry].
      destruct (now p) as [m|] eqn:Em; [|now symmetry]. apply H5; auto.
    + intros HN Hall. apply H4; auto. intros p m L Hm. rewrite Hall.
      destruct (listed_dec listing p); [exact Hm|contradiction].
  - injection HE as <- <-. split; [|split].
    + intro p. etransitivity; [exact (md_dels_get (e :: u') d1 p)|apply Hd].
    + discriminate.
    + intros HN Hall. exfalso. assert (HX : e :: u' = []); [|discriminate].
      apply md_nil. intro p. rewrite H1, Hall.
      destruct (listed_dec listing p); [now destruct (now p)|reflexivity].
Qed.

(** A check of a file system that is not moving: the dictionary afterwards holds exactly
    the watched files. *)
Section Fs.
  Variable isalpha isidentifier : Z -> bool.
  Variable paths : list path.

  Let listing root := map (fun p => (p, mtime root p)) (walk_paths isalpha isidentifier root paths).

  Lemma listing_consistent : forall root, consistent (mtime root) (listing root).
  Proof.
    intros root p o H. apply in_map_iff in H. destruct H as [q [Hq _]]. now injection Hq as <- <-.
  Qed.

  Lemma listing_names : forall root, map fst (listing root) = walk_paths isalpha isidentifier root paths.
  Proof. intro root. unfold listing. rewrite map_map. cbn. apply map_id. Qed.

  Lemma seen_watched : forall root p m, well_formed root ->
    (seen (mtime root) (listing root) p = Some m <-> watched isalpha isidentifier paths root p m).
  Proof.
    intros root p m HW. unfold seen. destruct (listed_dec (listing root) p) as [L|L].
    - unfold listed in L. rewrite listing_names in L. symmetry.
      apply watched_mtime; auto.
    - split; [discriminate|]. intro H. exfalso. apply L. unfold listed. rewrite listing_names.
      apply walk_paths_in; eauto.
  Qed.

  Lemma check_fs_ok : forall root d d' ch, well_formed root ->
    check_changed_fs isalpha isidentifier paths root d = (d', ch) ->
    (forall p m, md_get d' p = Some m <-> watched isalpha isidentifier paths root p m)
    /\ (ch = false -> forall p m, md_get d p = Some m <-> watched isalpha isidentifier paths root p m)
    /\ (disjoint_targets paths ->
        (forall p m, md_get d p = Some m <-> watched isalpha isidentifier paths root p m) -> ch = false).
  Proof.
    intros root d d' ch HW HE. unfold check_changed_fs in HE. fold (listing root) in HE.
    destruct (check_changed_ok _ _ _ _ _ (listing_consistent root) HE) as [H1 [H2 H3]].
    split; [|split].
    - intros p m. rewrite H1. apply seen_watched; auto.
    - intros Hf p m. rewrite (H2 Hf). apply seen_watched; auto.
    - intros HD Hall. apply H3.
      + rewrite listing_names. apply walk_paths_nodup; auto.
      + intro p. destruct (seen (mtime root) (listing root) p) as [m|] eqn:E.
        * apply seen_watched in E; auto. apply Hall. exact E.
        * destruct (md_get d p) as [m|] eqn:E2; auto. apply Hall in E2.
          apply seen_watched in E2; auto. congruence.
  Qed.
End Fs.
