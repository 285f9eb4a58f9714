(** Proofs about the intersection of signatures. *)
From Coq Require Import String.
From Coq Require Import List Bool Arith Lia.
From Verif Require Import Py Sig_Model Sig_Spec.
Import ListNotations.

Section P.
Variable ann value : Type.
Variable unify : ann -> ann -> bool.
Variable has : value -> ann -> Prop.
Notation param := (param ann).
Notation signature := (list param).
Notation name := (name ann).
Notation kind := (kind ann).
Notation default := (default ann).
Notation annot := (annot ann).
Notation set := (set ann).
Notation put := (put ann).
Notation names := (map name).

(** *** Dictionaries *)
Lemma set_names d p : forall k, In k (names (set d p)) <-> k = name p \/ In k (names d).
Proof.
  induction d as [|q d IH]; intro k; cbn [Sig_Model.set].
  - cbn. intuition.
  - destruct (String.eqb_spec (name q) (name p)) as [E|N]; cbn [map In].
    + rewrite E. intuition.
    + rewrite IH. intuition.
Qed.
Lemma set_nodup d p : NoDup (names d) -> NoDup (names (set d p)).
Proof.
  induction d as [|q d IH]; intro N; cbn [Sig_Model.set]; [repeat constructor; auto|].
  inversion N as [|? ? NI ND]; subst. destruct (String.eqb_spec (name q) (name p)) as [E|NE].
  - cbn. constructor; [now rewrite <- E|auto].
  - cbn. constructor; [|auto]. change (map name (set d p)) with (names (set d p)). rewrite set_names. intros [X|X]; auto.
Qed.
Lemma set_in d p : NoDup (names d) -> forall q, In q (set d p) <-> q = p \/ (In q d /\ name q <> name p).
Proof.
  induction d as [|a d IH]; intros N q; cbn [Sig_Model.set].
  - cbn. intuition.
  - inversion N as [|? ? NI ND]; subst. destruct (String.eqb_spec (name a) (name p)) as [E|NE].
    + cbn [In]. split.
      * intros [<-|H]; [auto|]. right. split; [auto|]. intro X. apply NI. rewrite E, <- X. now apply in_map.
      * intros [->|[[->|H] X]]; auto; contradiction.
    + cbn [In]. rewrite (IH ND). split.
      * intros [<-|[H|[H X]]]; auto.
      * intros [->|[[->|H] X]]; auto.
Qed.
Lemma set_app d e p : ~ In (name p) (names d) -> set (d ++ e) p = d ++ set e p.
Proof.
  induction d as [|q d IH]; cbn; [auto|]. intro N. destruct (String.eqb_spec (name q) (name p)); [tauto|].
  rewrite IH; tauto.
Qed.
Lemma set_fresh d p : ~ In (name p) (names d) -> set d p = d ++ [p].
Proof. intro N. rewrite <- (app_nil_r d) at 1. now rewrite set_app. Qed.

Fixpoint concat_some (l : list (option param)) : signature :=
  match l with [] => [] | Some p :: l => p :: concat_some l | None :: l => concat_some l end.
Lemma fold_put l : forall d, fold_left put l d = fold_left set (concat_some l) d.
Proof. induction l as [|[p|] l IH]; intro d; cbn; auto. Qed.
Lemma fold_set_fresh l : forall d, NoDup (names (d ++ l)) -> fold_left set l d = d ++ l.
Proof.
  induction l as [|p l IH]; intros d N; cbn; [now rewrite app_nil_r|].
  rewrite set_fresh.
  - rewrite IH; rewrite <- app_assoc; auto.
  - intro X. rewrite map_app in N. cbn in N. apply NoDup_remove_2 in N. apply N. apply in_or_app. auto.
Qed.
Lemma fold_set_app l : forall d e, (forall p, In p l -> ~ In (name p) (names d)) -> fold_left set l (d ++ e) = d ++ fold_left set l e.
Proof.
  induction l as [|p l IH]; intros d e N; cbn; [auto|]. rewrite set_app by (apply N; now left).
  apply IH. intros q H. apply N. now right.
Qed.
Lemma fold_set_nodup l : forall d, NoDup (names d) -> NoDup (names (fold_left set l d)).
Proof. induction l as [|p l IH]; intros d N; cbn; [auto|]. apply IH, set_nodup, N. Qed.
(** when one name always comes with the same parameter *)
Lemma fold_set_in l : forall d, NoDup (names d) ->
  (forall p q, In p (d ++ l) -> In q (d ++ l) -> name p = name q -> p = q) ->
  forall q, In q (fold_left set l d) <-> In q d \/ In q l.
Proof.
  induction l as [|p l IH]; intros d N F q; cbn [fold_left]; [cbn; tauto|].
  rewrite IH.
  - rewrite set_in by auto. cbn [In]. split; [intros [[->|[H _]]|H]; auto|].
    intros [H|[<-|H]]; auto. left. destruct (string_dec (name q) (name p)) as [E|NE]; [|auto].
    left. apply F; [apply in_or_app; now left|apply in_or_app; right; now left|auto].
  - apply set_nodup, N.
  - assert (T : forall x, In x (set d p ++ l) -> In x (d ++ p :: l)).
    { intros x X. apply in_app_iff in X. apply in_app_iff. cbn [In]. rewrite set_in in X by auto.
      destruct X as [[->|[X _]]|X]; auto. }
    intros x y X Y. apply F; auto.
Qed.

Lemma get_some k (d : signature) p : get ann k d = Some p -> In p d /\ name p = k.
Proof. unfold get. intro H. apply find_some in H. destruct H as [H E]. apply String.eqb_eq in E. auto. Qed.
Lemma get_none k (d : signature) : get ann k d = None <-> ~ In k (names d).
Proof.
  unfold get. split.
  - intros H X. apply in_map_iff in X. destruct X as (p & E & I). pose proof (find_none _ _ H p I) as F. cbn in F.
    rewrite E, String.eqb_refl in F. discriminate.
  - intro N. destruct (find _ d) as [p|] eqn:E; [|reflexivity]. apply find_some in E. destruct E as [I E].
    apply String.eqb_eq in E. subst. contradiction N. now apply in_map.
Qed.
Lemma get_in (d : signature) p : NoDup (names d) -> In p d -> get ann (name p) d = Some p.
Proof.
  intros N I. destruct (get ann (name p) d) as [q|] eqn:E.
  - apply get_some in E. destruct E as [I' E]. f_equal. clear - N I I' E.
    induction d as [|a d IH]; [contradiction|]. inversion N; subst. destruct I as [->|I], I' as [->|I']; auto.
    + exfalso. apply H1. rewrite <- E. now apply in_map.
    + exfalso. apply H1. rewrite E. now apply in_map.
  - apply get_none in E. contradiction E. now apply in_map.
Qed.

(** *** Well-formed signatures *)
Definition sorted (s : signature) : Prop :=
  forall i j p q, i < j -> nth_error s i = Some p -> nth_error s j = Some q -> rank (kind p) <= rank (kind q).
Lemma sorted_tl p s : sorted (p :: s) -> sorted s /\ forall q, In q s -> rank (kind p) <= rank (kind q).
Proof.
  intro H. split.
  - intros i j a b L A B. apply (H (S i) (S j)); auto with arith.
  - intros q I. apply In_nth_error in I. destruct I as [n E]. apply (H 0 (S n)); auto with arith.
Qed.
Definition pos_kw (s : signature) := filter (fun p => match kind p with PosKw => true | _ => false end) s.
Lemma positional_split s : sorted s -> positional ann s = pos_only ann s ++ pos_kw s.
Proof.
  induction s as [|p s IH]; intro H; [reflexivity|]. apply sorted_tl in H. destruct H as [H1 H2].
  unfold positional, pos_only, pos_kw in *. cbn [filter]. destruct (kind p) eqn:K; cbn [by_position app]; try (rewrite (IH H1); reflexivity).
  replace (filter (fun p0 => match kind p0 with PosOnly => true | _ => false end) s) with (@nil param).
  - cbn [app]. f_equal. rewrite (IH H1). 
    replace (filter (fun p0 => match kind p0 with PosOnly => true | _ => false end) s) with (@nil param); [reflexivity|].
    symmetry. clear - H2 K. induction s as [|q s IH]; [reflexivity|]. cbn. specialize (H2 q (or_introl eq_refl)) as Q.
    destruct (kind q); cbn in Q; try lia; apply IH; intros; apply H2; now right.
  - symmetry. clear - H2 K. induction s as [|q s IH]; [reflexivity|]. cbn. specialize (H2 q (or_introl eq_refl)) as Q.
    destruct (kind q); cbn in Q; try lia; apply IH; intros; apply H2; now right.
Qed.
Lemma nth_pos_only s i p : sorted s -> nth_error (pos_only ann s) i = Some p -> nth_error (positional ann s) i = Some p /\ kind p = PosOnly.
Proof.
  intros H E. rewrite positional_split by auto. split.
  - rewrite nth_error_app1; [auto|]. apply nth_error_Some. congruence.
  - apply nth_error_In in E. unfold pos_only in E. apply filter_In in E. destruct E as [_ E]. now destruct (kind p).
Qed.
Lemma nth_positional s i p : sorted s -> nth_error (positional ann s) i = Some p -> kind p = PosOnly -> nth_error (pos_only ann s) i = Some p.
Proof.
  intros H E K. rewrite positional_split in E by auto.
  destruct (lt_dec i (length (pos_only ann s))) as [L|L]; [now rewrite nth_error_app1 in E|].
  rewrite nth_error_app2 in E by lia. apply nth_error_In in E. unfold pos_kw in E. apply filter_In in E.
  destruct E as [_ E]. rewrite K in E. discriminate.
Qed.
Lemma in_pos_only s p : In p (pos_only ann s) <-> In p s /\ kind p = PosOnly.
Proof. unfold pos_only. rewrite filter_In. destruct (kind p); intuition discriminate. Qed.
Lemma in_keywords s p : In p (keywords ann s) <-> In p s /\ by_keyword (kind p) = true.
Proof. unfold keywords. rewrite filter_In. destruct (kind p); intuition discriminate. Qed.
Lemma hd_rev_filter (f : param -> bool) s p : hd_error (rev (filter f s)) = Some p -> In p s /\ f p = true.
Proof.
  intro H. apply filter_In. apply in_rev. destruct (rev (filter f s)); [discriminate|]. injection H as ->. now left.
Qed.
Lemma hd_rev_filter_none (f : param -> bool) s : hd_error (rev (filter f s)) = None -> forall p, In p s -> f p = false.
Proof.
  intros H p I. destruct (f p) eqn:E; [|reflexivity]. assert (X : In p (filter f s)) by (apply filter_In; auto).
  apply in_rev in X. destruct (rev (filter f s)); [contradiction|discriminate].
Qed.
Lemma var_pos_some s p : var_pos ann s = Some p -> In p s /\ kind p = VarPos.
Proof. intro H. apply hd_rev_filter in H. destruct H as [H E]. destruct (kind p); auto; discriminate. Qed.
Lemma var_kw_some s p : var_kw ann s = Some p -> In p s /\ kind p = VarKw.
Proof. intro H. apply hd_rev_filter in H. destruct H as [H E]. destruct (kind p); auto; discriminate. Qed.
Lemma var_pos_none s p : var_pos ann s = None -> In p s -> kind p <> VarPos.
Proof. intros H I K. pose proof (hd_rev_filter_none _ _ H p I) as X. cbn in X. rewrite K in X. discriminate. Qed.
Lemma var_kw_none s p : var_kw ann s = None -> In p s -> kind p <> VarKw.
Proof. intros H I K. pose proof (hd_rev_filter_none _ _ H p I) as X. cbn in X. rewrite K in X. discriminate. Qed.
Lemma squishy_variadic s : squishy ann s = true <-> variadic ann s.
Proof.
  unfold squishy, variadic. split.
  - intro H. destruct (var_pos ann s) as [p|] eqn:E; [apply var_pos_some in E; exists p; tauto|].
    destruct (var_kw ann s) as [p|] eqn:E'; [|discriminate]. apply var_kw_some in E'. exists p; tauto.
  - intros (p & I & [K|K]).
    + destruct (var_pos ann s) eqn:E; [reflexivity|]. now apply (var_pos_none s p) in E.
    + destruct (var_kw ann s) eqn:E; [now rewrite orb_true_r|]. now apply (var_kw_none s p) in E.
Qed.
Lemma nodup_filter f (s : signature) : NoDup (names s) -> NoDup (names (filter f s)).
Proof.
  induction s as [|p s IH]; intro N; [auto|]. inversion N; subst. cbn. destruct (f p); auto. cbn. constructor; auto.
  intro X. apply H1. apply in_map_iff in X. destruct X as (q & E & I). apply filter_In in I. rewrite <- E. apply in_map. tauto.
Qed.
Lemma nodup_name (s : signature) p q : NoDup (names s) -> In p s -> In q s -> name p = name q -> p = q.
Proof.
  intros N P Q E. apply (get_in s) in P; auto. apply (get_in s) in Q; auto. rewrite E in P. congruence.
Qed.

(** *** What the parts of the result are *)
Section R.
Variable s1 s2 : signature.
Hypothesis W1 : well_formed ann s1.
Hypothesis W2 : well_formed ann s2.
Hypothesis AG : agree ann s1 s2.
Let N1 : NoDup (names s1) := proj1 W1.
Let N2 : NoDup (names s2) := proj1 W2.
Let S1 : sorted s1 := proj1 (proj2 W1).
Let S2 : sorted s2 := proj1 (proj2 W2).
Notation q1 := (squishy ann s1).
Notation q2 := (squishy ann s2).

Definition chosen_pos : signature := concat_some (map (choose_pos ann unify q1 q2) (zip_longest (pos_only ann s1) (pos_only ann s2))).
(** nothing is left out but at the end *)
Lemma nth_nil {A} i : nth_error (@nil A) i = None.
Proof. now destruct i. Qed.
Lemma concat_prefix x1 x2 (a b : signature) : forall i,
  nth_error (concat_some (map (choose_pos ann unify x1 x2) (zip_longest a b))) i =
  choose_pos ann unify x1 x2 (nth_error a i, nth_error b i).
Proof.
  revert b. induction a as [|a0 a IH]; intros b i; cbn [zip_longest].
  - rewrite map_map. cbn [choose_pos]. rewrite nth_nil. destruct x1.
    + replace (concat_some (map (fun x => Some x) b)) with b by (clear; induction b; cbn; congruence).
      now destruct (nth_error b i).
    + replace (concat_some (map (fun x => None) b)) with (@nil param) by (clear; induction b; cbn; congruence).
      rewrite nth_nil. now destruct (nth_error b i).
  - destruct b as [|b0 b].
    + cbn [map choose_pos]. rewrite nth_nil. destruct x2; cbn [concat_some].
      * destruct i as [|i]; [reflexivity|]. cbn [nth_error]. rewrite IH. now rewrite nth_nil.
      * rewrite IH, nth_nil. cbn [choose_pos]. destruct (nth_error a i), (nth_error (a0 :: a) i); reflexivity.
    + cbn [map concat_some choose_pos]. destruct i as [|i]; [reflexivity|]. cbn [nth_error]. apply IH.
Qed.
Lemma nth_chosen i : nth_error chosen_pos i = choose_pos ann unify q1 q2 (nth_error (pos_only ann s1) i, nth_error (pos_only ann s2) i).
Proof. apply concat_prefix. Qed.
Lemma nth_chosen_from i p : nth_error chosen_pos i = Some p ->
  nth_error (pos_only ann s1) i = Some p \/ nth_error (pos_only ann s2) i = Some p.
Proof.
  rewrite nth_chosen. destruct (nth_error (pos_only ann s1) i), (nth_error (pos_only ann s2) i); cbn.
  - destruct (unify _ _); auto.
  - destruct q2; [auto|discriminate].
  - destruct q1; [auto|discriminate].
  - discriminate.
Qed.
Lemma pos_nodup s : NoDup (names s) -> forall i j p q, nth_error (pos_only ann s) i = Some p -> nth_error (pos_only ann s) j = Some q ->
  name p = name q -> i = j.
Proof.
  intros N i j p q P Q E. assert (X : NoDup (names (pos_only ann s))) by (apply nodup_filter, N).
  rewrite NoDup_nth_error in X. apply X.
  - rewrite map_length. apply nth_error_Some. congruence.
  - rewrite !nth_error_map, P, Q. cbn. now rewrite E.
Qed.
Lemma chosen_nodup : NoDup (names chosen_pos).
Proof.
  apply NoDup_nth_error. intros i j L E. rewrite !nth_error_map in E. rewrite map_length in L.
  destruct (nth_error chosen_pos i) as [p|] eqn:P; [|apply nth_error_None in P; lia].
  destruct (nth_error chosen_pos j) as [q|] eqn:Q; [|discriminate]. injection E as E.
  apply nth_chosen_from in P. apply nth_chosen_from in Q. destruct AG as [_ A].
  assert (X : forall i j p q, nth_error (pos_only ann s1) i = Some p -> nth_error (pos_only ann s2) j = Some q -> name p = name q -> i = j).
  { intros i' j' p' q' P' Q' E'. apply nth_pos_only in P'; [|exact S1]. apply nth_pos_only in Q'; [|exact S2].
    destruct P' as [P' K], Q' as [Q' _]. eapply A; eassumption. }
  destruct P as [P|P], Q as [Q|Q].
  - eapply (pos_nodup s1); eauto.
  - eapply X; eauto.
  - symmetry. eapply X; eauto.
  - eapply (pos_nodup s2); eauto.
Qed.
Definition keys : list string :=
  flat_map (fun pair => some_list (fst pair) ++ some_list (snd pair)) (zip_longest (names (keywords ann s1)) (names (keywords ann s2))).
Lemma zip_keys (a b : list string) k :
  In k (flat_map (fun pair => some_list (fst pair) ++ some_list (snd pair)) (zip_longest a b)) <-> In k a \/ In k b.
Proof.
  revert b. induction a as [|a0 a IH]; intros b; cbn [zip_longest].
  - rewrite flat_map_concat_map, map_map, <- flat_map_concat_map. cbn. induction b as [|b0 b IH]; cbn; [tauto|].
    rewrite IH. tauto.
  - destruct b as [|b0 b]; cbn [flat_map fst snd some_list app In]; rewrite IH; cbn [In]; tauto.
Qed.
Definition chosen_keys : signature := concat_some (map (choose_key ann unify q1 q2 (keywords ann s1) (keywords ann s2)) keys).
Lemma in_concat_some l p : In p (concat_some l) <-> In (Some p) l.
Proof.
  induction l as [|[q|] l IH]; cbn; [tauto| |].
  - rewrite IH. split; intros [H|H]; auto; [left; congruence|]. injection H; auto.
  - rewrite IH. split; [auto|]. intros [H|H]; [discriminate|auto].
Qed.
Lemma in_chosen_keys p : In p chosen_keys <-> choose_key ann unify q1 q2 (keywords ann s1) (keywords ann s2) (name p) = Some p.
Proof.
  assert (NM : forall k, choose_key ann unify q1 q2 (keywords ann s1) (keywords ann s2) k = Some p -> name p = k /\ In k keys).
  { intros k E. unfold keys. rewrite zip_keys. unfold choose_key in E.
    destruct (get ann k (keywords ann s1)) as [p1|] eqn:G1, (get ann k (keywords ann s2)) as [p2|] eqn:G2; try discriminate;
      try (apply get_some in G1; destruct G1 as [I1 E1]); try (apply get_some in G2; destruct G2 as [I2 E2]).
    - split; [|left; rewrite <- E1; now apply in_map]. injection E as <-. cbn. now destruct (unify _ _).
    - destruct q2; [|discriminate]. injection E as <-. split; [auto|left; rewrite <- E1; now apply in_map].
    - destruct q1; [|discriminate]. injection E as <-. split; [auto|right; rewrite <- E2; now apply in_map]. }
  unfold chosen_keys. rewrite in_concat_some, in_map_iff. split.
  - intros (k & E & I). destruct (NM k E) as [<- _]. exact E.
  - intro E. exists (name p). split; [auto|apply NM, E].
Qed.
Lemma chosen_key_from p : In p chosen_keys ->
  kind p = KwOnly /\
  exists q, (In q s1 \/ In q s2) /\ by_keyword (kind q) = true /\ name q = name p /\ default q = default p /\ annot q = annot p.
Proof.
  rewrite in_chosen_keys. unfold choose_key.
  destruct (get ann (name p) (keywords ann s1)) as [p1|] eqn:G1, (get ann (name p) (keywords ann s2)) as [p2|] eqn:G2; try discriminate;
      try (apply get_some in G1; destruct G1 as [I1 E1]; apply in_keywords in I1; destruct I1);
      try (apply get_some in G2; destruct G2 as [I2 E2]; apply in_keywords in I2; destruct I2).
  - intro E. injection E as E. rewrite <- E. split; [reflexivity|]. destruct (unify _ _); [exists p1|exists p2]; auto 6.
  - destruct q2; [|discriminate]. intro E. injection E as E. rewrite <- E. split; [reflexivity|]. exists p1. auto 6.
  - destruct q1; [|discriminate]. intro E. injection E as E. rewrite <- E. split; [reflexivity|]. exists p2. auto 6.
Qed.
Definition chosen_var_pos : signature := match var_pos ann s1, var_pos ann s2 with Some p, Some _ => [p] | _, _ => [] end.
Definition chosen_var_kw : signature := match var_kw ann s1, var_kw ann s2 with Some p, Some _ => [p] | _, _ => [] end.
Lemma in_chosen_pos p : In p chosen_pos -> kind p = PosOnly /\ (In p s1 \/ In p s2).
Proof.
  intro I. apply In_nth_error in I. destruct I as [i E]. apply nth_chosen_from in E.
  destruct E as [E|E]; apply nth_error_In in E; apply in_pos_only in E; tauto.
Qed.
Lemma sort_apart p q : In p s1 \/ In p s2 -> In q s1 \/ In q s2 -> name p = name q -> sort_of (kind p) = sort_of (kind q).
Proof.
  destruct AG as [A _]. intros [P|P] [Q|Q] E.
  - now rewrite (nodup_name s1 p q N1 P Q E).
  - auto.
  - symmetry. auto.
  - now rewrite (nodup_name s2 p q N2 P Q E).
Qed.
Lemma out_parts : exists ks, out_params ann unify s1 s2 = chosen_pos ++ ks ++ chosen_var_pos ++ chosen_var_kw /\
  NoDup (names (out_params ann unify s1 s2)) /\ (forall p, In p ks <-> In p chosen_keys).
Proof.
  set (ks := fold_left set chosen_keys []).
  assert (KI : forall p, In p ks <-> In p chosen_keys).
  { intro p. unfold ks. rewrite fold_set_in; [cbn; tauto|constructor|].
    intros a b A B E. cbn in A, B. apply in_chosen_keys in A, B. rewrite E in A. congruence. }
  assert (KN : NoDup (names ks)) by (apply fold_set_nodup; constructor).
  assert (D1 : forall p, In p chosen_keys -> ~ In (name p) (names chosen_pos)).
  { intros p I X. apply in_map_iff in X. destruct X as (q & E & J). apply in_chosen_pos in J. destruct J as [J1 J2].
    apply chosen_key_from in I. destruct I as (_ & a & A1 & A2 & A3 & _).
    assert (Z := sort_apart a q A1 J2 (eq_trans A3 (eq_sym E))). rewrite J1 in Z. destruct (kind a); discriminate. }
  assert (E : fold_left put (map (choose_key ann unify q1 q2 (keywords ann s1) (keywords ann s2)) keys)
                (fold_left put (map (choose_pos ann unify q1 q2) (zip_longest (pos_only ann s1) (pos_only ann s2))) []) = chosen_pos ++ ks).
  { rewrite !fold_put. fold chosen_pos chosen_keys. rewrite (fold_set_fresh chosen_pos []) by apply chosen_nodup.
    cbn [app]. rewrite <- (app_nil_r chosen_pos) at 1. now rewrite fold_set_app by exact D1. }
  assert (ND : NoDup (names (chosen_pos ++ ks))).
  { rewrite <- E, !fold_put. apply fold_set_nodup, fold_set_nodup. constructor. }
  assert (FV : forall p, (kind p = VarPos \/ kind p = VarKw) -> In p s1 -> ~ In (name p) (names (chosen_pos ++ ks))).
  { intros p K I X. apply in_map_iff in X. destruct X as (q & Eq & J). apply in_app_iff in J. destruct J as [J|J].
    - apply in_chosen_pos in J. destruct J as [J1 J2]. assert (Z := sort_apart p q (or_introl I) J2 (eq_sym Eq)).
      rewrite J1 in Z. destruct K as [K|K]; rewrite K in Z; discriminate.
    - apply KI, chosen_key_from in J. destruct J as (_ & a & A1 & A2 & A3 & _).
      assert (Z := sort_apart p a (or_introl I) A1 (eq_trans (eq_sym Eq) (eq_sym A3))).
      destruct K as [K|K]; rewrite K in Z; destruct (kind a); discriminate. }
  exists ks. assert (OUT : out_params ann unify s1 s2 = chosen_pos ++ ks ++ chosen_var_pos ++ chosen_var_kw).
  { unfold out_params. fold keys. rewrite E. unfold chosen_var_pos, chosen_var_kw.
    assert (VP : match var_pos ann s1, var_pos ann s2 with Some p, Some _ => set (chosen_pos ++ ks) p | _, _ => chosen_pos ++ ks end =
            (chosen_pos ++ ks) ++ match var_pos ann s1, var_pos ann s2 with Some p, Some _ => [p] | _, _ => [] end).
    { destruct (var_pos ann s1) as [p|] eqn:V1; [|now rewrite app_nil_r]. destruct (var_pos ann s2); [|now rewrite app_nil_r].
      apply var_pos_some in V1. apply set_fresh, FV; tauto. }
    rewrite VP. rewrite <- !app_assoc. destruct (var_kw ann s1) as [p|] eqn:V1; [|now rewrite app_nil_r].
    destruct (var_kw ann s2); [|now rewrite app_nil_r]. apply var_kw_some in V1. rewrite set_fresh.
    - now rewrite <- !app_assoc.
    - rewrite app_assoc, map_app, in_app_iff. intros [X|X]; [apply (FV p) in X; tauto|].
      destruct (var_pos ann s1) as [p'|] eqn:VP1; [|destruct X]. destruct (var_pos ann s2); [|destruct X].
      destruct X as [X|[]]. apply var_pos_some in VP1. destruct VP1 as [I' K'].
      assert (p' = p) by (apply (nodup_name s1); tauto). subst. destruct V1; congruence. }
  split; [exact OUT|]. split; [|exact KI].
  unfold out_params. fold keys. rewrite E.
  assert (Z : NoDup (names (match var_pos ann s1, var_pos ann s2 with Some p, Some _ => set (chosen_pos ++ ks) p | _, _ => chosen_pos ++ ks end))).
  { destruct (var_pos ann s1); [|exact ND]. destruct (var_pos ann s2); [|exact ND]. now apply set_nodup. }
  destruct (var_kw ann s1); [|exact Z]. destruct (var_kw ann s2); [|exact Z]. now apply set_nodup.
Qed.

Lemma make_ok l r : make ann l = Ok r -> r = l.
Proof. unfold make. destruct (valid_from _ _ _ _ _); congruence. Qed.
Lemma positional_out : positional ann (out_params ann unify s1 s2) = chosen_pos.
Proof.
  destruct out_parts as (ks & -> & _ & KI). unfold positional. rewrite !filter_app.
  assert (A : forall l, (forall p, In p l -> by_position (kind p) = true) -> filter (fun p => by_position (kind p)) l = l).
  { induction l as [|p l IH]; intro H; [reflexivity|]. cbn. rewrite (H p) by now left. f_equal. apply IH. intros; apply H; now right. }
  assert (B : forall l, (forall p, In p l -> by_position (kind p) = false) -> filter (fun p => by_position (kind p)) l = []).
  { induction l as [|p l IH]; intro H; [reflexivity|]. cbn. rewrite (H p) by now left. apply IH. intros; apply H; now right. }
  rewrite A, (B ks), (B chosen_var_pos), (B chosen_var_kw).
  - now rewrite !app_nil_r.
  - unfold chosen_var_kw. destruct (var_kw ann s1) as [p'|] eqn:V; [|intros ? []]. destruct (var_kw ann s2) as [p0|]; [|intros ? []].
    intros p [<-|[]]. apply var_kw_some in V. now rewrite (proj2 V).
  - unfold chosen_var_pos. destruct (var_pos ann s1) as [p'|] eqn:V; [|intros ? []]. destruct (var_pos ann s2) as [p0|]; [|intros ? []].
    intros p [<-|[]]. apply var_pos_some in V. now rewrite (proj2 V).
  - intros p I. apply KI, chosen_key_from in I. now rewrite (proj1 I).
  - intros p I. apply in_chosen_pos in I. now rewrite (proj1 I).
Qed.
Lemma in_out p : In p (out_params ann unify s1 s2) <-> In p chosen_pos \/ In p chosen_keys \/ In p chosen_var_pos \/ In p chosen_var_kw.
Proof. destruct out_parts as (ks & -> & _ & KI). rewrite !in_app_iff, KI. tauto. Qed.

Lemma in_positional s p : In p (positional ann s) <-> In p s /\ by_position (kind p) = true.
Proof. unfold positional. apply filter_In. Qed.
(** a keyword argument for a parameter that takes one *)
Lemma keyword_given s pos kw p : accepts ann value has s pos kw -> keyword_style ann value s pos -> In p s -> by_keyword (kind p) = true ->
  match kw (name p) with Some v => has v (annot p) | None => default p = true end.
Proof.
  intros (A1 & A2 & _) KS I K. destruct (kind p) eqn:KP; try discriminate; [|now apply A2].
  assert (J : In p (positional ann s)) by (apply in_positional; rewrite KP; auto).
  apply In_nth_error in J. destruct J as [i E]. specialize (A1 i p E).
  destruct (nth_error pos i) eqn:P.
  - assert (X : kind p = PosOnly) by (apply (KS i p E), nth_error_Some; congruence). congruence.
  - rewrite KP in A1. exact A1.
Qed.
Theorem covers pos kw : accepts ann value has s1 pos kw -> accepts ann value has s2 pos kw ->
  keyword_style ann value s1 pos -> keyword_style ann value s2 pos ->
  accepts ann value has (out_params ann unify s1 s2) pos kw.
Proof.
  intros A1 A2 K1 K2. split; [|split; [|split]].
  - rewrite positional_out. intros i p E.
    assert (KP : kind p = PosOnly) by (apply nth_error_In, in_chosen_pos in E; tauto). rewrite KP. cbn [by_keyword].
    apply nth_chosen_from in E. destruct E as [E|E]; apply nth_pos_only in E; auto; destruct E as [E _].
    + destruct A1 as [A1 _]. specialize (A1 i p E). rewrite KP in A1. exact A1.
    + destruct A2 as [A2 _]. specialize (A2 i p E). rewrite KP in A2. exact A2.
  - intros p I K. apply in_out in I. destruct I as [I|[I|[I|I]]].
    + apply in_chosen_pos in I. destruct I. congruence.
    + apply chosen_key_from in I. destruct I as (_ & q & Q & KQ & EN & ED & EA). rewrite <- EN, <- ED, <- EA.
      destruct Q as [Q|Q]; [apply (keyword_given s1 pos kw q)|apply (keyword_given s2 pos kw q)]; auto.
    + unfold chosen_var_pos in I. destruct (var_pos ann s1) as [p'|] eqn:V; [|destruct I]. destruct (var_pos ann s2); [|destruct I].
      destruct I as [<-|[]]. apply var_pos_some in V. destruct V. congruence.
    + unfold chosen_var_kw in I. destruct (var_kw ann s1) as [p'|] eqn:V; [|destruct I]. destruct (var_kw ann s2); [|destruct I].
      destruct I as [<-|[]]. apply var_kw_some in V. destruct V. congruence.
  - rewrite positional_out. intros i v L P.
    assert (LP : i < length pos) by (apply nth_error_Some; congruence).
    assert (T : forall s, sorted s -> accepts ann value has s pos kw -> keyword_style ann value s pos ->
              nth_error (pos_only ann s) i = None -> exists p, var_pos ann s = Some p).
    { intros s SS A KS N. destruct A as (_ & _ & A3 & _). destruct (le_lt_dec (length (positional ann s)) i) as [L'|L'].
      - destruct (A3 i v L' P) as (p & I & K & _). destruct (var_pos ann s) as [q|] eqn:V; [eauto|]. now apply (var_pos_none s p) in V.
      - apply nth_error_Some in L'. destruct (nth_error (positional ann s) i) as [p|] eqn:E; [|congruence].
        apply nth_positional in E; [congruence|auto|]. now apply (KS i p). }
    assert (CN : nth_error chosen_pos i = None) by (apply nth_error_None; exact L).
    rewrite nth_chosen in CN.
    destruct (nth_error (pos_only ann s1) i) as [p1|] eqn:E1.
    + destruct (nth_error (pos_only ann s2) i) as [p2|] eqn:E2; [discriminate|]. cbn in CN.
      destruct (T s2 S2 A2 K2 E2) as [p V]. unfold squishy in CN. rewrite V in CN. discriminate.
    + destruct (T s1 S1 A1 K1 E1) as [p V]. destruct (nth_error (pos_only ann s2) i) as [p2|] eqn:E2.
      * cbn in CN. unfold squishy in CN. rewrite V in CN. discriminate.
      * destruct (T s2 S2 A2 K2 E2) as [q V']. exists p. apply var_pos_some in V as VS. destruct VS as [VI VK].
        split; [|split; [exact VK|]].
        -- apply in_out. right. right. left. unfold chosen_var_pos. rewrite V, V'. now left.
        -- destruct A1 as (_ & _ & A3 & _). destruct (le_lt_dec (length (positional ann s1)) i) as [L'|L'].
           ++ destruct (A3 i v L' P) as (p' & I' & K' & H). replace p with p'; [exact H|].
              apply (proj2 (proj2 W1)); auto; congruence.
           ++ apply nth_error_Some in L'. destruct (nth_error (positional ann s1) i) as [p'|] eqn:E; [|congruence].
              apply nth_positional in E; [congruence|auto|]. now apply (K1 i p').
  - intros k v E N.
    assert (T : forall s, accepts ann value has s pos kw -> (forall p, In p s -> name p = k -> by_keyword (kind p) = false) ->
              exists p, var_kw ann s = Some p).
    { intros s A H. destruct A as (_ & _ & _ & A4). destruct (A4 k v E H) as (p & I & K & _).
      destruct (var_kw ann s) as [q|] eqn:V; [eauto|]. now apply (var_kw_none s p) in V. }
    assert (G : forall s, get ann k (keywords ann s) = None -> forall p, In p s -> name p = k -> by_keyword (kind p) = false).
    { intros s H p I EN. destruct (by_keyword (kind p)) eqn:B; [|reflexivity]. apply get_none in H. contradiction H.
      rewrite <- EN. apply in_map, in_keywords. auto. }
    assert (CK : choose_key ann unify q1 q2 (keywords ann s1) (keywords ann s2) k = None).
    { destruct (choose_key ann unify q1 q2 (keywords ann s1) (keywords ann s2) k) as [p|] eqn:C; [|reflexivity]. exfalso.
      assert (NP : name p = k).
      { unfold choose_key in C. destruct (get ann k (keywords ann s1)) as [p1|] eqn:G1, (get ann k (keywords ann s2)) as [p2|] eqn:G2; try discriminate.
        - apply get_some in G1, G2. injection C as <-. destruct (unify _ _); tauto.
        - apply get_some in G1. destruct q2; [|discriminate]. injection C as <-. tauto.
        - apply get_some in G2. destruct q1; [|discriminate]. injection C as <-. tauto. }
      assert (I : In p chosen_keys) by (apply in_chosen_keys; now rewrite NP).
      assert (B := N p (proj2 (in_out p) (or_intror (or_introl I))) NP). apply chosen_key_from in I. rewrite (proj1 I) in B. discriminate. }
    unfold choose_key in CK.
    destruct (get ann k (keywords ann s1)) as [p1|] eqn:G1, (get ann k (keywords ann s2)) as [p2|] eqn:G2; try discriminate.
    + destruct (T s2 A2 (G s2 G2)) as [q V]. unfold squishy in CK. rewrite V, orb_true_r in CK. discriminate.
    + destruct (T s1 A1 (G s1 G1)) as [q V]. unfold squishy in CK. rewrite V, orb_true_r in CK. discriminate.
    + destruct (T s1 A1 (G s1 G1)) as [p V1], (T s2 A2 (G s2 G2)) as [q V2]. exists p.
      apply var_kw_some in V1 as VS. destruct VS as [VI VK]. split; [|split; [exact VK|]].
      * apply in_out. right. right. right. unfold chosen_var_kw. rewrite V1, V2. now left.
      * destruct A1 as (_ & _ & _ & A4). destruct (A4 k v E (G s1 G1)) as (p' & I' & K' & H). replace p with p'; [exact H|].
        apply (proj2 (proj2 W1)); auto; congruence.
Qed.

(** nothing is passed that one of them has no place for *)
Theorem within pos kw : accepts ann value has (out_params ann unify s1 s2) pos kw ->
  forall s, s = s1 \/ s = s2 -> ~ variadic ann s ->
  length pos <= length (pos_only ann s) /\ forall k v, kw k = Some v -> exists p, In p s /\ name p = k /\ by_keyword (kind p) = true.
Proof.
  intros A s SS NV.
  assert (Q : (if true then squishy ann s else true) = false) by (destruct (squishy ann s) eqn:Q; [now apply squishy_variadic in Q|reflexivity]).
  cbn in Q.
  assert (NP : var_pos ann s = None /\ var_kw ann s = None).
  { unfold squishy in Q. destruct (var_pos ann s), (var_kw ann s); try discriminate. auto. }
  destruct A as (A1 & A2 & A3 & A4). split.
  - destruct (le_lt_dec (length pos) (length (pos_only ann s))) as [L|L]; [exact L|exfalso].
    set (i := length (pos_only ann s)) in *.
    assert (NS : nth_error (pos_only ann s) i = None) by (apply nth_error_None; reflexivity).
    assert (CN : nth_error chosen_pos i = None).
    { rewrite nth_chosen. destruct SS as [->| ->]; rewrite NS, Q; cbn.
      - destruct (nth_error (pos_only ann s2) i); reflexivity.
      - destruct (nth_error (pos_only ann s1) i); reflexivity. }
    destruct (nth_error pos i) as [v|] eqn:P; [|apply nth_error_None in P; lia].
    destruct (A3 i v) as (p & I & K & _); [rewrite positional_out; now apply nth_error_None|exact P|].
    apply in_out in I. destruct I as [I|[I|[I|I]]].
    + apply in_chosen_pos in I. destruct I; congruence.
    + apply chosen_key_from in I. destruct I; congruence.
    + unfold chosen_var_pos in I. destruct NP as [NP _].
      destruct SS as [->| ->]; rewrite NP in I; [destruct I|destruct (var_pos ann s1); destruct I].
    + unfold chosen_var_kw in I. destruct NP as [_ NP].
      destruct SS as [->| ->]; rewrite NP in I; [destruct I|destruct (var_kw ann s1); destruct I].
  - intros k v E. destruct (get ann k (keywords ann s)) as [p|] eqn:G.
    + apply get_some in G. destruct G as [I EN]. apply in_keywords in I. exists p. tauto.
    + exfalso. destruct (A4 k v E) as (p & I & K & _).
      * intros p I EN. apply in_out in I. destruct I as [I|[I|[I|I]]].
        -- apply in_chosen_pos in I. now rewrite (proj1 I).
        -- apply in_chosen_keys in I. rewrite EN in I. unfold choose_key in I.
           destruct SS as [->| ->]; rewrite G, Q in I.
           ++ destruct (get ann k (keywords ann s2)); discriminate.
           ++ destruct (get ann k (keywords ann s1)); discriminate.
        -- unfold chosen_var_pos in I. destruct (var_pos ann s1) as [p'|] eqn:V; [|destruct I]. destruct (var_pos ann s2); [|destruct I].
           destruct I as [<-|[]]. apply var_pos_some in V. now rewrite (proj2 V).
        -- unfold chosen_var_kw in I. destruct (var_kw ann s1) as [p'|] eqn:V; [|destruct I]. destruct (var_kw ann s2); [|destruct I].
           destruct I as [<-|[]]. apply var_kw_some in V. now rewrite (proj2 V).
      * apply in_out in I. destruct I as [I|[I|[I|I]]].
        -- apply in_chosen_pos in I. destruct I; congruence.
        -- apply chosen_key_from in I. destruct I; congruence.
        -- unfold chosen_var_pos in I. destruct (var_pos ann s1) as [p'|] eqn:V; [|destruct I]. destruct (var_pos ann s2); [|destruct I].
           destruct I as [<-|[]]. apply var_pos_some in V. destruct V; congruence.
        -- unfold chosen_var_kw in I. destruct NP as [_ NP].
           destruct SS as [->| ->]; rewrite NP in I; [destruct I|destruct (var_kw ann s1); destruct I].
Qed.

(** *** When the result is a signature *)
Fixpoint ordered (l : signature) : Prop :=
  match l with [] => True | p :: l => (forall q, In q l -> rank (kind p) <= rank (kind q)) /\ ordered l end.
Lemma ordered_app a b : ordered a -> ordered b -> (forall p q, In p a -> In q b -> rank (kind p) <= rank (kind q)) -> ordered (a ++ b).
Proof.
  induction a as [|p a IH]; intros A B H; [exact B|]. destruct A as [A1 A2]. cbn [app ordered]. split.
  - intros q I. apply in_app_iff in I. destruct I as [I|I]; [now apply A1|]. apply H; [now left|auto].
  - apply IH; auto. intros; apply H; [now right|auto].
Qed.
Lemma ordered_const k a : (forall p, In p a -> kind p = k) -> ordered a.
Proof.
  induction a as [|p a IH]; intro H; [exact I|]. cbn. split.
  - intros q J. rewrite (H p), (H q); auto; [now right|now left].
  - apply IH. intros; apply H; now right.
Qed.
Lemma valid_ok l : forall top seen, ordered l -> (forall p, In p l -> top <= rank (kind p)) -> NoDup (names l) ->
  (forall p, In p l -> ~ In (name p) seen) -> (forall p, In p l -> by_position (kind p) = true -> default p = false) ->
  valid_from ann top false seen l = true.
Proof.
  induction l as [|p l IH]; intros top seen O T N F D; [reflexivity|]. cbn [valid_from].
  destruct O as [O1 O2]. inversion N as [|? ? N1' N2']; subst.
  assert (L : rank (kind p) <? top = false) by (apply Nat.ltb_ge, T; now left). rewrite L.
  rewrite andb_false_r. replace (existsb (String.eqb (name p)) seen) with false.
  2:{ symmetry. destruct (existsb _ seen) eqn:X; [|reflexivity]. apply existsb_exists in X. destruct X as (k & I & E).
      apply String.eqb_eq in E. subst. exfalso. apply (F p); [now left|auto]. }
  assert (DP : match kind p with PosOnly | PosKw => true | _ => false end && default p = false).
  { specialize (D p (or_introl eq_refl)). destruct (kind p); cbn in *; auto. }
  rewrite DP. apply IH; auto.
  - intros q I [E|J]; [apply N1'; rewrite E; now apply in_map|]. apply (F q); [now right|auto].
  - intros; apply D; [now right|auto].
Qed.
Theorem defined : ~ (exists p q, In p s1 /\ In q s2 /\ kind p = VarPos /\ kind q = VarPos) ->
  (forall p, In p s1 \/ In p s2 -> kind p = PosOnly -> default p = false) ->
  intersect ann unify s1 s2 = Ok (out_params ann unify s1 s2).
Proof.
  intros NB D. unfold intersect, make. rewrite valid_ok; [reflexivity| | | | |].
  - destruct out_parts as (ks & -> & _ & KI).
    assert (KP : forall p, In p chosen_pos -> kind p = PosOnly) by (intros p I; apply in_chosen_pos in I; tauto).
    assert (KK : forall p, In p ks -> kind p = KwOnly) by (intros p I; apply KI, chosen_key_from in I; tauto).
    assert (V : chosen_var_pos = []).
    { unfold chosen_var_pos. destruct (var_pos ann s1) as [p|] eqn:V1; [|reflexivity]. destruct (var_pos ann s2) as [q|] eqn:V2; [|reflexivity].
      apply var_pos_some in V1, V2. exfalso. apply NB. exists p, q. tauto. }
    assert (KV : forall p, In p chosen_var_kw -> kind p = VarKw).
    { unfold chosen_var_kw. destruct (var_kw ann s1) as [p'|] eqn:V1; [|intros ? []]. destruct (var_kw ann s2) as [p0|]; [|intros ? []].
      intros p [<-|[]]. apply var_kw_some in V1. tauto. }
    rewrite V. cbn [app]. apply ordered_app; [now apply ordered_const with PosOnly| |].
    + apply ordered_app; [now apply ordered_const with KwOnly|now apply ordered_const with VarKw|].
      intros p q P Q. rewrite (KK p P), (KV q Q). cbn. lia.
    + intros p q P Q. rewrite (KP p P). cbn. lia.
  - intros. lia.
  - destruct out_parts as (ks & _ & N & _). exact N.
  - intros p _ [].
  - intros p I B. apply in_out in I. destruct I as [I|[I|[I|I]]].
    + apply in_chosen_pos in I. apply D; tauto.
    + apply chosen_key_from in I. rewrite (proj1 I) in B. discriminate.
    + unfold chosen_var_pos in I. destruct (var_pos ann s1) as [p'|] eqn:V; [|destruct I]. destruct (var_pos ann s2) as [p0|]; [|destruct I].
      destruct I as [<-|[]]. apply var_pos_some in V. rewrite (proj2 V) in B. discriminate.
    + unfold chosen_var_kw in I. destruct (var_kw ann s1) as [p'|] eqn:V; [|destruct I]. destruct (var_kw ann s2) as [p0|]; [|destruct I].
      destruct I as [<-|[]]. apply var_kw_some in V. rewrite (proj2 V) in B. discriminate.
Qed.
End R.

(** *** Constructors *)
Lemma accepts_tl p t c pos kw : by_position (kind p) = true -> accepts ann value has (p :: t) (c :: pos) kw -> accepts ann value has t pos kw.
Proof.
  intros B (A1 & A2 & A3 & A4).
  assert (P : positional ann (p :: t) = p :: positional ann t) by (unfold positional; cbn; now rewrite B).
  rewrite P in *. split; [|split; [|split]].
  - intros i q E. apply (A1 (S i) q E).
  - intros q I. apply A2. now right.
  - intros i v L E. destruct (A3 (S i) v) as (q & I & K & H); [cbn; lia|exact E|]. exists q.
    destruct I as [<-|I]; [rewrite K in B; discriminate|auto].
  - intros k v E N. destruct (A4 k v E) as (q & I & K & H).
    + intros q [<-|I] EN; [|now apply N]. destruct (by_keyword (kind p)) eqn:BK; [|reflexivity]. exfalso.
      destruct (A1 0 p eq_refl) as [_ X]. rewrite EN in X. assert (kw k = None); [|congruence]. apply X.
      destruct (kind p); try discriminate; reflexivity.
    + exists q. destruct I as [<-|I]; [rewrite K in B; discriminate|auto].
Qed.
Lemma accepts_cons p t c pos kw : by_position (kind p) = true -> has c (annot p) -> (kind p = PosKw -> kw (name p) = None) ->
  accepts ann value has t pos kw -> accepts ann value has (p :: t) (c :: pos) kw.
Proof.
  intros B HC NK (A1 & A2 & A3 & A4).
  assert (P : positional ann (p :: t) = p :: positional ann t) by (unfold positional; cbn; now rewrite B).
  split; [|split; [|split]]; rewrite ?P.
  - intros [|i] q E; [injection E as <-; cbn; auto|]. apply (A1 i q E).
  - intros q [<-|I]; [intro K; rewrite K in B; discriminate|]. now apply A2.
  - intros [|i] v L E; [cbn in L; lia|]. destruct (A3 i v) as (q & I & K & H); [cbn in L; lia|exact E|]. exists q. split; [now right|auto].
  - intros k v E N. destruct (A4 k v E) as (q & I & K & H); [|exists q; split; [now right|auto]].
    intros q I EN. apply N; [now right|auto].
Qed.
Lemma accepts_drop s c pos kw : positional ann s = [] -> accepts ann value has s (c :: pos) kw -> accepts ann value has s pos kw.
Proof.
  intros P (A1 & A2 & A3 & A4). split; [|split; [|split]]; auto.
  - rewrite P. intros [|i] q E; discriminate.
  - intros i v L E. apply (A3 (S i) v); [lia|exact E].
Qed.

Definition keys_of (a b : signature) : list string :=
  flat_map (fun pair => some_list (fst pair) ++ some_list (snd pair)) (zip_longest (names (keywords ann a)) (names (keywords ann b))).
Lemma map_ext_keys f g (l : list string) : (forall k, In k l -> f k = g k) -> map f l = map g l :> list (option param).
Proof. intro H. apply map_ext_in, H. Qed.
Lemma choose_key_name x1 x2 a b k p : choose_key ann unify x1 x2 a b k = Some p -> name p = k.
Proof.
  unfold choose_key. destruct (get ann k a) as [p1|] eqn:G1, (get ann k b) as [p2|] eqn:G2; try discriminate.
  - apply get_some in G1, G2. intro C. injection C as <-. cbn. destruct (unify _ _); tauto.
  - apply get_some in G1. destruct x2; [|discriminate]. intro C. injection C as <-. tauto.
  - apply get_some in G2. destruct x1; [|discriminate]. intro C. injection C as <-. tauto.
Qed.
(** once the receiver is the first, the rest goes its way *)
Lemma tail_goes h (ps os : list (option param)) vp vk d : (forall p, In (Some p) os \/ vp = Some p \/ vk = Some p -> name p <> name h) ->
  let finish := fun d => put (put (fold_left put os d) vp) vk in
  finish (h :: d) = h :: finish d.
Proof.
  intros H finish. unfold finish.
  assert (P : forall o d, (forall p, o = Some p -> name p <> name h) -> put (h :: d) o = h :: put d o).
  { intros [p|] d0 N; [|reflexivity]. cbn. destruct (String.eqb_spec (name h) (name p)); [|reflexivity]. exfalso. apply (N p); auto. }
  assert (F : forall os d, (forall p, In (Some p) os -> name p <> name h) -> fold_left put os (h :: d) = h :: fold_left put os d).
  { induction os0 as [|o os0 IH]; intros d0 N; [reflexivity|]. cbn [fold_left]. rewrite P.
    - apply IH. intros; apply N; now right.
    - intros p ->. apply N. now left. }
  rewrite F, P, P; auto.
Qed.
Lemma out_finish s1 s2 : out_params ann unify s1 s2 =
  put (put (fold_left put (map (choose_key ann unify (squishy ann s1) (squishy ann s2) (keywords ann s1) (keywords ann s2)) (keys_of s1 s2))
         (fold_left put (map (choose_pos ann unify (squishy ann s1) (squishy ann s2)) (zip_longest (pos_only ann s1) (pos_only ann s2))) []))
         (match var_pos ann s1, var_pos ann s2 with Some p, Some _ => Some p | _, _ => None end))
      (match var_kw ann s1, var_kw ann s2 with Some p, Some _ => Some p | _, _ => None end).
Proof.
  unfold out_params, keys_of. destruct (var_pos ann s1); [destruct (var_pos ann s2)|]; cbn [Sig_Model.put];
  (destruct (var_kw ann s1); [destruct (var_kw ann s2)|]); reflexivity.
Qed.
Lemma get_cons k p (d : signature) : name p <> k -> get ann k (p :: d) = get ann k d.
Proof. intro N. unfold get. cbn. destruct (String.eqb_spec (name p) k); [contradiction|reflexivity]. Qed.
Lemma in_keys_of k a b : In k (keys_of a b) -> In k (names a) \/ In k (names b).
Proof.
  unfold keys_of. rewrite zip_keys. intros [H|H]; apply in_map_iff in H; destruct H as (p & E & I); apply in_keywords in I;
  [left|right]; rewrite <- E; now apply in_map.
Qed.
Lemma no_pos_only p t : sorted (p :: t) -> kind p = PosKw -> pos_only ann (p :: t) = [].
Proof.
  intros H K. apply sorted_tl in H. destruct H as [_ H]. unfold pos_only. cbn. rewrite K.
  induction t as [|q t IH]; [reflexivity|]. cbn. specialize (H q (or_introl eq_refl)) as Q. rewrite K in Q.
  destruct (kind q); cbn in Q; try lia; apply IH; intros; apply H; now right.
Qed.
Lemma peel_two r1 t1 r2 t2 : sorted (r1 :: t1) -> sorted (r2 :: t2) -> NoDup (names (r1 :: t1)) -> NoDup (names (r2 :: t2)) ->
  kind r1 = PosKw -> kind r2 = PosKw -> ~ In (name r1) (names (r2 :: t2)) -> ~ In (name r2) (names (r1 :: t1)) ->
  squishy ann (r1 :: t1) = negb (squishy ann (r2 :: t2)) ->
  exists h, (h = keyword_only ann r1 \/ h = keyword_only ann r2) /\
  out_params ann unify (r1 :: t1) (r2 :: t2) = h :: out_params ann unify t1 t2.
Proof.
  intros S1 S2 N1 N2 K1 K2 F1 F2 Q.
  assert (P1 := no_pos_only r1 t1 S1 K1). assert (P2 := no_pos_only r2 t2 S2 K2).
  assert (P1' : pos_only ann t1 = []) by (unfold pos_only in *; cbn in P1; now rewrite K1 in P1).
  assert (P2' : pos_only ann t2 = []) by (unfold pos_only in *; cbn in P2; now rewrite K2 in P2).
  assert (V1 : var_pos ann (r1 :: t1) = var_pos ann t1) by (unfold var_pos; cbn; now rewrite K1).
  assert (V2 : var_pos ann (r2 :: t2) = var_pos ann t2) by (unfold var_pos; cbn; now rewrite K2).
  assert (W1 : var_kw ann (r1 :: t1) = var_kw ann t1) by (unfold var_kw; cbn; now rewrite K1).
  assert (W2 : var_kw ann (r2 :: t2) = var_kw ann t2) by (unfold var_kw; cbn; now rewrite K2).
  assert (Q1 : squishy ann (r1 :: t1) = squishy ann t1) by (unfold squishy; now rewrite V1, W1).
  assert (Q2 : squishy ann (r2 :: t2) = squishy ann t2) by (unfold squishy; now rewrite V2, W2).
  assert (KW1 : keywords ann (r1 :: t1) = r1 :: keywords ann t1) by (unfold keywords; cbn; now rewrite K1).
  assert (KW2 : keywords ann (r2 :: t2) = r2 :: keywords ann t2) by (unfold keywords; cbn; now rewrite K2).
  assert (KS : keys_of (r1 :: t1) (r2 :: t2) = name r1 :: name r2 :: keys_of t1 t2) by (unfold keys_of; rewrite KW1, KW2; reflexivity).
  cbn [map In] in F1, F2. inversion N1 as [|? ? NI1 ND1]; subst. inversion N2 as [|? ? NI2 ND2]; subst.
  assert (SUB : forall t, incl (names (keywords ann t)) (names t)).
  { intros t k I. apply in_map_iff in I. destruct I as (p & <- & I). apply in_keywords in I. apply in_map. tauto. }
  rewrite (out_finish (r1 :: t1) (r2 :: t2)), (out_finish t1 t2), KS, P1, P2, P1', P2', V1, V2, W1, W2, KW1, KW2. rewrite Q1, Q2 in *.
  cbn [zip_longest map fold_left]. rewrite Q.
  assert (C1 : choose_key ann unify (negb (squishy ann t2)) (squishy ann t2) (r1 :: keywords ann t1) (r2 :: keywords ann t2) (name r1) =
               if squishy ann t2 then Some (keyword_only ann r1) else None).
  { unfold choose_key. rewrite (get_cons _ r2) by (intro X; apply F1; now left).
    replace (get ann (name r1) (keywords ann t2)) with (@None param) by (symmetry; apply get_none; intro X; apply F1; right; now apply SUB).
    unfold get. cbn. now rewrite String.eqb_refl. }
  assert (C2 : choose_key ann unify (negb (squishy ann t2)) (squishy ann t2) (r1 :: keywords ann t1) (r2 :: keywords ann t2) (name r2) =
               if negb (squishy ann t2) then Some (keyword_only ann r2) else None).
  { unfold choose_key. rewrite (get_cons _ r1) by (intro X; apply F2; now left).
    replace (get ann (name r2) (keywords ann t1)) with (@None param) by (symmetry; apply get_none; intro X; apply F2; right; now apply SUB).
    unfold get. cbn. now rewrite String.eqb_refl. }
  assert (KN : forall k, In k (keys_of t1 t2) -> name r1 <> k /\ name r2 <> k).
  { intros k I. apply in_keys_of in I. split; intros <-; destruct I as [I|I]; auto. }
  assert (CR : map (choose_key ann unify (negb (squishy ann t2)) (squishy ann t2) (r1 :: keywords ann t1) (r2 :: keywords ann t2)) (keys_of t1 t2) =
               map (choose_key ann unify (negb (squishy ann t2)) (squishy ann t2) (keywords ann t1) (keywords ann t2)) (keys_of t1 t2)).
  { apply map_ext_in. intros k I. destruct (KN k I) as [A B]. unfold choose_key. now rewrite (get_cons k r1), (get_cons k r2). }
  rewrite C1, C2, CR. set (h := if squishy ann t2 then keyword_only ann r1 else keyword_only ann r2).
  exists h. split; [unfold h; destruct (squishy ann t2); auto|].
  replace (put (put [] (if squishy ann t2 then Some (keyword_only ann r1) else None)) (if negb (squishy ann t2) then Some (keyword_only ann r2) else None))
    with [h] by (unfold h; destruct (squishy ann t2); reflexivity).
  apply (tail_goes h []).
  assert (HN : forall k, k <> name r1 -> k <> name r2 -> k <> name h) by (unfold h; destruct (squishy ann t2); auto).
  assert (HV : forall p, In p t1 -> name p <> name h).
  { intros p I. apply HN; intro X; [apply NI1|apply F2; right]; rewrite <- X; now apply in_map. }
  intros p [I|[E|E]].
  - apply in_map_iff in I. destruct I as (k & C & I). apply choose_key_name in C. subst k. destruct (KN _ I). apply HN; congruence.
  - destruct (var_pos ann t1) as [q|] eqn:V; [|discriminate]. destruct (var_pos ann t2); [|discriminate]. injection E as <-.
    apply var_pos_some in V. apply HV. tauto.
  - destruct (var_kw ann t1) as [q|] eqn:V; [|discriminate]. destruct (var_kw ann t2); [|discriminate]. injection E as <-.
    apply var_kw_some in V. apply HV. tauto.
Qed.
Lemma peel_one s1 r2 t2 : pos_only ann s1 = [] -> keywords ann s1 = [] -> squishy ann s1 = true ->
  sorted (r2 :: t2) -> NoDup (names (r2 :: t2)) -> by_position (kind r2) = true -> ~ In (name r2) (names s1) ->
  exists h, out_params ann unify s1 (r2 :: t2) = h :: out_params ann unify s1 t2.
Proof.
  intros P1 KW1 Q1 S2 N2 K2 F2.
  assert (V2 : var_pos ann (r2 :: t2) = var_pos ann t2) by (unfold var_pos; cbn; destruct (kind r2); try discriminate; reflexivity).
  assert (W2 : var_kw ann (r2 :: t2) = var_kw ann t2) by (unfold var_kw; cbn; destruct (kind r2); try discriminate; reflexivity).
  assert (Q2 : squishy ann (r2 :: t2) = squishy ann t2) by (unfold squishy; now rewrite V2, W2).
  inversion N2 as [|? ? NI2 ND2]; subst.
  rewrite (out_finish s1 (r2 :: t2)), (out_finish s1 t2), V2, W2, Q1, Q2, P1, KW1.
  assert (HV : forall h, name h = name r2 -> forall p, In p s1 -> name p <> name h).
  { intros h E p I X. apply F2. rewrite <- E, <- X. now apply in_map. }
  assert (NV : forall h, name h = name r2 -> forall p, (match var_pos ann s1, var_pos ann t2 with Some p, Some _ => Some p | _, _ => None end = Some p \/
                match var_kw ann s1, var_kw ann t2 with Some p, Some _ => Some p | _, _ => None end = Some p) -> name p <> name h).
  { intros h E p [X|X].
    - destruct (var_pos ann s1) as [q|] eqn:V; [|discriminate]. destruct (var_pos ann t2); [|discriminate]. injection X as <-.
      apply var_pos_some in V. apply HV; tauto.
    - destruct (var_kw ann s1) as [q|] eqn:V; [|discriminate]. destruct (var_kw ann t2); [|discriminate]. injection X as <-.
      apply var_kw_some in V. apply HV; tauto. }
  assert (KN : forall k, In k (keys_of s1 t2) -> k <> name r2).
  { intros k I ->. apply in_keys_of in I. destruct I; auto. }
  destruct (kind r2) eqn:K; try discriminate.
  - (* positional-only *)
    assert (KW : keywords ann (r2 :: t2) = keywords ann t2) by (unfold keywords; cbn; now rewrite K).
    assert (PO : pos_only ann (r2 :: t2) = r2 :: pos_only ann t2) by (unfold pos_only; cbn; now rewrite K).
    assert (KE : keys_of s1 (r2 :: t2) = keys_of s1 t2) by (unfold keys_of; now rewrite KW). rewrite KW, PO, KE.
    cbn [zip_longest map fold_left choose_pos]. exists r2.
    assert (G : fold_left put (map (choose_pos ann unify true (squishy ann t2)) (map (fun y => (None, Some y)) (pos_only ann t2))) (put [] (Some r2)) =
             r2 :: fold_left put (map (choose_pos ann unify true (squishy ann t2)) (map (fun y => (None, Some y)) (pos_only ann t2))) []).
    { apply (tail_goes r2 [] _ None None). intros p [I|[X|X]]; try discriminate. rewrite map_map in I. cbn in I.
      apply in_map_iff in I. destruct I as (q & E & I). injection E as <-. intro X. apply NI2. rewrite <- X. apply in_pos_only in I. now apply in_map. }
    rewrite G. apply (tail_goes r2 []). intros p [I|H]; [|now apply NV].
    apply in_map_iff in I. destruct I as (k & C & I). apply choose_key_name in C. subst k. now apply KN.
  - assert (KW : keywords ann (r2 :: t2) = r2 :: keywords ann t2) by (unfold keywords; cbn; now rewrite K).
    assert (PO := no_pos_only r2 t2 S2 K). assert (PO' : pos_only ann t2 = []) by (unfold pos_only in *; cbn in PO; now rewrite K in PO).
    rewrite KW, PO, PO'. assert (KE : keys_of s1 (r2 :: t2) = name r2 :: keys_of s1 t2) by (unfold keys_of; rewrite KW, KW1; reflexivity).
    rewrite KE. cbn [zip_longest map fold_left]. exists (keyword_only ann r2).
    assert (C : choose_key ann unify true (squishy ann t2) [] (r2 :: keywords ann t2) (name r2) = Some (keyword_only ann r2)).
    { unfold choose_key, get. cbn. now rewrite String.eqb_refl. }
    rewrite C. cbn [Sig_Model.put Sig_Model.set].
    assert (CR : map (choose_key ann unify true (squishy ann t2) [] (r2 :: keywords ann t2)) (keys_of s1 t2) =
                 map (choose_key ann unify true (squishy ann t2) [] (keywords ann t2)) (keys_of s1 t2)).
    { apply map_ext_in. intros k I. unfold choose_key. rewrite (get_cons k r2); [reflexivity|]. intro X. apply (KN k I). auto. }
    rewrite CR. apply (tail_goes (keyword_only ann r2) []). intros p [I|H]; [|now apply NV].
    apply in_map_iff in I. destruct I as (k & C' & I). apply choose_key_name in C'. subst k. now apply KN.
Qed.
End P.
