From Coq Require Import List Bool ZArith Lia Permutation ZifyBool.
From Verif Require Import Cover_Model Cover_Spec.
Import ListNotations.
Open Scope Z_scope.

Lemma best_none {X} (less : X -> X -> bool) l : best less l = None -> l = [].
Proof. destruct l as [|x r]; auto. cbn. destruct (best less r) as [[[b y] a]|]; [|discriminate]. destruct (less x y); discriminate. Qed.

Lemma best_ok {X} (k : X -> Z * Z) l : forall b p a,
  best (fun x y => less2 (k x) (k y)) l = Some (b, p, a) ->
  l = b ++ p :: a /\ forall y, In y l -> less2 (k p) (k y) = false.
Proof.
  induction l as [|x r IH]; cbn; intros b p a H; [discriminate|].
  destruct (best _ r) as [[[b1 y] a1]|] eqn:R.
  - destruct (IH _ _ _ eq_refl) as [-> M]. destruct (less2 (k x) (k y)) eqn:L.
    + injection H as <- <- <-. split; auto. intros z [->|Hz]; auto.
      unfold less2 in *. lia.
    + injection H as <- <- <-. split; auto. intros z [->|Hz].
      * unfold less2. lia.
      * specialize (M z Hz). unfold less2 in *. lia.
  - injection H as <- <- <-. apply best_none in R as ->. split; auto. intros y [->|[]].
    unfold less2. lia.
Qed.

Section Greedy.
  Context {X K : Type}.
  Variable cov : X -> K -> Prop.
  Hypothesis covered_dec : forall l o, covered cov l o \/ ~ covered cov l o.
  Variable gain : list X -> X -> Z.
  Variable pr : X -> Z.
  Hypothesis gain_ok : forall l x, exists n, news cov l x n /\ gain l x = Z.of_nat n.

  Fixpoint gsel (stop : bool) (fuel : nat) (items before : list X) : list X :=
    match fuel with
    | O => []
    | S fuel =>
        match best (fun a b => less2 (gain before a, pr a) (gain before b, pr b)) items with
        | None => []
        | Some (b, p, a) => if stop && (gain before p =? 0) then []
                            else p :: gsel stop fuel (b ++ a) (before ++ [p])
        end
    end.

  Lemma news_fun l x n m : news cov l x n -> news cov l x m -> n = m.
  Proof.
    intros (o1 & D1 & <- & H1) (o2 & D2 & <- & H2).
    apply Nat.le_antisymm; apply NoDup_incl_length; auto; intros o Ho.
    - apply H2, H1, Ho.
    - apply H1, H2, Ho.
  Qed.
  Lemma covered_app l m o : covered cov (l ++ m) o <-> covered cov l o \/ covered cov m o.
  Proof.
    unfold covered. split.
    - intros (x & I & C). apply in_app_or in I as [I|I]; [left|right]; eauto.
    - intros [(x & I & C)|(x & I & C)]; exists x; split; auto; apply in_or_app; auto.
  Qed.
  Lemma covered_perm l m o : Permutation l m -> covered cov l o -> covered cov m o.
  Proof. intros Q (x & I & C). exists x. split; auto. eapply Permutation_in; eauto. Qed.

  Lemma gsel_ok stop fuel : forall items before, (length items <= fuel)%nat ->
    exists rest, Permutation (gsel stop fuel items before ++ rest) items /\
      (stop = false -> rest = []) /\
      (forall o, covered cov (before ++ gsel stop fuel items before) o <-> covered cov (before ++ items) o) /\
      forall b x a, gsel stop fuel items before = b ++ x :: a ->
        exists n, news cov (before ++ b) x n /\ (stop = true -> n <> 0%nat) /\
          forall y m, In y (a ++ rest) -> news cov (before ++ b) y m ->
            (m < n)%nat \/ (m = n /\ pr y <= pr x).
  Proof.
    induction fuel as [|fuel IH]; intros items before Hf; cbn [gsel].
    { destruct items; [|cbn in Hf; lia]. exists []. cbn. repeat split; auto.
      intros b x a E. destruct b; discriminate. }
    destruct (best _ items) as [[[b p] a]|] eqn:B.
    2:{ apply best_none in B as ->. exists []. cbn. repeat split; auto. intros b x a E. destruct b; discriminate. }
    apply (best_ok (fun x => (gain before x, pr x))) in B as [-> M].
    destruct (stop && (gain before p =? 0)) eqn:St.
    - apply andb_prop in St as [-> Z0]. exists (b ++ p :: a). cbn [app]. repeat split; auto; try discriminate.
      + intros C. rewrite app_nil_r in C. apply covered_app. auto.
      + intros C. rewrite app_nil_r. apply covered_app in C as [C|(y & I & C)]; auto.
        specialize (M y I). destruct (gain_ok before y) as (n & (os & D & L & H) & G).
        assert (n = 0)%nat. { rewrite G in M. unfold less2 in M. cbn [fst snd] in M. lia. }
        subst n. destruct os; [|discriminate].
        destruct (covered_dec before o) as [|N]; auto. exfalso. apply (H o). auto.
      + intros b0 x a0 E. destruct b0; discriminate.
    - assert (Hl : (length (b ++ a) <= fuel)%nat) by (rewrite app_length in *; cbn in Hf; lia).
      destruct (IH (b ++ a) (before ++ [p]) Hl) as (rest & Q & R0 & C & T).
      exists rest. repeat split; auto.
      + cbn [app]. apply Permutation_trans with (p :: (b ++ a)); [now constructor|apply Permutation_middle].
      + intro H. apply covered_app in H as [H|(y & [->|I] & Hy)].
        * apply covered_app; auto.
        * apply covered_app. right. exists y. split; auto. apply in_elt.
        * assert (covered cov (before ++ [p] ++ (b ++ a)) o) as K'.
          { rewrite app_assoc. apply C. apply covered_app. right. exists y. auto. }
          destruct K' as (z & Iz & Hz). exists z. split; auto.
          rewrite !in_app_iff in *. cbn [In] in *. tauto.
      + intro H. replace (before ++ p :: gsel stop fuel (b ++ a) (before ++ [p])) with ((before ++ [p]) ++ gsel stop fuel (b ++ a) (before ++ [p])) by (now rewrite <- app_assoc).
        apply C. destruct H as (z & Iz & Hz). exists z. split; auto.
        rewrite !in_app_iff in *. cbn [In] in *. tauto.
      + intros b0 x a0 E. destruct b0 as [|x0 b0]; cbn [app] in E; injection E as -> E.
        * subst a0. rewrite app_nil_r. destruct (gain_ok before x) as (n & Nx & G). exists n.
          split; auto. split.
          { intros ->. cbn in St. lia. }
          intros y m I Nm.
          assert (Iy : In y (b ++ x :: a)).
          { apply Permutation_in with (x := y) in Q; auto. apply in_app_or in Q. apply in_or_app. cbn. tauto. }
          specialize (M y Iy). destruct (gain_ok before y) as (m' & Ny & G').
          assert (m' = m) by (eapply news_fun; eauto). subst m'.
          rewrite G, G' in M. unfold less2 in M. cbn [fst snd] in M. lia.
        * replace (before ++ x0 :: b0) with ((before ++ [x0]) ++ b0) by (now rewrite <- app_assoc).
          apply T. exact E.
  Qed.
End Greedy.

(** *** Counting *)
Lemma minus_in a b x : In x (minus a b) <-> In x a /\ ~ In x b.
Proof.
  unfold minus. rewrite filter_In, negb_true_iff. apply and_iff_compat_l.
  rewrite <- not_true_iff_false, existsb_exists. apply not_iff_compat. split.
  - intros (y & I & E). apply Z.eqb_eq in E. now subst.
  - intro I. exists x. split; auto. apply Z.eqb_refl.
Qed.
Lemma inter_in a b x : In x (inter a b) <-> In x a /\ In x b.
Proof.
  unfold inter. rewrite filter_In. apply and_iff_compat_l. rewrite existsb_exists. split.
  - intros (y & I & E). apply Z.eqb_eq in E. now subst.
  - intro I. exists x. split; auto. apply Z.eqb_refl.
Qed.
Lemma len_ext a b : (forall x, In x a <-> In x b) -> len a = len b.
Proof.
  intro H. unfold len. f_equal. apply Nat.le_antisymm; apply NoDup_incl_length; try apply NoDup_nodup;
    intros x I; rewrite nodup_In in *; apply H; auto.
Qed.

(** *** path_cover *)
Section Cover.
  Context {X : Type}.
  Variable cov : X -> list Z.
  Variable text : X -> Z.
  Notation covP := (fun x o => In o (cov x)).

  Lemma cov_dec (l : list X) o : covered covP l o \/ ~ covered covP l o.
  Proof.
    destruct (Exists_dec (fun x => In o (cov x)) l (fun x => in_dec Z.eq_dec o (cov x))) as [E|N].
    - left. apply Exists_exists in E. exact E.
    - right. intros (x & I & C). apply N, Exists_exists. eauto.
  Qed.
  Definition gain (l : list X) (x : X) : Z := len (minus (cov x) (concat (map cov l))).
  Lemma concat_covered l o : In o (concat (map cov l)) <-> covered covP l o.
  Proof.
    rewrite in_concat. unfold covered. split.
    - intros (c & I & H). apply in_map_iff in I as (x & <- & I). eauto.
    - intros (x & I & H). exists (cov x). split; auto. now apply in_map.
  Qed.
  Lemma gain_ok l x : exists n, news covP l x n /\ gain l x = Z.of_nat n.
  Proof.
    eexists. split; [|reflexivity]. eexists. split; [apply NoDup_nodup|]. split; [reflexivity|].
    intro o. rewrite nodup_In, minus_in, concat_covered. reflexivity.
  Qed.

  Lemma choose_gsel ty fuel : forall items before found, (forall o, In o found <-> covered covP before o) ->
    choose cov text ty fuel items found = gsel gain (fun x => - text x) match ty with OPCODE => true | PATH => false end fuel items before.
  Proof.
    induction fuel as [|fuel IH]; intros items before found H; cbn [choose gsel]; auto.
    assert (G : forall x, len (minus (cov x) found) = gain before x).
    { intro x. apply len_ext. intro o. rewrite !minus_in, concat_covered, H. reflexivity. }
    replace (best (fun a b => less2 (key cov text found a) (key cov text found b)) items)
      with (best (fun a b => less2 (gain before a, - text a) (gain before b, - text b)) items).
    2:{ clear IH. induction items as [|y r IHr]; auto. cbn. rewrite IHr.
        rewrite <- IHr. destruct (best _ r) as [[[b z] a]|]; auto. unfold key. now rewrite !G. }
    destruct (best _ items) as [[[b p] a]|]; auto. rewrite G.
    destruct ty; cbn [andb]; [destruct (gain before p =? 0); auto|]; f_equal; apply IH;
      intro o; rewrite in_app_iff, H, covered_app; apply or_iff_compat_l; unfold covered;
      (split; [intro I; exists p; cbn; auto|intros (x & [->|[]] & I); exact I]).
  Qed.
  Lemma selected_gsel ty paths : selected cov text ty paths =
    gsel gain (fun x => - text x) match ty with OPCODE => true | PATH => false end (length paths) paths [].
  Proof. apply choose_gsel. intro o. cbn. split; [intros []|intros (x & [] & _)]. Qed.
End Cover.

(** *** diff_behavior *)
Section Diffs.
  Context {X : Type}.
  Variable cov1 cov2 : X -> list Z.
  Variable text : X -> Z.
  Variable all1 all2 : list Z.
  (** [false]: in the first function *)
  Definition cov_both (x : X) (o : bool * Z) : Prop :=
    if fst o then In (snd o) (cov2 x) else In (snd o) (cov1 x).
  Definition in_code (x : X) : Prop := incl (cov1 x) all1 /\ incl (cov2 x) all2.

  Lemma cov_both_dec (l : list X) o : covered cov_both l o \/ ~ covered cov_both l o.
  Proof.
    assert (D : forall x, {cov_both x o} + {~ cov_both x o}).
    { intro x. unfold cov_both. destruct (fst o); apply in_dec, Z.eq_dec. }
    destruct (Exists_dec (fun x => cov_both x o) l D) as [E|N].
    - left. apply Exists_exists in E. exact E.
    - right. intros (x & I & C). apply N, Exists_exists. eauto.
  Qed.
  Definition gain2 (l : list X) (x : X) : Z :=
    len (minus (cov1 x) (concat (map cov1 l))) + len (minus (cov2 x) (concat (map cov2 l))).
  Lemma covered_both l o : covered cov_both l o <->
    if fst o then In (snd o) (concat (map cov2 l)) else In (snd o) (concat (map cov1 l)).
  Proof. destruct o as [[] o]; cbn [fst snd]; rewrite concat_covered; reflexivity. Qed.
  Lemma gain2_ok l x : exists n, news cov_both l x n /\ gain2 l x = Z.of_nat n.
  Proof.
    set (n1 := nodup Z.eq_dec (minus (cov1 x) (concat (map cov1 l)))).
    set (n2 := nodup Z.eq_dec (minus (cov2 x) (concat (map cov2 l)))).
    exists (length n1 + length n2)%nat. split; [|unfold gain2, len; fold n1 n2; lia].
    exists (map (pair false) n1 ++ map (pair true) n2).
    assert (P : forall (b : bool) (m : list Z), NoDup m -> NoDup (map (pair b) m)).
    { intros b m D. induction D as [|y m Ny D IH]; cbn; constructor; auto.
      intro I. apply in_map_iff in I as (z & E & I). inversion E; subst. auto. }
    split; [|split].
    - assert (Dis : forall y, In y (map (pair false) n1) -> ~ In y (map (pair true) n2)).
      { intros y I J. apply in_map_iff in I as (u & <- & _). apply in_map_iff in J as (v & E & _). discriminate. }
      assert (D1 : NoDup (map (pair false) n1)) by (apply P, NoDup_nodup).
      assert (D2 : NoDup (map (pair true) n2)) by (apply P, NoDup_nodup).
      revert Dis D1. generalize (map (pair false) n1). intro u. induction u as [|y u IH]; cbn; auto.
      intros Dis D1. inversion D1; subst. constructor.
      + rewrite in_app_iff. intros [I|I]; auto. apply (Dis y); auto.
      + apply IH; auto.
    - rewrite app_length, !map_length. reflexivity.
    - intros [b o]. rewrite in_app_iff, covered_both. cbn [fst snd].
      assert (E : forall b' m, In (b, o) (map (pair b') m) <-> b = b' /\ In o m).
      { intros b' m. rewrite in_map_iff. split; [intros (z & E & I); inversion E; subst; auto|intros [-> I]; eauto]. }
      rewrite !E. unfold n1, n2. rewrite !nodup_In, !minus_in. unfold cov_both. cbn [fst snd].
      destruct b; intuition congruence.
  Qed.

  Lemma pick_gsel fuel : forall items before ops1 ops2,
    Forall in_code items ->
    (forall o, In o ops1 <-> In o all1 /\ ~ In o (concat (map cov1 before))) ->
    (forall o, In o ops2 <-> In o all2 /\ ~ In o (concat (map cov2 before))) ->
    pick_diffs cov1 cov2 text fuel items ops1 ops2 = gsel gain2 text true fuel items before.
  Proof.
    induction fuel as [|fuel IH]; intros items before ops1 ops2 F H1 H2; cbn [pick_diffs gsel]; auto.
    assert (G : forall x, In x items -> fst (score cov1 cov2 text ops1 ops2 x) = gain2 before x).
    { intros x I. rewrite Forall_forall in F. destruct (F x I) as [I1 I2].
      cbn. unfold gain2. f_equal; apply len_ext; intro o; rewrite inter_in, minus_in, ?H1, ?H2;
        (split; [tauto|]); intros [A B]; auto. }
    replace (best (fun a b => less2 (score cov1 cov2 text ops1 ops2 a) (score cov1 cov2 text ops1 ops2 b)) items)
      with (best (fun a b => less2 (gain2 before a, text a) (gain2 before b, text b)) items).
    2:{ assert (forall x y, In x items -> In y items ->
           less2 (gain2 before x, text x) (gain2 before y, text y) = less2 (score cov1 cov2 text ops1 ops2 x) (score cov1 cov2 text ops1 ops2 y)) as L.
        { intros x y Ix Iy. unfold less2. rewrite !G; auto. }
        clear - L. induction items as [|y r IHr]; auto. cbn.
        rewrite <- IHr by (intros; apply L; cbn; auto).
        destruct (best _ r) as [[[b z] a]|] eqn:B; auto.
        apply (best_ok (fun x => (gain2 before x, text x))) in B as [-> _].
        rewrite L; auto; [now left|right; apply in_elt]. }
    destruct (best _ items) as [[[b p] a]|] eqn:B; auto.
    apply (best_ok (fun x => (gain2 before x, text x))) in B as [-> _].
    rewrite G by apply in_elt. destruct (gain2 before p =? 0); cbn [andb]; auto. f_equal. apply IH.
    - rewrite Forall_forall in *. intros x I. apply F. rewrite in_app_iff in *. cbn. tauto.
    - intro o. rewrite minus_in, H1, map_app, concat_app, in_app_iff. cbn. rewrite app_nil_r. tauto.
    - intro o. rewrite minus_in, H2, map_app, concat_app, in_app_iff. cbn. rewrite app_nil_r. tauto.
  Qed.
  Lemma picked_gsel diffs : Forall in_code diffs ->
    picked cov1 cov2 text all1 all2 diffs = gsel gain2 text true (length diffs) diffs [].
  Proof. intro F. apply pick_gsel; auto; intro o; cbn; tauto. Qed.
End Diffs.
