From Coq Require Import Ascii String.
From Coq Require Import QArith List Bool Arith Lia Lqa.
From Verif Require Import Py TypeChoice_Model TypeChoice_Spec.
Import ListNotations.

Lemma mem_in : forall s l, mem s l = true <-> In s l.
Proof.
  intros s l. unfold mem. rewrite existsb_exists. split.
  - intros (x & I & E). apply String.eqb_eq in E. now subst.
  - intros I. exists s. split; auto. apply String.eqb_refl.
Qed.
Lemma memn_in : forall s l, memn s l = true <-> In s l.
Proof.
  intros s l. unfold memn. rewrite existsb_exists. split.
  - intros (x & I & E). apply Nat.eqb_eq in E. now subst.
  - intros I. exists s. split; auto. apply Nat.eqb_refl.
Qed.
Lemma root_iff : forall r m, root r = r -> root m = r <-> m = r \/ exists rest, m = (r ++ "." ++ rest)%string.
Proof.
  induction r as [|c r IH]; intros m R.
  - destruct m as [|d m]; cbn [root]; [tauto|]. destruct (Ascii.eqb_spec d "."%char) as [E|E].
    + subst d. split; [|reflexivity]. intros _. right. now exists m.
    + split; [discriminate|]. intros [H|(rest & H)]; [discriminate|]. cbn in H. congruence.
  - cbn [root] in R. destruct (Ascii.eqb_spec c "."%char) as [E|E]; [discriminate|]. injection R as R.
    destruct m as [|d m]; cbn [root].
    + split; [discriminate|]. intros [H|(rest & H)]; discriminate.
    + destruct (Ascii.eqb_spec d "."%char) as [E'|E'].
      * split; [discriminate|]. intros [H|(rest & H)]; cbn in H; congruence.
      * split.
        -- intros [= -> H]. apply IH in H; [|exact R]. destruct H as [->|(rest & ->)]; [now left|]. right. now exists rest.
        -- intros [H|(rest & H)]; cbn in H; injection H as -> H; f_equal; apply IH; auto. right. now exists rest.
Qed.
Lemma ignored_iff : forall m, In (root m) ignored_roots <-> ignored_module m.
Proof.
  intros m. unfold ignored_module. split.
  - intros I. exists (root m). split; [exact I|]. apply root_iff; [|reflexivity].
    destruct I as [<-|[<-|[<-|[<-|[<-|[<-|[<-|[<-|[]]]]]]]]]; reflexivity.
  - intros (r & I & H). apply root_iff in H; [now rewrite H|].
    destruct I as [<-|[<-|[<-|[<-|[<-|[<-|[<-|[<-|[]]]]]]]]]; reflexivity.
Qed.
Lemma collected_iff : forall c, collected c = true <->
  (exists m, In m (c_modules c) /\ ~ ignored_module m) /\
  (forall n, In n (c_names c) -> ~ In n unsafe_members) /\ c_hashable c = true.
Proof.
  intros c. unfold collected, known_to_be_copyable. rewrite !andb_true_iff, negb_true_iff, existsb_exists.
  rewrite <- not_true_iff_false, existsb_exists. split.
  - intros (((m & I & N) & C) & H). split; [|split]; auto.
    + exists m. split; auto. rewrite <- ignored_iff, <- mem_in. now rewrite negb_true_iff, <- not_true_iff_false in N.
    + intros n I' J. apply C. exists n. split; auto. now apply mem_in.
  - intros ((m & I & N) & C & H). split; [split|]; auto.
    + exists m. split; auto. rewrite negb_true_iff, <- not_true_iff_false, mem_in, ignored_iff. auto.
    + intros (n & I' & J). apply mem_in in J. now apply (C n).
Qed.
Lemma submap_in : forall cs all b c, In c (subclass_map cs all b) <->
  In b all /\ collected (cs b) = true /\ In c all /\ collected (cs c) = true /\ In b (c_bases (cs c)).
Proof.
  intros cs all b c. unfold subclass_map.
  destruct (memn b (filter (fun c => collected (cs c)) all)) eqn:M.
  - apply memn_in, filter_In in M as (B1 & B2). rewrite in_flat_map. split.
    + intros (d & I & J). apply filter_In in I as (I1 & I2). apply in_map_iff in J as (x & <- & J).
      apply filter_In in J as (J & E). apply Nat.eqb_eq in E as <-. auto.
    + intros (_ & _ & I1 & I2 & J). exists c. rewrite filter_In. split; auto. apply in_map_iff. exists b.
      split; auto. apply filter_In. split; auto. apply Nat.eqb_refl.
  - split; [easy|]. intros (B1 & B2 & _). rewrite <- not_true_iff_false, memn_in, filter_In in M. tauto.
Qed.

(** ** the queue *)
Section Crawl.
  Variable submap : nat -> list nat.
  Inductive reach : nat -> nat -> Prop :=
    | reach_refl : forall c, reach c c
    | reach_step : forall c d x, In d (submap c) -> reach d x -> reach c x.

  Lemma crawl_in : forall fuel q l, crawl fuel submap q = Ok l -> forall x, In x l <-> exists c, In c q /\ reach c x.
  Proof.
    induction fuel as [|f IH]; intros q l E x; [easy|]. cbn [crawl] in E. destruct q as [|cur q].
    - injection E as <-. split; [easy|]. intros (c & [] & _).
    - destruct (crawl f submap (q ++ submap cur)) as [l'|] eqn:C; cbn [bind] in E; [|easy]. injection E as <-.
      cbn [In]. rewrite (IH _ _ C x). split.
      + intros [<-|(c & I & R)]; [exists cur; split; [now left|constructor]|].
        apply in_app_or in I as [I|I]; [exists c; auto|]. exists cur. split; auto. now apply reach_step with c.
      + intros (c & [<-|I] & R).
        * inversion R as [|? d ? I' R']; subst; auto. right. exists d. split; auto. apply in_or_app. auto.
        * right. exists c. split; auto. apply in_or_app. auto.
  Qed.
  Lemma crawl_head : forall fuel c q l, crawl fuel submap (c :: q) = Ok l -> exists r, l = c :: r.
  Proof.
    intros [|f] c q l E; [easy|]. cbn in E. destruct (crawl f submap (q ++ submap c)); cbn in E; [|easy]. injection E as <-. eauto.
  Qed.
  Lemma crawl_more : forall f q l, crawl f submap q = Ok l -> forall g, (f <= g)%nat -> crawl g submap q = Ok l.
  Proof.
    induction f as [|f IH]; intros q l E g L; [easy|]. destruct g as [|g]; [lia|]. cbn [crawl] in *. destruct q as [|c q]; auto.
    destruct (crawl f submap (q ++ submap c)) eqn:C; cbn [bind] in E; [|easy]. rewrite (IH _ _ C) by lia. exact E.
  Qed.
  (** the number of steps a class takes, its descendants' at most [k] deep *)
  Fixpoint weight (k : nat) (c : nat) : nat :=
    match k with O => 1 | S k => S (fold_right (fun d n => weight k d + n)%nat 0%nat (submap c)) end.
  Definition total (k : nat) (q : list nat) : nat := fold_right (fun d n => (weight k d + n)%nat) 0%nat q.
  Variable rank : nat -> nat.
  Variable top : nat.
  Hypothesis up : forall c d, In d (submap c) -> (rank c < rank d <= top)%nat.
  Lemma weight_enough : forall k c, (top - rank c <= k)%nat -> weight (S k) c = weight k c.
  Proof.
    induction k as [|k IH]; intros c L.
    - cbn. destruct (submap c) as [|d l] eqn:E; auto. pose proof (up c d) as U. rewrite E in U. specialize (U (or_introl eq_refl)). lia.
    - cbn [weight]. f_equal. assert (G : forall d, In d (submap c) -> (top - rank d <= k)%nat) by (intros d I; apply up in I; lia).
      induction (submap c) as [|d l IHl]; auto. cbn [fold_right]. rewrite <- IHl by (intros; apply G; now right).
      f_equal. apply (IH d). apply G. now left.
  Qed.
  Lemma total_app : forall k q r, total k (q ++ r) = (total k q + total k r)%nat.
  Proof. induction q as [|c q IH]; intros r; auto. change (total k ((c :: q) ++ r)) with (weight k c + total k (q ++ r))%nat. rewrite IH. unfold total. cbn [fold_right]. lia. Qed.
  Lemma crawl_ends : forall fuel q, (total top q < fuel)%nat -> exists l, crawl fuel submap q = Ok l.
  Proof.
    induction fuel as [|f IH]; intros q L; [lia|]. cbn [crawl]. destruct q as [|c q]; [eauto|].
    destruct (IH (q ++ submap c)) as (l & E); [|rewrite E; cbn; eauto].
    rewrite total_app. assert (W : weight top c = S (total top (submap c))) by (rewrite <- weight_enough by lia; reflexivity).
    change (total top (c :: q)) with (weight top c + total top q)%nat in L. lia.
  Qed.
End Crawl.

(** ** probabilities *)
Local Open Scope Q_scope.
Lemma pos_Q : forall n, (0 < n)%nat -> 0 < inject_Z (Z.of_nat n).
Proof. intros n L. change 0 with (inject_Z 0). rewrite <- Zlt_Qlt. lia. Qed.
Lemma succ_Q : forall n, inject_Z (Z.of_nat (S n)) == inject_Z (Z.of_nat n) + 1.
Proof. intros n. rewrite Nat2Z.inj_succ. unfold Z.succ. now rewrite inject_Z_plus. Qed.
Lemma uniform_chance : forall T (l : list T) i, (i < length l)%nat ->
  chance (map snd (with_uniform_probabilities l)) i == 1 / inject_Z (Z.of_nat (length l)).
Proof.
  unfold with_uniform_probabilities. induction l as [|x l IH]; intros i L; [cbn in L; lia|].
  cbn [length uniform_from map snd]. rewrite Nat.sub_succ, Nat.sub_0_r. destruct i as [|i]; cbn [chance]; [reflexivity|].
  assert (Li : (i < length l)%nat) by (cbn in L; lia). rewrite (IH i Li). rewrite succ_Q.
  assert (P : 0 < inject_Z (Z.of_nat (length l))) by (apply pos_Q; lia).
  field. split; intros E; lra.
Qed.
Lemma uniform_fst : forall T (l : list T) n, map fst (uniform_from n l) = l.
Proof. induction l as [|x l IH]; intros n; cbn; auto. now rewrite IH. Qed.
Lemma inv_lt_1 : forall n, (1 < n)%nat -> 1 / inject_Z (Z.of_nat n) < 1.
Proof.
  intros n L. apply Qlt_shift_div_r; [apply pos_Q; lia|]. rewrite Qmult_1_l. change 1 with (inject_Z 1). rewrite <- Zlt_Qlt. lia.
Qed.
Lemma inv_one : 1 / inject_Z (Z.of_nat 1) == 1.
Proof. reflexivity. Qed.

(** lists whose last probability alone is 1 *)
Definition stops (l : list (nat * Q)) : Prop :=
  exists r t p, l = r ++ [(t, p)] /\ p == 1 /\ Forall (fun x => ~ snd x == 1) r.
Lemma pick_sound : forall l ds t, pick l ds = Ok t -> In t (map fst l).
Proof.
  induction l as [|[t p] l IH]; intros ds x E; [easy|]. cbn [pick] in E. destruct (Qeq_bool p 1); [injection E as <-; now left|].
  destruct (ds O); [injection E as <-; now left|]. right. eauto.
Qed.
Lemma pick_total : forall l ds, stops l -> exists t, pick l ds = Ok t.
Proof.
  induction l as [|[t p] l IH]; intros ds (r & t' & p' & E & P & F); [destruct r; easy|].
  cbn [pick]. destruct (Qeq_bool p 1) eqn:Q1; [eauto|]. destruct (ds O); [eauto|]. apply IH.
  destruct r as [|x r]; cbn [app] in E; [injection E as E1 E2 E3; subst; apply Qeq_bool_neq in Q1; easy|]. injection E as E1 E2; subst.
  inversion F; subst. exists r, t', p'. auto.
Qed.
Lemma pick_all : forall l t, stops l -> In t (map fst l) -> exists ds, pick l ds = Ok t.
Proof.
  induction l as [|[t p] l IH]; intros x (r & t' & p' & E & P & F) I; [easy|]. cbn [map fst] in I.
  destruct I as [<-|I].
  - exists (fun _ => true). cbn [pick]. now destruct (Qeq_bool p 1).
  - destruct r as [|y r]; cbn [app] in E; [injection E as _ _ ->; easy|]. injection E as E1 E2; subst. inversion F as [|? ? F1 Fr]; subst.
    destruct (IH x) as (ds & D); [exists r, t', p'; auto|auto|].
    exists (fun i => match i with O => false | S i => ds i end). cbn [pick].
    destruct (Qeq_bool p 1) eqn:Q1; [apply Qeq_bool_iff in Q1; easy|]. exact D.
Qed.
Lemma uniform_stops : forall l, l <> [] -> stops (with_uniform_probabilities l).
Proof.
  unfold with_uniform_probabilities. induction l as [|x l IH]; intros N; [easy|]. cbn [length uniform_from].
  rewrite Nat.sub_succ, Nat.sub_0_r. destruct l as [|y l].
  - exists [], x. eexists. split; [reflexivity|]. split; [reflexivity|constructor].
  - destruct (IH ltac:(easy)) as (r & t & p & E & P & F). rewrite E. exists ((x, 1 / inject_Z (Z.of_nat (S (length (y :: l))))) :: r), t, p.
    split; [reflexivity|]. split; auto. constructor; auto. cbn [snd]. intros Q1.
    pose proof (inv_lt_1 (S (length (y :: l))) ltac:(cbn; lia)) as L. rewrite Q1 in L. now apply Qlt_irrefl in L.
Qed.
Lemma uniform_cons : forall T (x : T) l, with_uniform_probabilities (x :: l) = (x, 1 / inject_Z (Z.of_nat (S (length l)))) :: uniform_from (length l) l.
Proof. intros. unfold with_uniform_probabilities. cbn [length uniform_from]. now rewrite Nat.sub_succ, Nat.sub_0_r. Qed.
