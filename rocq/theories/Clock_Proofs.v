From Coq Require Import ZArith QArith List Bool Lia Lqa Setoid.
From Verif Require Import Clock_Model Clock_Spec.
Import ListNotations.
Open Scope Q_scope.

Section One.
  Variable read : event -> option Q.
  Variable adv : event -> Q.
  Hypothesis quiet : forall e v, read e = Some v -> adv e == 0.
  Fixpoint total (l : list event) : Q := match l with [] => 0 | e :: r => adv e + total r end.
  Fixpoint ok (t : Q) (l : list event) : Prop :=
    match l with
    | [] => True
    | e :: r => match read e with
                | Some v => t <= v /\ v < years 100000 /\ ok v r
                | None => ok (t + adv e) r
                end
    end.
  Definition pairs (l : list event) : Prop :=
    forall pre e mid f post v w, l = pre ++ e :: mid ++ f :: post -> read e = Some v -> read f = Some w -> v + total mid <= w.
  Definition firsts (t : Q) (l : list event) : Prop :=
    forall pre e post v, l = pre ++ e :: post -> read e = Some v -> t + total pre <= v /\ v < years 100000.

  Lemma ok_iff : forall l t, ok t l <-> pairs l /\ firsts t l.
  Proof.
    induction l as [|e l IH]; intros t.
    - split; [|easy]. intros _. split; intros pre; intros; destruct pre; discriminate.
    - cbn [ok]. destruct (read e) as [v|] eqn:R; [rewrite (IH v)|rewrite (IH (t + adv e))].
      + split.
        * intros (A & B & P & F). split.
          -- intros pre f mid g post x y E Rf Rg. destruct pre as [|p pre]; cbn in E; injection E as -> E.
             ++ rewrite R in Rf. injection Rf as ->. now apply (F mid g post).
             ++ now apply (P pre f mid g post).
          -- intros pre f post x E Rf. destruct pre as [|p pre]; cbn in E; injection E as -> E.
             ++ rewrite R in Rf. injection Rf as ->. cbn. split; [lra|auto].
             ++ destruct (F pre f post x E Rf) as (G1 & G2). split; auto. cbn [total]. pose proof (quiet _ _ R). lra.
        * intros (P & F). destruct (F [] e l v eq_refl R) as (A & B). cbn in A. split; [lra|split; [auto|split]].
          -- intros pre f mid g post x y -> Rf Rg. now apply (P (e :: pre) f mid g post).
          -- intros pre f post x -> Rf. split.
             ++ now apply (P [] e pre f post).
             ++ now apply (F (e :: pre) f post).
      + split.
        * intros (P & F). split.
          -- intros pre f mid g post x y E Rf Rg. destruct pre as [|p pre]; cbn in E; injection E as -> E.
             ++ rewrite R in Rf. discriminate.
             ++ now apply (P pre f mid g post).
          -- intros pre f post x E Rf. destruct pre as [|p pre]; cbn in E; injection E as -> E.
             ++ rewrite R in Rf. discriminate.
             ++ destruct (F pre f post x E Rf) as (G1 & G2). split; auto. cbn [total]. lra.
        * intros (P & F). split.
          -- intros pre f mid g post x y -> Rf Rg. now apply (P (e :: pre) f mid g post).
          -- intros pre f post x -> Rf. destruct (F (e :: pre) f post x eq_refl Rf) as (G1 & G2). cbn [total] in G1.
             split; [lra|auto].
  Qed.
  Lemma ok_eq : forall l t u, t == u -> ok t l -> ok u l.
  Proof.
    induction l as [|e l IH]; intros t u E; cbn; auto. destruct (read e) as [v|].
    - intros (A & B & C). split; [lra|auto].
    - apply IH. lra.
  Qed.
End One.

Definition nap (e : event) : Q := match e with Sleep d => d | _ => 0 end.
Definition still (e : event) : Q := 0.
Lemma total_nap l : total nap l == slept l.
Proof. induction l as [|[] l IH]; cbn; lra. Qed.
Lemma total_still l : total still l == 0.
Proof. induction l as [|e l IH]; cbn; [reflexivity|]. unfold still at 1. lra. Qed.

Definition head (e : event) : Prop := match e with Time v => 0 < v | TimeNs n => (0 < n)%Z | _ => True end.
Definition wall (l : list event) : Prop := Forall head l.
Lemma wall_iff l : wall l <-> (forall v, In (Time v) l -> 0 < v) /\ (forall n, In (TimeNs n) l -> (0 < n)%Z).
Proof.
  unfold wall. rewrite Forall_forall. split.
  - intros H. split; intros x I; exact (H _ I).
  - intros (A & B) e I. destruct e; cbn; auto.
Qed.
Lemma wall_cons e l : wall (e :: l) <-> head e /\ wall l.
Proof. apply Forall_cons_iff. Qed.

Lemma below_iff a b : below a b = true <-> a < b.
Proof.
  unfold below. rewrite negb_true_iff. split.
  - intros E. destruct (Qlt_le_dec a b) as [L|L]; auto. apply Qle_bool_iff in L. congruence.
  - intros L. destruct (Qle_bool b a) eqn:E; auto. apply Qle_bool_iff in E. lra.
Qed.
Lemma seconds_eq n : seconds n == inject_Z n * billionth.
Proof. unfold seconds, billionth, Qeq, inject_Z. cbn. lia. Qed.
Lemma large_eq : large == years 100000.
Proof. reflexivity. Qed.

Lemma kept_iff : forall l s, kept s l = true <-> ok steady nap (monotonic s) l /\ ok cpu still (process_time s) l /\ wall l.
Proof.
  assert (Ge : forall l t u, t == u -> (ok steady nap t l <-> ok steady nap u l)).
  { intros. split; apply ok_eq; auto; now symmetry. }
  assert (Gc : forall l t u, t == u -> (ok cpu still t l <-> ok cpu still u l)).
  { intros. split; apply ok_eq; auto; now symmetry. }
  induction l as [|e l IH]; intros s; [cbn; split; [intros _; repeat split; constructor|reflexivity]|].
  assert (Z1 : forall q, q + 0 == q) by (intros; lra).
  destruct e; cbn [kept step ok steady cpu nap still]; rewrite ?wall_cons; cbn [head]; unfold gte_last_monotonic, gte_last_process_time;
    rewrite ?andb_true_iff, IH; cbn [monotonic process_time]; rewrite ?Qle_bool_iff, ?below_iff, ?Z.ltb_lt; unfold still;
    rewrite ?(Gc _ _ _ (Z1 _)), ?(Ge _ _ _ (Z1 _)), ?(Gc _ _ _ (seconds_eq _)), ?(Ge _ _ _ (seconds_eq _)), ?seconds_eq, ?large_eq; intuition auto.
Qed.

Lemma kept_real l : kept start l = true <-> real l.
Proof.
  assert (Q1 : forall e v, steady e = Some v -> nap e == 0) by (intros e v E; destruct e; try discriminate; reflexivity).
  assert (Q2 : forall e v, cpu e = Some v -> still e == 0) by reflexivity.
  rewrite kept_iff, (ok_iff steady nap Q1), (ok_iff cpu still Q2), wall_iff.
  cbn [monotonic process_time start]. unfold real, pairs, Clock_Proofs.firsts.
  split.
  - intros ((A & B) & (C & D) & E & F). repeat split; auto.
    + intros. specialize (A _ _ _ _ _ _ _ H H0 H1). rewrite total_nap in A. exact A.
    + intros. specialize (C _ _ _ _ _ _ _ H H0 H1). rewrite total_still in C. lra.
    + destruct (B _ _ _ _ H H0) as (G & _). rewrite total_nap in G. lra.
    + now destruct (B _ _ _ _ H H0).
    + destruct (D _ _ _ _ H H0) as (G & _). rewrite total_still in G. lra.
    + now destruct (D _ _ _ _ H H0).
  - intros (A & C & B & D & E & F). repeat split; auto.
    + intros. rewrite total_nap. eauto.
    + destruct (B _ _ _ _ H H0). rewrite total_nap. lra.
    + now destruct (B _ _ _ _ H H0).
    + intros. rewrite total_still. pose proof (C _ _ _ _ _ _ _ H H0 H1). lra.
    + destruct (D _ _ _ _ H H0). rewrite total_still. lra.
    + now destruct (D _ _ _ _ H H0).
Qed.
Lemma slept_nonneg l : no_negative_sleep l -> 0 <= slept l.
Proof.
  induction l as [|e l IH]; intros N; cbn; [lra|].
  assert (G : 0 <= slept l) by (apply IH; intros d I; apply N; now right).
  destruct e; auto. assert (0 <= d) by (apply N; now left). lra.
Qed.
