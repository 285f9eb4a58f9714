(* Proofs about texts that describe inputs. *)
From Coq Require Import String.
From Coq Require Import ZArith List Bool Arith Lia ZifyBool ZifyNat.
From Verif Require Import Repr_Model Repr_Spec.
Import ListNotations.
Local Open Scope nat_scope.

(** * Equations *)
Lemma efr_ref fuel h named i : efr (S fuel) h named (VRef i) =
  if mem i named then Some (TName i, named)
  else match nth_error h i with
       | None => None
       | Some (Obj k l) =>
           match efr_list fuel h named l with
           | None => None
           | Some (ts, named) => Some (TAssign i (TNode k ts), i :: named)
           end
       end.
Proof.
  cbn. destruct (mem i named); auto. destruct (nth_error h i) as [[k l]|]; auto.
  match goal with |- match ?f named l with _ => _ end = _ =>
    assert (X : forall l named, f named l = efr_list fuel h named l) by
      (clear; induction l as [|v l IH]; intros named; cbn; auto;
       destruct (efr fuel h named v) as [[t n]|]; auto; now rewrite IH)
  end.
  now rewrite X.
Qed.
Lemma eval_node k l h e : eval (TNode k l) h e =
  match eval_list l h e with
  | None => None
  | Some (vs, h, e) => let '(v, h) := build k vs h in Some (v, h, e)
  end.
Proof.
  cbn.
  match goal with |- match ?f l h e with _ => _ end = _ =>
    assert (X : forall l h e, f l h e = eval_list l h e) by
      (clear; induction l as [|t l IH]; intros h e; cbn; auto;
       destruct (eval t h e) as [[[v h1] e1]|]; auto; now rewrite IH)
  end.
  rewrite X. reflexivity.
Qed.

Lemma eval_assign n t h e : eval (TAssign n t) h e =
  match eval t h e with Some (v, h, e) => Some (v, h, (n, v) :: e) | None => None end.
Proof. reflexivity. Qed.

Lemma text_ind' (P : text -> Prop) :
  (forall a, P (TAtom a)) -> (forall n, P (TName n)) -> (forall n t, P t -> P (TAssign n t)) ->
  (forall k l, Forall P l -> P (TNode k l)) -> P TBlank -> forall t, P t.
Proof.
  intros Ha Hn Has Hk Hb. fix IH 1. intros [a|n|n t|k l|]; [apply Ha|apply Hn|apply Has, IH| |apply Hb].
  apply Hk. induction l as [|t l IHl]; constructor; [apply IH|apply IHl].
Qed.

Lemma mem_in n l : mem n l = true <-> In n l.
Proof.
  unfold mem. rewrite existsb_exists. split.
  - intros (x & I & E). apply Nat.eqb_eq in E. now subst.
  - intros I. exists n. split; auto. apply Nat.eqb_refl.
Qed.
Lemma mem_not n l : mem n l = false <-> ~ In n l.
Proof. rewrite <- mem_in. destruct (mem n l); intuition congruence. Qed.

(** * What gets a name *)
Fixpoint assigns (t : text) : list nat :=
  match t with
  | TAssign n t => n :: assigns t
  | TNode _ l => concat (map assigns l)
  | _ => []
  end.
Fixpoint uses (t : text) : list nat :=
  match t with
  | TName n => [n]
  | TAssign _ t => uses t
  | TNode _ l => concat (map uses l)
  | _ => []
  end.

Lemma count_app n a b : count n (a ++ b) = count n a + count n b.
Proof. induction a as [|m a IH]; cbn; auto. destruct (m =? n); lia. Qed.
Lemma count_in n l : 0 < count n l <-> In n l.
Proof.
  induction l as [|m l IH]; cbn; [split; [lia|easy]|]. destruct (m =? n) eqn:E.
  - apply Nat.eqb_eq in E. split; auto. lia.
  - apply Nat.eqb_neq in E. rewrite IH. intuition.
Qed.
Lemma count_names n t : count n (names t) = count n (assigns t) + count n (uses t).
Proof.
  induction t as [a|m|m t IHt|k l H|] using text_ind'; cbn; auto.
  - rewrite IHt. destruct (m =? n); cbn; lia.
  - induction H as [|t l Ht H IH]; cbn; auto. rewrite !count_app, Ht, IH. lia.
Qed.
Lemma count_names_list n ts : count n (concat (map names ts)) =
  count n (concat (map assigns ts)) + count n (concat (map uses ts)).
Proof. induction ts as [|t ts IH]; cbn; auto. rewrite !count_app, IH, count_names. lia. Qed.

(** every use of a name comes from [named] or an assignment *)
Lemma efr_names fuel h : (forall named v t named', efr fuel h named v = Some (t, named') ->
    (forall n, In n (uses t) -> In n named') /\
    (forall n, In n named' <-> In n (assigns t) \/ In n named)) /\
  (forall l named ts named', efr_list fuel h named l = Some (ts, named') ->
    (forall n, In n (concat (map uses ts)) -> In n named') /\
    (forall n, In n named' <-> In n (concat (map assigns ts)) \/ In n named)).
Proof.
  induction fuel as [|fuel (IH1 & IH2)].
  - split; [easy|]. intros [|v l] named ts named' E; cbn in E; [|easy]. injection E as <- <-. cbn. intuition.
  - assert (G1 : forall named v t named', efr (S fuel) h named v = Some (t, named') ->
      (forall n, In n (uses t) -> In n named') /\
      (forall n, In n named' <-> In n (assigns t) \/ In n named)).
    { intros named v t named' E. destruct v as [a|i].
      - cbn in E. injection E as <- <-. cbn. intuition.
      - rewrite efr_ref in E. destruct (mem i named) eqn:M.
        + injection E as <- <-. apply mem_in in M. cbn. split; [|intuition]. intros n [->|[]]; auto.
        + destruct (nth_error h i) as [[k l]|]; [|easy].
          destruct (efr_list fuel h named l) as [[ts nm]|] eqn:F; [|easy]. injection E as <- <-.
          destruct (IH2 _ _ _ _ F) as (A & B). cbn. split.
          * intros n I. right. auto.
          * intros n. rewrite B. tauto. }
    split; auto.
    induction l as [|v l IHl]; intros named ts named' E; cbn [efr_list] in E.
    + injection E as <- <-. cbn. intuition.
    + destruct (efr (S fuel) h named v) as [[t n1]|] eqn:F; [|easy].
      destruct (efr_list (S fuel) h n1 l) as [[ts2 n2]|] eqn:F2; [|easy]. injection E as <- <-.
      destruct (G1 _ _ _ _ F) as (A1 & B1). destruct (IHl _ _ _ F2) as (A2 & B2). cbn. split.
      * intros n I. apply in_app_or in I. destruct I as [I|I]; [|auto]. apply B2. right. auto.
      * intros n. rewrite B2, B1, in_app_iff. tauto.
Qed.

(** * The text before cleanup denotes the values *)
Section Full.
  Variable h : heap.
  Variable rank : nat -> nat.
  Hypothesis AC : acyclic h rank.
  Hypothesis NT : no_single_tuples h.

  Definition vrank (v : val) : nat := match v with VRef i => S (rank i) | VAtom _ => 0 end.

  Lemma children_rank i k l v : nth_error h i = Some (Obj k l) -> In v l -> vrank v <= rank i /\ in_heap h v.
  Proof.
    intros E I. destruct v as [a|j]; cbn; [split; [lia|easy]|]. pose proof (AC _ _ _ _ E I). lia.
  Qed.

  (** enough stack *)
  Lemma efr_total : forall fuel, (forall named v, vrank v < fuel -> in_heap h v -> efr fuel h named v <> None) /\
    (forall l named, Forall (fun v => vrank v < fuel /\ in_heap h v) l -> efr_list fuel h named l <> None).
  Proof.
    induction fuel as [|fuel (IH1 & IH2)].
    - split; [lia|]. intros [|v l] named F; cbn; [easy|]. inversion F. lia.
    - assert (G1 : forall named v, vrank v < S fuel -> in_heap h v -> efr (S fuel) h named v <> None).
      { intros named [a|i] R Hh; [cbn; easy|]. rewrite efr_ref. destruct (mem i named); [easy|].
        destruct (nth_error h i) as [[k l]|] eqn:E.
        - cbn in R. destruct (efr_list fuel h named l) as [[ts nm]|] eqn:F; [easy|]. exfalso.
          apply (IH2 l named); auto. apply Forall_forall. intros v I.
          pose proof (children_rank _ _ _ _ E I). split; [lia|tauto].
        - apply nth_error_None in E. cbn in Hh. lia. }
      split; auto. induction l as [|v l IHl]; intros named F; cbn [efr_list]; [easy|].
      inversion F as [|? ? [R1 R2] F']; subst.
      destruct (efr (S fuel) h named v) as [[t n1]|] eqn:E; [|now apply G1 in E].
      destruct (efr_list (S fuel) h n1 l) as [[ts2 n2]|] eqn:E2; [easy|]. now apply IHl in E2.
  Qed.

  (** names added are of objects at most as high as the value *)
  Lemma efr_below : forall fuel, (forall named v t named', efr fuel h named v = Some (t, named') ->
      forall n, In n named' -> In n named \/ S (rank n) <= vrank v) /\
    (forall l b named ts named', (forall v, In v l -> vrank v <= b) -> efr_list fuel h named l = Some (ts, named') ->
      forall n, In n named' -> In n named \/ S (rank n) <= b).
  Proof.
    induction fuel as [|fuel (IH1 & IH2)].
    - split; [easy|]. intros [|v l] b named ts named' _ E n I; cbn in E; [|easy]. injection E as <- <-. auto.
    - assert (G1 : forall named v t named', efr (S fuel) h named v = Some (t, named') ->
        forall n, In n named' -> In n named \/ S (rank n) <= vrank v).
      { intros named [a|i] t named' E n I.
        - cbn in E. injection E as <- <-. auto.
        - rewrite efr_ref in E. destruct (mem i named) eqn:M; [injection E as <- <-; auto|].
          destruct (nth_error h i) as [[k l]|] eqn:N; [|easy].
          destruct (efr_list fuel h named l) as [[ts nm]|] eqn:F; [|easy]. injection E as <- <-.
          cbn. destruct I as [->|I]; [lia|].
          assert (Hc : forall v, In v l -> vrank v <= rank i) by (intros v Iv; now apply (children_rank _ _ _ _ N)).
          destruct (IH2 l (rank i) named ts nm Hc F n I) as [J|J]; [auto|right; lia]. }
      split; auto. induction l as [|v l IHl]; intros b named ts named' Hb E n I; cbn [efr_list] in E.
      + injection E as <- <-. auto.
      + destruct (efr (S fuel) h named v) as [[t n1]|] eqn:F; [|easy].
        destruct (efr_list (S fuel) h n1 l) as [[ts2 n2]|] eqn:F2; [|easy]. injection E as <- <-.
        destruct (IHl b n1 ts2 n2 (fun v Iv => Hb v (or_intror Iv)) F2 n I) as [J|J]; [|auto].
        destruct (G1 _ _ _ _ F n J) as [K|K]; auto. right.
        assert (vrank v <= b) by (apply Hb; now left). lia.
  Qed.

  (** the correspondence while the text is evaluated *)
  Definition inv (named : list nat) (h2 : heap) (e : env) (r : list (nat * nat)) : Prop :=
    map fst r = named /\ NoDup named /\ NoDup (map snd r) /\
    (forall i j, In (i, j) r -> j < length h2 /\ get e i = Some (VRef j)) /\
    (forall i j, In (i, j) r -> exists k l1 l2,
       nth_error h i = Some (Obj k l1) /\ nth_error h2 j = Some (Obj k l2) /\ Forall2 (matches r) l1 l2).

  Lemma matches_mono r r' v w : incl r r' -> matches r v w -> matches r' v w.
  Proof. intros I. destruct v, w; cbn; auto. Qed.
  Lemma matches_mono_list r r' l m : incl r r' -> Forall2 (matches r) l m -> Forall2 (matches r') l m.
  Proof. intros I F. induction F; constructor; auto. eapply matches_mono; eauto. Qed.

  Lemma named_pair (r : list (nat * nat)) i : In i (map fst r) -> exists j : nat, In (i, j) r.
  Proof. intros I. apply in_map_iff in I. destruct I as ([a b] & <- & I). eauto. Qed.

  Lemma build_new k vs h2 : (k = KTuple -> length vs <> 1) ->
    build k vs h2 = (VRef (length h2), h2 ++ [Obj k vs]).
  Proof. intros H. destruct k; cbn; auto. destruct vs as [|v [|w vs]]; auto. exfalso. apply H; auto. Qed.

  Lemma full : forall fuel,
    (forall named v t named' h2 e r, efr fuel h named v = Some (t, named') -> inv named h2 e r ->
       exists w h3 e2 r2, eval t h2 e = Some (w, h3, e2) /\ inv named' h3 e2 r2 /\ incl r r2 /\
         (exists more, h3 = h2 ++ more) /\ matches r2 v w) /\
    (forall l named ts named' h2 e r, efr_list fuel h named l = Some (ts, named') -> inv named h2 e r ->
       exists ws h3 e2 r2, eval_list ts h2 e = Some (ws, h3, e2) /\ inv named' h3 e2 r2 /\ incl r r2 /\
         (exists more, h3 = h2 ++ more) /\ Forall2 (matches r2) l ws).
  Proof.
    induction fuel as [|fuel (IH1 & IH2)].
    - split; [easy|]. intros [|v l] named ts named' h2 e r E I; cbn in E; [|easy]. injection E as <- <-.
      exists [], h2, e, r. cbn. split; auto. split; auto. split; [apply incl_refl|]. split; [|constructor].
      exists []. now rewrite app_nil_r.
    - assert (G1 : forall named v t named' h2 e r, efr (S fuel) h named v = Some (t, named') -> inv named h2 e r ->
       exists w h3 e2 r2, eval t h2 e = Some (w, h3, e2) /\ inv named' h3 e2 r2 /\ incl r r2 /\
         (exists more, h3 = h2 ++ more) /\ matches r2 v w).
      { intros named [a|i] t named' h2 e r E I.
        - cbn in E. injection E as <- <-. exists (VAtom a), h2, e, r. cbn. split; auto. split; auto.
          split; [apply incl_refl|]. split; auto. exists []. now rewrite app_nil_r.
        - rewrite efr_ref in E. destruct (mem i named) eqn:M.
          + injection E as <- <-. apply mem_in in M. pose proof I as (I1 & I2 & I3 & I4 & I5). rewrite <- I1 in M.
            destruct (named_pair _ _ M) as (j & J). destruct (I4 _ _ J) as (J1 & J2).
            exists (VRef j), h2, e, r. cbn [eval]. rewrite J2. split; auto. split; auto.
            split; [apply incl_refl|]. split; [|exact J]. exists []. now rewrite app_nil_r.
          + destruct (nth_error h i) as [[k l]|] eqn:N; [|easy].
            destruct (efr_list fuel h named l) as [[ts nm]|] eqn:F; [|easy]. injection E as <- <-.
            destruct (IH2 _ _ _ _ h2 e r F I) as (ws & h3 & e2 & r2 & Ev & (V1 & V2 & V3 & V4 & V5) & Inc & (more & Em) & Fa).
            assert (Ni : ~ In i nm).
            { intros J. apply mem_not in M. apply M.
              assert (Hc : forall v, In v l -> vrank v <= rank i) by (intros v Iv; now apply (children_rank _ _ _ _ N)).
              destruct (proj2 (efr_below fuel) l (rank i) named ts nm Hc F i J) as [K|K]; [auto|lia]. }
            assert (Lw : k = KTuple -> length ws <> 1).
            { intros -> Lw. assert (length l = length ws) by (clear - Fa; induction Fa; cbn; auto).
              destruct l as [|v [|v' l]]; cbn in *; try lia. now apply (NT i v). }
            exists (VRef (length h3)), (h3 ++ [Obj k ws]), ((i, VRef (length h3)) :: e2), ((i, length h3) :: r2).
            assert (Inc2 : incl r2 ((i, length h3) :: r2)) by (intros x Ix; now right).
            split; [|split; [|split; [|split]]].
            * rewrite eval_assign, eval_node, Ev, build_new by auto. reflexivity.
            * split; [cbn; now f_equal|]. split; [now constructor|]. split; [|split].
              -- cbn. constructor; auto. intros J. apply in_map_iff in J. destruct J as ([a b] & Eb & J).
                 cbn in Eb. subst b. apply V4 in J. lia.
              -- intros a b [J|J].
                 ++ injection J as <- <-. rewrite app_length. cbn. rewrite Nat.eqb_refl. split; [lia|auto].
                 ++ destruct (V4 _ _ J) as (J1 & J2). rewrite app_length. cbn [get]. split; [lia|].
                    destruct (i =? a) eqn:Ea; auto. apply Nat.eqb_eq in Ea. subst a. exfalso. apply Ni.
                    rewrite <- V1. apply in_map_iff. exists (i, b). auto.
              -- intros a b [J|J].
                 ++ injection J as <- <-. exists k, l, ws. split; auto. split.
                    ** rewrite nth_error_app2 by lia. now rewrite Nat.sub_diag.
                    ** eapply matches_mono_list; eauto.
                 ++ destruct (V5 _ _ J) as (k' & l1 & l2 & A & B & C). exists k', l1, l2. split; auto. split.
                    ** rewrite nth_error_app1; auto. apply V4 in J. lia.
                    ** eapply matches_mono_list; eauto.
            * intros x Ix. right. auto.
            * exists (more ++ [Obj k ws]). now rewrite Em, app_assoc.
            * cbn. auto. }
      split; auto. induction l as [|v l IHl]; intros named ts named' h2 e r E I; cbn [efr_list] in E.
      + injection E as <- <-. exists [], h2, e, r. cbn. split; auto. split; auto. split; [apply incl_refl|].
        split; [|constructor]. exists []. now rewrite app_nil_r.
      + destruct (efr (S fuel) h named v) as [[t n1]|] eqn:F; [|easy].
        destruct (efr_list (S fuel) h n1 l) as [[ts2 n2]|] eqn:F2; [|easy]. injection E as <- <-.
        destruct (G1 _ _ _ _ _ _ _ F I) as (w & h3 & e2 & r2 & Ev & I2 & Inc & (m1 & M1) & Mt).
        destruct (IHl _ _ _ _ _ _ F2 I2) as (ws & h4 & e3 & r3 & Ev2 & I3 & Inc2 & (m2 & M2) & Fa).
        exists (w :: ws), h4, e3, r3. cbn [eval_list]. rewrite Ev, Ev2. split; auto. split; auto.
        split; [eapply incl_tran; eauto|]. split.
        * exists (m1 ++ m2). now rewrite M2, M1, app_assoc.
        * constructor; auto. eapply matches_mono; eauto.
  Qed.
End Full.

(** * Cleanup keeps the meaning *)
Section Cleanup.
  Variable f : nat -> option nat.
  Hypothesis Inj : forall a b m, f a = Some m -> f b = Some m -> a = b.
  Definition agree (e e2 : env) : Prop := forall n m, f n = Some m -> get e2 m = get e n.

  Lemma rewrite_ok : forall t, (forall n, In n (uses t) -> f n <> None) ->
    forall h e e2 v h' e', agree e e2 -> eval t h e = Some (v, h', e') ->
      exists e2', eval (rewrite f t) h e2 = Some (v, h', e2') /\ agree e' e2'.
  Proof.
    induction t as [a|n|n t IHt|k l H|] using text_ind'; intros U hp e e2 v h' e' A E.
    - cbn in *. injection E as <- <- <-. eauto.
    - cbn in *. destruct (get e n) eqn:G; [|easy]. injection E as <- <- <-.
      destruct (f n) as [m|] eqn:Fn; [|exfalso; apply (U n); auto]. cbn. rewrite (A _ _ Fn), G. eauto.
    - rewrite eval_assign in E. destruct (eval t hp e) as [[[w h1] e1]|] eqn:Et; [|easy]. injection E as <- <- <-.
      destruct (IHt U _ _ _ _ _ _ A Et) as (e2' & E2 & A2). cbn [rewrite].
      destruct (f n) as [m|] eqn:Fn.
      + rewrite eval_assign, E2. eexists. split; [reflexivity|]. intros a b Fa. cbn.
        destruct (m =? b) eqn:Eb.
        * apply Nat.eqb_eq in Eb. subst b. rewrite (Inj _ _ _ Fn Fa), Nat.eqb_refl. reflexivity.
        * destruct (n =? a) eqn:Ea; [|auto]. apply Nat.eqb_eq in Ea. subst a. rewrite Fn in Fa.
          injection Fa as <-. rewrite Nat.eqb_refl in Eb. easy.
      + eexists. split; [exact E2|]. intros a b Fa. cbn. destruct (n =? a) eqn:Ea; [|auto].
        apply Nat.eqb_eq in Ea. subst a. congruence.
    - rewrite eval_node in E. destruct (eval_list l hp e) as [[[vs h1] e1]|] eqn:El; [|easy].
      assert (L : forall hp e e2 vs h1 e1, agree e e2 -> eval_list l hp e = Some (vs, h1, e1) ->
        exists e2', eval_list (map (rewrite f) l) hp e2 = Some (vs, h1, e2') /\ agree e1 e2').
      { clear - H U. cbn in U. induction H as [|t l Ht H IH]; intros hp e e2 vs h1 e1 A E; cbn in *.
        - injection E as <- <- <-. eauto.
        - destruct (eval t hp e) as [[[w h2] e3]|] eqn:Et; [|easy].
          destruct (eval_list l h2 e3) as [[[ws h3] e4]|] eqn:El; [|easy]. injection E as <- <- <-.
          destruct (Ht (fun n I => U n (in_or_app _ _ _ (or_introl I))) _ _ _ _ _ _ A Et) as (e5 & E5 & A5).
          destruct (IH (fun n I => U n (in_or_app _ _ _ (or_intror I))) _ _ _ _ _ _ A5 El) as (e6 & E6 & A6).
          rewrite E5, E6. eauto. }
      destruct (L _ _ _ _ _ _ A El) as (e2' & E2 & A2).
      destruct (build k vs h1) as [w h2] eqn:B. injection E as <- <- <-.
      exists e2'. cbn [rewrite]. rewrite eval_node, E2, B. auto.
    - easy.
  Qed.
  Lemma rewrite_list_ok : forall ts, (forall n, In n (concat (map uses ts)) -> f n <> None) ->
    forall h e e2 vs h' e', agree e e2 -> eval_list ts h e = Some (vs, h', e') ->
      exists e2', eval_list (map (rewrite f) ts) h e2 = Some (vs, h', e2') /\ agree e' e2'.
  Proof.
    induction ts as [|t ts IH]; intros U h e e2 vs h' e' A E; cbn in *.
    - injection E as <- <- <-. eauto.
    - destruct (eval t h e) as [[[w h2] e3]|] eqn:Et; [|easy].
      destruct (eval_list ts h2 e3) as [[[ws h3] e4]|] eqn:El; [|easy]. injection E as <- <- <-.
      destruct (rewrite_ok t (fun n I => U n (in_or_app _ _ _ (or_introl I))) _ _ _ _ _ _ A Et) as (e5 & E5 & A5).
      destruct (IH (fun n I => U n (in_or_app _ _ _ (or_intror I))) _ _ _ _ _ _ A5 El) as (e6 & E6 & A6).
      rewrite E5, E6. eauto.
  Qed.
End Cleanup.

Lemma position_inj l : forall a b m, position a l = Some m -> position b l = Some m -> a = b.
Proof.
  induction l as [|x l IH]; intros a b m Ha Hb; cbn in *; [easy|].
  destruct (x =? a) eqn:Ea, (x =? b) eqn:Eb.
  - apply Nat.eqb_eq in Ea, Eb. congruence.
  - injection Ha as <-. destruct (position b l) as [i|] eqn:P; [|easy]. injection Hb as ->.
    exfalso. clear - P. revert P. assert (G : forall l i, position b l = Some i -> i <> 0).
    { induction l0 as [|y l0 IHl]; cbn; [easy|]. intros i. destruct (y =? b); [intros [=]; lia|].
      destruct (position b l0); intros [=]; lia. }
    intros P. now apply (G _ _ P).
  - injection Hb as <-. destruct (position a l) as [i|] eqn:P; [|easy]. injection Ha as ->.
    exfalso. clear - P. revert P. assert (G : forall l i, position a l = Some i -> i <> 0).
    { induction l0 as [|y l0 IHl]; cbn; [easy|]. intros i. destruct (y =? a); [intros [=]; lia|].
      destruct (position a l0); intros [=]; lia. }
    intros P. now apply (G _ _ P).
  - destruct (position a l) as [i|] eqn:Pa; [|easy]. destruct (position b l) as [j|] eqn:Pb; [|easy].
    injection Ha as <-. injection Hb as E. apply (IH a b i); auto. congruence.
Qed.
Lemma position_in l n : In n l -> position n l <> None.
Proof.
  induction l as [|x l IH]; cbn; [easy|]. intros [->|I].
  - now rewrite Nat.eqb_refl.
  - destruct (x =? n); [easy|]. destruct (position n l); [easy|]. now apply IH in I.
Qed.
Lemma firsts_in n l : In n (firsts l) <-> In n l.
Proof.
  induction l as [|m l IH]; cbn; [easy|]. rewrite filter_In, IH.
  destruct (m =? n) eqn:E; [apply Nat.eqb_eq in E; intuition|]. apply Nat.eqb_neq in E.
  split; [tauto|]. intros [J|J]; [easy|]. right. split; auto. apply negb_true_iff, Nat.eqb_neq. auto.
Qed.
Lemma remap_kept occ n : remap occ n <> None <-> 1 < count n occ.
Proof.
  unfold remap, kept. split.
  - intros H. destruct (1 <? count n occ) eqn:E; [now apply Nat.ltb_lt in E|]. exfalso. apply H. clear H.
    assert (G : forall l, ~ In n l -> position n l = None).
    { induction l as [|x l IH]; cbn; auto. intros N. destruct (x =? n) eqn:Ex.
      - apply Nat.eqb_eq in Ex. exfalso. apply N. auto.
      - rewrite IH; auto. }
    apply G. rewrite filter_In. intros (_ & X). congruence.
  - intros H. apply position_in. apply filter_In. split.
    + apply firsts_in. apply count_in. lia.
    + now apply Nat.ltb_lt.
Qed.
Lemma remap_inj occ a b m : remap occ a = Some m -> remap occ b = Some m -> a = b.
Proof. apply position_inj. Qed.

(** * Together *)
Lemma shown_denotes h rank l fuel ts named :
  acyclic h rank -> no_single_tuples h -> efr_list fuel h [] l = Some (ts, named) ->
  exists vs h2 e, eval_list (cleanup ts) [] [] = Some (vs, h2, e) /\ alike h l h2 vs.
Proof.
  intros AC NT E.
  assert (I0 : inv h [] [] [] []).
  { split; auto. split; [constructor|]. split; [constructor|]. split; easy. }
  destruct (proj2 (full h rank AC NT fuel) _ _ _ _ _ _ _ E I0) as (ws & h3 & e2 & r2 & Ev & (V1 & V2 & V3 & V4 & V5) & _ & _ & Fa).
  destruct (proj2 (efr_names fuel h) _ _ _ _ E) as (A & B).
  set (occ := concat (map names ts)).
  assert (U : forall n, In n (concat (map uses ts)) -> remap occ n <> None).
  { intros n I. apply remap_kept. unfold occ. rewrite count_names_list.
    assert (J : In n (concat (map assigns ts))).
    { apply A in I. apply B in I. destruct I as [I|[]]. exact I. }
    apply count_in in I, J. lia. }
  assert (AG : agree (remap occ) [] []) by (intros n m _; reflexivity).
  destruct (rewrite_list_ok (remap occ) (remap_inj occ) ts U [] [] [] _ _ _ AG Ev) as (e3 & E3 & _).
  exists ws, h3, e3. split; [exact E3|]. exists r2. rewrite V1. split; auto.
Qed.

(** * When the text is grammatical *)
Fixpoint nodes_ok (t : text) : Prop :=
  match t with
  | TAssign _ t => nodes_ok t
  | TNode k l => (walrus_ok k = true \/ l = []) /\ (fix all l := match l with [] => True | t :: r => nodes_ok t /\ all r end) l
  | _ => True
  end.
Lemma nodes_ok_node k l : nodes_ok (TNode k l) <-> (walrus_ok k = true \/ l = []) /\ Forall nodes_ok l.
Proof.
  cbn. assert (X : (fix all l := match l with [] => True | t :: r => nodes_ok t /\ all r end) l <-> Forall nodes_ok l).
  { induction l as [|t l IH]; [split; auto|]. rewrite IH. split; [intros (A & B); auto|]. intros F. now inversion F. }
  now rewrite X.
Qed.
Lemma efr_nodes h : only_sequences h -> forall fuel,
  (forall named v t named', efr fuel h named v = Some (t, named') -> nodes_ok t) /\
  (forall l named ts named', efr_list fuel h named l = Some (ts, named') -> Forall nodes_ok ts /\ length ts = length l).
Proof.
  intros OS. induction fuel as [|fuel (IH1 & IH2)].
  - split; [easy|]. intros [|v l] named ts named' E; cbn in E; [|easy]. injection E as <- <-. auto.
  - assert (G1 : forall named v t named', efr (S fuel) h named v = Some (t, named') -> nodes_ok t).
    { intros named [a|i] t named' E.
      - cbn in E. injection E as <- <-. exact I.
      - rewrite efr_ref in E. destruct (mem i named); [injection E as <- <-; exact I|].
        destruct (nth_error h i) as [[k l]|] eqn:N; [|easy].
        destruct (efr_list fuel h named l) as [[ts nm]|] eqn:F; [|easy]. injection E as <- <-.
        destruct (IH2 _ _ _ _ F) as (A & B). cbn [nodes_ok]. apply nodes_ok_node. split; auto.
        destruct (OS _ _ _ N) as [W|W]; auto. right. subst l. now destruct ts. }
    split; auto. induction l as [|v l IHl]; intros named ts named' E; cbn [efr_list] in E.
    + injection E as <- <-. auto.
    + destruct (efr (S fuel) h named v) as [[t n1]|] eqn:F; [|easy].
      destruct (efr_list (S fuel) h n1 l) as [[ts2 n2]|] eqn:F2; [|easy]. injection E as <- <-.
      destruct (IHl _ _ _ F2). split; [|cbn; lia]. constructor; eauto.
Qed.
Fixpoint no_blank (t : text) : bool :=
  match t with TBlank => false | TAssign _ t => no_blank t | TNode _ l => forallb no_blank l | _ => true end.
Lemma efr_no_blank h : forall fuel,
  (forall named v t named', efr fuel h named v = Some (t, named') -> no_blank t = true) /\
  (forall l named ts named', efr_list fuel h named l = Some (ts, named') -> forallb no_blank ts = true).
Proof.
  induction fuel as [|fuel (IH1 & IH2)].
  - split; [easy|]. intros [|v l] named ts named' E; cbn in E; [|easy]. injection E as <- <-. auto.
  - assert (G1 : forall named v t named', efr (S fuel) h named v = Some (t, named') -> no_blank t = true).
    { intros named [a|i] t named' E.
      - cbn in E. injection E as <- <-. auto.
      - rewrite efr_ref in E. destruct (mem i named); [injection E as <- <-; auto|].
        destruct (nth_error h i) as [[k l]|] eqn:N; [|easy].
        destruct (efr_list fuel h named l) as [[ts nm]|] eqn:F; [|easy]. injection E as <- <-.
        cbn. eauto. }
    split; auto. induction l as [|v l IHl]; intros named ts named' E; cbn [efr_list] in E.
    + injection E as <- <-. auto.
    + destruct (efr (S fuel) h named v) as [[t n1]|] eqn:F; [|easy].
      destruct (efr_list (S fuel) h n1 l) as [[ts2 n2]|] eqn:F2; [|easy]. injection E as <- <-.
      cbn. rewrite (G1 _ _ _ _ F). cbn. eauto.
Qed.

Lemma sequences_grammatical f : forall t, nodes_ok t -> no_blank t = true -> (forall n, In n (uses t) -> f n <> None) ->
  grammatical (rewrite f t) = true.
Proof.
  induction t as [a|n|n t IHt|k l H|] using text_ind'; intros N B U; cbn in B, U; auto.
  - cbn. destruct (f n) eqn:E; auto. exfalso. apply (U n); auto.
  - cbn. destruct (f n); cbn; auto.
  - apply nodes_ok_node in N. destruct N as (K & F). cbn [rewrite grammatical]. apply andb_true_iff. split.
    + clear K. induction H as [|t l Ht H IH]; cbn; auto. inversion F; subst. cbn in *.
      apply andb_true_iff in B. destruct B as (B1 & B2). rewrite Ht; auto; [|intros; apply U; apply in_or_app; auto].
      cbn. apply IH; auto. intros; apply U; apply in_or_app; auto.
    + destruct K as [->| ->]; auto. cbn. apply orb_true_r.
Qed.

(** nothing shared, nothing named *)
Lemma unnamed_grammatical f : (forall n, f n = None) -> forall t, no_blank t = true -> uses t = [] ->
  grammatical (rewrite f t) = true /\ is_assign (rewrite f t) = false.
Proof.
  intros Hf. induction t as [a|n|n t IHt|k l H|] using text_ind'; intros B U; cbn in B, U; auto; try easy.
  - cbn. rewrite Hf. auto.
  - cbn [rewrite grammatical]. split; [|auto].
    assert (G : forallb grammatical (map (rewrite f) l) = true /\ existsb is_assign (map (rewrite f) l) = false).
    { induction H as [|t l Ht H IH]; cbn; auto. cbn in *. apply andb_true_iff in B. destruct B as (B1 & B2).
      apply app_eq_nil in U. destruct U as (U1 & U2). destruct (Ht B1 U1) as (A1 & A2). destruct (IH B2 U2) as (A3 & A4).
      rewrite A1, A2, A3, A4. auto. }
    destruct G as (-> & ->). cbn. apply orb_true_r.
Qed.

Definition items_at (h : heap) (i : nat) : list val := match nth_error h i with Some (Obj _ l) => l | None => [] end.
Fixpoint total (g : nat -> nat) (l : list nat) : nat := match l with [] => 0 | i :: r => g i + total g r end.
Lemma total_app g a b : total g (a ++ b) = total g a + total g b.
Proof. induction a as [|x a IH]; cbn; auto. rewrite IH. lia. Qed.
Lemma refs_app a b : refs (a ++ b) = refs a ++ refs b.
Proof. induction a as [|[x|i] a IH]; cbn; auto. now rewrite IH. Qed.

Lemma efr_counts h n : forall fuel,
  (forall named v t named', efr fuel h named v = Some (t, named') ->
     exists new, named' = new ++ named /\
       count n (names t) = count n (refs [v]) + total (fun i => count n (refs (items_at h i))) new) /\
  (forall l named ts named', efr_list fuel h named l = Some (ts, named') ->
     exists new, named' = new ++ named /\
       count n (concat (map names ts)) = count n (refs l) + total (fun i => count n (refs (items_at h i))) new).
Proof.
  induction fuel as [|fuel (IH1 & IH2)].
  - split; [easy|]. intros [|v l] named ts named' E; cbn in E; [|easy]. injection E as <- <-. exists []. auto.
  - assert (G1 : forall named v t named', efr (S fuel) h named v = Some (t, named') ->
      exists new, named' = new ++ named /\
       count n (names t) = count n (refs [v]) + total (fun i => count n (refs (items_at h i))) new).
    { intros named [a|i] t named' E.
      - cbn in E. injection E as <- <-. exists []. auto.
      - rewrite efr_ref in E. destruct (mem i named); [injection E as <- <-; exists []; cbn; split; auto; lia|].
        destruct (nth_error h i) as [[k l]|] eqn:N; [|easy].
        destruct (efr_list fuel h named l) as [[ts nm]|] eqn:F; [|easy]. injection E as <- <-.
        destruct (IH2 _ _ _ _ F) as (new & -> & C). exists (i :: new). split; auto.
        cbn. unfold items_at at 1. rewrite N. rewrite C. destruct (i =? n); lia. }
    split; auto. induction l as [|v l IHl]; intros named ts named' E; cbn [efr_list] in E.
    + injection E as <- <-. exists []. auto.
    + destruct (efr (S fuel) h named v) as [[t n1]|] eqn:F; [|easy].
      destruct (efr_list (S fuel) h n1 l) as [[ts2 n2]|] eqn:F2; [|easy]. injection E as <- <-.
      destruct (G1 _ _ _ _ F) as (new1 & -> & C1). destruct (IHl _ _ _ F2) as (new2 & -> & C2).
      exists (new2 ++ new1). split; [now rewrite app_assoc|].
      change (v :: l) with ([v] ++ l). rewrite refs_app, total_app. cbn [map concat]. rewrite !count_app, C1, C2. lia.
Qed.

Lemma total_incl g : forall a b, NoDup a -> incl a b -> total g a <= total g b.
Proof.
  induction a as [|x a IH]; intros b N I; cbn; [lia|]. inversion N as [|? ? N1 N2]; subst.
  assert (Ix : In x b) by (apply I; now left). apply in_split in Ix. destruct Ix as (b1 & b2 & ->).
  assert (total g a <= total g (b1 ++ b2)).
  { apply IH; auto. intros y Iy. assert (J : In y (b1 ++ x :: b2)) by (apply I; now right).
    apply in_app_iff in J. apply in_app_iff. destruct J as [J|[J|J]]; auto. subst. contradiction. }
  rewrite !total_app in *. cbn. lia.
Qed.
Lemma total_heap n h : total (fun i => count n (refs (items_at h i))) (seq 0 (length h)) =
  count n (refs (concat (map (fun o => match o with Obj _ items => items end) h))).
Proof.
  assert (G : forall h2 h1, total (fun i => count n (refs (items_at (h1 ++ h2) i))) (seq (length h1) (length h2)) =
    count n (refs (concat (map (fun o => match o with Obj _ items => items end) h2)))).
  { induction h2 as [|[k l] h2 IH]; intros h1; cbn; auto.
    rewrite refs_app, count_app. f_equal.
    - unfold items_at. rewrite nth_error_app2 by lia. now rewrite Nat.sub_diag.
    - specialize (IH (h1 ++ [Obj k l])). rewrite app_length in IH. cbn in IH. rewrite Nat.add_1_r in IH.
      rewrite <- app_assoc in IH. exact IH. }
  exact (G h []).
Qed.
Lemma count_nodup n l : NoDup l -> count n l <= 1.
Proof.
  induction l as [|m l IH]; cbn; [lia|]. intros N. inversion N as [|? ? N1 N2]; subst.
  destruct (m =? n) eqn:E; auto. apply Nat.eqb_eq in E. subst m.
  assert (count n l = 0). { destruct (count n l) eqn:C; auto. exfalso. apply N1. apply count_in. lia. }
  lia.
Qed.

Lemma named_in_heap h : forall fuel,
  (forall named v t named', efr fuel h named v = Some (t, named') -> forall n, In n named' -> In n named \/ n < length h) /\
  (forall l named ts named', efr_list fuel h named l = Some (ts, named') -> forall n, In n named' -> In n named \/ n < length h).
Proof.
  induction fuel as [|fuel (IH1 & IH2)].
  - split; [easy|]. intros [|v l] named ts named' E n I; cbn in E; [|easy]. injection E as <- <-. auto.
  - assert (G1 : forall named v t named', efr (S fuel) h named v = Some (t, named') -> forall n, In n named' -> In n named \/ n < length h).
    { intros named [a|i] t named' E n I.
      - cbn in E. injection E as <- <-. auto.
      - rewrite efr_ref in E. destruct (mem i named); [injection E as <- <-; auto|].
        destruct (nth_error h i) as [[k l]|] eqn:N; [|easy].
        destruct (efr_list fuel h named l) as [[ts nm]|] eqn:F; [|easy]. injection E as <- <-.
        destruct I as [->|I]; [|eauto]. right. apply nth_error_Some. congruence. }
    split; auto. induction l as [|v l IHl]; intros named ts named' E n I; cbn [efr_list] in E.
    + injection E as <- <-. auto.
    + destruct (efr (S fuel) h named v) as [[t n1]|] eqn:F; [|easy].
      destruct (efr_list (S fuel) h n1 l) as [[ts2 n2]|] eqn:F2; [|easy]. injection E as <- <-.
      destruct (IHl _ _ _ F2 n I) as [J|J]; eauto.
Qed.

Lemma shown_grammatical h rank l fuel ts named :
  acyclic h rank -> no_single_tuples h -> only_sequences h \/ unshared h l ->
  efr_list fuel h [] l = Some (ts, named) -> forallb grammatical (cleanup ts) = true.
Proof.
  intros AC NT C E. pose proof (proj2 (efr_no_blank h fuel) _ _ _ _ E) as NB.
  destruct (proj2 (efr_names fuel h) _ _ _ _ E) as (A & B).
  set (occ := concat (map names ts)).
  assert (U : forall n, In n (concat (map uses ts)) -> remap occ n <> None).
  { intros n I. apply remap_kept. unfold occ. rewrite count_names_list.
    assert (J : In n (concat (map assigns ts))).
    { apply A in I. apply B in I. destruct I as [I|[]]. exact I. }
    apply count_in in I, J. lia. }
  unfold cleanup. fold occ. destruct C as [OS|US].
  - destruct (proj2 (efr_nodes h OS fuel) _ _ _ _ E) as (NK & _).
    clearbody occ. clear - NB U NK. induction ts as [|t ts IH]; cbn in *; auto. inversion NK; subst.
    apply andb_true_iff in NB. destruct NB. rewrite sequences_grammatical; auto; [cbn; apply IH; auto|];
    intros; apply U; apply in_or_app; auto.
  - assert (I0 : inv h [] [] [] []) by (split; auto; split; [constructor|]; split; [constructor|]; split; easy).
    destruct (proj2 (full h rank AC NT fuel) _ _ _ _ _ _ _ E I0) as (ws & h3 & e2 & r2 & _ & (_ & ND & _) & _).
    assert (None1 : forall n, remap occ n = None).
    { intros n. destruct (remap occ n) eqn:R; auto. exfalso.
      assert (R' : remap occ n <> None) by congruence. apply remap_kept in R'.
      destruct (proj2 (efr_counts h n fuel) _ _ _ _ E) as (new & Hn & Cn). rewrite app_nil_r in Hn. subst new.
      pose proof (count_nodup n _ US) as L. rewrite refs_app, count_app, <- total_heap in L.
      assert (total (fun i => count n (refs (items_at h i))) named <= total (fun i => count n (refs (items_at h i))) (seq 0 (length h))).
      { apply total_incl; auto. intros x Ix. apply in_seq.
        destruct (proj2 (named_in_heap h fuel) _ _ _ _ E x Ix) as [[]|]. lia. }
      unfold occ in R'. lia. }
    assert (UN : concat (map uses ts) = []).
    { destruct (concat (map uses ts)) as [|n r] eqn:Ec; auto. exfalso. apply (U n); [now left|auto]. }
    clearbody occ. clear - NB UN None1. induction ts as [|t ts IH]; cbn in *; auto.
    apply andb_true_iff in NB. destruct NB. apply app_eq_nil in UN. destruct UN.
    rewrite (proj1 (unnamed_grammatical _ None1 t H H1)). cbn. auto.
Qed.

(** * Calls *)
Section Calls.
  Context {A : Type}.
  Fixpoint posns (ps : list param) (bs : list (bound A)) : list A :=
    match ps, bs with
    | p :: ps, b :: bs =>
        match p_kind p, b with
        | PosOnly, One v => v :: posns ps bs
        | PosKw, One v => if p_default p then posns ps bs else v :: posns ps bs
        | VarPos, Many l => l ++ posns ps bs
        | _, _ => posns ps bs
        end
    | _, _ => []
    end.
  Fixpoint kwds (ps : list param) (bs : list (bound A)) : list (string * A) :=
    match ps, bs with
    | p :: ps, b :: bs =>
        match p_kind p, b with
        | PosKw, One v => if p_default p then (p_name p, v) :: kwds ps bs else kwds ps bs
        | KwOnly, One v => (p_name p, v) :: kwds ps bs
        | VarKw, Named l => l ++ kwds ps bs
        | _, _ => kwds ps bs
        end
    | _, _ => []
    end.

  (** which names can be among the keywords *)
  Lemma kwds_names : forall (ps : list param) bs n, In n (map fst (kwds ps bs)) ->
    (exists p, In p ps /\ p_name p = n /\ (p_kind p = PosKw \/ p_kind p = KwOnly)) \/
    (exists l, In (Named l) bs /\ In n (map fst l)).
  Proof.
    induction ps as [|p ps IH]; intros [|b bs] n I; cbn in I; try easy.
    assert (R : In n (map fst (kwds ps bs)) ->
      (exists q, In q (p :: ps) /\ p_name q = n /\ (p_kind q = PosKw \/ p_kind q = KwOnly)) \/
      (exists l, In (Named l) (b :: bs) /\ In n (map fst l))).
    { intros J. destruct (IH _ _ J) as [(q & Q1 & Q2)|(l & L1 & L2)].
      - left. exists q. split; [now right|auto].
      - right. exists l. split; [now right|auto]. }
    destruct (p_kind p) eqn:K, b as [v|l|l]; auto.
    - destruct (p_default p); auto. cbn in I. destruct I as [I|I]; auto. left. exists p. split; [now left|auto].
    - cbn in I. destruct I as [I|I]; auto. left. exists p. split; [now left|auto].
    - rewrite map_app in I. apply in_app_iff in I. destruct I as [I|I]; auto. right. exists l. split; [now left|auto].
  Qed.

  Definition later (p : param) (q : param) : Prop :=
    order (p_kind p) <= order (p_kind q) /\
    (p_kind p = p_kind q -> p_kind p <> VarPos /\ p_kind p <> VarKw) /\
    (order (p_kind q) <= 1 -> p_default p = true -> p_default q = true).

  (** keywords only *)
  Lemma split_kw (l : list (string * A)) : NoDup (map fst l) -> Forall (fun kv => is_name (fst kv) = true) l ->
    split_args (map (fun kv => Kw (fst kv) (snd kv)) l) = Some ([], l).
  Proof.
    induction l as [|[n v] l IH]; cbn [map split_args fst snd]; auto. intros N F.
    inversion N as [|? ? N1 N2]; subst. inversion F as [|? ? F1 F2]; subst. rewrite IH by auto.
    cbn [fst] in F1. rewrite F1. cbn [negb]. rewrite orb_false_r.
    destruct (existsb (fun kv => String.eqb (fst kv) n) l) eqn:E; auto. exfalso.
    apply existsb_exists in E. destruct E as ([m w] & I & E). cbn in E. apply String.eqb_eq in E. subst m.
    apply N1. apply in_map_iff. exists (n, w). auto.
  Qed.
  Lemma split_pos (l : list A) (r : list (argument A)) pos kw : split_args r = Some (pos, kw) ->
    split_args (map Pos l ++ r) = Some (l ++ pos, kw).
  Proof. intros E. induction l as [|v l IH]; cbn; auto. now rewrite IH. Qed.

  Lemma kw_part (l : list (string * A)) (r : list (argument A)) k : split_args r = Some ([], k) ->
    NoDup (map fst (l ++ k)) -> Forall (fun kv => is_name (fst kv) = true) l ->
    split_args (map (fun kv => Kw (fst kv) (snd kv)) l ++ r) = Some ([], l ++ k).
  Proof.
    intros E. induction l as [|[n v] l IH]; cbn [map app split_args fst snd]; auto. intros N F.
    inversion N as [|? ? N1 N2]; subst. inversion F as [|? ? F1 F2]; subst. rewrite IH by auto.
    cbn [fst] in F1. rewrite F1. cbn [negb]. rewrite orb_false_r.
    destruct (existsb (fun kv => String.eqb (fst kv) n) (l ++ k)) eqn:X; auto. exfalso.
    apply existsb_exists in X. destruct X as ([m w] & I & X). cbn in X. apply String.eqb_eq in X. subst m.
    apply N1. apply in_map_iff. exists (n, w). auto.
  Qed.

  (** after a keyword argument nothing is passed by position *)
  Lemma no_more_posns : forall (ps : list param) bs, Forall2 fits ps bs ->
    Forall (fun q => order (p_kind q) <= 1 -> p_kind q = PosKw /\ p_default q = true) ps ->
    (forall v l, ~ In (@Many A (v :: l)) bs) -> posns ps bs = [].
  Proof.
    intros ps bs F. induction F as [|p b ps bs Fp F IH]; intros D V; cbn; auto.
    inversion D as [|? ? D1 D2]; subst.
    assert (IH' : posns ps bs = []) by (apply IH; auto; intros v l I; apply (V v l); now right).
    unfold fits in Fp. destruct (p_kind p) eqn:K, b as [v|l|l]; auto; try easy.
    - cbn in D1. destruct D1; [lia|]. discriminate.
    - cbn in D1. destruct D1 as (_ & ->); auto.
    - destruct l as [|v l]; auto. exfalso. apply (V v l). now left.
  Qed.

  Lemma split_format : forall (ps : list param) bs, Forall2 fits ps bs -> sorted_by later ps ->
    NoDup (map fst (kwds ps bs)) -> Forall (fun kv => is_name (fst kv) = true) (kwds ps bs) ->
    ~ default_and_more ps bs ->
    split_args (format_boundargs ps bs) = Some (posns ps bs, kwds ps bs).
  Proof.
    intros ps bs F. induction F as [|p b ps bs Fp F IH]; intros So N I D; [reflexivity|].
    cbn [sorted_by] in So. destruct So as (S1 & S2).
    assert (D' : ~ default_and_more ps bs).
    { intros ((q & Q1 & Q2) & v & l & Hv). apply D. split; [exists q; split; [now right|auto]|].
      exists v, l. now right. }
    cbn [format_boundargs posns kwds] in *. unfold format_one. unfold fits in Fp.
    destruct (p_kind p) eqn:K, b as [v|l|l]; try easy.
    - specialize (IH S2 N I D'). cbn. now rewrite IH.
    - destruct (p_default p) eqn:Df.
      + assert (Z0 : posns ps bs = []).
        { apply no_more_posns; auto.
          - apply Forall_forall. intros q Q. rewrite Forall_forall in S1. specialize (S1 q Q).
            destruct S1 as (O1 & _ & O3). intros O. split; [|auto]. rewrite K in O1. cbn in O1.
            destruct (p_kind q); cbn in *; try lia. reflexivity.
          - intros w l W. apply D. split; [exists p; split; [now left|auto]|]. exists w, l. now right. }
        specialize (IH S2). cbn [map] in N. inversion N as [|? ? N1 N2]; subst. inversion I as [|? ? I1 I2]; subst.
        specialize (IH N2 I2 D'). rewrite Z0 in IH |- *.
        apply (kw_part [(p_name p, v)] (format_boundargs ps bs) (kwds ps bs)); auto.
      + specialize (IH S2 N I D'). cbn. now rewrite IH.
    - specialize (IH S2 N I D'). now apply split_pos.
    - assert (Z0 : posns ps bs = []).
      { clear - F S1 K. induction F as [|q b ps bs Fq F IH]; cbn; auto. inversion S1 as [|? ? (O1 & _) O2]; subst.
        rewrite K in O1. cbn in O1. unfold fits in Fq. destruct (p_kind q), b; cbn in *; try lia; auto. }
      cbn [map] in N. inversion N as [|? ? N1 N2]; subst. inversion I as [|? ? I1 I2]; subst.
      specialize (IH S2 N2 I2 D'). rewrite Z0 in IH |- *.
      apply (kw_part [(p_name p, v)] (format_boundargs ps bs) (kwds ps bs)); auto.
    - assert (Z0 : posns ps bs = []).
      { clear - F S1 K. induction F as [|q b ps bs Fq F IH]; cbn; auto. inversion S1 as [|? ? (O1 & _) O2]; subst.
        rewrite K in O1. cbn in O1. unfold fits in Fq. destruct (p_kind q), b; cbn in *; try lia; auto. }
      assert (N2 : NoDup (map fst (kwds ps bs))).
      { rewrite map_app in N. clear - N. induction (map fst l); auto. inversion N; auto. }
      apply Forall_app in I. destruct I as (I1 & I2).
      specialize (IH S2 N2 I2 D'). rewrite Z0 in IH |- *.
      now apply kw_part.
  Qed.

  Lemma kget_none (l : list (string * A)) n : ~ In n (map fst l) -> kget l n = None.
  Proof.
    induction l as [|[m v] l IH]; cbn; auto. intros N. destruct (String.eqb m n) eqn:E.
    - apply String.eqb_eq in E. tauto.
    - apply IH. tauto.
  Qed.
  Lemma kdel_none (l : list (string * A)) n : ~ In n (map fst l) -> kdel l n = l.
  Proof.
    induction l as [|[m v] l IH]; cbn; auto. intros N. destruct (String.eqb m n) eqn:E.
    - apply String.eqb_eq in E. tauto.
    - cbn. f_equal. unfold kdel in IH. apply IH. tauto.
  Qed.

  Lemma take_format : forall (ps : list param) bs, Forall2 fits ps bs -> sorted_by later ps ->
    NoDup (map p_name ps) -> plain_keys ps bs ->
    (~ default_and_more ps bs) ->
    take_args ps (posns ps bs) (kwds ps bs) = Some (map Some bs).
  Proof.
    intros ps bs F. induction F as [|p b ps bs Fp F IH]; intros So N PK D; [reflexivity|].
    cbn [sorted_by] in So. destruct So as (S1 & S2).
    inversion N as [|? ? N1 N2]; subst.
    assert (PK' : plain_keys ps bs).
    { intros l L. destruct (PK l (or_intror L)) as (A1 & A2). split; auto. intros n I. destruct (A2 n I) as (B1 & B2).
      split; auto. intros q Q. apply B2. now right. }
    assert (D' : ~ default_and_more ps bs).
    { intros ((q & Q1 & Q2) & v & l & Hv). apply D. split; [exists q; split; [now right|auto]|].
      exists v, l. now right. }
    specialize (IH S2 N2 PK' D').
    assert (Fresh : p_kind p = PosKw \/ p_kind p = KwOnly -> ~ In (p_name p) (map fst (kwds ps bs))).
    { intros K I. destruct (kwds_names _ _ _ I) as [(q & Q1 & Q2 & Q3)|(l & L1 & L2)].
      - apply N1. rewrite <- Q2. now apply in_map.
      - destruct (PK l (or_intror L1)) as (_ & A2). destruct (A2 _ L2) as (_ & B2).
        destruct (B2 p (or_introl eq_refl) eq_refl) as (B3 & B4). destruct K; contradiction. }
    cbn [take_args posns kwds map]. unfold fits in Fp. destruct (p_kind p) eqn:K, b as [v|l|l]; try easy.
    - now rewrite IH.
    - assert (Fr := Fresh (or_introl eq_refl)). destruct (p_default p) eqn:Df.
      + assert (Z0 : posns ps bs = []).
        { apply no_more_posns; auto.
          - apply Forall_forall. intros q Q. rewrite Forall_forall in S1. specialize (S1 q Q).
            destruct S1 as (O1 & _ & O3). intros O. split; [|auto]. rewrite K in O1. cbn in O1.
            destruct (p_kind q); cbn in *; try lia. reflexivity.
          - intros w l W. apply D. split; [exists p; split; [now left|auto]|]. exists w, l. now right. }
        rewrite Z0 in IH |- *. cbn [kget kdel filter fst]. rewrite String.eqb_refl. cbn [negb].
        fold (kdel (kwds ps bs) (p_name p)). rewrite kdel_none by auto. now rewrite IH.
      + rewrite kget_none by auto. now rewrite IH.
    - assert (Z0 : posns ps bs = []).
      { clear - F S1 K. induction F as [|q b ps bs Fq F IH]; cbn; auto. inversion S1 as [|? ? (O1 & O3 & _) O2]; subst.
        rewrite K in O1, O3. cbn in O1. unfold fits in Fq. destruct (p_kind q), b; cbn in *; try lia; auto.
        exfalso. destruct (O3 eq_refl) as (X & _). now apply X. }
      rewrite Z0 in IH |- *. rewrite app_nil_r. now rewrite IH.
    - assert (Fr := Fresh (or_intror eq_refl)). cbn [kget kdel filter fst]. rewrite String.eqb_refl. cbn [negb].
      fold (kdel (kwds ps bs) (p_name p)). rewrite kdel_none by auto. now rewrite IH.
    - assert (Z0 : kwds ps bs = []).
      { clear - F S1 K. induction F as [|q b ps bs Fq F IH]; cbn; auto. inversion S1 as [|? ? (O1 & O3 & _) O2]; subst.
        rewrite K in O1, O3. cbn in O1. unfold fits in Fq. destruct (p_kind q), b; cbn in *; try lia; auto.
        exfalso. destruct (O3 eq_refl) as (_ & X). now apply X. }
      rewrite Z0 in IH |- *. rewrite app_nil_r. now rewrite IH.
  Qed.

  Lemma kwds_nodup : forall (ps : list param) bs, Forall2 fits ps bs -> sorted_by later ps ->
    NoDup (map p_name ps) -> plain_keys ps bs -> NoDup (map fst (kwds ps bs)).
  Proof.
    intros ps bs F. induction F as [|p b ps bs Fp F IH]; intros So N PK; [constructor|].
    cbn [sorted_by] in So. destruct So as (S1 & S2). inversion N as [|? ? N1 N2]; subst.
    assert (PK' : plain_keys ps bs).
    { intros l L. destruct (PK l (or_intror L)) as (A1 & A2). split; auto. intros n I. destruct (A2 n I) as (B1 & B2).
      split; auto. intros q Q. apply B2. now right. }
    specialize (IH S2 N2 PK').
    assert (Fresh : p_kind p = PosKw \/ p_kind p = KwOnly -> ~ In (p_name p) (map fst (kwds ps bs))).
    { intros K I. destruct (kwds_names _ _ _ I) as [(q & Q1 & Q2 & Q3)|(l & L1 & L2)].
      - apply N1. rewrite <- Q2. now apply in_map.
      - destruct (PK l (or_intror L1)) as (_ & A2). destruct (A2 _ L2) as (_ & B2).
        destruct (B2 p (or_introl eq_refl) eq_refl) as (B3 & B4). destruct K; contradiction. }
    cbn [kwds]. unfold fits in Fp. destruct (p_kind p) eqn:K, b as [v|l|l]; try easy.
    - destruct (p_default p); auto. cbn. constructor; auto.
    - cbn. constructor; auto.
    - assert (Z0 : kwds ps bs = []).
      { clear - F S1 K. induction F as [|q b ps bs Fq F IH]; cbn; auto. inversion S1 as [|? ? (O1 & O3 & _) O2]; subst.
        rewrite K in O1, O3. cbn in O1. unfold fits in Fq. destruct (p_kind q), b; cbn in *; try lia; auto.
        exfalso. destruct (O3 eq_refl) as (_ & X). now apply X. }
      rewrite Z0, app_nil_r. apply (PK l (or_introl eq_refl)).
  Qed.

  Lemma call_format : forall (ps : list param) (bs : list (bound A)), signature ps -> Forall2 fits ps bs -> plain_keys ps bs ->
    ~ default_and_more ps bs -> call ps (format_boundargs ps bs) = Some (map Some bs).
  Proof.
    intros ps bs (N & IN & So) F PK D. unfold call.
    assert (I : Forall (fun kv : string * A => is_name (fst kv) = true) (kwds ps bs)).
    { apply Forall_forall. intros [n v] I. cbn. assert (J : In n (map fst (kwds ps bs))) by (apply in_map_iff; exists (n, v); auto).
      destruct (kwds_names _ _ _ J) as [(q & Q1 & Q2 & Q3)|(l & L1 & L2)].
      - rewrite Forall_forall in IN. rewrite <- Q2. auto.
      - destruct (PK l L1) as (_ & A2). now apply A2. }
    rewrite split_format; auto; [now apply take_format|now apply kwds_nodup].
  Qed.
End Calls.
