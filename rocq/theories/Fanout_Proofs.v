From Coq Require Import ZArith QArith List Bool Arith Lia Lqa.
From Verif Require Import Py Fanout_Model.
Import ListNotations.

Lemma slice_nth {A} (l : list A) a b i : (a <= i < b)%nat -> nth_error (slice l a b) (i - a) = nth_error l i.
Proof.
  intros H. unfold slice. revert l b i H. induction a as [|a IH]; intros l b i H.
  - cbn. rewrite !Nat.sub_0_r. clear -H. revert l b H. induction i as [|i IH]; intros l b H; destruct b; try lia; destruct l; cbn; auto. apply IH. lia.
  - destruct l as [|x l]; cbn [skipn].
    + rewrite firstn_nil. destruct (i - S a)%nat, i; reflexivity.
    + destruct i as [|i]; [lia|]. destruct b as [|b]; [lia|]. cbn [nth_error]. rewrite <- (IH l b i) by lia. reflexivity.
Qed.
Lemma slice_in {A} (l : list A) a b x : In x (slice l a b) -> exists i, (a <= i < b)%nat /\ nth_error l i = Some x.
Proof.
  intros H. apply In_nth_error in H as [k K]. assert (k < b - a)%nat.
  { assert (k < length (slice l a b))%nat by (apply nth_error_Some; congruence). unfold slice in *. pose proof (firstn_le_length (b - a) (skipn a l)). lia. }
  exists (a + k)%nat. split; [lia|]. rewrite <- (slice_nth l a b) by lia. replace (a + k - a)%nat with k by lia. exact K.
Qed.
Lemma slice_split {A} (l : list A) a m b : (a <= m <= b)%nat -> slice l a b = slice l a m ++ slice l m b.
Proof.
  intros H. unfold slice. replace (skipn m l) with (skipn (m - a) (skipn a l)).
  - replace (b - a)%nat with ((m - a) + (b - m))%nat by lia. generalize (skipn a l) as k. generalize (m - a)%nat as p, (b - m)%nat as q. clear.
    induction p as [|p IH]; intros q k; [reflexivity|]. destruct k as [|x k]; cbn; [now rewrite firstn_nil|]. f_equal. apply IH.
  - assert (E : forall p q (k : list A), skipn p (skipn q k) = skipn (q + p) k).
    { clear. intros p q. revert p. induction q as [|q IH]; intros p k; [reflexivity|]. destruct k; cbn; [now rewrite skipn_nil|apply IH]. }
    rewrite E. f_equal. lia.
Qed.
Lemma qsum_app a b : qsum (a ++ b) == qsum a + qsum b.
Proof. induction a as [|x a IH]; [change (qsum b == 0 + qsum b)%Q; ring|]. change (x + qsum (a ++ b) == x + qsum a + qsum b). rewrite IH. ring. Qed.
Lemma qsum_pos l : l <> [] -> (forall x, In x l -> 0 < x)%Q -> (0 < qsum l)%Q.
Proof.
  induction l as [|x l IH]; intros N P; [congruence|]. pose proof (P x (or_introl eq_refl)). destruct l as [|y l]; [change (0 < x + 0)%Q; lra|]. change (0 < x + qsum (y :: l))%Q.
  assert (0 < qsum (y :: l))%Q by (apply IH; [discriminate|intros; apply P; now right]). lra.
Qed.
Lemma half_bounds a b : (a + 1 < b)%nat -> (a < (a + b) / 2 < b)%nat.
Proof. intro H. split; [apply Nat.div_le_lower_bound; lia|apply Nat.div_lt_upper_bound; lia]. Qed.

Section Attempt.
Variable R : Type.
Variables (exprs : list bool) (results : list R) (weights : list Q).
Hypothesis len1 : length exprs = length results.
Hypothesis len2 : length weights = length results.
Hypothesis pos : forall w, In w weights -> (0 < w)%Q.

(** which option is taken: the first that holds, or the last if none holds *)
Lemma attempt_ok : forall fuel start stop, (start < stop <= length results)%nat -> (stop - start < fuel)%nat ->
  exists i r p, (start <= i < stop)%nat /\ attempt R exprs results weights fuel start stop = Ok (r, p) /\ nth_error results i = Some r /\
    (forall j, (start <= j < i)%nat -> nth_error exprs j = Some false) /\
    (nth_error exprs i = Some true \/ i = stop - 1)%nat /\
    exists w, nth_error weights i = Some w /\ (p * qsum (slice weights start stop) == w)%Q.
Proof.
  induction fuel as [|fuel IH]; intros start stop B F; [lia|]. cbn [attempt]. destruct (Nat.eqb_spec (stop - start) 1) as [E|E].
  - destruct (nth_error results start) as [r|] eqn:N; [|apply nth_error_None in N; lia].
    destruct (nth_error weights start) as [w|] eqn:W; [|apply nth_error_None in W; lia].
    exists start, r, 1%Q. split; [lia|]. split; [reflexivity|]. split; [exact N|]. split; [lia|]. split; [right; lia|].
    exists w. split; [exact W|]. assert (S1 : slice weights start stop = [w]).
    { pose proof (slice_nth weights start stop start ltac:(lia)) as X. rewrite Nat.sub_diag, W in X. unfold slice in *. rewrite E in *.
      destruct (skipn start weights) as [|y l]; cbn in *; [discriminate|congruence]. }
    rewrite S1. change (1 * (w + 0) == w)%Q. ring.
  - assert (H2 : (start + 1 < stop)%nat) by lia. pose proof (half_bounds _ _ H2) as M. set (mid := ((start + stop) / 2)%nat) in *. clearbody mid.
    assert (PL : (0 < qsum (slice weights start mid))%Q).
    { apply qsum_pos.
      - intro N. destruct (nth_error weights start) eqn:W; [|apply nth_error_None in W; lia]. rewrite <- (slice_nth weights start mid) in W by lia. rewrite N, Nat.sub_diag in W. discriminate.
      - intros x X. apply slice_in in X as (j & _ & J). apply pos. now apply nth_error_In in J. }
    assert (PR : (0 < qsum (slice weights mid stop))%Q).
    { apply qsum_pos.
      - intro N. destruct (nth_error weights mid) eqn:W; [|apply nth_error_None in W; lia]. rewrite <- (slice_nth weights mid stop) in W by lia. rewrite N, Nat.sub_diag in W. discriminate.
      - intros x X. apply slice_in in X as (j & _ & J). apply pos. now apply nth_error_In in J. }
    set (lw := qsum (slice weights start mid)) in *. set (rw := qsum (slice weights mid stop)) in *.
    assert (SUM : (qsum (slice weights start stop) == lw + rw)%Q) by (rewrite (slice_split weights start mid stop) by lia; apply qsum_app).
    destruct (Qeq_bool (lw + rw) 0) eqn:Z; [apply Qeq_bool_iff in Z; lra|].
    destruct (existsb _ (slice exprs start mid)) eqn:X.
    + destruct (IH start mid) as (i & r & p & Bi & A & Nr & Fst & Tr & w & W & P); [lia|lia|]. rewrite A. cbn.
      exists i, r, (lw / (lw + rw) * p)%Q. split; [lia|]. split; [reflexivity|]. split; [exact Nr|]. split; [exact Fst|]. split.
      * destruct Tr as [Tr|Tr]; [now left|]. left. apply existsb_exists in X as (b & Xb & ->). apply slice_in in Xb as (j & J & Nj).
        destruct (Nat.eq_dec i j) as [->|D]; [exact Nj|]. rewrite Fst in Nj by lia. discriminate.
      * exists w. split; [exact W|]. rewrite SUM. fold lw in P. rewrite <- P. field. lra.
    + destruct (IH mid stop) as (i & r & p & Bi & A & Nr & Fst & Tr & w & W & P); [lia|lia|]. rewrite A. cbn.
      exists i, r, ((1 - lw / (lw + rw)) * p)%Q. split; [lia|]. split; [reflexivity|]. split; [exact Nr|]. split; [|split; [exact Tr|]].
      * intros j J. destruct (Nat.lt_ge_cases j mid) as [L|L]; [|apply Fst; lia].
        destruct (nth_error exprs j) as [[]|] eqn:N; [|reflexivity|apply nth_error_None in N; lia].
        exfalso. apply not_true_iff_false in X. apply X. apply existsb_exists. exists true. split; [|reflexivity].
        rewrite <- (slice_nth exprs start mid) in N by lia. now apply nth_error_In in N.
      * exists w. split; [exact W|]. rewrite SUM. fold rw in P. rewrite <- P. field. lra.
Qed.
End Attempt.

(** ** smt_fanout *)
Definition good_weights {R} (options : list (bool * R)) (weights : option (list Q)) : Prop :=
  match weights with None => True | Some w => length w = length options /\ forall x, In x w -> (0 < x)%Q end.
Definition the_weights {R} (options : list (bool * R)) (weights : option (list Q)) : list Q :=
  match weights with None => repeat 1%Q (length options) | Some w => w end.
Lemma the_weights_ok {R} (options : list (bool * R)) weights : good_weights options weights ->
  length (the_weights options weights) = length options /\ forall x, In x (the_weights options weights) -> (0 < x)%Q.
Proof.
  destruct weights as [w|]; [intros G; exact G|]. intros _. cbn. split; [apply repeat_length|]. intros x X. apply repeat_spec in X. subst. reflexivity.
Qed.
Lemma slice_all {A} (l : list A) : slice l 0 (length l) = l.
Proof. unfold slice. cbn. rewrite Nat.sub_0_r. apply firstn_all. Qed.
Lemma fanout_exhaustive {R} (options : list (bool * R)) weights : good_weights options weights -> (exists r, In (true, r) options) ->
  exists i r p w, nth_error options i = Some (true, r) /\ (forall j b r', (j < i)%nat -> nth_error options j = Some (b, r') -> b = false) /\
    smt_fanout options weights 0 = Ok (Some r, p) /\ nth_error (the_weights options weights) i = Some w /\ (p * qsum (the_weights options weights) == w)%Q.
Proof.
  intros G [r0 H]. destruct (the_weights_ok options weights G) as [L P]. unfold smt_fanout. cbn [Qle_bool negb Qnum Qden Z.mul Z.leb Z.compare]. fold (the_weights options weights).
  assert (N : (0 < length options)%nat) by (destruct options; [destruct H|cbn; lia]).
  replace (match weights with Some w => w | None => repeat 1%Q (length (map fst options)) end) with (the_weights options weights) by (destruct weights; cbn; now rewrite ?map_length).
  destruct (attempt_ok (option R) (map fst options) (map (fun o => Some (snd o)) options) (the_weights options weights)) with (fuel := S (length (map fst options))) (start := 0%nat) (stop := length (map fst options))
    as (i & r & p & B & A & Nr & Fst & Tr & w & W & Pr); rewrite ?map_length in *; auto; try lia.
  rewrite nth_error_map in Nr. destruct (nth_error options i) as [[b r']|] eqn:O; [|discriminate]. cbn in Nr. inversion Nr; subst r.
  assert (b = true).
  { rewrite nth_error_map, O in Tr. cbn in Tr. destruct Tr as [Tr|Tr]; [congruence|]. apply In_nth_error in H as [k K].
    assert (k < length options)%nat by (apply nth_error_Some; congruence). destruct (Nat.eq_dec k i) as [->|D]; [congruence|].
    specialize (Fst k ltac:(lia)). rewrite nth_error_map, K in Fst. discriminate. }
  subst b. exists i, r', p, w. split; [exact O|]. split.
  - intros j b s J K. specialize (Fst j ltac:(lia)). rewrite nth_error_map, K in Fst. now inversion Fst.
  - split; [exact A|]. split; [exact W|]. rewrite <- L, slice_all in Pr. exact Pr.
Qed.
Lemma fanout_none {R} (options : list (bool * R)) weights nw : good_weights options weights -> (0 < nw)%Q ->
  exists p, let r := smt_fanout options weights nw in
  (exists i x w, r = Ok (Some x, p) /\ nth_error options i = Some (true, x) /\ (forall j b r', (j < i)%nat -> nth_error options j = Some (b, r') -> b = false) /\
     nth_error (the_weights options weights) i = Some w /\ (p * (qsum (the_weights options weights) + nw) == w)%Q) \/
  (r = Ok (None, p) /\ (forall b x, In (b, x) options -> b = false) /\ (p * (qsum (the_weights options weights) + nw) == nw)%Q).
Proof.
  intros G NW. destruct (the_weights_ok options weights G) as [L P]. unfold smt_fanout.
  replace (Qle_bool nw 0) with false by (symmetry; apply not_true_iff_false; rewrite Qle_bool_iff; lra). cbn [negb].
  replace (match weights with Some w => w | None => repeat 1%Q (length (map fst options)) end) with (the_weights options weights) by (destruct weights; cbn; now rewrite ?map_length).
  set (ws := the_weights options weights) in *. set (none := negb (existsb (fun b => b) (map fst options))).
  assert (S1 : (qsum (ws ++ [nw]) == qsum ws + nw)%Q) by (rewrite qsum_app; change (qsum ws + (nw + 0) == qsum ws + nw)%Q; ring).
  destruct (attempt_ok (option R) (map fst options ++ [none]) (map (fun o => Some (snd o)) options ++ [None]) (ws ++ [nw])) with (fuel := S (length (map fst options) + 1)) (start := 0%nat) (stop := (length (map fst options) + 1)%nat)
    as (i & r & p & B & A & Nr & Fst & Tr & w & W & Pr); rewrite ?app_length, ?map_length in *; cbn [length]; auto; try lia.
  { intros x X. apply in_app_or in X as [X|[ <- |[]]]; auto. }
  exists p. cbn zeta. replace (length options + 1)%nat with (length (ws ++ [nw])) in Pr by (rewrite app_length; cbn; lia). rewrite slice_all, S1 in Pr.
  destruct (Nat.lt_ge_cases i (length options)) as [I|I].
  - left. rewrite nth_error_app1 in Nr, W by (rewrite ?map_length; lia). rewrite nth_error_map in Nr. destruct (nth_error options i) as [[b x]|] eqn:O; [|discriminate].
    cbn in Nr. inversion Nr; subst r. exists i, x, w. split; [exact A|]. split.
    + destruct Tr as [Tr|Tr]; [|lia]. rewrite nth_error_app1, nth_error_map, O in Tr by (rewrite map_length; lia). cbn in Tr. congruence.
    + split; [|split; [exact W|exact Pr]]. intros j b' r' J K. specialize (Fst j ltac:(lia)). rewrite nth_error_app1, nth_error_map, K in Fst by (rewrite map_length; lia). now inversion Fst.
  - right. assert (i = length options) by lia. subst i. rewrite nth_error_app2 in Nr, W by (rewrite ?map_length; lia). rewrite map_length, Nat.sub_diag in Nr. rewrite L, Nat.sub_diag in W. cbn in Nr, W.
    inversion Nr; inversion W; subst. split; [exact A|]. split; [|exact Pr]. intros b x X. apply In_nth_error in X as [k K]. assert (k < length options)%nat by (apply nth_error_Some; congruence).
    specialize (Fst k ltac:(lia)). rewrite nth_error_app1, nth_error_map, K in Fst by (rewrite map_length; lia). now inversion Fst.
Qed.

(** ** subscripting *)
Definition In2 {A} (d : list (nat * list A)) (k : nat) (x : A) : Prop := exists l, In (k, l) d /\ In x l.
Lemma add_to_in {A} k (x : A) d k' y : In2 (add_to k x d) k' y <-> (k' = k /\ y = x) \/ In2 d k' y.
Proof.
  unfold In2. induction d as [|[j l] d IH]; cbn.
  - split.
    + intros (l & [E|[]] & I). inversion E; subst. destruct I as [ <- |[]]. now left.
    + intros [[-> ->]|(l & [] & _)]. exists [x]. cbn. auto.
  - destruct (Nat.eqb_spec k j) as [->|D]; cbn.
    + split.
      * intros (l' & [E|I] & J); [inversion E; subst; apply in_app_or in J as [J|[ <- |[]]]; [right; exists l; auto|now left]|right; exists l'; auto].
      * intros [[-> ->]|(l' & [E|I] & J)]; [exists (l ++ [x]); split; [now left|apply in_or_app; right; now left]|inversion E; subst; exists (l' ++ [x]); split; [now left|apply in_or_app; now left]|exists l'; auto].
    + split.
      * intros (l' & [E|I] & J); [inversion E; subst; right; exists l'; auto|]. destruct (proj1 IH) as [H|(l'' & H)]; [exists l'; auto|now left|]. right. exists l''. tauto.
      * intros [H|(l' & [E|I] & J)]; [|exists l'; split; [now left|exact J]|].
        -- destruct (proj2 IH (or_introl H)) as (l' & H1 & H2). exists l'. auto.
        -- destruct (proj2 IH) as (l'' & H1 & H2); [right; exists l'; auto|]. exists l''. auto.
Qed.
Lemma group_in pairs : forall bt bi,
  let '(bt', bi') := group pairs bt bi in
  (forall t e v, In2 bt' t (e, v) <-> In2 bt t (e, v) \/ In (e, Atomic t v) pairs) /\
  (forall i e, In2 bi' i e <-> In2 bi i e \/ In (e, Object i) pairs).
Proof.
  induction pairs as [|[k [t v|i]] pairs IH]; intros bt bi; cbn.
  - split; intros; tauto.
  - specialize (IH (add_to t (k, v) bt) bi). destruct (group pairs _ _) as [bt' bi']. destruct IH as [I1 I2]. split.
    + intros t' e v'. rewrite I1, add_to_in. assert ((e, v') = (k, v) <-> (k, Atomic t v) = (e, Atomic t v')) by (split; intro H; inversion H; reflexivity).
      split; [intros [[[-> H']|H']|H']; try tauto; right; left; now inversion H'|intros [H'|[H'|H']]; try tauto; left; left; inversion H'; auto].
    + intros i e. rewrite I2. split; [tauto|]. intros [H|[H|H]]; try tauto. discriminate.
  - specialize (IH bt (add_to i k bi)). destruct (group pairs _ _) as [bt' bi']. destruct IH as [I1 I2]. split.
    + intros t e v. rewrite I1. split; [tauto|]. intros [H|[H|H]]; try tauto. discriminate.
    + intros i' e. rewrite I2, add_to_in. split; [intros [[[-> ->]|H]|H]; auto|]. intros [H|[H|H]]; auto. inversion H; auto.
Qed.
Lemma ite_chain_true l : existsb fst l = true -> In (true, ite_chain l) l.
Proof.
  induction l as [|[c v] l IH]; [discriminate|]. cbn [existsb fst]. destruct c.
  - intros _. destruct l; now left.
  - cbn [orb]. intro H. destruct l as [|y l]; [discriminate|]. right. apply IH in H. cbn [ite_chain]. exact H.
Qed.
Lemma conds_in k l b v : In (b, v) (conds_and_values k l) <-> exists e, In (e, v) l /\ key_eq k e = Some b.
Proof.
  induction l as [|[e w] l IH]; cbn.
  - split; [tauto|]. intros (e & [] & _).
  - destruct (key_eq k e) as [c|] eqn:E; cbn; rewrite IH; split.
    + intros [H|(e' & H & K)]; [inversion H; subst; exists e; auto|exists e'; auto].
    + intros (e' & [H|H] & K); [inversion H; subst; left; congruence|right; exists e'; auto].
    + intros (e' & H & K). exists e'. auto.
    + intros (e' & [H|H] & K); [inversion H; subst; congruence|exists e'; auto].
Qed.
Lemma type_options_true k bt x : In (true, x) (type_options k bt) -> exists t e v, x = Atomic t v /\ In2 bt t (e, v) /\ key_eq k e = Some true.
Proof.
  induction bt as [|[t l] bt IH]; cbn; [tauto|]. destruct (conds_and_values k l) as [|c cv] eqn:E.
  - intro H. destruct (IH H) as (t' & e & v & -> & (l' & I & J) & K). exists t', e, v. split; [reflexivity|]. split; [exists l'; split; [now right|exact J]|exact K].
  - intros [H|H].
    + assert (X : existsb fst (c :: cv) = true) by congruence. assert (Y : x = Atomic t (ite_chain (c :: cv))) by congruence.
      apply ite_chain_true in X. rewrite <- E in X, Y. apply conds_in in X as (e & I & K). exists t, e, (ite_chain (conds_and_values k l)). split; [exact Y|]. split; [|exact K]. exists l. split; [now left|exact I].
    + destruct (IH H) as (t' & e & v & -> & (l' & I & J) & K). exists t', e, v. split; [reflexivity|]. split; [exists l'; split; [now right|exact J]|exact K].
Qed.
Lemma type_options_match k bt t e v : In2 bt t (e, v) -> key_eq k e = Some true -> exists x, In (true, x) (type_options k bt).
Proof.
  intros (l & I & J) K. induction bt as [|[t' l'] bt IH]; [destruct I|]. cbn. destruct I as [H|H].
  - inversion H; subst. assert (X : In (true, v) (conds_and_values k l)) by (apply conds_in; exists e; auto).
    destruct (conds_and_values k l) as [|c cv] eqn:E; [destruct X|]. exists (Atomic t (ite_chain (c :: cv))). left. f_equal. apply existsb_exists. exists (true, v). auto.
  - destruct (IH H) as [x X]. exists x. destruct (conds_and_values k l'); auto. now right.
Qed.
Lemma id_conds k l b : In b (flat_map (fun e => match key_eq k e with Some b => [b] | None => [] end) l) <-> exists e, In e l /\ key_eq k e = Some b.
Proof.
  rewrite in_flat_map. split; intros (e & I & J); exists e; (split; [exact I|]); destruct (key_eq k e); cbn in *; try tauto; try discriminate; [destruct J as [ -> |[]]; reflexivity|left; congruence].
Qed.
Lemma id_options_true k bi x : In (true, x) (id_options k bi) -> exists i e, x = Object i /\ In2 bi i e /\ key_eq k e = Some true.
Proof.
  induction bi as [|[i l] bi IH]; cbn; [tauto|]. pose proof (id_conds k l) as C. destruct (flat_map _ l) as [|c cs] eqn:E.
  - intro H. destruct (IH H) as (i' & e & -> & (l' & I & J) & K). exists i', e. split; [reflexivity|]. split; [exists l'; split; [now right|exact J]|exact K].
  - intros [H|H].
    + assert (X : existsb (fun b => b) (c :: cs) = true) by congruence. assert (Y : x = Object i) by congruence. apply existsb_exists in X as (b & B & ->). apply C in B as (e & I & K).
      exists i, e. split; [exact Y|]. split; [|exact K]. exists l. split; [now left|exact I].
    + destruct (IH H) as (i' & e & -> & (l' & I & J) & K). exists i', e. split; [reflexivity|]. split; [exists l'; split; [now right|exact J]|exact K].
Qed.
Lemma id_options_match k bi i e : In2 bi i e -> key_eq k e = Some true -> exists x, In (true, x) (id_options k bi).
Proof.
  intros (l & I & J) K. induction bi as [|[i' l'] bi IH]; [destruct I|]. cbn. destruct I as [H|H].
  - inversion H; subst. pose proof (proj2 (id_conds k l true) (ex_intro _ e (conj J K))) as X. destruct (flat_map _ l) as [|c cs]; [destruct X|].
    exists (Object i). left. f_equal. apply existsb_exists. exists true. auto.
  - destruct (IH H) as [x X]. exists x. destruct (flat_map _ l'); auto. now right.
Qed.

Lemma multi_ok k pairs err :
  (exists e v, In (e, v) pairs /\ key_eq k e = Some true /\ multi_getitem k pairs err = Ok v) \/
  ((forall e v, In (e, v) pairs -> key_eq k e <> Some true) /\ multi_getitem k pairs err = Err err).
Proof.
  unfold multi_getitem. pose proof (group_in pairs [] []) as G. destruct (group pairs [] []) as [bt bi]. destruct G as [G1 G2].
  assert (N : forall A k (x : A), ~ In2 [] k x) by (intros A k0 x (l & [] & _)).
  assert (T : forall x, In (true, x) (type_options k bt ++ id_options k bi) -> exists e, In (e, x) pairs /\ key_eq k e = Some true).
  { intros x X. apply in_app_or in X as [X|X].
    - apply type_options_true in X as (t & e & v & -> & I & K). apply G1 in I as [I|I]; [now apply N in I|]. exists e. auto.
    - apply id_options_true in X as (i & e & -> & I & K). apply G2 in I as [I|I]; [now apply N in I|]. exists e. auto. }
  assert (M : forall e v, In (e, v) pairs -> key_eq k e = Some true -> exists x, In (true, x) (type_options k bt ++ id_options k bi)).
  { intros e [t v|i] I K.
    - destruct (type_options_match k bt t e v) as [x X]; [apply G1; now right|exact K|]. exists x. apply in_or_app. now left.
    - destruct (id_options_match k bi i e) as [x X]; [apply G2; now right|exact K|]. exists x. apply in_or_app. now right. }
  set (options := type_options k bt ++ id_options k bi) in *.
  destruct options as [|o os] eqn:E.
  - right. split; [|reflexivity]. intros e v I K. destruct (M e v I K) as [x []].
  - rewrite <- E in *. clear E o os. destruct (fanout_none options None 1%Q I ltac:(reflexivity)) as [p [(i & x & w & F & O & _)|(F & A & _)]]; cbn zeta in F; rewrite F; cbn.
    + left. apply nth_error_In in O. destruct (T x O) as (e & I & K). exists e, x. auto.
    + right. split; [|reflexivity]. intros e v I K. destruct (M e v I K) as [x X]. apply A in X. discriminate.
Qed.
