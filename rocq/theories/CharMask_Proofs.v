From Coq Require Import ZArith List Bool Lia ZifyBool ZifyNat Sorted Permutation.
From Verif Require Import Py CharMask_Model CharMask_Spec.
Import ListNotations.
Open Scope Z_scope.

Definition inb (b : Z * Z) (c : Z) : Prop := fst b <= c < snd b.
Definition hits (l : list (Z * Z)) (c : Z) : Prop := exists b, In b l /\ inb b c.
Lemma bounds_eq p : bounds p = (first_of p, end_of p). Proof. destruct p; reflexivity. Qed.
Lemma holds_hits m c : holds m c <-> hits (all_bounds m) c.
Proof.
  unfold holds, hits, all_bounds. split.
  - intros (p & I & H). exists (bounds p). split; [now apply in_map|]. destruct p; unfold inb; cbn; lia.
  - intros (b & I & H). apply in_map_iff in I as (p & <- & I). exists p. split; [assumption|]. destruct p; unfold inb in H; cbn in H; lia.
Qed.
Lemma holds_nil c : holds [] c <-> False. Proof. split; [intros (p & [] & _)|tauto]. Qed.
Lemma holds_app m n c : holds (m ++ n) c <-> holds m c \/ holds n c.
Proof.
  unfold holds. split.
  - intros (p & I & H). apply in_app_iff in I as [I|I]; [left|right]; eauto.
  - intros [(p & I & H)|(p & I & H)]; exists p; rewrite in_app_iff; auto.
Qed.
Lemma holds_cons p m c : holds (p :: m) c <-> first_of p <= c < end_of p \/ holds m c.
Proof.
  change (p :: m) with ([p] ++ m). rewrite holds_app. assert (holds [p] c <-> first_of p <= c < end_of p); [|tauto].
  unfold holds. split.
  - intros (q & [<-|[]] & H). destruct p; cbn; lia.
  - intro H. exists p. split; [now left|]. destruct p; cbn in *; lia.
Qed.
Lemma holds_one p c : holds [p] c <-> first_of p <= c < end_of p.
Proof. rewrite holds_cons, holds_nil. tauto. Qed.
Lemma apart_snoc2 m p q : apart (m ++ [p]) -> end_of p < first_of q -> apart ((m ++ [p]) ++ [q]).
Proof.
  induction m as [|x m IH]; intros A B; [cbn; auto|]. destruct m as [|y m].
  - cbn in *. tauto.
  - cbn [app apart] in *. destruct A as [A1 A2]. split; [assumption|]. apply IH; auto.
Qed.
Lemma apart_snoc m p q : apart (m ++ [p]) -> first_of p = first_of q -> apart (m ++ [q]).
Proof.
  induction m as [|x m IH]; intros A B; [cbn; auto|]. destruct m as [|y m].
  - cbn in *. rewrite <- B. tauto.
  - cbn [app apart] in *. destruct A as [A1 A2]. split; [assumption|]. apply IH; auto.
Qed.
Lemma part_ok_fresh mn mx : mn < mx ->
  let p := if mn + 1 =? mx then One mn else Rng mn mx in
  first_of p = mn /\ end_of p = mx /\ match p with One _ => True | Rng a b => b <> a + 1 end.
Proof. intros H p. unfold p. destruct (mn + 1 =? mx) eqn:E; cbn; lia. Qed.

Section Max.
Variable maxu : Z.
Definition okp (p : part) := 0 <= first_of p /\ first_of p < end_of p /\ end_of p <= maxu + 1.
Definition lead (m : mask) (x : Z) : Prop := Forall (fun p => first_of p <= x) m.
Lemma add_ok m mn mx : valid maxu m -> canonical m -> (mn < mx -> lead m mn /\ 0 <= mn /\ mx <= maxu + 1) ->
  exists m', add m mn mx = Ok m' /\ valid maxu m' /\ canonical m' /\ (mn < mx -> lead m' mn) /\
    (mx <= mn -> m' = m) /\
    forall c, holds m' c <-> holds m c \/ mn <= c < mx.
Proof.
  intros [V A] C L. unfold add. destruct (mn <? mx) eqn:E.
  2:{ exists m. split; [reflexivity|]. split; [now split|]. split; [assumption|]. split; [lia|]. split; [auto|].
      intro c. split; [auto|]. intros [H|H]; [auto|lia]. }
  destruct (L ltac:(lia)) as (L' & B1 & B2). clear L.
  destruct (part_ok_fresh mn mx ltac:(lia)) as (F1 & F2 & F3).
  set (f := if mn + 1 =? mx then One mn else Rng mn mx) in *. clearbody f.
  rewrite <- (rev_involutive m) in V, A, C, L' |- *. destruct (rev m) as [|p r].
  - cbn [rev app]. exists [f]. repeat split; auto.
    + constructor; [lia|constructor].
    + constructor; [exact F3|constructor].
    + intros _. constructor; [lia|constructor].
    + lia.
    + rewrite holds_one. intro. right. lia.
    + rewrite holds_one, holds_nil. intros [[]|]. lia.
  - cbn [rev] in *. set (t := rev r) in *. clearbody t. clear r. rewrite rev_unit, rev_involutive.
    rewrite bounds_eq.
    apply Forall_app in V as [Vt Vp]. apply Forall_app in C as [Ct Cp]. apply Forall_app in L' as [Lt Lp].
    inversion Vp as [|? ? Vp' _]; subst. inversion Lp as [|? ? Lp' _]; subst. cbn beta in Vp', Lp'.
    destruct (first_of f <=? end_of p) eqn:E1.
    + destruct (end_of f <=? end_of p) eqn:E2.
      * exists (t ++ [p]). repeat split; auto.
        -- apply Forall_app; auto.
        -- apply Forall_app; auto.
        -- intros _. apply Forall_app; auto.
        -- intros [H|H]; [assumption|]. rewrite holds_app, holds_one. right. lia.
      * replace (first_of f >=? first_of p) with true by lia. cbn iota.
        exists (t ++ [Rng (first_of p) (end_of f)]). repeat split; auto.
        -- apply Forall_app; split; [assumption|constructor; [cbn; lia|constructor]].
        -- eapply apart_snoc; [exact A|reflexivity].
        -- apply Forall_app; split; [assumption|constructor; [cbn; lia|constructor]].
        -- intros _. apply Forall_app; split; [assumption|constructor; [cbn; lia|constructor]].
        -- lia.
        -- rewrite !holds_app, !holds_one. cbn. destruct (Z.lt_ge_cases c (end_of p)); intuition lia.
        -- rewrite !holds_app, !holds_one. cbn. destruct (Z.lt_ge_cases c (end_of p)); intuition lia.
    + exists ((t ++ [p]) ++ [f]). repeat split; auto.
      * apply Forall_app; split; [apply Forall_app; auto|]. constructor; [lia|constructor].
      * apply apart_snoc2; auto. lia.
      * apply Forall_app; split; [apply Forall_app; auto|]. constructor; [assumption|constructor].
      * intros _. apply Forall_app; split; [apply Forall_app; auto|]. constructor; [lia|constructor].
      * lia.
      * rewrite (holds_app (t ++ [p])), holds_one. intuition lia.
      * rewrite (holds_app (t ++ [p])), holds_one. intuition lia.
Qed.
(** The pairs that are ranges at all *)
Definition real (b : Z * Z) : bool := fst b <? snd b.
Definition starts_le (x y : Z * Z) : Prop := fst x <= fst y.
Lemma add_all_ok l : forall m, valid maxu m -> canonical m ->
  StronglySorted starts_le (filter real l) -> Forall (fun b => 0 <= fst b /\ snd b <= maxu + 1) (filter real l) ->
  (forall b, In b (filter real l) -> lead m (fst b)) ->
  exists m', add_all m l = Ok m' /\ valid maxu m' /\ canonical m' /\ forall c, holds m' c <-> holds m c \/ hits l c.
Proof.
  induction l as [|[mn mx] l IH]; intros m V C S B L.
  - exists m. repeat split; auto; try apply V. intros [H|(b & [] & _)]. exact H.
  - cbn [add_all]. cbn [filter] in *. unfold real at 1 in S. unfold real at 1 in B. unfold real in L at 1. cbn [fst snd] in *.
    destruct (mn <? mx) eqn:E.
    + inversion S as [|? ? S' HS]; subst. inversion B as [|? ? B0 B']; subst. cbn [fst snd] in *.
      destruct (add_ok m mn mx V C) as (m1 & -> & V1 & C1 & L1 & _ & H1).
      { intros _. split; [apply (L (mn, mx)); now left|lia]. }
      cbn [bind]. destruct (IH m1 V1 C1 S' B') as (m' & -> & V' & C' & H').
      { intros b I. specialize (L1 ltac:(lia)). rewrite Forall_forall in HS. specialize (HS b I).
        unfold starts_le in HS. cbn in HS. eapply Forall_impl; [|exact L1]. cbn. lia. }
      exists m'. split; [reflexivity|]. split; [assumption|]. split; [assumption|]. intro c. rewrite H', H1. unfold hits.
      split.
      * intros [[H|H]|(b & I & H)]; [auto| |]; right; [exists (mn, mx)|exists b]; cbn [In]; auto.
      * intros [H|(b & [<-|I] & H)]; [auto|left; right; exact H|right; eauto].
    + destruct (add_ok m mn mx V C) as (m1 & -> & V1 & C1 & _ & E1 & H1); [lia|]. rewrite E1 in * by lia. clear E1.
      cbn [bind]. destruct (IH m V C S B L) as (m' & -> & V' & C' & H').
      exists m'. split; [reflexivity|]. split; [assumption|]. split; [assumption|]. intro c. rewrite H'. unfold hits.
      split.
      * intros [H|(b & I & H)]; [auto|]. right. exists b. cbn [In]. auto.
      * intros [H|(b & [<-|I] & H)]; [auto| |right; eauto]. unfold inb in H. cbn in H. lia.
Qed.
Lemma valid_nil : valid maxu []. Proof. repeat constructor. Qed.
Lemma add_all_gives l P :
  StronglySorted starts_le (filter real l) -> Forall (fun b => 0 <= fst b /\ snd b <= maxu + 1) (filter real l) ->
  (forall c, hits l c <-> P c) -> gives maxu (add_all [] l) P.
Proof.
  intros S B H. destruct (add_all_ok l [] valid_nil ltac:(constructor) S B) as (m & -> & V & C & H').
  { intros. constructor. }
  exists m. repeat split; try apply V; auto; rewrite H', holds_nil, H; tauto.
Qed.

(** *** Membership *)
Lemma covers_ok m c : covers m c = true <-> holds m c.
Proof.
  rewrite holds_hits. unfold covers. rewrite existsb_exists. unfold hits, inb.
  split; intros (b & I & H); exists b; (split; [assumption|lia]).
Qed.
Lemma smt_matches_ok m c : smt_matches m c = true <-> holds m c.
Proof.
  assert (H : smt_matches m c = existsb (fun x => x) (map (part_matches c) m)).
  { unfold smt_matches. destruct (map _ m) as [|x [|y r]]; auto. cbn. now rewrite orb_false_r. }
  rewrite H, existsb_exists. unfold holds. split.
  - intros (b & I & ->). apply in_map_iff in I as (p & E & I). exists p. split; [assumption|]. destruct p; cbn in E; lia.
  - intros (p & I & E). exists true. split; [|reflexivity]. apply in_map_iff. exists p. split; [|assumption]. destruct p; cbn; lia.
Qed.

(** *** Facts about valid masks *)
Lemma valid_cons p m : valid maxu (p :: m) -> okp p /\ valid maxu m /\ Forall (fun q => end_of p < first_of q) m.
Proof.
  revert p. induction m as [|q m IH]; intros p [V A].
  - inversion V; subst. repeat split; try apply H1. constructor. constructor.
  - inversion V as [|? ? Vp Vm]; subst. cbn [apart] in A. destruct A as [A1 A2].
    destruct (IH q (conj Vm A2)) as (Q & Vm' & F). repeat split; auto; try apply Vp.
    constructor; [assumption|]. eapply Forall_impl; [|exact F]. cbn. unfold okp in Q. lia.
Qed.
Lemma valid_sorted m : valid maxu m -> StronglySorted starts_le (all_bounds m).
Proof.
  induction m as [|p m IH]; intro V; [constructor|]. apply valid_cons in V as (P & V & F).
  cbn [all_bounds map]. constructor; [now apply IH|]. apply Forall_map. eapply Forall_impl; [|exact F].
  intros q H. cbn beta in H. unfold starts_le. rewrite !bounds_eq. cbn [fst snd]. unfold okp in P. lia.
Qed.
Lemma valid_inside m c : valid maxu m -> holds m c -> 0 <= c <= maxu.
Proof.
  intros [V _] (p & I & H). rewrite Forall_forall in V. specialize (V p I). destruct p; cbn in *; lia.
Qed.

(** *** invert *)
Lemma invert_hits m : valid maxu m -> forall lo, Forall (fun p => lo <= first_of p) m -> lo <= maxu + 1 -> 0 <= lo ->
  let l := pairs (lo :: flat_map (fun b => [fst b; snd b]) (all_bounds m) ++ [maxu + 1]) in
  (forall c, hits l c <-> lo <= c <= maxu /\ ~ holds m c) /\
  StronglySorted starts_le l /\ Forall (fun b => lo <= fst b /\ snd b <= maxu + 1) l.
Proof.
  induction m as [|p m IH]; intros V lo F L N; cbn zeta.
  - cbn. split; [|split].
    + intro c. rewrite holds_nil. unfold hits, inb. split.
      * intros (b & [<-|[]] & H). cbn in H. split; [lia|tauto].
      * intros [H _]. eexists. split; [now left|]. cbn. lia.
    + constructor; constructor.
    + constructor; [cbn; lia|constructor].
  - apply valid_cons in V as (P & V & G). inversion F as [|? ? Fp Fm]; subst. unfold okp in P.
    cbn [all_bounds map flat_map app]. rewrite bounds_eq. cbn [fst snd app].
    change (pairs (lo :: first_of p :: ?x)) with ((lo, first_of p) :: pairs x).
    destruct (IH V (end_of p)) as (H & S & B); [eapply Forall_impl; [|exact G]; cbn; lia|lia|lia|].
    fold (all_bounds m) in *. set (l := pairs _) in *. clearbody l. split; [|split].
    + intro c. unfold hits. cbn [In]. rewrite holds_cons. split.
      * intros (b & [<-|I] & Hb).
        -- unfold inb in Hb. cbn in Hb. split; [lia|]. intros [?|M]; [lia|].
           destruct M as (q & Iq & Hq). rewrite Forall_forall in G. specialize (G q Iq). destruct q; cbn in *; lia.
        -- assert (Hc : hits l c) by (exists b; auto). apply H in Hc. split; [lia|]. intros [?|?]; [lia|tauto].
      * intros [Hc M]. destruct (Z.lt_ge_cases c (first_of p)).
        -- exists (lo, first_of p). split; [auto|]. unfold inb. cbn. lia.
        -- destruct (Z.lt_ge_cases c (end_of p)); [exfalso; apply M; left; lia|].
           assert (Hl : hits l c) by (apply H; split; [lia|tauto]). destruct Hl as (b & I & Hb). eauto.
    + constructor; [assumption|]. eapply Forall_impl; [|exact B]. unfold starts_le. cbn. lia.
    + constructor; [cbn; lia|]. eapply Forall_impl; [|exact B]. cbn. lia.
Qed.
Lemma sorted_filter (f : Z * Z -> bool) l : StronglySorted starts_le l -> StronglySorted starts_le (filter f l).
Proof.
  induction 1 as [|x l S IH F]; cbn [filter]; [constructor|]. destruct (f x); [|assumption].
  constructor; [assumption|]. rewrite Forall_forall in *. intros y I. apply filter_In in I as [I _]. auto.
Qed.
Lemma forall_filter {A} (P : A -> Prop) f l : Forall P l -> Forall P (filter f l).
Proof. rewrite !Forall_forall. intros H y I. apply filter_In in I as [I _]. auto. Qed.
Lemma invert_ok m : 0 <= maxu -> valid maxu m -> gives maxu (invert maxu m) (fun c => 0 <= c <= maxu /\ ~ holds m c).
Proof.
  intros M V. destruct (invert_hits m V 0) as (H & S & B).
  { destruct V as [V _]. eapply Forall_impl; [|exact V]. cbn. lia. } { lia. } { lia. }
  unfold invert. cbn [app]. apply add_all_gives; auto.
  - now apply sorted_filter.
  - apply forall_filter. eapply Forall_impl; [|exact B]. cbn. lia.
Qed.

(** *** union *)
Lemma insert_perm x l : Permutation (insert x l) (x :: l).
Proof. induction l as [|y l IH]; cbn [insert]; [auto|]. destruct (pair_le x y); [auto|]. rewrite IH. constructor. Qed.
Lemma sorted_perm l : Permutation (sorted l) l.
Proof. induction l as [|x l IH]; cbn; [auto|]. rewrite insert_perm. now constructor. Qed.
Lemma insert_sorted x l : StronglySorted starts_le l -> StronglySorted starts_le (insert x l).
Proof.
  induction 1 as [|y l S IH F]; cbn [insert]; [constructor; constructor|].
  destruct (pair_le x y) eqn:E; unfold pair_le in E.
  - constructor; [now constructor|]. constructor; [unfold starts_le; lia|]. eapply Forall_impl; [|exact F].
    unfold starts_le. lia.
  - constructor; [assumption|]. eapply Permutation_Forall; [symmetry; apply insert_perm|].
    constructor; [unfold starts_le; lia|assumption].
Qed.
Lemma sorted_sorted l : StronglySorted starts_le (sorted l).
Proof. induction l; cbn; [constructor|]. now apply insert_sorted. Qed.
Lemma all_bounds_ok m : valid maxu m -> Forall (fun b => 0 <= fst b /\ snd b <= maxu + 1) (all_bounds m).
Proof. intros [V _]. apply Forall_map. eapply Forall_impl; [|exact V]. intros p H. cbn beta in H. rewrite bounds_eq. cbn [fst snd]. lia. Qed.
Lemma union_ok m o : valid maxu m -> valid maxu o -> gives maxu (union m o) (fun c => holds m c \/ holds o c).
Proof.
  intros Vm Vo. unfold union. apply add_all_gives.
  - apply sorted_filter, sorted_sorted.
  - apply forall_filter. eapply Permutation_Forall; [symmetry; apply sorted_perm|].
    apply Forall_app. split; now apply all_bounds_ok.
  - intro c. rewrite !holds_hits. unfold hits. split.
    + intros (b & I & H). apply (Permutation_in _ (sorted_perm _)) in I. apply in_app_iff in I as [I|I]; eauto.
    + assert (P : forall b, In b (all_bounds m ++ all_bounds o) -> In b (sorted (all_bounds m ++ all_bounds o)))
        by (intro b; apply Permutation_in; symmetry; apply sorted_perm).
      intros [(b & I & H)|(b & I & H)]; exists b; (split; [apply P, in_app_iff; auto|assumption]).
Qed.

(** *** intersect *)
Lemma sorted_app l k : StronglySorted starts_le l -> StronglySorted starts_le k ->
  (forall x y, In x l -> In y k -> fst x <= fst y) -> StronglySorted starts_le (l ++ k).
Proof.
  induction 1 as [|x l S IH F]; intros K H; [assumption|]. cbn [app]. constructor.
  - apply IH; auto. intros a b I. apply H. now right.
  - apply Forall_app. split; [assumption|]. apply Forall_forall. intros y I. apply H; [now left|assumption].
Qed.
Definition meet (x y : Z * Z) : Z * Z := (Z.max (fst x) (fst y), Z.min (snd x) (snd y)).
Lemma row_sorted x l : StronglySorted starts_le l -> StronglySorted starts_le (map (meet x) l).
Proof.
  induction 1 as [|y l S IH F]; cbn [map]; [constructor|]. constructor; [assumption|]. apply Forall_map.
  eapply Forall_impl; [|exact F]. intros z. unfold starts_le, meet. cbn. lia.
Qed.
Lemma intersect_ok m o : valid maxu m -> valid maxu o -> gives maxu (intersect m o) (fun c => holds m c /\ holds o c).
Proof.
  intros Vm Vo. unfold intersect. fold meet.
  change (fun x => map (fun y => (Z.max (fst x) (fst y), Z.min (snd x) (snd y))) (all_bounds o)) with (fun x => map (meet x) (all_bounds o)).
  apply add_all_gives.
  - pose proof (valid_sorted o Vo) as So. set (k := all_bounds o) in *. clearbody k.
    induction m as [|p m IH]; [constructor|]. apply valid_cons in Vm as (P & Vm & F).
    cbn [all_bounds map flat_map]. fold (all_bounds m). rewrite filter_app. apply sorted_app; auto.
    + apply sorted_filter, row_sorted, So.
    + intros x y Ix Iy. apply filter_In in Ix as [Ix Rx]. apply filter_In in Iy as [Iy Ry].
      apply in_map_iff in Ix as (u & <- & _). apply in_flat_map in Iy as (q' & Iq & Iy).
      apply in_map_iff in Iy as (w & <- & _). apply in_map_iff in Iq as (q & <- & Iq).
      rewrite Forall_forall in F. specialize (F q Iq). rewrite !bounds_eq in *. unfold meet, real in *. cbn [fst snd] in *. lia.
  - apply forall_filter. apply Forall_forall. intros b I. apply in_flat_map in I as (x & Ix & I).
    apply in_map_iff in I as (y & <- & Iy). pose proof (all_bounds_ok m Vm) as Bm. pose proof (all_bounds_ok o Vo) as Bo.
    rewrite Forall_forall in *. specialize (Bm x Ix). specialize (Bo y Iy). unfold meet. cbn. lia.
  - intro c. rewrite !holds_hits. unfold hits. split.
    + intros (b & I & H). apply in_flat_map in I as (x & Ix & I). apply in_map_iff in I as (y & <- & Iy).
      unfold inb, meet in *. cbn in H. split; [exists x|exists y]; (split; [assumption|lia]).
    + intros [(x & Ix & Hx) (y & Iy & Hy)]. exists (meet x y). split.
      * apply in_flat_map. exists x. split; [assumption|]. now apply in_map.
      * unfold inb, meet in *. cbn. lia.
Qed.
Lemma subtract_ok m o : 0 <= maxu -> valid maxu m -> valid maxu o -> gives maxu (subtract maxu m o) (fun c => holds m c /\ ~ holds o c).
Proof.
  intros M Vm Vo. unfold subtract. destruct (invert_ok o M Vo) as (i & -> & Vi & _ & Hi). cbn [bind].
  destruct (intersect_ok m i Vm Vi) as (r & E & V & C & H). exists r. split; [assumption|]. split; [assumption|]. split; [assumption|].
  intro c. rewrite H, Hi. split; [tauto|]. intros [A B]. pose proof (valid_inside m c Vm A). tauto.
Qed.

(** *** Masks of predicates *)
Lemma points_sorted l : StronglySorted Z.le l -> StronglySorted starts_le (map (fun c => (c, c + 1)) l).
Proof.
  induction 1 as [|x l S IH F]; cbn [map]; constructor; auto. apply Forall_map. eapply Forall_impl; [|exact F].
  unfold starts_le. cbn. lia.
Qed.
Lemma make_mask_ok l : StronglySorted Z.le l -> Forall (fun c => 0 <= c <= maxu) l -> gives maxu (make_mask l) (fun c => In c l).
Proof.
  intros S B. unfold make_mask. apply add_all_gives.
  - apply sorted_filter, points_sorted, S.
  - apply forall_filter, Forall_map. eapply Forall_impl; [|exact B]. cbn. lia.
  - intro c. unfold hits, inb. split.
    + intros (b & I & H). apply in_map_iff in I as (x & <- & I). cbn in H. now replace c with x by lia.
    + intro I. exists (c, c + 1). split; [now apply (in_map (fun c => (c, c + 1)))|cbn; lia].
Qed.
Lemma seq_sorted n : forall s, StronglySorted Z.le (map Z.of_nat (seq s n)).
Proof.
  induction n as [|n IH]; intro s; cbn [seq map]; constructor; auto.
  apply Forall_forall. intros x I. apply in_map_iff in I as (y & <- & I). apply in_seq in I. lia.
Qed.
Lemma zle_filter (f : Z -> bool) l : StronglySorted Z.le l -> StronglySorted Z.le (filter f l).
Proof.
  induction 1 as [|x l S IH F]; cbn [filter]; [constructor|]. destruct (f x); [|assumption].
  constructor; [assumption|]. now apply forall_filter.
Qed.
Lemma codepoints_in c : In c (codepoints maxu) <-> 0 <= c <= maxu.
Proof.
  unfold codepoints. rewrite in_map_iff. split.
  - intros (n & <- & I). apply in_seq in I. lia.
  - intro H. exists (Z.to_nat c). split; [lia|]. apply in_seq. lia.
Qed.
Lemma predicate_mask_ok f : gives maxu (predicate_mask maxu f) (fun c => 0 <= c <= maxu /\ f c = true).
Proof.
  destruct (make_mask_ok (filter f (codepoints maxu))) as (m & E & V & C & H).
  - apply zle_filter, seq_sorted.
  - apply forall_filter, Forall_forall. intros c I. now apply codepoints_in.
  - exists m. split; [exact E|]. split; [assumption|]. split; [assumption|]. intro c. rewrite H, filter_In, codepoints_in. tauto.
Qed.
Lemma domain_mask_ok {T} (f : Z -> option T) : gives maxu (domain_mask maxu f) (fun c => 0 <= c <= maxu /\ f c <> None).
Proof.
  destruct (predicate_mask_ok (fun c => match f c with Some _ => true | None => false end)) as (m & E & V & C & H).
  exists m. split; [exact E|]. split; [assumption|]. split; [assumption|]. intro c. rewrite H. destruct (f c); split; intros [A B]; split; auto; congruence.
Qed.
Lemma union_all_ok l : forall m, valid maxu m -> canonical m -> Forall (valid maxu) l ->
  gives maxu (union_all m l) (fun c => holds m c \/ Exists (fun o => holds o c) l).
Proof.
  induction l as [|o l IH]; intros m V C F; cbn [union_all].
  - exists m. repeat split; auto; try apply V. intros [H|H]; [auto|]. inversion H.
  - inversion F as [|? ? Vo F']; subst. destruct (union_ok m o V Vo) as (u & -> & Vu & Cu & Hu). cbn [bind].
    destruct (IH u Vu Cu F') as (r & -> & Vr & Cr & Hr). exists r. repeat split; auto; try apply Vr.
    + rewrite Hr, Hu. intros [[H|H]|H]; auto.
    + rewrite Hr, Hu. intros [H|H]; auto. inversion H; auto.
Qed.
Lemma unicode_mask_ok first others inv : 0 <= maxu -> valid maxu first -> canonical first -> Forall (valid maxu) others ->
  gives maxu (unicode_mask maxu first others inv) (fun c =>
    if inv then 0 <= c <= maxu /\ ~ Exists (fun o => holds o c) (first :: others)
    else Exists (fun o => holds o c) (first :: others)).
Proof.
  intros M V C F. unfold unicode_mask. destruct (union_all_ok others first V C F) as (u & -> & Vu & Cu & Hu). cbn [bind].
  assert (E : forall c, Exists (fun o => holds o c) (first :: others) <-> holds u c).
  { intro c. rewrite Hu, Exists_cons. reflexivity. }
  destruct inv.
  - destruct (invert_ok u M Vu) as (r & -> & Vr & Cr & Hr). exists r. repeat split; auto; try apply Vr.
    + now apply Hr in H.
    + now apply Hr in H.
    + rewrite E. now apply Hr in H.
    + rewrite Hr, E. auto.
  - exists u. repeat split; auto; try apply Vu; now apply E.
Qed.

(** *** Categories *)
Section Cat.
Variable K : Type.
Variable eqb : K -> K -> bool.
Hypothesis eqb_ok : forall a b, eqb a b = true <-> a = b.
Variable category : Z -> K.
Lemma cat_loop_ok k n : forall s last data, 0 <= last < Z.of_nat s -> Z.of_nat s + Z.of_nat n = maxu + 1 ->
  valid maxu data -> Forall (fun p => end_of p < last) data \/ (exists d p, data = d ++ [p] /\ Forall (fun p => end_of p < last) d /\ end_of p <= last /\ category last <> k) ->
  (forall c, last <= c < Z.of_nat s -> category c = category last) ->
  (forall c, holds data c <-> 0 <= c < last /\ category c = k) ->
  let m := cat_loop maxu K eqb category k (map Z.of_nat (seq s n)) last (category last) data in
  valid maxu m /\ forall c, holds m c <-> 0 <= c <= maxu /\ category c = k.
Proof.
  induction n as [|n IH]; intros s last data B N V E R H; cbn [seq map cat_loop].
  - assert (X : category maxu = category last) by (apply R; lia). rewrite X.
    destruct (eqb (category last) k) eqn:Q.
    + apply eqb_ok in Q. destruct E as [E|(d & p & _ & _ & _ & E)]; [|congruence]. cbn zeta. split.
      * destruct V as [V A]. split.
        -- apply Forall_app. split; [assumption|]. constructor; [cbn; lia|constructor].
        -- destruct data as [|x data] using rev_ind; [constructor|]. apply apart_snoc2; [assumption|].
           apply Forall_app in E as [_ E]. inversion E; subst. cbn. assumption.
      * intro c. rewrite holds_app, holds_one, H. cbn. split.
        -- intros [?|?]; [split; [lia|tauto]|]. split; [lia|]. rewrite R by lia. assumption.
        -- intros [H1 H2]. destruct (Z.lt_ge_cases c last); [left; split; [lia|assumption]|right; lia].
    + cbn zeta. split; [assumption|]. intro c. rewrite H. split; intros [H1 H2]; (split; [lia|assumption]) || idtac.
      split; [|assumption]. destruct (Z.lt_ge_cases c last); [lia|]. rewrite R in H2 by lia. apply eqb_ok in H2. congruence.
  - destruct (eqb (category (Z.of_nat s)) (category last)) eqn:Q; cbn [negb].
    + apply eqb_ok in Q. apply IH; auto; try lia. intros c Hc. destruct (Z.eq_dec c (Z.of_nat s)) as [->|]; [assumption|]. apply R. lia.
    + assert (NQ : category (Z.of_nat s) <> category last) by (intro X; apply eqb_ok in X; congruence).
      set (np := if Z.of_nat s =? last + 1 then One last else Rng last (Z.of_nat s)).
      assert (F : first_of np = last /\ end_of np = Z.of_nat s) by (unfold np; destruct (_ =? _) eqn:Z1; cbn; lia).
      destruct F as [F1 F2]. clearbody np.
      destruct (eqb (category last) k) eqn:QK.
      * apply eqb_ok in QK. destruct E as [E|(d & p & _ & _ & _ & E)]; [|congruence].
        assert (V2 : valid maxu (data ++ [np])).
        { destruct V as [V A]. split.
          -- apply Forall_app. split; [assumption|]. constructor; [lia|constructor].
          -- destruct data as [|x data] using rev_ind; [constructor|]. apply apart_snoc2; [assumption|].
             apply Forall_app in E as [_ E]. inversion E; subst. lia. }
        apply IH; auto; try lia.
        -- right. exists data, np. repeat split; try lia; [|congruence]. eapply Forall_impl; [|exact E]. cbn. lia.
        -- intros c Hc. f_equal. lia.
        -- intro c. rewrite holds_app, holds_one, H. split.
           ++ intros [?|?]; [split; [lia|tauto]|]. split; [lia|]. rewrite R by lia. assumption.
           ++ intros [H1 H2]. destruct (Z.lt_ge_cases c last); [left; split; [lia|assumption]|right; lia].
      * assert (NK : category last <> k) by (intro X; apply eqb_ok in X; congruence).
        apply IH; auto; try lia.
        -- left. destruct E as [E|(d & p & -> & E & P & _)].
           ++ eapply Forall_impl; [|exact E]. cbn. lia.
           ++ apply Forall_app. split; [eapply Forall_impl; [|exact E]; cbn; lia|]. constructor; [lia|constructor].
        -- intros c Hc. f_equal. lia.
        -- intro c. rewrite H. split; intros [H1 H2]; [split; [lia|assumption]|].
           split; [|assumption]. destruct (Z.lt_ge_cases c last); [lia|]. rewrite R in H2 by lia. congruence.
Qed.
Lemma category_mask_ok k : 0 <= maxu ->
  valid maxu (category_mask maxu K eqb category k) /\
  forall c, holds (category_mask maxu K eqb category k) c <-> 0 <= c <= maxu /\ category c = k.
Proof.
  intro M. unfold category_mask, codepoints. replace (Z.to_nat (maxu + 1)) with (S (Z.to_nat maxu)) by lia.
  cbn [seq map tl]. apply cat_loop_ok; try lia.
  - apply valid_nil.
  - left. constructor.
  - intros c Hc. f_equal. lia.
  - intro c. rewrite holds_nil. lia.
Qed.
End Cat.
End Max.

(** *** One set, one mask *)
Lemma canonical_unique maxu m : forall n, valid maxu m -> valid maxu n -> canonical m -> canonical n ->
  (forall c, holds m c <-> holds n c) -> m = n.
Proof.
  assert (P : forall p q : part, match p with One _ => True | Rng a b => b <> a + 1 end ->
     match q with One _ => True | Rng a b => b <> a + 1 end -> first_of p = first_of q -> end_of p = end_of q -> p = q).
  { intros [x|a b] [y|c d] P Q; cbn; intros; subst; try reflexivity; exfalso; lia. }
  induction m as [|p m IH]; intros n Vm Vn Cm Cn H.
  - destruct n as [|q n]; [reflexivity|]. exfalso. apply valid_cons in Vn as (Q & _). unfold okp in Q.
    assert (X : holds (q :: n) (first_of q)) by (apply holds_cons; lia). apply H, holds_nil in X. exact X.
  - destruct n as [|q n].
    { exfalso. apply valid_cons in Vm as (Q & _). unfold okp in Q.
      assert (X : holds (p :: m) (first_of p)) by (apply holds_cons; lia). apply H, holds_nil in X. exact X. }
    apply valid_cons in Vm as (Pp & Vm & Fm). apply valid_cons in Vn as (Pq & Vn & Fn).
    inversion Cm as [|? ? Cp Cm']; subst. inversion Cn as [|? ? Cq Cn']; subst. unfold okp in *.
    assert (Lm : forall c, holds m c -> end_of p < c).
    { intros c (x & I & Hx). rewrite Forall_forall in Fm. specialize (Fm x I). destruct x; cbn in *; lia. }
    assert (Ln : forall c, holds n c -> end_of q < c).
    { intros c (x & I & Hx). rewrite Forall_forall in Fn. specialize (Fn x I). destruct x; cbn in *; lia. }
    assert (H' : forall c, (first_of p <= c < end_of p \/ holds m c) <-> (first_of q <= c < end_of q \/ holds n c)).
    { intro c. rewrite <- !holds_cons. apply H. }
    assert (A1 : first_of p = first_of q).
    { destruct (proj1 (H' (first_of p)) ltac:(lia)) as [A|A]; destruct (proj2 (H' (first_of q)) ltac:(lia)) as [B|B];
        try apply Ln in A; try apply Lm in B; lia. }
    assert (A2 : end_of p = end_of q).
    { destruct (Z.lt_trichotomy (end_of p) (end_of q)) as [A|[A|A]]; [|assumption|].
      - destruct (proj2 (H' (end_of p)) ltac:(lia)) as [B|B]; [lia|apply Lm in B; lia].
      - destruct (proj1 (H' (end_of q)) ltac:(lia)) as [B|B]; [lia|apply Ln in B; lia]. }
    f_equal; [now apply P|]. apply IH; auto. intro c. specialize (H' c). rewrite A1, A2 in H'.
    split; intro X.
    + destruct (proj1 H' (or_intror X)); [|assumption]. apply Lm in X. lia.
    + destruct (proj2 H' (or_intror X)); [|assumption]. apply Ln in X. lia.
Qed.
