From Coq Require Import ZArith List Bool Lia ZifyBool Sorted.
From Verif Require Import Py CharMask_Model CharMask_Spec CharMask_Proofs CharClass_Model CharClass_Spec.
Import ListNotations.
Open Scope Z_scope.

Section L.
Variable maxu : Z.
Hypothesis MX : 0 <= maxu.
(** Masks that need not keep the invariant: parts may be adjacent, ... *)
Definition neat (m : mask) : Prop :=
  Forall (okp maxu) m /\ StronglySorted (fun p q => end_of p <= first_of q) m.
(** ... or in any order. *)
Definition inside (m : mask) : Prop := Forall (okp maxu) m.

Lemma valid_neat m : valid maxu m -> neat m.
Proof.
  induction m as [|p m IH]; intro V; [split; constructor|].
  apply valid_cons in V as (P & V & F). destruct (IH V) as [A B]. split; constructor; auto.
  eapply Forall_impl; [|exact F]. cbn. lia.
Qed.
Lemma neat_inside m : neat m -> inside m. Proof. intros [A _]. exact A. Qed.
Lemma valid_in m : valid maxu m -> inside m. Proof. intro. apply neat_inside, valid_neat. auto. Qed.

Lemma neat_invert_hits m : neat m -> forall lo, Forall (fun p => lo <= first_of p) m -> lo <= maxu + 1 -> 0 <= lo ->
  let l := pairs (lo :: flat_map (fun b => [fst b; snd b]) (all_bounds m) ++ [maxu + 1]) in
  (forall c, hits l c <-> lo <= c <= maxu /\ ~ holds m c) /\
  StronglySorted starts_le l /\ Forall (fun b => lo <= fst b /\ snd b <= maxu + 1) l.
Proof.
  induction m as [|p m IH]; intros V lo F L N; cbn zeta.
  - cbn. split; [|split].
    + intro c. rewrite holds_nil. unfold hits, inb. split.
      * intros (b & [<-|[]] & H). cbn in H. split; [lia|tauto].
      * intros [H _]. eexists. split; [now left|]. cbn. lia.
    + constructor; constructor.
    + constructor; [cbn; lia|constructor].
  - destruct V as [V1 V2]. inversion V1 as [|? ? P V]; subst. inversion V2 as [|? ? V3 G]; subst.
    inversion F as [|? ? Fp Fm]; subst. unfold okp in P.
    cbn [all_bounds map flat_map app]. rewrite bounds_eq. cbn [fst snd app].
    change (pairs (lo :: first_of p :: ?x)) with ((lo, first_of p) :: pairs x).
    destruct (IH (conj V V3) (end_of p)) as (H & S & B); [exact G|lia|lia|].
    fold (all_bounds m) in *. set (l := pairs _) in *. clearbody l. split; [|split].
    + intro c. unfold hits. cbn [In]. rewrite holds_cons. split.
      * intros (b & [<-|I] & Hb).
        -- unfold inb in Hb. cbn in Hb. split; [lia|]. intros [?|M]; [lia|].
           destruct M as (q & Iq & Hq). rewrite Forall_forall in G. specialize (G q Iq). destruct q; cbn in *; lia.
        -- assert (Hc : hits l c) by (exists b; auto). apply H in Hc. split; [lia|]. intros [?|?]; [lia|tauto].
      * intros [Hc M]. destruct (Z.lt_ge_cases c (first_of p)).
        -- exists (lo, first_of p). split; [auto|]. unfold inb. cbn. lia.
        -- destruct (Z.lt_ge_cases c (end_of p)); [exfalso; apply M; left; lia|].
           assert (Hl : hits l c) by (apply H; split; [lia|tauto]). destruct Hl as (b & I & Hb). eauto.
    + constructor; [assumption|]. eapply Forall_impl; [|exact B]. unfold starts_le. cbn. lia.
    + constructor; [cbn; lia|]. eapply Forall_impl; [|exact B]. cbn. lia.
Qed.
Lemma neat_invert m : neat m -> gives maxu (invert maxu m) (fun c => 0 <= c <= maxu /\ ~ holds m c).
Proof.
  intros V. destruct (neat_invert_hits m V 0) as (H & S & B).
  { destruct V as [V _]. eapply Forall_impl; [|exact V]. unfold okp. cbn. lia. } { lia. } { lia. }
  unfold invert. cbn [app]. apply add_all_gives; auto.
  - now apply sorted_filter.
  - apply forall_filter. eapply Forall_impl; [|exact B]. cbn. lia.
Qed.

Lemma inside_bounds m : inside m -> Forall (fun b => 0 <= fst b /\ snd b <= maxu + 1) (all_bounds m).
Proof. intros V. apply Forall_map. eapply Forall_impl; [|exact V]. intros p H. unfold okp in H. rewrite bounds_eq. cbn [fst snd]. lia. Qed.
Lemma inside_union m o : inside m -> inside o -> gives maxu (union m o) (fun c => holds m c \/ holds o c).
Proof.
  intros Vm Vo. unfold union. apply add_all_gives.
  - apply sorted_filter, sorted_sorted.
  - apply forall_filter. eapply Permutation.Permutation_Forall; [symmetry; apply sorted_perm|].
    apply Forall_app. split; now apply inside_bounds.
  - intro c. rewrite !holds_hits. unfold hits. split.
    + intros (b & I & H). apply (Permutation.Permutation_in _ (sorted_perm _)) in I. apply in_app_iff in I as [I|I]; eauto.
    + assert (P : forall b, In b (all_bounds m ++ all_bounds o) -> In b (sorted (all_bounds m ++ all_bounds o)))
        by (intro b; apply Permutation.Permutation_in; symmetry; apply sorted_perm).
      intros [(b & I & H)|(b & I & H)]; exists b; (split; [apply P, in_app_iff; auto|assumption]).
Qed.
(** Clipping keeps the parts below 128. *)
Lemma neat_sorted m : neat m -> StronglySorted starts_le (all_bounds m).
Proof.
  induction m as [|p m IH]; intros [V S]; [constructor|]. inversion V as [|? ? P V']; subst. inversion S as [|? ? S' F]; subst.
  cbn [all_bounds map]. constructor; [now apply IH|]. apply Forall_map. eapply Forall_impl; [|exact F].
  intros q H. cbn beta in H. unfold starts_le. rewrite !bounds_eq. cbn [fst snd]. unfold okp in P. lia.
Qed.
Lemma neat_clip m : 128 <= maxu + 1 -> neat m ->
  gives maxu (intersect m ascii_char) (fun c => holds m c /\ 0 <= c < 128).
Proof.
  intros A V. unfold intersect, ascii_char.
  replace (flat_map _ _) with (map (fun b => meet b (0, 128)) (all_bounds m)).
  2:{ induction (all_bounds m) as [|x l IH]; [auto|]. cbn [map flat_map app]. rewrite IH. auto. }
  apply add_all_gives.
  - apply sorted_filter. pose proof (neat_sorted m V) as S.
    induction S as [|x l S IH F]; cbn [map]; constructor; auto. apply Forall_map.
    eapply Forall_impl; [|exact F]. unfold starts_le, meet. cbn. lia.
  - apply forall_filter, Forall_map. pose proof (inside_bounds m (neat_inside m V)) as B.
    eapply Forall_impl; [|exact B]. intros x. unfold meet. cbn [fst snd]. lia.
  - intro c. rewrite holds_hits. unfold hits. split.
    + intros (b & I & H). apply in_map_iff in I as (x & <- & Ix). unfold inb, meet in *. cbn [fst snd] in *.
      split; [exists x; split; [auto|lia]|lia].
    + intros [(x & Ix & H) B]. exists (meet x (0, 128)). split; [now apply (in_map (fun b => meet b (0, 128)))|].
      unfold inb, meet in *. cbn [fst snd] in *. lia.
Qed.

Lemma neat_points l : StronglySorted Z.lt l -> Forall (fun c => 0 <= c <= maxu) l -> neat (map One l).
Proof.
  intros S F. split.
  - apply Forall_map. eapply Forall_impl; [|exact F]. unfold okp. cbn. lia.
  - induction S as [|x l S IH H]; cbn [map]; constructor.
    + apply IH. inversion F; auto.
    + apply Forall_map. eapply Forall_impl; [|exact H]. cbn. lia.
Qed.
Lemma holds_points l c : holds (map One l) c <-> In c l.
Proof.
  split.
  - intros (p & I & H). apply in_map_iff in I as (x & <- & I). subst. auto.
  - intro I. exists (One c). split; [now apply in_map|auto].
Qed.
Lemma codepoints_sorted n : forall s, StronglySorted Z.lt (map Z.of_nat (seq s n)).
Proof.
  induction n as [|n IH]; intro s; cbn [seq map]; constructor; [apply IH|].
  apply Forall_forall. intros x I. apply in_map_iff in I as (y & <- & I). apply in_seq in I. lia.
Qed.
Lemma filter_sorted (f : Z -> bool) l : StronglySorted Z.lt l -> StronglySorted Z.lt (filter f l).
Proof.
  induction 1 as [|x l S IH F]; cbn [filter]; [constructor|]. destruct (f x); [|assumption].
  constructor; [assumption|]. rewrite Forall_forall in *. intros y I. apply filter_In in I as [I _]. auto.
Qed.
End L.

Section C.
Variable maxu : Z.
Variable lower upper : Z -> option Z.
Variable other_letter : Z -> bool.
Variable ci : Z -> Z -> bool.
Variable digit word : Z -> Prop.
Variable nd wordm : mask.
Hypothesis U : unicode maxu other_letter ci digit word nd wordm.
Notation term_mask := (term_mask maxu lower upper other_letter ci nd wordm).
Notation item_mask := (item_mask maxu lower upper other_letter ci nd wordm).
Notation union_terms := (union_terms maxu lower upper other_letter ci nd wordm).

(** The result is a mask of the right characters that can be inverted ([neat]) or at
    least united with others ([inside]). *)
Definition stands (good : mask -> Prop) (r : res mask) (P : Z -> Prop) : Prop :=
  exists m, r = Ok m /\ good m /\ forall x, 0 <= x <= maxu -> (holds m x <-> P x).

Lemma gives_stands r P Q : gives maxu r P -> (forall x, 0 <= x <= maxu -> (P x <-> Q x)) -> stands (neat maxu) r Q.
Proof.
  intros (m & E & V & _ & H) PQ. exists m. split; [auto|]. split; [now apply valid_neat|].
  intros x X. rewrite H. auto.
Qed.
Lemma max_ok : 0 <= maxu /\ 128 <= maxu + 1. Proof. pose proof (u_max _ _ _ _ _ _ _ U). lia. Qed.

Lemma invert_stands r P : stands (neat maxu) r P ->
  stands (neat maxu) (do m <- r; invert maxu m) (fun x => ~ P x).
Proof.
  intros (m & -> & N & H). cbn [bind]. eapply gives_stands; [apply neat_invert; auto; apply max_ok|].
  intros x X. cbn beta. rewrite (H x X). tauto.
Qed.

Lemma finds_ok c : 0 <= c <= maxu -> special c = false -> other_letter c = false ->
  stands (neat maxu) (unicode_ignorecase_mask maxu other_letter ci c) (fun x => ci c x = true).
Proof.
  intros R SP OL. unfold unicode_ignorecase_mask, finds.
  unfold special in SP. cbn [existsb] in SP |- *.
  replace ((c =? 40) || ((c =? 41) || ((c =? 42) || ((c =? 43) || ((c =? 63) || ((c =? 91) || ((c =? 92) || false))))))) with false by lia.
  replace ((c =? 36) || ((c =? 94) || ((c =? 124) || false))) with false by lia.
  replace (c =? 46) with false by lia. cbn [bind].
  eexists. split; [reflexivity|]. split.
  - apply neat_points.
    + apply filter_sorted, filter_sorted, codepoints_sorted.
    + apply Forall_forall. intros x I. apply filter_In in I as [I _]. apply filter_In in I as [I _].
      apply codepoints_in in I. exact I.
  - intros x X. rewrite holds_points, filter_In. unfold caseable. rewrite filter_In, codepoints_in.
    destruct (other_letter x) eqn:O; cbn [negb].
    + split; [intros [[_ B] _]; discriminate|]. intro I. pose proof (u_other _ _ _ _ _ _ _ U c x O I). subst. congruence.
    + tauto.
Qed.

Lemma ascii_ci_range c x : 0 <= c < 128 -> 0 <= x -> ascii_ci c x = true -> x < 128.
Proof.
  unfold ascii_ci, ascii_lower. intros.
  destruct ((65 <=? c) && (c <=? 90)) eqn:A; destruct ((65 <=? x) && (x <=? 90)) eqn:B; lia.
Qed.

Lemma literal_ok f c : fine_term maxu lower upper other_letter ci f (TLiteral c) ->
  stands (neat maxu) (term_mask f (TLiteral c)) (same ci f c).
Proof.
  intros [R F]. unfold term_mask, same. destruct (ignorecase f).
  - destruct (F eq_refl) as (SP & OL & A). destruct (finds_ok c R SP OL) as (m & -> & N & H). cbn [bind].
    destruct (ascii f).
    + eapply gives_stands; [apply neat_clip; auto; apply max_ok|]. intros x X. cbn beta. rewrite (H x X).
      specialize (A eq_refl). split.
      * intros [I B]. rewrite <- (u_ci_ascii _ _ _ _ _ _ _ U c x); auto. lia.
      * intro I. pose proof (ascii_ci_range c x ltac:(lia) ltac:(lia) I).
        rewrite (u_ci_ascii _ _ _ _ _ _ _ U c x) by lia. split; [auto|lia].
    + exists m. auto.
  - exists [One c]. split; [auto|]. split.
    + apply (neat_points maxu [c]); repeat constructor; lia.
    + intros x X. apply (holds_points [c]) || rewrite holds_one; cbn; lia.
Qed.

Lemma literal_negated f c : term_mask f (TNotLiteral c) = (do m <- term_mask f (TLiteral c); invert maxu m).
Proof. reflexivity. Qed.

Lemma holds_two a b c d x : holds [Rng a (b + 1); Rng c (d + 1)] x <-> a <= x <= b \/ c <= x <= d.
Proof. rewrite holds_cons, holds_one. cbn. lia. Qed.

Lemma range_ok f lo hi : fine_term maxu lower upper other_letter ci f (TRange lo hi) ->
  stands (inside maxu) (term_mask f (TRange lo hi)) (fun x => exists c, lo <= c <= hi /\ same ci f c x).
Proof.
  intros (R & R2 & F). unfold term_mask, same. destruct (ignorecase f).
  - specialize (F eq_refl). destruct (ascii f).
    + destruct F as (A & -> & -> & -> & -> & NL). cbn [ord_of bind].
      assert (X : forall x, 0 <= x <= maxu ->
                (lo <= x <= hi <-> exists c, lo <= c <= hi /\ ascii_ci c x = true)).
      { intros x X. split.
        - intro I. exists x. split; [auto|]. unfold ascii_ci. lia.
        - intros (c & I & E). specialize (NL c I). unfold ascii_ci, ascii_lower in E.
          destruct ((65 <=? c) && (c <=? 90)) eqn:B; destruct ((65 <=? x) && (x <=? 90)) eqn:D; lia. }
      unfold intersect, ascii_char. cbn [all_bounds map flat_map app bounds fst snd].
      replace (Z.max lo 0) with lo by lia. replace (Z.min (hi + 1) 128) with (hi + 1) by lia.
      assert (G : gives maxu (add_all [] [(lo, hi + 1); (lo, hi + 1)]) (fun x => lo <= x <= hi)).
      { apply add_all_gives.
        - apply sorted_filter. repeat constructor; unfold starts_le; cbn; lia.
        - apply forall_filter. repeat constructor; cbn; pose proof max_ok; lia.
        - intro x. unfold hits, inb. split.
          + intros (b & [<-|[<-|[]]] & H); cbn in H; lia.
          + intro H. exists (lo, hi + 1). cbn. split; [auto|lia]. }
      destruct G as (m & E & V & _ & H). exists m. split; [exact E|]. split; [now apply valid_in|].
      intros x I. rewrite H. auto.
    + destruct F as (a & b & c & d & -> & -> & -> & -> & B1 & B2 & B3 & B4 & E). cbn [ord_of bind].
      eexists. split; [reflexivity|]. split.
      * repeat constructor; cbn; lia.
      * intros x X. rewrite holds_two. apply E. auto.
  - exists [Rng lo (hi + 1)]. split; [auto|]. split.
    + repeat constructor; cbn; lia.
    + intros x X. rewrite holds_one. cbn. split; [intro; exists x; lia|intros (c & I & E); lia].
Qed.

Lemma clip_stands (f : flags) m (P Q : Z -> Prop) : valid maxu m -> (forall x, 0 <= x <= maxu -> (holds m x <-> P x)) ->
  (forall x, 0 <= x < 128 -> (P x <-> Q x)) -> (forall x, Q x -> 0 <= x < 128) ->
  stands (neat maxu) (if ascii f then intersect m ascii_char else Ok m) (fun x => if ascii f then Q x else P x).
Proof.
  intros V H PQ QB. destruct (ascii f).
  - eapply gives_stands; [apply neat_clip; [apply max_ok|now apply valid_neat]|]. intros x X. cbn beta.
    rewrite (H x X). split.
    + intros [A B]. apply PQ; auto.
    + intro A. pose proof (QB x A) as B. split; [apply PQ; auto|auto].
  - exists m. split; [auto|]. split; [now apply valid_neat|auto].
Qed.

Lemma white_ok : stands (neat maxu) unicode_whitespace unicode_space.
Proof.
  pose proof (u_max _ _ _ _ _ _ _ U) as M. unfold unicode_whitespace.
  eapply gives_stands.
  - apply inside_union.
    + repeat apply Forall_cons; try apply Forall_nil; unfold okp; cbn [first_of end_of]; lia.
    + repeat apply Forall_cons; try apply Forall_nil; unfold okp; cbn [first_of end_of]; lia.
  - intros x X. cbn beta. unfold ascii_whitespace. rewrite !holds_cons, !holds_nil. cbn [first_of end_of].
    unfold unicode_space, ascii_space. lia.
Qed.

Lemma category_ok f k :
  stands (neat maxu) (term_mask f (TCategory false k)) (term_matches ci digit word f (TCategory false k)).
Proof.
  pose proof max_ok as M. destruct (u_nd _ _ _ _ _ _ _ U) as [VN HN]. destruct (u_word _ _ _ _ _ _ _ U) as [VW HW].
  unfold CharClass_Model.term_mask, term_matches. destruct k.
  - destruct (clip_stands f nd digit ascii_digit VN HN (u_digit_ascii _ _ _ _ _ _ _ U)) as (m & -> & R); [unfold ascii_digit; lia|].
    cbn [bind]. exists m. auto.
  - destruct (ascii f).
    + cbn [bind]. eexists. split; [reflexivity|]. split.
      * pose proof (u_max _ _ _ _ _ _ _ U). unfold ascii_whitespace. split; [repeat constructor; cbn; lia|]. repeat constructor; cbn; lia.
      * intros x X. unfold ascii_whitespace. rewrite holds_cons, holds_one. cbn. unfold ascii_space. lia.
    + destruct white_ok as (m & -> & R). cbn [bind]. exists m. auto.
  - destruct (clip_stands f wordm word ascii_word VW HW (u_word_ascii _ _ _ _ _ _ _ U)) as (m & -> & R); [unfold ascii_word; lia|].
    cbn [bind]. exists m. auto.
Qed.
Lemma category_negated f k : term_mask f (TCategory true k) = (do m <- term_mask f (TCategory false k); invert maxu m).
Proof.
  unfold CharClass_Model.term_mask. destruct k; destruct (ascii f); cbn [bind]; auto.
  all: match goal with |- (do m <- ?r; _) = _ => destruct r; auto end.
Qed.

Lemma any_ok f : stands (neat maxu) (term_mask f TAny) (term_matches ci digit word f TAny).
Proof.
  pose proof max_ok as M. pose proof (u_max _ _ _ _ _ _ _ U).
  assert (VA : valid maxu (any_char maxu)) by (unfold any_char, valid; split; [repeat constructor; cbn; lia|exact I]).
  unfold CharClass_Model.term_mask, term_matches. destruct (dotall f).
  - eexists. split; [reflexivity|]. split; [apply valid_neat; exact VA|].
    intros x X. unfold any_char. rewrite holds_one. cbn. split; [auto|lia].
  - unfold any_non_newline. eapply gives_stands.
    + apply subtract_ok; [lia|exact VA|]. split; [repeat constructor; cbn; lia|exact I].
    + intros x X. cbn beta. unfold any_char. rewrite !holds_one. cbn. lia.
Qed.

Lemma stands_inside r P : stands (neat maxu) r P -> stands (inside maxu) r P.
Proof. intros (m & E & N & H). exists m. split; [auto|]. split; [now apply neat_inside|auto]. Qed.
Lemma stands_iff good r P Q : (forall x, 0 <= x <= maxu -> (P x <-> Q x)) -> stands good r P -> stands good r Q.
Proof. intros PQ (m & E & N & H). exists m. split; [auto|]. split; [auto|]. intros x X. rewrite (H x X). auto. Qed.

Lemma term_ok f t : fine_term maxu lower upper other_letter ci f t ->
  stands (inside maxu) (term_mask f t) (term_matches ci digit word f t).
Proof.
  destruct t as [c|c|lo hi|n k|]; intro F.
  - apply stands_inside, literal_ok, F.
  - apply stands_inside. rewrite literal_negated. apply invert_stands, literal_ok, F.
  - apply range_ok, F.
  - apply stands_inside. destruct n; [|apply category_ok].
    rewrite category_negated. apply (invert_stands _ _ (category_ok f k)).
  - apply stands_inside, any_ok.
Qed.

Lemma union_terms_ok f ts : Forall (fine_term maxu lower upper other_letter ci f) ts ->
  forall m P, valid maxu m -> (forall x, 0 <= x <= maxu -> (holds m x <-> P x)) ->
  exists r, union_terms f m ts = Ok r /\ valid maxu r /\
    forall x, 0 <= x <= maxu -> (holds r x <-> P x \/ exists t, In t ts /\ term_matches ci digit word f t x).
Proof.
  induction 1 as [|t ts F FS IH]; intros m P V H.
  - exists m. split; [auto|]. split; [auto|]. intros x X. rewrite (H x X). split; [auto|]. intros [A|(t & [] & _)]. auto.
  - cbn [CharClass_Model.union_terms]. destruct (term_ok f t F) as (sub & -> & N & HS). cbn [bind].
    destruct (inside_union maxu m sub (valid_in maxu m V) N) as (m' & -> & V' & _ & H'). cbn [bind].
    destruct (IH m' (fun x => P x \/ term_matches ci digit word f t x) V') as (r & E & VR & HR).
    { intros x X. rewrite H', (H x X), (HS x X). tauto. }
    exists r. split; [auto|]. split; [auto|]. intros x X. rewrite (HR x X). split.
    + intros [[A|A]|(t' & I & A)]; [auto|right; exists t; cbn; auto|right; exists t'; cbn; auto].
    + intros [A|(t' & [<-|I] & A)]; eauto.
Qed.

Lemma item_ok f i : fine_item maxu lower upper other_letter ci f i ->
  stands (inside maxu) (item_mask f i) (item_matches ci digit word f i).
Proof.
  destruct i as [t|n ts]; intro F; [apply term_ok, F|].
  cbn [fine_item] in F. unfold CharClass_Model.item_mask, item_matches.
  destruct (union_terms_ok f ts F [] (fun _ => False)) as (r & -> & V & H).
  { split; [constructor|exact I]. } { intros x X. rewrite holds_nil. tauto. }
  cbn [bind].
  assert (S : stands (neat maxu) (Ok r) (fun x => exists t, In t ts /\ term_matches ci digit word f t x)).
  { exists r. split; [auto|]. split; [now apply valid_neat|]. intros x X. rewrite (H x X). tauto. }
  destruct n; [|apply stands_inside, S].
  apply stands_inside. exact (invert_stands _ _ S).
Qed.
End C.
