From Coq Require Import ZArith List Bool Lia ZifyBool.
From Verif Require Import Py Calendar_Model Timedelta_Model Calendar_Spec Timedelta_Spec Calendar_Proofs.
Import ListNotations.
Open Scope Z_scope.
Ltac Zify.zify_post_hook ::= Z.to_euclidean_division_equations.
Ltac us := unfold stands_for, us_min, us_max, us_per_day, to_us in *.

Lemma stands_us t us : stands_for t us -> to_us t = us.
Proof. us. lia. Qed.
Lemma stands_inj t t' us : stands_for t us -> stands_for t' us -> t = t'.
Proof. destruct t as [d1 s1 u1], t' as [d2 s2 u2]. us. cbn [days seconds microseconds]. intros H H'. f_equal; lia. Qed.
Lemma td_new_gives dd ss us ms mm hh ww :
  gives (td_new dd ss us ms mm hh ww)
        ((dd + 7 * ww) * us_per_day + (ss + 60 * mm + 3600 * hh) * 1000000 + us + 1000 * ms).
Proof.
  unfold td_new, gives.
  set (us1 := us + ms * 1000). set (ss1 := ss + (mm * 60 + hh * 3600)). set (dd1 := dd + ww * 7).
  set (T := _ + 1000 * ms). assert (ET : T = dd1 * us_per_day + ss1 * 1000000 + us1) by (unfold T, us1, ss1, dd1, us_per_day; lia).
  clearbody T us1 ss1 dd1. subst T.
  assert (H1 : exists ss2 us2, (if (0 <=? us1) && (us1 <? 1000000) then (ss1, us1) else (ss1 + us1 / 1000000, us1 mod 1000000)) = (ss2, us2)
     /\ 0 <= us2 < 1000000 /\ ss2 * 1000000 + us2 = ss1 * 1000000 + us1).
  { destruct ((0 <=? us1) && (us1 <? 1000000)) eqn:E; do 2 eexists; (split; [reflexivity|]); lia. }
  destruct H1 as (ss2 & us2 & -> & Hu & Es).
  assert (H2 : exists dd2 ss3, (if (0 <=? ss2) && (ss2 <? 24 * 3600) then (dd1, ss2) else (dd1 + ss2 / (24 * 3600), ss2 mod (24 * 3600))) = (dd2, ss3)
     /\ 0 <= ss3 < 86400 /\ dd2 * 86400 + ss3 = dd1 * 86400 + ss2).
  { change (24 * 3600) with 86400. destruct ((0 <=? ss2) && (ss2 <? 86400)) eqn:E; do 2 eexists; (split; [reflexivity|]); lia. }
  destruct H2 as (dd2 & ss3 & -> & Hs & Ed). us.
  destruct (Z.ltb_spec 999999999 (Z.abs dd2)) as [L|L].
  - right. split; [lia | reflexivity].
  - left. split; [lia|]. eexists. split; [reflexivity|]. cbn [days seconds microseconds]. lia.
Qed.
Lemma td3_gives dd ss us n : n = dd * us_per_day + ss * 1000000 + us -> gives (td3 dd ss us) n.
Proof. intros ->. pose proof (td_new_gives dd ss us 0 0 0 0) as H. unfold td3. replace (_ * us_per_day + ss * _ + us) with ((dd + 7 * 0) * us_per_day + (ss + 60 * 0 + 3600 * 0) * 1000000 + us + 1000 * 0) by lia. exact H. Qed.

Section Two.
Variables (a b : td) (x y : Z).
Hypothesis A : stands_for a x.
Hypothesis B : stands_for b y.
Lemma add_gives : gives (m_add a b) (x + y).
Proof. apply td3_gives. us. lia. Qed.
Lemma sub_gives : gives (m_sub a b) (x - y).
Proof. apply td3_gives. us. lia. Qed.
Lemma neg_gives : gives (m_neg a) (- x).
Proof. apply td3_gives. us. lia. Qed.
Lemma abs_gives : gives (m_abs a) (Z.abs x).
Proof.
  unfold m_abs. destruct (Z.ltb_spec (days a) 0).
  - replace (Z.abs x) with (- x) by (us; lia). exact neg_gives.
  - left. replace (Z.abs x) with x by (us; lia). split; [apply A|]. eauto.
Qed.
Lemma mul_gives k : gives (m_mul a k) (x * k).
Proof. apply td3_gives. us. nia. Qed.
Lemma mod_gives : y <> 0 -> gives (m_mod a b) (x mod y).
Proof.
  intros H. unfold m_mod. rewrite (stands_us _ _ A), (stands_us _ _ B). destruct (Z.eqb_spec y 0); [contradiction|].
  apply td3_gives. lia.
Qed.
Lemma mod_in_range : y <> 0 -> us_min <= x mod y <= us_max.
Proof. intros H. pose proof (Z.mod_pos_bound x y). pose proof (Z.mod_neg_bound x y). us. lia. Qed.
Lemma cmp_ok r : m_cmp r a b = s_rel r x y.
Proof.
  unfold m_cmp, cmp, state. rewrite !lex_lt_cons, lex_lt_nil.
  replace ((days b <? days a) || (days b =? days a) && ((seconds b <? seconds a) || (seconds b =? seconds a) && ((microseconds b <? microseconds a) || (microseconds b =? microseconds a) && false)))
    with (y <? x) by (us; lia).
  replace ((days a <? days b) || (days a =? days b) && ((seconds a <? seconds b) || (seconds a =? seconds b) && ((microseconds a <? microseconds b) || (microseconds a =? microseconds b) && false)))
    with (x <? y) by (us; lia).
  destruct (Z.ltb_spec y x), (Z.ltb_spec x y); destruct r; cbn [rel_of s_rel b2z]; lia.
Qed.
Lemma bool_ok : m_bool a = negb (x =? 0).
Proof. unfold m_bool. us. lia. Qed.
End Two.

Lemma rounding a b : b <> 0 -> exists q, divide_and_round a b = Ok q /\ rounds_to a b q.
Proof.
  intros H. unfold divide_and_round. destruct (Z.eqb_spec b 0); [contradiction|]. eexists. split; [reflexivity|].
  pose proof (Z.div_mod a b H) as E. pose proof (Z.mod_pos_bound a b). pose proof (Z.mod_neg_bound a b).
  set (q := a / b) in *. set (r := a mod b) in *. clearbody q r.
  unfold rounds_to.
  assert (Ev : forall z, Z.even z = (z mod 2 =? 0)) by (intros z; rewrite Zmod_even; destruct (Z.even z); reflexivity).
  rewrite Ev.
  assert (X1 : a - q * b = r) by lia. assert (X2 : a - (q + 1) * b = r - b) by lia.
  destruct (Z.ltb_spec 0 b).
  - destruct (Z.ltb_spec b (r * 2)); cbn [orb]; [rewrite X2; lia|].
    destruct (Z.eqb_spec (r * 2) b); cbn [andb]; [|rewrite X1; lia].
    destruct (Z.eqb_spec (q mod 2) 1); [rewrite X2 | rewrite X1]; lia.
  - destruct (Z.ltb_spec (r * 2) b); cbn [orb]; [rewrite X2; lia|].
    destruct (Z.eqb_spec (r * 2) b); cbn [andb]; [|rewrite X1; lia].
    destruct (Z.eqb_spec (q mod 2) 1); [rewrite X2 | rewrite X1]; lia.
Qed.
Lemma rounds_unique a b q q' : b <> 0 -> rounds_to a b q -> rounds_to a b q' -> q = q'.
Proof.
  intros Hb R R'. unfold rounds_to in *.
  assert (Hd : (q - q') * b = (a - q' * b) - (a - q * b)) by lia.
  assert (D : Z.abs (q - q') * Z.abs b <= Z.abs b) by (rewrite <- Z.abs_mul, Hd; lia).
  assert (D1 : Z.abs (q - q') <= 1) by nia.
  destruct (Z.eq_dec q q') as [|N]; [assumption|exfalso].
  assert (D2 : Z.abs (q - q') = 1) by lia. assert (D3 : Z.abs ((q - q') * b) = Z.abs b) by (rewrite Z.abs_mul, D2; lia).
  rewrite Hd in D3.
  destruct R as [R|[R E]]; [lia|]. destruct R' as [R'|[R' E']]; [lia|].
  assert (Ev : forall z, Z.even z = (z mod 2 =? 0)) by (intros z; rewrite Zmod_even; destruct (Z.even z); reflexivity).
  rewrite Ev in *. lia.
Qed.

Lemma gives_in r us : gives r us -> us_min <= us <= us_max -> exists t, r = Ok t /\ stands_for t us.
Proof. intros [[_ H]|[N _]] R; [exact H | contradiction]. Qed.
Lemma direct_ok o a b x y : stands_for a x -> stands_for b y -> s_bop o x y (direct o a b).
Proof.
  intros A B. destruct o; cbn [s_bop direct].
  - eexists. split; [reflexivity | apply add_gives; assumption].
  - eexists. split; [reflexivity | apply sub_gives; assumption].
  - unfold m_floordiv. rewrite (stands_us _ _ A), (stands_us _ _ B). destruct (y =? 0); reflexivity.
  - destruct (Z.eqb_spec y 0) as [E|N].
    + unfold m_mod. rewrite (stands_us _ _ B). subst y. reflexivity.
    + assert (R : us_min <= x mod y <= us_max) by (eapply mod_in_range; eassumption). destruct (gives_in _ _ (mod_gives a b x y A B N) R) as (t & -> & S1). exists t. split; [reflexivity | exact S1].
  - unfold m_divmod. rewrite (stands_us _ _ A), (stands_us _ _ B). destruct (Z.eqb_spec y 0) as [E|N]; [reflexivity|].
    pose proof (mod_gives a b x y A B N) as G. unfold m_mod in G. rewrite (stands_us _ _ A), (stands_us _ _ B) in G.
    destruct (Z.eqb_spec y 0); [contradiction|].
    assert (R : us_min <= x mod y <= us_max) by (eapply mod_in_range; eassumption). destruct (gives_in _ _ G R) as (t & -> & S1). cbn. eauto.
  - rewrite (cmp_ok a b x y A B). reflexivity.
Qed.
Lemma rsub_ok a b x y : stands_for a x -> stands_for b y -> us_min <= - y -> gives (m_rsub b a) (x - y).
Proof.
  intros A B H. unfold m_rsub. assert (R : us_min <= - y <= us_max) by (us; lia).
  destruct (gives_in _ _ (neg_gives b y B) R) as (t & -> & S1). cbn [bind].
  pose proof (add_gives t a (- y) x S1 A) as G. replace (x - y) with (- y + x) by lia. exact G.
Qed.
Lemma reflected_ok o a b x y : stands_for a x -> stands_for b y ->
  (match o with BAdd | BCmp _ => True | BSub => us_min <= - y | _ => False end) -> s_bop o x y (reflected o b a).
Proof.
  intros A B H. destruct o; try contradiction; cbn [s_bop reflected].
  - eexists. split; [reflexivity|]. replace (x + y) with (y + x) by lia. apply add_gives; assumption.
  - eexists. split; [reflexivity|]. apply rsub_ok; assumption.
  - rewrite (cmp_ok b a y x B A). do 2 f_equal. destruct r; cbn [swap_rel s_rel]; lia.
Qed.
