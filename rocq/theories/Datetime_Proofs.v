From Coq Require Import ZArith List Bool Lia ZifyBool.
From Verif Require Import Py Calendar_Model Calendar_Spec Calendar_Proofs Timedelta_Model Timedelta_Spec Timedelta_Proofs Datetime_Model Datetime_Spec.
Import ListNotations.
Open Scope Z_scope.
Ltac Zify.zify_post_hook ::= Z.to_euclidean_division_equations.

Lemma date_lt a b : 1 <= a -> 1 <= b -> lex_lt (triple (s_date a)) (triple (s_date b)) = (a <? b).
Proof.
  intros A B. destruct (s_date_num a A) as (Va & Ea & _), (s_date_num b B) as (Vb & Eb & _).
  destruct (lexlt_total (s_date a) (s_date b)) as [E|[L|L]].
  - rewrite E. apply s_date_inj in E; auto. subst b. rewrite Z.ltb_irrefl.
    destruct (lex_lt _ _) eqn:F; [|reflexivity]. apply lex_lt3 in F. apply num_mono in F; auto. lia.
  - pose proof (num_mono _ _ Va Vb L). apply lex_lt3 in L. rewrite L. lia.
  - pose proof (num_mono _ _ Vb Va L). destruct (lex_lt _ _) eqn:F; [|lia]. apply lex_lt3 in F. apply num_mono in F; auto. lia.
Qed.
Lemma span_range l : in_span l -> in_range (day_of l).
Proof. intros H. apply in_range_iff. unfold in_span, day_of, us_per_day, MAXORDINAL in *. lia. Qed.
Lemma moment_rep a m : is_moment a m -> rep (dp a) (day_of (local m)).
Proof.
  intros (S & O & Y & N & _). split; [apply span_range, S|].
  destruct (ymd (dp a)) as [f|] eqn:Ey, (ord (dp a)) as [n|] eqn:En.
  - rewrite (Y f eq_refl), (N n eq_refl). auto.
  - rewrite (Y f eq_refl). auto.
  - rewrite (N n eq_refl). auto.
  - destruct O; discriminate.
Qed.
Lemma clock_eq l h m s u : clock l = (h, m, s, u) <->
  l = day_of l * us_per_day + h * 3600000000 + m * 60000000 + s * 1000000 + u /\ 0 <= h < 24 /\ 0 <= m < 60 /\ 0 <= s < 60 /\ 0 <= u < 1000000.
Proof.
  unfold clock, day_of, tod, us_per_day. split.
  - intros E. injection E as <- <- <- <-. lia.
  - intros H. repeat f_equal; lia.
Qed.
Lemma clock_intro n h m s u : 0 <= h < 24 -> 0 <= m < 60 -> 0 <= s < 60 -> 0 <= u < 1000000 ->
  let l := n * us_per_day + h * 3600000000 + m * 60000000 + s * 1000000 + u in day_of l = n /\ clock l = (h, m, s, u).
Proof.
  intros H1 H2 H3 H4. cbv zeta. set (l := _ + u). assert (E : day_of l = n) by (unfold day_of, l, us_per_day; lia).
  split; [exact E|]. apply clock_eq. rewrite E. auto.
Qed.

Section Z.
Variable concrete : Z -> bool.
Variable pick : Z -> Z * Z * Z.
Hypothesis picked : forall n, 1 <= n <= MAXORDINAL -> bridge n (pick n) = true.
Variable tz : nat -> Z * Z * Z -> Z * Z * Z * Z -> Z -> option td.
Hypothesis Z_ok : zones_ok tz.

Lemma fields_ok a m : is_moment a m -> fields concrete pick a = Ok (s_date (day_of (local m))).
Proof.
  intros M. destruct (decompose_ok concrete pick picked _ _ (moment_rep _ _ M)) as (o & E & _). unfold fields. rewrite E. reflexivity.
Qed.
Lemma ordinal_ok a m : is_moment a m -> ordinal a = Ok (day_of (local m)).
Proof. intros M. destruct (toordinal_ok _ _ (moment_rep _ _ M)) as (o & E & _). unfold ordinal. rewrite E. reflexivity. Qed.
Lemma utcoffset_ok a m : is_moment a m -> exists o, utcoffset concrete pick tz a = Ok o /\ option_map to_us o = off tz m /\
  forall t, o = Some t -> stands_for t (to_us t) /\ - us_per_day < to_us t < us_per_day.
Proof.
  intros M. pose proof (fields_ok _ _ M) as F. destruct M as (S & O & Y & N & C & Ez & Ef & Fo). unfold utcoffset, off. rewrite Ez, F. cbn [bind].
  destruct (mzone m) as [z|]; [|exists None; repeat split; auto; discriminate].
  rewrite <- C, Ef. destruct (tz z (s_date (day_of (local m))) (clock (local m)) (mfold m)) as [t|] eqn:T; cbn [check_utc_offset].
  - destruct (Z_ok _ _ _ _ _ T) as [S1 B1].
    assert (D1 : stands_for (mkTd (-1) 0 0) (- us_per_day)) by (vm_compute; repeat split; discriminate).
    assert (D2 : stands_for (mkTd 1 0 0) us_per_day) by (vm_compute; repeat split; discriminate).
    rewrite (cmp_ok _ _ _ _ D1 S1), (cmp_ok _ _ _ _ S1 D2). cbn [s_rel].
    replace (_ && _) with true by lia. exists (Some t). repeat split; try reflexivity; intros; injection H as <-; apply S1 || lia.
  - exists None. repeat split; auto; discriminate.
Qed.
Lemma dt_new_ok l z f : in_span l -> f = 0 \/ f = 1 ->
  let '(h, m, s, u) := clock l in let '(y, mo, d) := s_date (day_of l) in
  exists a, dt_new y mo d h m s u z f = Ok a /\ is_moment a (mkM l z f).
Proof.
  intros S Hf. destruct (clock l) as [[[h m] s] u] eqn:C. destruct (s_date (day_of l)) as [[y mo] d] eqn:D.
  pose proof (proj1 (clock_eq _ _ _ _ _) C) as B. unfold dt_new, check_time_fields.
  pose proof (span_range _ S) as R. destruct (date_new_ok y mo d) as [(n & Rn & En & N)|[Bad _]]; [|exfalso; exact (Bad _ R D)].
  assert (n = day_of l) as -> by (apply s_date_inj; [apply Rn | apply R | congruence]).
  unfold date_new in *. destruct (check_date_fields y mo d) as [f0|e]; [|discriminate]. cbn [bind] in *.
  replace ((0 <=? h) && (h <=? 23)) with true by lia. replace ((0 <=? m) && (m <=? 59)) with true by lia.
  replace ((0 <=? s) && (s <=? 59)) with true by lia. replace ((0 <=? u) && (u <=? 999999)) with true by lia.
  replace ((f =? 0) || (f =? 1)) with true by lia. cbn [negb bind]. injection N as ->.
  eexists. split; [reflexivity|]. unfold is_moment. cbn [dp hh mi se us zone fold local mzone mfold ymd ord].
  repeat split; auto; try (apply S); try discriminate. intros g E. congruence.
Qed.
Lemma with_fold_ok a m f : is_moment a m -> f = 0 \/ f = 1 ->
  exists a', with_fold concrete pick a f = Ok a' /\ is_moment a' (mkM (local m) (mzone m) f).
Proof.
  intros M Hf. unfold with_fold. rewrite (fields_ok _ _ M). cbn [bind]. destruct M as (S & O & Y & N & C & Ez & Ef & Fo).
  pose proof (dt_new_ok (local m) (zone a) f S Hf) as X. rewrite C in X. destruct (s_date (day_of (local m))) as [[y mo] d]. rewrite <- Ez. exact X.
Qed.
Lemma with_zone_ok a m z : is_moment a m ->
  exists a', with_zone concrete pick a z = Ok a' /\ is_moment a' (mkM (local m) z (mfold m)).
Proof.
  intros M. unfold with_zone. rewrite (fields_ok _ _ M). cbn [bind]. destruct M as (S & O & Y & N & C & Ez & Ef & Fo).
  pose proof (dt_new_ok (local m) z (fold a) S Fo) as X. rewrite C in X. destruct (s_date (day_of (local m))) as [[y mo] d]. rewrite <- Ef. exact X.
Qed.

(** *** Differences *)
Lemma off_eq_ok o o' : (forall t, o = Some t -> stands_for t (to_us t)) -> (forall t, o' = Some t -> stands_for t (to_us t)) ->
  off_eq o o' = true <-> option_map to_us o = option_map to_us o'.
Proof.
  intros H H'. destruct o as [t|], o' as [t'|]; cbn [off_eq option_map]; try (split; congruence).
  rewrite (cmp_ok _ _ _ _ (H t eq_refl) (H' t' eq_refl)). cbn [s_rel]. split; [intros E; f_equal; lia | intros E; injection E as ->; lia].
Qed.
Lemma base_ok a b m m' : is_moment a m -> is_moment b m' ->
  exists t, td3 (day_of (local m) - day_of (local m')) ((se a + mi a * 60 + hh a * 3600) - (se b + mi b * 60 + hh b * 3600)) (us a - us b) = Ok t
            /\ stands_for t (local m - local m').
Proof.
  intros (S & _ & _ & _ & C & _) (S' & _ & _ & _ & C' & _). apply clock_eq in C. apply clock_eq in C'.
  apply gives_in; [apply td3_gives; unfold us_per_day in *; lia|]. unfold in_span, us_min, us_max, us_per_day in *. lia.
Qed.
Lemma dt_diff_ok a b m m' : is_moment a m -> is_moment b m' -> s_diff tz m m' (dt_diff concrete pick tz a b).
Proof.
  intros M M'. unfold dt_diff, s_diff. rewrite (ordinal_ok _ _ M), (ordinal_ok _ _ M'). cbn [bind].
  destruct (base_ok a b m m' M M') as (t & -> & S1). cbn [bind].
  assert (zone a = mzone m) as -> by apply M. assert (zone b = mzone m') as -> by apply M'.
  destruct (same_zone (mzone m) (mzone m')); [eauto|].
  destruct (utcoffset_ok _ _ M) as (o & -> & E & V). destruct (utcoffset_ok _ _ M') as (o' & -> & E' & V'). cbn [bind].
  unfold aware, key. rewrite <- E, <- E'.
  destruct (off_eq o o') eqn:Q.
  - apply off_eq_ok in Q; [|intros x Hx; apply V, Hx|intros x Hx; apply V', Hx]. rewrite Q. destruct (option_map to_us o'); cbn [Bool.eqb].
    + exists t. split; [reflexivity|]. replace (_ - _ - _) with (local m - local m') by lia. exact S1.
    + eauto.
  - destruct o as [x|], o' as [x'|]; cbn [option_map Bool.eqb]; try reflexivity; [|discriminate].
    destruct (V x eq_refl) as [Sx Bx], (V' x' eq_refl) as [Sx' Bx'].
    assert (in_span (local m)) by apply M. assert (in_span (local m')) by apply M'.
    destruct (gives_in _ _ (add_gives t x' _ _ S1 Sx')) as (u & -> & Su); [unfold in_span, us_min, us_max, us_per_day in *; lia|]. cbn [bind].
    destruct (gives_in _ _ (sub_gives u x _ _ Su Sx)) as (v & -> & Sv); [unfold in_span, us_min, us_max, us_per_day in *; lia|].
    exists v. split; [reflexivity|]. replace (local m - to_us x - (local m' - to_us x')) with (local m - local m' + to_us x' - to_us x) by lia. exact Sv.
Qed.

(** *** Comparisons *)
Lemma lex3 y m d y' m' d' r r' : lex_lt (y :: m :: d :: r) (y' :: m' :: d' :: r') =
  lex_lt [y; m; d] [y'; m'; d'] || ((y =? y') && (m =? m') && (d =? d')) && lex_lt r r'.
Proof.
  rewrite !lex_lt_cons, lex_lt_nil. destruct (y <? y'), (y =? y'), (m <? m'), (m =? m'), (d <? d'), (d =? d'), (lex_lt r r'); reflexivity.
Qed.
Lemma lex_clock a b m m' : is_moment a m -> is_moment b m' ->
  (day_of (local m) <? day_of (local m')) || (day_of (local m) =? day_of (local m')) && lex_lt [hh a; mi a; se a; us a] [hh b; mi b; se b; us b]
  = (local m <? local m').
Proof.
  intros (_ & _ & _ & _ & C & _) (_ & _ & _ & _ & C' & _). apply clock_eq in C. apply clock_eq in C'. rewrite !lex_lt_cons, lex_lt_nil.
  unfold us_per_day in *. lia.
Qed.
Lemma base_cmp a b m m' : is_moment a m -> is_moment b m' ->
  exists c, match ymd (dp a), ymd (dp b) with
    | Some (y, m, d), Some (y', m', d') =>
        Ok (cmp [y; m; d; hh a; mi a; se a; us a] [y'; m'; d'; hh b; mi b; se b; us b])
    | _, _ => do n <- ordinal a; do n' <- ordinal b;
              Ok (cmp [n; hh a; mi a; se a; us a] [n'; hh b; mi b; se b; us b])
    end = Ok c /\ forall r, rel_of r c = s_rel r (local m) (local m').
Proof.
  intros M M'. rewrite (ordinal_ok _ _ M), (ordinal_ok _ _ M'). cbn [bind].
  pose proof (lex_clock _ _ _ _ M M') as L. pose proof (lex_clock _ _ _ _ M' M) as L'.
  assert (Fin : forall c, c = b2z (local m' <? local m) - b2z (local m <? local m') -> forall r, rel_of r c = s_rel r (local m) (local m')).
  { intros c -> r. destruct (Z.ltb_spec (local m') (local m)), (Z.ltb_spec (local m) (local m')); destruct r; cbn [rel_of s_rel b2z]; lia. }
  assert (Slow : exists c, Ok (cmp [day_of (local m); hh a; mi a; se a; us a] [day_of (local m'); hh b; mi b; se b; us b]) = Ok c /\ forall r, rel_of r c = s_rel r (local m) (local m')).
  { eexists. split; [reflexivity|]. apply Fin. unfold cmp.
    assert (E1 : lex_lt [day_of (local m); hh a; mi a; se a; us a] [day_of (local m'); hh b; mi b; se b; us b] = (local m <? local m')) by (rewrite lex_lt_cons; exact L).
    assert (E2 : lex_lt [day_of (local m'); hh b; mi b; se b; us b] [day_of (local m); hh a; mi a; se a; us a] = (local m' <? local m)) by (rewrite lex_lt_cons; exact L').
    rewrite E1, E2. reflexivity. }
  destruct (ymd (dp a)) as [[[y mo] d]|] eqn:Ya; [|exact Slow]. destruct (ymd (dp b)) as [[[y' mo'] d']|] eqn:Yb; [|exact Slow].
  eexists. split; [reflexivity|]. apply Fin. unfold cmp. rewrite (lex3 y' mo' d' y mo d [hh b; mi b; se b; us b] [hh a; mi a; se a; us a]), (lex3 y mo d y' mo' d' [hh a; mi a; se a; us a] [hh b; mi b; se b; us b]).
  assert (R : in_range (day_of (local m))) by apply span_range, M. assert (R' : in_range (day_of (local m'))) by apply span_range, M'.
  assert (Da : (y, mo, d) = s_date (day_of (local m))) by (destruct M as (_ & _ & Y & _); apply Y, Ya).
  assert (Db : (y', mo', d') = s_date (day_of (local m'))) by (destruct M' as (_ & _ & Y & _); apply Y, Yb).
  pose proof (date_lt _ _ (proj1 R) (proj1 R')) as X. pose proof (date_lt _ _ (proj1 R') (proj1 R)) as X'. rewrite <- Da, <- Db in X, X'. cbn [triple] in X, X'.
  assert (Q : (y =? y') && (mo =? mo') && (d =? d') = (day_of (local m) =? day_of (local m'))).
  { destruct (Z.eqb_spec (day_of (local m)) (day_of (local m'))) as [E|E].
    - rewrite E in Da. rewrite <- Db in Da. injection Da as -> -> ->. rewrite !Z.eqb_refl. reflexivity.
    - destruct ((y =? y') && (mo =? mo') && (d =? d')) eqn:B; [|reflexivity]. exfalso. apply E. apply s_date_inj; [apply R | apply R'|].
      rewrite <- Da, <- Db. repeat f_equal; lia. }
  assert (Q' : (y' =? y) && (mo' =? mo) && (d' =? d) = (day_of (local m') =? day_of (local m))) by (rewrite (Z.eqb_sym y' y), (Z.eqb_sym mo' mo), (Z.eqb_sym d' d), (Z.eqb_sym (day_of (local m')) _); exact Q).
  rewrite X, X', Q, Q'. f_equal; f_equal; [exact L' | exact L].
Qed.
Lemma flip_ok a m : is_moment a m -> exists a', with_fold concrete pick a (if fold a =? 0 then 1 else 0) = Ok a' /\
  is_moment a' (mkM (local m) (mzone m) (1 - mfold m)).
Proof.
  intros M. assert (E : (if fold a =? 0 then 1 else 0) = 1 - mfold m) by (destruct M as (_ & _ & _ & _ & _ & _ & <- & [->| ->]); reflexivity).
  rewrite E. apply with_fold_ok; [exact M|]. destruct M as (_ & _ & _ & _ & _ & _ & <- & [->| ->]); auto.
Qed.
Definition two_ (a b : dt) myoff otoff : res bool :=
  do a' <- with_fold concrete pick a (if fold a =? 0 then 1 else 0);
  do o' <- utcoffset concrete pick tz a';
  if negb (off_eq myoff o') then Ok true else
  do b' <- with_fold concrete pick b (if fold b =? 0 then 1 else 0);
  do o'' <- utcoffset concrete pick tz b';
  Ok (negb (off_eq otoff o'')).
Lemma two_ok a b m m' o o' : is_moment a m -> is_moment b m' ->
  utcoffset concrete pick tz a = Ok o -> utcoffset concrete pick tz b = Ok o' ->
  exists t, two_ a b o o' = Ok t /\ (t = false <-> ~ problematic tz m /\ ~ problematic tz m').
Proof.
  intros M M' E E'. unfold two_, problematic.
  destruct (flip_ok _ _ M) as (a1 & -> & M1). cbn [bind]. destruct (flip_ok _ _ M') as (b1 & -> & M1').
  destruct (utcoffset_ok _ _ M) as (p & Ep & Op & Vp). destruct (utcoffset_ok _ _ M') as (p' & Ep' & Op' & Vp').
  destruct (utcoffset_ok _ _ M1) as (q & -> & Oq & Vq). destruct (utcoffset_ok _ _ M1') as (q' & Eq' & Oq' & Vq'). cbn [bind].
  rewrite E in Ep. injection Ep as <-. rewrite E' in Ep'. injection Ep' as <-.
  rewrite <- Op, <- Op', <- Oq, <- Oq'.
  assert (X : off_eq o q = true <-> option_map to_us o = option_map to_us q) by (apply off_eq_ok; [intros t H; apply Vp, H | intros t H; apply Vq, H]).
  assert (X' : off_eq o' q' = true <-> option_map to_us o' = option_map to_us q') by (apply off_eq_ok; [intros t H; apply Vp', H | intros t H; apply Vq', H]).
  destruct (off_eq o q) eqn:Q; cbn [negb].
  - rewrite Eq'. cbn [bind]. eexists. split; [reflexivity|]. destruct (off_eq o' q') eqn:Q'; cbn [negb].
    + split; [|reflexivity]. intros _. split; intros N; [apply N, X; reflexivity | apply N, X'; reflexivity].
    + split; [discriminate|]. intros [_ N]. exfalso. apply N. intros F. apply X' in F. discriminate.
  - eexists. split; [reflexivity|]. split; [discriminate|]. intros [N _]. exfalso. apply N. intros F. apply X in F. discriminate.
Qed.
Lemma diff_sign t x : stands_for t x -> forall r, rel_of r (if days t <? 0 then -1 else if m_bool t then 1 else 0) = s_rel r x 0.
Proof.
  intros S r. rewrite (bool_ok t x S). assert (E : (days t <? 0) = (x <? 0)) by (unfold stands_for, us_per_day in S; lia). rewrite E.
  destruct (Z.ltb_spec x 0); [|destruct (Z.eqb_spec x 0); cbn [negb]]; destruct r; cbn [rel_of s_rel]; lia.
Qed.
Lemma dt_rel_ok r a b m m' : is_moment a m -> is_moment b m' -> s_order tz r m m' (dt_rel concrete pick tz r a b).
Proof.
  intros M M'. unfold dt_rel, dt_cmp, s_order.
  assert (zone a = mzone m) as -> by apply M. assert (zone b = mzone m') as -> by apply M'.
  destruct (base_cmp _ _ _ _ M M') as (c & Ec & Hc).
  destruct (same_zone (mzone m) (mzone m')) eqn:SZ.
  { cbn [bind]. rewrite Ec. cbn [bind]. rewrite Hc. reflexivity. }
  pose proof (dt_diff_ok _ _ _ _ M M') as DD. unfold s_diff in DD. rewrite SZ in DD.
  destruct (utcoffset_ok _ _ M) as (o & Eo & Oo & Vo). destruct (utcoffset_ok _ _ M') as (o' & Eo' & Oo' & Vo').
  destruct (two_ok _ _ _ _ _ _ M M' Eo Eo') as (t & Et & Ht). unfold two_ in Et.
  rewrite Eo, Eo'. cbn [bind].
  pose proof (off_eq_ok o o' (fun t H => proj1 (Vo t H)) (fun t H => proj1 (Vo' t H))) as OE.
  (* the comparison that does not look at the fold *)
  assert (Core : (aware tz m = aware tz m' /\ exists c, (if off_eq o o' then
                    match ymd (dp a), ymd (dp b) with
                    | Some (y, m, d), Some (y', m', d') =>
                        Ok (cmp [y; m; d; hh a; mi a; se a; us a] [y'; m'; d'; hh b; mi b; se b; us b])
                    | _, _ => do n <- ordinal a; do n' <- ordinal b;
                              Ok (cmp [n; hh a; mi a; se a; us a] [n'; hh b; mi b; se b; us b])
                    end
                  else match o, o' with
                  | Some _, Some _ => do diff <- dt_diff concrete pick tz a b;
                                      if days diff <? 0 then Ok (-1) else Ok (if m_bool diff then 1 else 0)
                  | _, _ => Err TypeError
                  end) = Ok c /\ forall r, rel_of r c = s_rel r (key tz m) (key tz m')) \/
                 (aware tz m <> aware tz m' /\ off_eq o o' = false /\ (o = None \/ o' = None))).
  { unfold aware, key in *. rewrite <- Oo, <- Oo' in *. destruct (off_eq o o') eqn:Q.
    - left. pose proof (proj1 OE eq_refl) as E. rewrite E. split; [reflexivity|]. exists c. split; [exact Ec|]. intros k. rewrite Hc.
      destruct (option_map to_us o') as [w|]; [|reflexivity]. destruct k; cbn [s_rel]; lia.
    - destruct o as [x|], o' as [x'|]; cbn [option_map] in *.
      + left. split; [reflexivity|]. cbn [Bool.eqb] in DD. destruct DD as (d & -> & Sd). cbn [bind].
        pose proof (diff_sign _ _ Sd) as G. exists (if days d <? 0 then -1 else if m_bool d then 1 else 0).
        split; [destruct (days d <? 0); reflexivity|]. intros k. rewrite G. destruct k; cbn [s_rel]; lia.
      + right. split; [discriminate|]. split; [reflexivity | right; reflexivity].
      + right. split; [discriminate|]. split; [reflexivity | left; reflexivity].
      + exfalso. destruct OE as [_ OE]. discriminate (OE eq_refl). }
  cbv zeta.
  assert (Eq : (r = REq \/ r = RNe) -> exists c, (do r <- (do two <- Ok t; Ok (off_eq o o', (o, o'), two));
      let '(base_compare, (myoff, otoff), two) := r in
      if two then Ok 2 else
      if base_compare then
        match ymd (dp a), ymd (dp b) with
        | Some (y, m, d), Some (y', m', d') =>
            Ok (cmp [y; m; d; hh a; mi a; se a; us a] [y'; m'; d'; hh b; mi b; se b; us b])
        | _, _ => do n <- ordinal a; do n' <- ordinal b;
                  Ok (cmp [n; hh a; mi a; se a; us a] [n'; hh b; mi b; se b; us b])
        end
      else match myoff, otoff with
      | Some _, Some _ => do diff <- dt_diff concrete pick tz a b;
                          if days diff <? 0 then Ok (-1) else Ok (if m_bool diff then 1 else 0)
      | _, _ => Ok 2
      end) = Ok c /\ (c = 0 <-> aware tz m = aware tz m' /\ key tz m = key tz m' /\ ~ problematic tz m /\ ~ problematic tz m')).
  { intros _. cbn [bind]. destruct t.
    - exists 2. split; [reflexivity|]. split; [discriminate|]. intros (_ & _ & P). apply Ht in P. discriminate.
    - destruct Core as [[A (c0 & E0 & H0)]|(A & Q & N)].
      + exists c0. split.
        * destruct (off_eq o o'); [exact E0|]. destruct o, o'; try discriminate; exact E0.
        * pose proof (H0 REq) as HE. cbn [rel_of s_rel] in HE. split; [intros ->|intros (_ & K & _); lia].
          split; [exact A|]. split; [cbn in HE; lia|]. apply Ht. reflexivity.
      + rewrite Q. exists 2. split; [destruct N as [-> | ->]; [reflexivity|destruct o; reflexivity]|]. split; [discriminate|]. intros (F & _). contradiction. }
  assert (Ord : (r <> REq /\ r <> RNe) -> forall R, (do c <- (do r <- (do two <- Ok false; Ok (off_eq o o', (o, o'), two));
      let '(base_compare, (myoff, otoff), two) := r in
      if two then Ok 2 else
      if base_compare then
        match ymd (dp a), ymd (dp b) with
        | Some (y, m, d), Some (y', m', d') =>
            Ok (cmp [y; m; d; hh a; mi a; se a; us a] [y'; m'; d'; hh b; mi b; se b; us b])
        | _, _ => do n <- ordinal a; do n' <- ordinal b;
                  Ok (cmp [n; hh a; mi a; se a; us a] [n'; hh b; mi b; se b; us b])
        end
      else match myoff, otoff with
      | Some _, Some _ => do diff <- dt_diff concrete pick tz a b;
                          if days diff <? 0 then Ok (-1) else Ok (if m_bool diff then 1 else 0)
      | _, _ => Err TypeError
      end); Ok (rel_of R c)) = if Bool.eqb (aware tz m) (aware tz m') then Ok (s_rel R (key tz m) (key tz m')) else Err TypeError).
  { intros _ R. cbn [bind]. destruct Core as [[A (c0 & E0 & H0)]|(A & Q & N)].
    - rewrite A, Bool.eqb_reflx. rewrite E0. cbn [bind]. rewrite H0. reflexivity.
    - rewrite Q. destruct (Bool.eqb _ _) eqn:B; [apply Bool.eqb_prop in B; contradiction|]. destruct N as [-> | ->]; [reflexivity | destruct o; reflexivity]. }
  destruct r.
  - rewrite Et. destruct (Eq (or_introl eq_refl)) as (c0 & -> & H0). cbn [bind rel_of]. destruct (Z.eqb_spec c0 0) as [Z0|Z0]; [left; split; [reflexivity | apply H0, Z0] | right; split; [reflexivity|]; intros F; apply Z0, H0, F].
  - rewrite Et. destruct (Eq (or_intror eq_refl)) as (c0 & -> & H0). cbn [bind rel_of]. destruct (Z.eqb_spec c0 0) as [Z0|Z0]; [left; split; [reflexivity | apply H0, Z0] | right; split; [reflexivity|]; intros F; apply Z0, H0, F].
  - rewrite (Ord ltac:(split; discriminate) RLt). destruct (Bool.eqb _ _); reflexivity.
  - rewrite (Ord ltac:(split; discriminate) RLe). destruct (Bool.eqb _ _); reflexivity.
  - rewrite (Ord ltac:(split; discriminate) RGt). destruct (Bool.eqb _ _); reflexivity.
  - rewrite (Ord ltac:(split; discriminate) RGe). destruct (Bool.eqb _ _); reflexivity.
Qed.

(** *** Adding a timedelta *)
Lemma span_dec l : {in_span l} + {~ in_span l}.
Proof. unfold in_span. destruct (Z_le_dec us_per_day l); [|right; lia]. destruct (Z_lt_dec l (3652060 * us_per_day)); [left; lia | right; lia]. Qed.
Lemma dt_add_ok a m t x : is_moment a m -> stands_for t x ->
  (in_span (local m + x) /\ exists b, dt_add a t = Ok b /\ is_moment b (mkM (local m + x) (mzone m) 0)) \/
  (~ in_span (local m + x) /\ dt_add a t = Err OverflowError).
Proof.
  intros M T. unfold dt_add. rewrite (ordinal_ok _ _ M). cbn [bind].
  assert (C : clock (local m) = (hh a, mi a, se a, us a)) by apply M. apply clock_eq in C.
  assert (S : in_span (local m)) by apply M.
  pose proof (td_new_gives (day_of (local m)) (se a) (us a) 0 (mi a) (hh a) 0) as G.
  replace (_ + 1000 * 0) with (local m) in G by (unfold us_per_day in *; lia).
  destruct (gives_in _ _ G) as (d & -> & Sd); [unfold in_span, us_min, us_max, us_per_day in *; lia|]. cbn [bind].
  destruct (add_gives d t _ _ Sd T) as [[R (e & -> & Se)]|[R ->]].
  2:{ right. split; [unfold in_span, us_min, us_max, us_per_day in *; lia | reflexivity]. }
  cbn [bind]. set (l := local m + x) in *. clearbody l.
  assert (Ed : days e = day_of l) by (unfold stands_for, us_per_day, day_of, us_per_day in *; lia).
  destruct ((0 <? days e) && (days e <=? MAXORDINAL)) eqn:B.
  - left. assert (Sl : in_span l) by (unfold in_span, MAXORDINAL, day_of, us_per_day in *; lia). split; [exact Sl|].
    eexists. split; [reflexivity|]. unfold is_moment, dt_from_ordinal. cbn [dp hh mi se us zone fold local mzone mfold ymd ord].
    rewrite Ed. split; [exact Sl|]. split; [auto|]. split; [discriminate|]. split; [congruence|]. split; [|split; [apply M | auto]].
    apply clock_eq. rewrite <- Ed. unfold stands_for, us_per_day in *. lia.
  - right. split; [|reflexivity]. rewrite Ed in B. unfold in_span, MAXORDINAL, day_of, us_per_day in *. lia.
Qed.
Lemma dt_sub_ok a m t x : is_moment a m -> stands_for t x ->
  (in_span (local m - x) /\ exists b, dt_sub a t = Ok b /\ is_moment b (mkM (local m - x) (mzone m) 0)) \/
  (~ in_span (local m - x) /\ dt_sub a t = Err OverflowError).
Proof.
  intros M T. unfold dt_sub. assert (S : in_span (local m)) by apply M.
  destruct (neg_gives t x T) as [[R (n & -> & Sn)]|[R ->]]; cbn [bind].
  - exact (dt_add_ok a m n (- x) M Sn).
  - right. split; [|reflexivity]. destruct T as (_ & _ & _ & T). unfold in_span, us_min, us_max, us_per_day in *. lia.
Qed.

(** *** Hashing *)
Lemma dt_hash_ok a m : is_moment a m -> exists h, dt_hash concrete pick tz a = Ok h /\
  match off tz (mkM (local m) (mzone m) 0) with
  | None => h = HNaive (s_date (day_of (local m))) (clock (local m))
  | Some o => exists t, h = HAware t /\ stands_for t (local m - o)
  end.
Proof.
  intros M. unfold dt_hash.
  assert (X : exists a', (if fold a =? 0 then Ok a else with_fold concrete pick a 0) = Ok a' /\ is_moment a' (mkM (local m) (mzone m) 0)).
  { destruct (Z.eqb_spec (fold a) 0) as [E|E]; [|apply with_fold_ok; auto].
    exists a. split; [reflexivity|]. assert (mfold m = 0) by (destruct M as (_ & _ & _ & _ & _ & _ & <- & _); exact E).
    destruct m as [l z f]. cbn [mfold local mzone] in *. subst f. exact M. }
  destruct X as (a' & -> & M'). cbn [bind]. rewrite (fields_ok _ _ M'). cbn [local] in *.
  destruct (utcoffset_ok _ _ M') as (o & -> & O & V). rewrite <- O. cbn [bind].
  assert (C : clock (local m) = (hh a, mi a, se a, us a)) by apply M. assert (S : in_span (local m)) by apply M.
  destruct o as [t|]; cbn [option_map].
  - destruct (span_range _ S) as [R _]. destruct (s_date_num _ R) as (Vd & Ed & _). destruct (s_date (day_of (local m))) as [[y mo] d].
    rewrite (ymd2ord_num _ _ _ Vd), Ed. cbn [bind]. destruct (V t eq_refl) as [St Bt]. apply clock_eq in C.
    destruct (gives_in (td3 (day_of (local m)) (hh a * 3600 + mi a * 60 + se a) (us a)) (local m)) as (w & -> & Sw);
      [apply td3_gives; unfold us_per_day in *; lia | unfold in_span, us_min, us_max, us_per_day in *; lia |]. cbn [bind].
    destruct (gives_in _ _ (sub_gives w t _ _ Sw St)) as (v & -> & Sv); [unfold in_span, us_min, us_max, us_per_day in *; lia|].
    eexists. split; [reflexivity|]. eauto.
  - eexists. split; [reflexivity|]. f_equal. symmetry. apply M'.
Qed.
Lemma same_zone_eq z z' : same_zone z z' = true -> z = z'.
Proof. destruct z as [z|], z' as [z'|]; cbn; try discriminate; auto. intros H. f_equal. apply Nat.eqb_eq, H. Qed.
Lemma not_problematic m : mfold m = 0 \/ mfold m = 1 -> ~ problematic tz m -> off tz (mkM (local m) (mzone m) 0) = off tz m.
Proof.
  intros [E|E] H; destruct m as [l z f]; cbn [mfold local mzone] in *; subst f; [reflexivity|].
  unfold problematic in H. cbn [local mzone mfold] in H. change (1 - 1) with 0 in H.
  assert (Dec : {off tz (mkM l z 1) = off tz (mkM l z 0)} + {off tz (mkM l z 1) <> off tz (mkM l z 0)}) by (decide equality; apply Z.eq_dec).
  destruct Dec as [D|D]; [auto | contradiction].
Qed.
Lemma hash_eq a b m m' : is_moment a m -> is_moment b m' -> dt_rel concrete pick tz REq a b = Ok true ->
  exists h, dt_hash concrete pick tz a = Ok h /\ dt_hash concrete pick tz b = Ok h.
Proof.
  intros M M' E. pose proof (dt_rel_ok REq a b m m' M M') as H. rewrite E in H. unfold s_order in H.
  destruct (dt_hash_ok _ _ M) as (h & Eh & Hh). destruct (dt_hash_ok _ _ M') as (h' & Eh' & Hh'). exists h. split; [exact Eh|]. rewrite Eh'. f_equal.
  destruct (same_zone (mzone m) (mzone m')) eqn:Z.
  - apply same_zone_eq in Z. injection H as H. assert (L : local m = local m') by (cbn [s_rel] in H; lia). rewrite <- Z, <- L in Hh'.
    destruct (off tz _) as [o|]; [|congruence]. destruct Hh as (t & -> & S1), Hh' as (t' & -> & S2). f_equal. eapply stands_inj; eassumption.
  - destruct H as [[_ (A & K & P & P')]|[F _]]; [|discriminate].
    rewrite (not_problematic m) in Hh; [|destruct M as (_ & _ & _ & _ & _ & _ & <- & F); exact F|exact P].
    rewrite (not_problematic m') in Hh'; [|destruct M' as (_ & _ & _ & _ & _ & _ & <- & F); exact F|exact P'].
    unfold aware, key in *. destruct (off tz m), (off tz m'); try discriminate.
    + destruct Hh as (t & -> & S1), Hh' as (t' & -> & S2). rewrite K in S1. f_equal. eapply stands_inj; eassumption.
    + rewrite K in Hh. congruence.
Qed.

(** *** astimezone *)
Lemma astimezone_ok a m mz o z offset x : is_moment a m -> mzone m = Some mz -> off tz m = Some o ->
  stands_for offset x -> z <> mz ->
  let l := local m - o in
  (in_span l /\ in_span (l + x) /\ exists b, dt_astimezone concrete pick tz a z offset = Ok b /\ is_moment b (mkM (l + x) (Some z) 0)) \/
  (~ (in_span l /\ in_span (l + x)) /\ dt_astimezone concrete pick tz a z offset = Err OverflowError).
Proof.
  intros M Ez Eo Sx Nz l. unfold dt_astimezone. assert (zone a = Some mz) as -> by (rewrite <- Ez; apply M).
  destruct (utcoffset_ok _ _ M) as (p & -> & P & V). cbn [bind]. rewrite Eo in P. destruct p as [p|]; [|discriminate]. injection P as P.
  destruct (V p eq_refl) as [Sp _]. rewrite P in Sp. destruct (Nat.eqb_spec z mz); [contradiction|].
  destruct (dt_sub_ok a m p o M Sp) as [[S1 (b & -> & Mb)]|[S1 ->]]; cbn [bind]; [|right; split; [tauto | reflexivity]].
  destruct (with_zone_ok b _ (Some z) Mb) as (b' & -> & Mb'). cbn [bind local mzone mfold] in *.
  destruct (dt_add_ok b' _ offset x Mb' Sx) as [[S2 (c & -> & Mc)]|[S2 ->]]; cbn [local mzone mfold] in *.
  - left. split; [exact S1|]. split; [exact S2|]. eauto.
  - right. split; [tauto | reflexivity].
Qed.
End Z.
