From Coq Require Import ZArith List Bool Lia ZifyBool ZifyNat.
From Verif Require Import Py Calendar_Model Calendar_Spec Calendar_Proofs Timedelta_Model Timedelta_Spec Timedelta_Proofs
  Datetime_Model Parse_Spec Iso_Model Iso_Spec Time_Proofs.
Import ListNotations.
Open Scope Z_scope.
Ltac Zify.zify_post_hook ::= Z.to_euclidean_division_equations.

Lemma number_snoc d c : number (d ++ [c]) = number d * 10 + (c - 48).
Proof. unfold number. rewrite fold_left_app. reflexivity. Qed.
Lemma show_ok fuel : forall n w acc, 0 <= n < 10 ^ Z.of_nat (S w) -> n < 2 ^ Z.of_nat fuel ->
  (0 < fuel)%nat ->
  exists d, show fuel n acc = d ++ acc /\ (length d <= S w)%nat /\ forallb digit d = true /\ number d = n.
Proof.
  induction fuel as [|fuel IH]; intros n w acc H F P; [lia|]. cbn [show].
  destruct (Z.ltb_spec n 10) as [L|L].
  - exists [48 + n]. split; [reflexivity|]. split; [cbn; lia|]. split; [cbn [forallb]; unfold digit; lia|].
    unfold number. cbn [fold_left]. lia.
  - destruct w as [|w]; [change (10 ^ Z.of_nat 1) with 10 in H; lia|].
    assert (F1 : 2 ^ Z.of_nat (S fuel) = 2 * 2 ^ Z.of_nat fuel) by (rewrite Nat2Z.inj_succ, Z.pow_succ_r by lia; reflexivity).
    assert (H1 : 10 ^ Z.of_nat (S (S w)) = 10 * 10 ^ Z.of_nat (S w)) by (rewrite (Nat2Z.inj_succ (S w)), Z.pow_succ_r by lia; reflexivity).
    assert (P' : (0 < fuel)%nat) by (destruct fuel; [change (2 ^ Z.of_nat 1) with 2 in F; lia | lia]).
    destruct (IH (n / 10) w (48 + n mod 10 :: acc)) as (d & E & Ld & Dd & Nd); [lia | lia | exact P' |].
    exists (d ++ [48 + n mod 10]). rewrite E, <- app_assoc. split; [reflexivity|]. rewrite app_length. split; [cbn; lia|].
    rewrite forallb_app, Dd. cbn [forallb]. split; [unfold digit; lia|]. rewrite number_snoc, Nd. lia.
Qed.
Lemma number_zeros k d : number (repeat 48 k ++ d) = number d.
Proof. induction k as [|k IH]; [reflexivity|]. cbn [repeat app]. rewrite <- IH. reflexivity. Qed.
Lemma pad_ok w n : 0 <= n < 10 ^ Z.of_nat (S w) -> written (S w) n (pad (S w) n).
Proof.
  intros H. unfold pad. destruct (Z.ltb_spec n 0); [lia|]. cbn [app length]. rewrite Nat.sub_0_r.
  destruct (show_ok (S (Z.to_nat (Z.log2 n))) n w [] H) as (d & E & L & D & N); [|lia|].
  { rewrite Nat2Z.inj_succ, Z2Nat.id by apply Z.log2_nonneg. destruct (Z.eq_dec n 0) as [->|]; [reflexivity|]. apply Z.log2_spec. lia. }
  rewrite E, app_nil_r. split; [rewrite app_length, repeat_length; lia|]. split; [|rewrite number_zeros; exact N].
  rewrite forallb_app, D, andb_true_r. apply forallb_forall. intros x I. apply repeat_spec in I. subst. reflexivity.
Qed.
Lemma written_bound w n s : written w n s -> 0 <= n < 10 ^ Z.of_nat w.
Proof.
  intros (L & D & N). subst w n. induction s as [|c s IH] using rev_ind; [split; reflexivity || discriminate|].
  rewrite forallb_app in D. apply andb_true_iff in D. destruct D as [D1 D2]. specialize (IH D1). cbn [forallb] in D2. unfold digit in D2.
  rewrite number_snoc, app_length. replace (length s + length [c])%nat with (S (length s)) by (cbn; lia). rewrite Nat2Z.inj_succ, Z.pow_succ_r by lia. lia.
Qed.
Ltac explode :=
  repeat match goal with H : written ?w ?n ?s |- _ =>
    let L := fresh "L" in let D := fresh "D" in let N := fresh "N" in let B := fresh "B" in
    pose proof (written_bound _ _ _ H) as B; destruct H as (L & D & N);
    repeat (destruct s as [|? s]; cbn [length] in L; try discriminate L); clear L end.

Definition plain (s : list Z) : Prop := Forall (fun x => x <> 45 /\ x <> 43) s.
Lemma clock_plain p s c : clock_text p s c -> plain s.
Proof.
  intros [H h HH|H M h m HH HM|H M S h m s' HH HM HS|H M S F h m s' f HH HM HS HF|H M S F h m s' f HH HM HS HF]; explode; cbn [forallb] in *; unfold digit in *; cbn [app];
    repeat constructor; lia.
Qed.
Definition text_length (p : part) : nat := match p with PH => 2 | PHM => 5 | PHMS => 8 | PMilli => 12 | PMicro => 15 end.
Lemma clock_length p s c : clock_text p s c -> length s = text_length p.
Proof. intros [H h HH|H M h m HH HM|H M S h m s' HH HM HS|H M S F h m s' f HH HM HS HF|H M S F h m s' f HH HM HS HF]; explode; reflexivity. Qed.
Lemma clock_bounds p s c : clock_text p s c -> let '(h, m, x, u) := c in 0 <= h < 100 /\ 0 <= m < 100 /\ 0 <= x < 100 /\ 0 <= u < 1000000.
Proof.
  intros [H h HH|H M h m HH HM|H M S h m s' HH HM HS|H M S F h m s' f HH HM HS HF|H M S F h m s' f HH HM HS HF];
  repeat match goal with H : written _ _ _ |- _ => apply written_bound in H; cbn in H end; lia.
Qed.
Lemma find1_plain c s : plain s -> c = 45 \/ c = 43 -> find1 c s = O.
Proof.
  intros P C. induction P as [|x s X P IH]; [reflexivity|]. cbn [find1]. rewrite IH. destruct (Z.eqb_spec x c); [lia | reflexivity].
Qed.
Lemma find1_at c s r : plain s -> c = 45 \/ c = 43 -> find1 c (s ++ c :: r) = S (length s).
Proof.
  intros P C. induction P as [|x s X P IH]; cbn [find1 app length]; [rewrite Z.eqb_refl; reflexivity|]. rewrite IH. destruct (Z.eqb_spec x c); [lia | reflexivity].
Qed.
Lemma timezone_ok o x : stands_for o x ->
  (real_offset (Some x) /\ exists z, timezone_new o = Ok z /\ stands_for z x) \/ (~ real_offset (Some x) /\ timezone_new o = Err ValueError).
Proof.
  intros H. unfold timezone_new, real_offset. rewrite (bool_ok _ _ H), negb_involutive.
  assert (S1 : stands_for minoffset (-86399999999)) by (vm_compute; repeat split; discriminate).
  assert (S2 : stands_for maxoffset 86399999999) by (vm_compute; repeat split; discriminate).
  rewrite (cmp_ok _ _ _ _ S1 H), (cmp_ok _ _ _ _ H S2). cbn [s_rel]. unfold us_per_day.
  destruct (Z.eqb_spec x 0) as [->|N].
  - left. split; [lia|]. exists (mkTd 0 0 0). split; [reflexivity|]. vm_compute. repeat split; discriminate.
  - destruct ((-86399999999 <=? x) && (x <=? 86399999999)) eqn:E; cbn [negb]; [left|right]; (split; [lia|]); [exists o; auto | reflexivity].
Qed.

Section Int.
Variable int : list Z -> res Z.
Hypothesis int_digits : forall s, s <> [] -> (length s <= 6)%nat -> forallb digit s = true -> int s = Ok (number s).

Ltac run := cbn [app slice char skipn firstn length nth_error Nat.sub Nat.add Nat.ltb Nat.leb Nat.eqb bind fst snd negb orb andb nth Z.eqb Pos.eqb hh_mm_ss];
  repeat (rewrite int_digits by first [discriminate | cbn; lia | assumption]; cbn [app slice char skipn firstn length nth_error Nat.sub Nat.add Nat.ltb Nat.leb Nat.eqb bind fst snd negb orb andb nth Z.eqb Pos.eqb hh_mm_ss]).
Lemma parse_date_ok s f : date_text s f -> length s = 10%nat /\ parse_date int s = Ok f.
Proof.
  intros [Y M D y m d HY HM HD]. explode. subst. split; [reflexivity|]. unfold parse_date, char, slice. run. reflexivity.
Qed.
Lemma parse_clock_ok p s c : clock_text p s c -> parse_clock int s = Ok c.
Proof. intros [H h HH|H M h m HH HM|H M S h m s' HH HM HS|H M S F h m s' f HH HM HS HF|H M S F h m s' f HH HM HS HF]; explode; subst; unfold parse_clock, char, slice; run; reflexivity. Qed.
Lemma parse_time_plain p s c : clock_text p s c -> parse_time int s = Ok (c, None).
Proof.
  intros T. unfold parse_time. pose proof (clock_length _ _ _ T) as L. replace (length s <? 2)%nat with false by (destruct p; cbn in L; lia).
  rewrite !find1_plain by eauto using clock_plain. cbn [Nat.ltb Nat.leb]. rewrite (parse_clock_ok _ _ _ T). reflexivity.
Qed.
Lemma parse_time_zone p s c p' s' c' sg : clock_text p s c -> clock_text p' s' c' -> p' = PHM \/ p' = PHMS \/ p' = PMicro -> sg = 45 \/ sg = 43 ->
  let x := (if sg =? 45 then -1 else 1) * span_us c' in
  (real_offset (Some x) /\ exists z, parse_time int (s ++ sg :: s') = Ok (c, Some z) /\ stands_for z x) \/
  (~ real_offset (Some x) /\ parse_time int (s ++ sg :: s') = Err ValueError).
Proof.
  intros T T' P' G. cbv zeta. unfold parse_time. pose proof (clock_length _ _ _ T) as L.
  replace (length (s ++ sg :: s') <? 2)%nat with false by (rewrite app_length; destruct p; cbn in L; lia).
  assert (F : match find1 45 (s ++ sg :: s') with O => find1 43 (s ++ sg :: s') | S k => S k end = S (length s)).
  { destruct G as [->| ->].
    - rewrite find1_at by eauto using clock_plain. reflexivity.
    - assert (Q : find1 45 (s ++ 43 :: s') = O).
      { assert (A : plain s) by eauto using clock_plain. assert (B : plain s') by eauto using clock_plain.
        clear -A B. induction A as [|x s X A IH]; cbn [app find1]; [rewrite (find1_plain 45 s') by auto; reflexivity|].
        rewrite IH. destruct (Z.eqb_spec x 45); [lia | reflexivity]. }
      rewrite Q. apply find1_at; eauto using clock_plain. }
  rewrite F.
  cbn [Nat.ltb Nat.leb]. replace (S (length s) - 1)%nat with (length s) by lia. rewrite firstn_app, firstn_all, Nat.sub_diag. cbn [firstn]. rewrite app_nil_r, (parse_clock_ok _ _ _ T). cbn [bind].
  replace (skipn (S (length s)) (s ++ sg :: s')) with s' by (rewrite skipn_app, skipn_all2, Nat.sub_succ_l, Nat.sub_diag by lia; reflexivity).
  pose proof (clock_length _ _ _ T') as L'.
  replace (negb _) with false by (destruct P' as [->|[->| ->]]; cbn in L'; rewrite L'; reflexivity).
  rewrite (parse_clock_ok _ _ _ T'). cbn [bind]. pose proof (clock_bounds _ _ _ T') as B. destruct c' as [[[zh zm] zs] zu]. unfold span_us.
  destruct ((zh =? 0) && (zm =? 0) && (zs =? 0) && (zu =? 0)) eqn:Z0.
  - left. split; [unfold real_offset, us_per_day; destruct (sg =? 45); lia|]. eexists. split; [reflexivity|]. replace (_ * _) with 0 by lia. vm_compute. repeat split; discriminate.
  - unfold char. rewrite nth_error_app2, Nat.sub_diag by lia. cbn [nth_error bind].
    pose proof (td_new_gives 0 zs zu 0 zm zh 0) as G1. apply gives_in in G1; [|unfold us_min, us_max, us_per_day; lia]. destruct G1 as (t & -> & St). cbn [bind].
    pose proof (mul_gives _ _ St (if sg =? 45 then -1 else 1)) as G2. apply gives_in in G2; [|unfold us_min, us_max, us_per_day; destruct (sg =? 45); lia]. destruct G2 as (o & -> & So). cbn [bind].
    replace (_ * (if sg =? 45 then -1 else 1)) with ((if sg =? 45 then -1 else 1) * (((zh * 60 + zm) * 60 + zs) * 1000000 + zu)) in So by (unfold us_per_day; destruct (sg =? 45); lia).
    destruct (timezone_ok _ _ So) as [(R & z & -> & Sz)|[R ->]]; [left|right]; (split; [exact R|]); [exists z; auto | reflexivity].
Qed.
Lemma parse_time_ok p s c o x : clock_text p s c -> offset_text o x ->
  (real_offset x /\ exists z, parse_time int (s ++ o) = Ok (c, z) /\ zone_is z x) \/ (~ real_offset x /\ parse_time int (s ++ o) = Err ValueError).
Proof.
  intros T [|p' s' c' P' T'|p' s' c' P' T'].
  - left. split; [exact I|]. exists None. rewrite app_nil_r, (parse_time_plain _ _ _ T). split; [reflexivity | exact I].
  - pose proof (parse_time_zone _ _ _ _ _ _ 43 T T' P' (or_intror eq_refl)) as H. cbv zeta in H. change (43 =? 45) with false in H. cbv iota in H. rewrite Z.mul_1_l in H.
    destruct H as [(R & z & E & S1)|H]; [left|right; exact H]. split; [exact R|]. exists (Some z). auto.
  - pose proof (parse_time_zone _ _ _ _ _ _ 45 T T' P' (or_introl eq_refl)) as H. cbv zeta in H. change (45 =? 45) with true in H. cbv iota in H. replace (-1 * span_us c') with (- span_us c') in H by lia.
    destruct H as [(R & z & E & S1)|H]; [left|right; exact H]. split; [exact R|]. exists (Some z). auto.
Qed.

Lemma check_time_ok h m s u : (real_clock (h, m, s, u) /\ check_time_fields h m s u 0 = Ok tt) \/ (~ real_clock (h, m, s, u) /\ check_time_fields h m s u 0 = Err ValueError).
Proof.
  unfold real_clock, check_time_fields.
  destruct ((0 <=? h) && (h <=? 23)) eqn:E1; cbn [negb]; [|right; split; [lia | reflexivity]].
  destruct ((0 <=? m) && (m <=? 59)) eqn:E2; cbn [negb]; [|right; split; [lia | reflexivity]].
  destruct ((0 <=? s) && (s <=? 59)) eqn:E3; cbn [negb]; [|right; split; [lia | reflexivity]].
  destruct ((0 <=? u) && (u <=? 999999)) eqn:E4; cbn [negb]; [|right; split; [lia | reflexivity]].
  left. split; [lia | reflexivity].
Qed.
Lemma check_date_ok y m d : (real_date (y, m, d) /\ check_date_fields y m d = Ok (y, m, d)) \/ (~ real_date (y, m, d) /\ check_date_fields y m d = Err ValueError).
Proof.
  destruct (date_new_ok y m d) as [(n & R & E & N)|[R N]]; unfold date_new in N; destruct (check_date_fields y m d) as [f|e] eqn:C; cbn [bind] in N; try discriminate.
  - left. split; [exists n; auto|]. congruence.
  - right. split; [intros (n & H1 & H2); exact (R n H1 H2) | congruence].
Qed.
End Int.

(** *** Writing *)
Lemma format_time_ok c spec p : real_clock c -> let '(h, m, s, u) := c in part_of spec u = Some p ->
  exists t, format_time h m s u spec = Ok t /\ clock_text p t (cut p c).
Proof.
  destruct c as [[[h m] s] u]. intros (B1 & B2 & B3 & B4).
  assert (written 2 h (pad 2 h)) by (apply pad_ok; cbn; lia). assert (written 2 m (pad 2 m)) by (apply pad_ok; cbn; lia).
  assert (written 2 s (pad 2 s)) by (apply pad_ok; cbn; lia). assert (written 6 u (pad 6 u)) by (apply pad_ok; cbn; lia).
  assert (written 3 (u / 1000) (pad 3 (u / 1000))) by (apply pad_ok; change (10 ^ Z.of_nat 3) with 1000; lia).
  unfold format_time. destruct spec; cbn [part_of]; intros E; injection E as <- || discriminate E; try (eexists; split; [reflexivity|]; constructor; assumption).
  destruct (Z.eqb_spec u 0); cbn [negb]; (eexists; split; [reflexivity|]); cbn [cut]; constructor; assumption.
Qed.
Lemma format_other h m s u : format_time h m s u OtherSpec = Err ValueError.
Proof. reflexivity. Qed.

(** the text isoformat writes for an offset *)
Definition canonical_offset (s : list Z) (o : option Z) : Prop :=
  match o with
  | None => s = []
  | Some x => exists t c, s = (if x <? 0 then 45 else 43) :: t /\ clock_text (offset_part x) t c /\ real_clock c /\ span_us c = Z.abs x
  end.
Lemma canonical_text s o : canonical_offset s o -> offset_text s o.
Proof.
  destruct o as [x|]; cbn [canonical_offset]; [|intros ->; constructor].
  intros (t & c & -> & T & _ & E). assert (P : offset_part x = PHM \/ offset_part x = PHMS \/ offset_part x = PMicro) by (unfold offset_part; destruct (_ =? 0); [auto|]; destruct (_ =? 0); auto).
  destruct (Z.ltb_spec x 0).
  - replace (Some x) with (Some (- span_us c)) by (f_equal; lia). eapply MinusOffset; eassumption.
  - replace (Some x) with (Some (span_us c)) by (f_equal; lia). eapply PlusOffset; eassumption.
Qed.
Ltac assoc_all := rewrite ?app_nil_r; repeat (cbn [app]; rewrite <- app_assoc); cbn [app]; reflexivity.
Lemma format_offset_ok z x : zone_is z x -> real_offset x -> exists s, format_offset z = Ok s /\ canonical_offset s x.
Proof.
  destruct z as [t|], x as [x|]; cbn [zone_is]; try contradiction; [|intros _ _; exists []; split; reflexivity].
  intros S1 R. unfold real_offset, us_per_day in R. unfold format_offset.
  assert (Ed : days t <? 0 = (x <? 0)) by (unfold stands_for, us_per_day in S1; lia). rewrite Ed.
  assert (A : exists a, (if x <? 0 then do n <- m_neg t; Ok (45, n) else Ok (43, t)) = Ok (if x <? 0 then 45 else 43, a) /\ stands_for a (Z.abs x)).
  { destruct (Z.ltb_spec x 0).
    - pose proof (neg_gives _ _ S1) as G. apply gives_in in G; [|unfold us_min, us_max, us_per_day; lia]. destruct G as (n & -> & Sn). exists n. split; [reflexivity|]. replace (Z.abs x) with (- x) by lia. exact Sn.
    - exists t. split; [reflexivity|]. replace (Z.abs x) with x by lia. exact S1. }
  destruct A as (a & -> & Sa). cbn [bind]. set (ax := Z.abs x) in *. assert (Bx : 0 <= ax < 86400000000) by (unfold ax; lia).
  destruct (divmod_us a (mkTd 0 3600 0) ax 3600000000 Sa hour_ok ltac:(discriminate)) as (r & -> & Sr). cbn [bind].
  destruct (divmod_us r (mkTd 0 60 0) _ 60000000 Sr minute_ok ltac:(discriminate)) as (ss & -> & Ss). cbn [bind].
  rewrite (bool_ok _ _ Ss). set (rest := ax mod 3600000000 mod 60000000) in *.
  assert (Eus : microseconds ss = rest mod 1000000 /\ seconds ss = rest / 1000000).
  { unfold stands_for, us_per_day in Ss. assert (0 <= rest < 60000000) by (unfold rest; lia). clearbody rest. clear - Ss H. lia. }
  destruct Eus as [-> ->].
  set (hh := ax / 3600000000). set (mm := ax mod 3600000000 / 60000000).
  assert (Q : ax = (hh * 60 + mm) * 60000000 + rest /\ 0 <= hh < 24 /\ 0 <= mm < 60 /\ 0 <= rest < 60000000) by (unfold hh, mm, rest; lia).
  assert (written 2 hh (pad 2 hh)) by (apply pad_ok; cbn; lia). assert (written 2 mm (pad 2 mm)) by (apply pad_ok; cbn; lia).
  assert (written 2 (rest / 1000000) (pad 2 (rest / 1000000))) by (apply pad_ok; change (10 ^ Z.of_nat 2) with 100; lia).
  assert (written 6 (rest mod 1000000) (pad 6 (rest mod 1000000))) by (apply pad_ok; change (10 ^ Z.of_nat 6) with 1000000; lia).
  eexists. split; [reflexivity|]. unfold canonical_offset, offset_part. fold ax.
  replace (ax mod 60000000) with rest by (clear -Q; lia). replace (ax mod 1000000) with (rest mod 1000000) by (clear -Q; lia).
  assert (Z1 : rest = 0 -> rest mod 1000000 = 0) by (intros ->; reflexivity).
  destruct (Z.eqb_spec rest 0) as [E0|N0]; cbn [negb orb].
  - rewrite (Z1 E0). cbn [Z.eqb negb]. exists (pad 2 hh ++ [58] ++ pad 2 mm), (hh, mm, 0, 0). split; [reflexivity|]. split; [constructor; assumption|].
    unfold real_clock, span_us. lia.
  - destruct (Z.eqb_spec (rest mod 1000000) 0) as [E1|N1]; cbn [negb].
    + exists (pad 2 hh ++ [58] ++ pad 2 mm ++ [58] ++ pad 2 (rest / 1000000)), (hh, mm, rest / 1000000, 0).
      split; [assoc_all|]. split; [constructor; assumption|].
      unfold real_clock, span_us. clear -Q E1. lia.
    + exists (pad 2 hh ++ [58] ++ pad 2 mm ++ [58] ++ pad 2 (rest / 1000000) ++ [46] ++ pad 6 (rest mod 1000000)), (hh, mm, rest / 1000000, rest mod 1000000).
      split; [assoc_all|]. split; [constructor; assumption|].
      unfold real_clock, span_us. clear -Q. lia.
Qed.
Lemma date_iso_ok f : real_date f -> let '(y, m, d) := f in date_text (date_iso y m d) f.
Proof.
  destruct f as [[y m] d]. intros (n & R & E). pose proof R as [R1 R2]. destruct (s_date_num n R1) as (V & _ & Py). unfold s_year in *. rewrite E in *. cbn [fst] in *.
  destruct V as [V1 V2]. pose proof (ml_bounds y m).
  constructor; apply pad_ok; [change (10 ^ Z.of_nat 4) with 10000 | change (10 ^ Z.of_nat 2) with 100 .. ]; lia.
Qed.
