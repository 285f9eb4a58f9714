(** Proofs about the calendar. *)
From Coq Require Import ZArith List Bool Lia ZifyBool ZifyNat.
From Verif Require Import Py Calendar_Model Calendar_Spec.
Import ListNotations.
Open Scope Z_scope.
Ltac Zify.zify_post_hook ::= Z.to_euclidean_division_equations.

Lemma leap_eq y : is_leap y = s_leap y.
Proof.
  unfold is_leap, s_leap. destruct (Z.eqb_spec (y mod 100) 0); destruct (Z.eqb_spec (y mod 400) 0); destruct (Z.eqb_spec (y mod 4) 0); cbn; try reflexivity; exfalso; lia.
Qed.
Lemma leap_int_eq y : is_leap_int y = b2z (s_leap y).
Proof.
  rewrite <- leap_eq. unfold is_leap_int, is_leap. destruct (y mod 4 =? 0), (y mod 100 =? 0), (y mod 400 =? 0); reflexivity.
Qed.
Definition validf (f : Z * Z * Z) : Prop := let '(y, m, d) := f in 1 <= m <= 12 /\ 1 <= d <= month_length y m.

Lemma months m : 1 <= m <= 12 -> m = 1 \/ m = 2 \/ m = 3 \/ m = 4 \/ m = 5 \/ m = 6 \/ m = 7 \/ m = 8 \/ m = 9 \/ m = 10 \/ m = 11 \/ m = 12.
Proof. lia. Qed.
Ltac months m H := destruct (months m H) as [E|[E|[E|[E|[E|[E|[E|[E|[E|[E|[E|E]]]]]]]]]]]; subst m.

Lemma dim_eq y m : 1 <= m <= 12 -> days_in_month y m = Ok (month_length y m).
Proof.
  intros H. unfold days_in_month. rewrite leap_int_eq.
  replace ((1 <=? m) && (m <=? 12)) with true by lia. cbn [negb]. f_equal.
  months m H; cbn; destruct (s_leap y); reflexivity.
Qed.
Lemma constraint_eq y m d : 1 <= m <= 12 -> day_in_month_constraint y m d = (d <=? month_length y m).
Proof.
  intros H. unfold day_in_month_constraint. rewrite leap_int_eq. unfold month_length.
  months m H; cbn [Z.eqb Pos.eqb existsb orb andb negb]; destruct (s_leap y); cbn [b2z]; lia.
Qed.

(** the number of a date, as the code computes it *)
Definition num (f : Z * Z * Z) : Z :=
  let '(y, m, d) := f in days_before_year y + at_ DAYS_BEFORE_MONTH m + b2z (2 <? m) * is_leap_int y + d.
Lemma ymd2ord_num y m d : validf (y, m, d) -> ymd2ord y m d = Ok (num (y, m, d)).
Proof.
  intros [H1 H2]. unfold ymd2ord, days_before_month. rewrite (dim_eq y m H1). cbn [bind].
  replace ((1 <=? m) && (m <=? 12)) with true by lia. cbn [negb bind].
  replace ((1 <=? d) && (d <=? month_length y m)) with true by lia. cbn [negb bind]. f_equal. unfold num. lia.
Qed.
Lemma dby_next y : days_before_year (y + 1) = days_before_year y + 365 + b2z (s_leap y).
Proof.
  unfold days_before_year, s_leap, b2z. destruct (Z.eqb_spec (y mod 100) 0); destruct (Z.eqb_spec (y mod 400) 0); destruct (Z.eqb_spec (y mod 4) 0); lia.
Qed.
Lemma dby_mono y y' : y < y' -> days_before_year y + 365 + b2z (s_leap y) <= days_before_year y'.
Proof. intros H. rewrite <- dby_next. unfold days_before_year. lia. Qed.

Definition dbm_ (m : Z) : Z := at_ DAYS_BEFORE_MONTH m.
Ltac evals := repeat match goal with
  | |- context [at_ DAYS_BEFORE_MONTH ?k] => let v := eval vm_compute in (at_ DAYS_BEFORE_MONTH k) in change (at_ DAYS_BEFORE_MONTH k) with v
  | |- context [?a <? ?b] => let v := eval vm_compute in (a <? b) in match v with true => idtac | false => idtac end; change (a <? b) with v
  end.
Lemma num_next f : validf f -> num (next_day f) = num f + 1.
Proof.
  destruct f as [[y m] d]. intros [H1 H2]. unfold next_day. destruct (Z.ltb_spec d (month_length y m)).
  - unfold num. lia.
  - assert (d = month_length y m) by lia. subst d.
    unfold num; months m H1; cbn [Z.ltb Z.compare Pos.compare Pos.compare_cont]; rewrite ?dby_next, ?leap_int_eq;
      unfold month_length; generalize (days_before_year y); intros; destruct (s_leap y); evals; cbn [Z.eqb Pos.eqb existsb orb b2z Z.mul Pos.mul]; lia.
Qed.
Lemma ml_bounds y m : 28 <= month_length y m <= 31.
Proof. unfold month_length. destruct (m =? 2); [destruct (s_leap y); lia|]. destruct (existsb _ _); lia. Qed.
Lemma valid_next f : validf f -> validf (next_day f).
Proof.
  destruct f as [[y m] d]. intros [H1 H2]. unfold next_day.
  pose proof (ml_bounds y m); pose proof (ml_bounds y (m + 1)); pose proof (ml_bounds (y + 1) 1).
  destruct (Z.ltb_spec d (month_length y m)); [split; lia|]. destruct (Z.ltb_spec m 12); split; lia.
Qed.
Lemma s_date_1 : s_date 1 = (1, 1, 1). Proof. reflexivity. Qed.
Lemma s_date_succ n : 1 <= n -> s_date (n + 1) = next_day (s_date n).
Proof. intros H. unfold s_date. replace (Z.to_nat (n + 1 - 1)) with (S (Z.to_nat (n - 1))) by lia. reflexivity. Qed.
Lemma date_ind (P : Z -> Prop) : P 1 -> (forall n, 1 <= n -> P n -> P (n + 1)) -> forall n, 1 <= n -> P n.
Proof.
  intros H0 H1 n Hn. replace n with (1 + Z.of_nat (Z.to_nat (n - 1))) by lia. induction (Z.to_nat (n - 1)) as [|k IH]; [exact H0|].
  replace (1 + Z.of_nat (S k)) with (1 + Z.of_nat k + 1) by lia. apply H1; [lia | exact IH].
Qed.
Lemma s_date_valid n : 1 <= n -> validf (s_date n).
Proof.
  intros H. pattern n. apply date_ind; [|intros k Hk; rewrite (s_date_succ k Hk); apply valid_next | exact H].
  rewrite s_date_1. vm_compute. split; split; discriminate.
Qed.
Lemma num_s_date n : 1 <= n -> num (s_date n) = n.
Proof.
  intros H. pattern n. apply date_ind; [reflexivity | | exact H].
  intros k Hk IH. rewrite (s_date_succ k Hk), (num_next _ (s_date_valid k Hk)), IH. reflexivity.
Qed.
(** lexicographic order of dates is the order of their numbers *)
Definition lexlt (f g : Z * Z * Z) : Prop :=
  let '(y, m, d) := f in let '(y', m', d') := g in y < y' \/ (y = y' /\ (m < m' \/ (m = m' /\ d < d'))).
Lemma in_year y m d : validf (y, m, d) -> 1 <= at_ DAYS_BEFORE_MONTH m + b2z (2 <? m) * is_leap_int y + d <= 365 + b2z (s_leap y).
Proof.
  intros [H1 H2]. rewrite leap_int_eq. unfold month_length in H2.
  months m H1; destruct (s_leap y); evals; cbn [Z.eqb Pos.eqb existsb orb b2z Z.mul Pos.mul] in *; lia.
Qed.
Lemma in_month y m m' : 1 <= m -> m < m' -> m' <= 12 ->
  at_ DAYS_BEFORE_MONTH m + b2z (2 <? m) * is_leap_int y + month_length y m <= at_ DAYS_BEFORE_MONTH m' + b2z (2 <? m') * is_leap_int y.
Proof.
  intros. rewrite leap_int_eq. unfold month_length. assert (A : 1 <= m <= 12) by lia. assert (B : 1 <= m' <= 12) by lia.
  months m A; months m' B; try (exfalso; lia); destruct (s_leap y); evals; vm_compute; discriminate.
Qed.
Lemma num_mono f g : validf f -> validf g -> lexlt f g -> num f < num g.
Proof.
  destruct f as [[y m] d], g as [[y' m'] d']. intros V V'. pose proof (in_year _ _ _ V). pose proof (in_year _ _ _ V').
  destruct V as [V1 V2], V' as [V1' V2']. unfold num.
  intros [H1|[-> [H1|[-> H1]]]].
  - pose proof (dby_mono y y' H1). lia.
  - pose proof (in_month y' m m' ltac:(lia) H1 ltac:(lia)). lia.
  - lia.
Qed.
Lemma lexlt_total f g : f = g \/ lexlt f g \/ lexlt g f.
Proof.
  destruct f as [[y m] d], g as [[y' m'] d']. unfold lexlt.
  destruct (Z.eq_dec y y') as [->|]; [|lia]. destruct (Z.eq_dec m m') as [->|]; [|lia]. destruct (Z.eq_dec d d') as [->|]; [auto|lia].
Qed.
Lemma num_inj f g : validf f -> validf g -> num f = num g -> f = g.
Proof.
  intros V V' E. destruct (lexlt_total f g) as [H|[H|H]]; [exact H | apply num_mono in H; auto; lia | apply num_mono in H; auto; lia].
Qed.
Lemma year_pos f : validf f -> 1 <= num f -> 1 <= fst (fst f).
Proof.
  destruct f as [[y m] d]. intros V H. cbn [fst]. destruct (Z_lt_le_dec y 1); [|lia].
  pose proof (in_year _ _ _ V). pose proof (dby_mono y 1 ltac:(lia)) as A. change (days_before_year 1) with 0 in A. unfold num in H. lia.
Qed.
Lemma num_pos y m d : validf (y, m, d) -> 1 <= y -> 1 <= num (y, m, d).
Proof.
  intros V Hy. pose proof (in_year _ _ _ V). unfold num.
  assert (0 <= days_before_year y) by (unfold days_before_year; lia). lia.
Qed.
Lemma is_s_date f : validf f -> 1 <= num f -> f = s_date (num f).
Proof. intros V H. apply num_inj; [exact V | apply s_date_valid; exact H | symmetry; apply num_s_date; exact H]. Qed.
Lemma s_date_inj a b : 1 <= a -> 1 <= b -> s_date a = s_date b -> a = b.
Proof. intros A B E. rewrite <- (num_s_date a A), <- (num_s_date b B), E. reflexivity. Qed.

(** *** ord2ymd *)
Definition month_part (leapyear : bool) (n : Z) : Z * Z :=
  let month := Z.shiftr (n + 50) 5 in
  let preceding := at_ DAYS_BEFORE_MONTH month + b2z ((2 <? month) && leapyear) in
  if n <? preceding then
    let month := month - 1 in
    (month, preceding - (at_ DAYS_IN_MONTH month + b2z ((month =? 2) && leapyear)))
  else (month, preceding).
Definition ml_ (l : bool) (m : Z) : Z := if m =? 2 then (if l then 29 else 28) else if existsb (Z.eqb m) [4; 6; 9; 11] then 30 else 31.
Definition month_ok (l : bool) (n : Z) : bool :=
  let '(m, p) := month_part l n in
  (1 <=? m) && (m <=? 12) && (p =? at_ DAYS_BEFORE_MONTH m + b2z (2 <? m) * b2z l) && (p <=? n) && (n - p <? ml_ l m).
Lemma month_table : forallb (fun l => forallb (month_ok l) (map Z.of_nat (seq 0 (365 + (if l : bool then 1 else 0))))) [true; false] = true.
Proof. vm_compute. reflexivity. Qed.
Lemma month_part_ok l n : 0 <= n -> n < 365 + b2z l -> month_ok l n = true.
Proof.
  intros H0 H1. pose proof month_table as T. rewrite forallb_forall in T.
  specialize (T l ltac:(destruct l; cbn; auto)). cbn beta in T. rewrite forallb_forall in T. apply T.
  apply in_map_iff. exists (Z.to_nat n). split; [lia|]. apply in_seq. destruct l; unfold b2z in H1; lia.
Qed.
Lemma split_year n :
  let n400 := n / DI400Y in let n := n mod DI400Y in
  let n100 := n / DI100Y in let n := n mod DI100Y in
  let n4 := n / DI4Y in let n := n mod DI4Y in
  let n1 := n / 365 in let n := n mod 365 in
  0 <= n1 <= 4 /\ 0 <= n4 <= 24 /\ 0 <= n100 <= 4 /\ 0 <= n < 365 /\
  (n1 = 4 -> n = 0) /\ (n100 = 4 -> n = 0 /\ n4 = 0 /\ n1 = 0) /\ (n1 = 4 -> n4 = 24 -> n100 = 3 \/ False).
Proof.
  change DI400Y with 146097. change DI100Y with 36524. change DI4Y with 1461. cbv zeta. lia.
Qed.
Lemma dby_split n400 n100 n4 n1 : 0 <= n100 <= 3 -> 0 <= n4 <= 24 -> 0 <= n1 <= 3 ->
  let y := n400 * 400 + 1 + (n100 * 100 + n4 * 4 + n1) in
  days_before_year y = 146097 * n400 + 36524 * n100 + 1461 * n4 + 365 * n1 /\
  s_leap y = (n1 =? 3) && (negb (n4 =? 24) || (n100 =? 3)).
Proof.
  intros A B C. cbv zeta. set (y := n400 * 400 + 1 + (n100 * 100 + n4 * 4 + n1)). rewrite <- leap_eq. unfold days_before_year, is_leap, y. clear y. split; lia.
Qed.
Lemma ord2ymd_num n : exists f, ord2ymd n = Ok f /\ validf f /\ num f = n.
Proof.
  unfold ord2ymd.
  pose proof (split_year (n - 1)) as H. cbv zeta in H |- *.
  pose proof (Z.div_mod (n - 1) DI400Y ltac:(easy)) as E400.
  set (n400 := (n - 1) / DI400Y) in *. set (r400 := (n - 1) mod DI400Y) in *.
  pose proof (Z.div_mod r400 DI100Y ltac:(easy)) as E100.
  set (n100 := r400 / DI100Y) in *. set (r100 := r400 mod DI100Y) in *.
  pose proof (Z.div_mod r100 DI4Y ltac:(easy)) as E4.
  set (n4 := r100 / DI4Y) in *. set (r4 := r100 mod DI4Y) in *.
  pose proof (Z.div_mod r4 365 ltac:(easy)) as E1.
  set (n1 := r4 / 365) in *. set (r1 := r4 mod 365) in *.
  change DI400Y with 146097 in E400. change DI100Y with 36524 in E100. change DI4Y with 1461 in E4.
  clearbody n400 r400 n100 r100 n4 r4 n1 r1.
  destruct H as (B1 & B4 & B100 & Br & S1 & S100 & S3).
  destruct ((n1 =? 4) || (n100 =? 4)) eqn:Elast.
  - assert (r1 = 0) by lia. subst r1. cbn [Z.eqb].
    set (y := n400 * 400 + 1 + (n100 * 100 + n4 * 4 + n1)).
    assert (V : validf (y - 1, 12, 31)) by (split; [lia | unfold month_length; cbn; lia]).
    assert (E : num (y - 1, 12, 31) = n).
    { unfold num. rewrite leap_int_eq. change (at_ DAYS_BEFORE_MONTH 12) with 334. change (b2z (2 <? 12)) with 1.
      assert (Ed : days_before_year (y - 1) + 365 + b2z (s_leap (y - 1)) = days_before_year y) by (rewrite <- dby_next; f_equal; lia).
      assert (Ey : days_before_year y = 146097 * n400 + 36524 * n100 + 1461 * n4 + 365 * n1 + (if n1 =? 4 then 1 else 0) + (if n100 =? 4 then 1 else 0)).
      { unfold days_before_year, y. destruct (n1 =? 4) eqn:F1; destruct (n100 =? 4) eqn:F2; lia. }
      destruct (n1 =? 4) eqn:F1; destruct (n100 =? 4) eqn:F2; try discriminate; lia. }
    exists (y - 1, 12, 31). auto.
  - destruct (dby_split n400 n100 n4 n1 ltac:(lia) ltac:(lia) ltac:(lia)) as [Ey El].
    set (y := n400 * 400 + 1 + (n100 * 100 + n4 * 4 + n1)) in *. cbv zeta in Ey, El.
    rewrite leap_eq, El. set (l := (n1 =? 3) && (negb (n4 =? 24) || (n100 =? 3))) in *.
    rewrite Bool.eqb_reflx. cbn [negb].
    pose proof (month_part_ok l r1 ltac:(lia) ltac:(destruct l; unfold b2z; lia)) as M.
    unfold month_ok in M. unfold month_part in M.
    set (mp := if r1 <? at_ DAYS_BEFORE_MONTH (Z.shiftr (r1 + 50) 5) + b2z ((2 <? Z.shiftr (r1 + 50) 5) && l) then _ else _) in M.
    match goal with |- context [let '(_, _) := ?t in _] => change t with mp end.
    destruct mp as [m p]. cbv beta iota zeta.
    rewrite !andb_true_iff in M. destruct M as [[[[M1 M2] M3] M4] M5].
    assert (Hm : 1 <= m <= 12) by lia. rewrite (dim_eq y m Hm). cbn [bind].
    assert (ML : month_length y m = ml_ l m) by (unfold month_length, ml_; rewrite El; reflexivity).
    rewrite ML. replace ((0 <=? r1 - p) && (r1 - p <? ml_ l m)) with true by lia. cbn [negb].
    assert (V : validf (y, m, r1 - p + 1)) by (split; [exact Hm | rewrite ML; lia]).
    assert (E : num (y, m, r1 - p + 1) = n).
    { unfold num. rewrite leap_int_eq, El. lia. }
    exists (y, m, r1 - p + 1). auto.
Qed.
Lemma ord2ymd_ok n : 1 <= n -> ord2ymd n = Ok (s_date n).
Proof.
  intros Hn. destruct (ord2ymd_num n) as (f & -> & V & E). f_equal. rewrite <- E. apply is_s_date; [exact V | lia].
Qed.

(** *** The bounds *)
Lemma s_date_num n : 1 <= n -> validf (s_date n) /\ num (s_date n) = n /\ 1 <= s_year n.
Proof.
  intros H. split; [apply s_date_valid, H|]. split; [apply num_s_date, H|]. apply year_pos; [apply s_date_valid, H | rewrite num_s_date; lia].
Qed.
Lemma in_range_iff n : in_range n <-> 1 <= n <= MAXORDINAL.
Proof.
  unfold in_range, s_year. assert (V : validf (9999, 12, 31)) by (vm_compute; repeat split; discriminate).
  split; intros [H1 H2]; (split; [exact H1|]).
  - change MAXORDINAL with (num (9999, 12, 31)). destruct (s_date_num n H1) as (V' & E & _). rewrite <- E.
    destruct (lexlt_total (s_date n) (9999, 12, 31)) as [->|[L|L]]; [lia | apply num_mono in L; auto; lia |].
    destruct (s_date n) as [[y m] d]. cbn [fst] in H2. destruct V' as [V1 V2]. pose proof (ml_bounds y m). unfold lexlt in L.
    assert (y = 9999 /\ m = 12 /\ 31 < d) as (-> & -> & Hd) by lia. change (month_length 9999 12) with 31 in V2. lia.
  - change MAXORDINAL with (num (9999, 12, 31)) in H2. destruct (s_date_num n H1) as (V' & E & _). rewrite <- E in H2.
    destruct (Z_le_gt_dec (fst (fst (s_date n))) 9999) as [G|G]; [exact G|exfalso].
    assert (L : lexlt (9999, 12, 31) (s_date n)) by (destruct (s_date n) as [[y m] d]; cbn [fst] in G; unfold lexlt; lia).
    apply num_mono in L; auto. lia.
Qed.

(** *** Making dates *)
Lemma date_new_ok y m d :
  (exists n, in_range n /\ s_date n = (y, m, d) /\ date_new y m d = Ok (mkD (Some (s_date n)) None)) \/
  ((forall n, in_range n -> s_date n <> (y, m, d)) /\ date_new y m d = Err ValueError).
Proof.
  unfold date_new, check_date_fields. unfold MINYEAR, MAXYEAR.
  destruct ((1 <=? y) && (y <=? 9999)) eqn:Ey; cbn [negb bind].
  2:{ right. split; [|reflexivity]. intros n [H1 H2] E. destruct (s_date_num n H1) as (_ & _ & P). unfold s_year in *. rewrite E in *. cbn [fst] in *. lia. }
  destruct ((1 <=? m) && (m <=? 12)) eqn:Em; cbn [negb bind].
  2:{ right. split; [|reflexivity]. intros n [H1 H2] E. destruct (s_date_num n H1) as (P & _ & _). rewrite E in P. destruct P as [P _]. lia. }
  assert (Hm : 1 <= m <= 12) by lia. rewrite (dim_eq y m Hm). cbn [bind].
  destruct ((1 <=? d) && (d <=? month_length y m)) eqn:Ed; cbn [negb bind].
  2:{ right. split; [|reflexivity]. intros n [H1 H2] E. destruct (s_date_num n H1) as (P & _ & _). rewrite E in P. destruct P. lia. }
  left. exists (num (y, m, d)). assert (V : validf (y, m, d)) by (split; lia).
  pose proof (num_pos y m d V ltac:(lia)) as P. pose proof (is_s_date _ V P) as E.
  split; [split; [exact P|]; unfold s_year; rewrite <- E; cbn [fst]; lia|]. rewrite <- E. auto.
Qed.
Lemma fromordinal_ok n :
  (in_range n /\ m_fromordinal n = Ok (mkD (Some (s_date n)) None)) \/ (~ in_range n /\ m_fromordinal n = Err ValueError).
Proof.
  unfold m_fromordinal. destruct (ord2ymd_num n) as ([[y m] d] & E & V & N). rewrite E. cbn [bind].
  destruct (date_new_ok y m d) as [(k & R & Ek & ->)|[H ->]].
  - left. destruct R as [R1 R2]. assert (k = n) as -> by (rewrite <- N, <- Ek; symmetry; apply num_s_date, R1). split; [split|]; auto.
  - right. split; [|reflexivity]. intros R. apply (H n R). apply num_inj; [apply s_date_valid, R | exact V | rewrite N; apply num_s_date, R].
Qed.

(** *** ISO weeks *)
Definition J (y : Z) : Z := days_before_year y + 1.
Lemma J_next y : J (y + 1) = J y + 365 + b2z (s_leap y).
Proof. unfold J. rewrite dby_next. lia. Qed.
Lemma J_mono y y' : y < y' -> J (y + 1) <= J y'.
Proof. intros H. rewrite J_next. unfold J. pose proof (dby_mono y y' H). lia. Qed.
Lemma jan1 y : ymd2ord y 1 1 = Ok (J y).
Proof. rewrite ymd2ord_num; [|split; [lia | pose proof (ml_bounds y 1); lia]]. f_equal. unfold num, J. rewrite leap_int_eq. change (at_ DAYS_BEFORE_MONTH 1) with 0. change (b2z (2 <? 1)) with 0. lia. Qed.
Lemma jan1_date y : 1 <= y -> s_date (J y) = (y, 1, 1) /\ 1 <= J y.
Proof.
  intros H. assert (V : validf (y, 1, 1)) by (split; [lia | pose proof (ml_bounds y 1); lia]).
  assert (E : num (y, 1, 1) = J y) by (pose proof (jan1 y) as A; rewrite (ymd2ord_num _ _ _ V) in A; congruence).
  pose proof (num_pos y 1 1 V H) as P. rewrite E in P. split; [|exact P]. rewrite <- E. symmetry. apply is_s_date; [exact V | lia].
Qed.
Lemma year_of n : 1 <= n -> J (s_year n) <= n < J (s_year n + 1).
Proof.
  intros H. destruct (s_date_num n H) as (V & E & _). unfold s_year. destruct (s_date n) as [[y m] d]. cbn [fst].
  rewrite J_next. pose proof (in_year y m d V). unfold num in E. unfold J. lia.
Qed.
Lemma year_between n y : 1 <= n -> J y <= n < J (y + 1) -> s_year n = y.
Proof.
  intros H1 H2. pose proof (year_of n H1). destruct (Z.lt_trichotomy (s_year n) y) as [L|[L|L]]; [|exact L|].
  - pose proof (J_mono _ _ L). lia.
  - pose proof (J_mono _ _ L). lia.
Qed.
Definition W (y : Z) : Z := let f := (J y + 6) mod 7 in if 3 <? f then J y - f + 7 else J y - f.
Lemma isoweek1_ok y : isoweek1monday y = Ok (W y).
Proof. unfold isoweek1monday, W. rewrite jan1. reflexivity. Qed.
Lemma W_spec y : J y <= W y + 3 < J y + 7 /\ (W y - 1) mod 7 = 0.
Proof. unfold W. cbv zeta. destruct (3 <? (J y + 6) mod 7) eqn:E; split; lia. Qed.
Lemma leap_b y : 0 <= b2z (s_leap y) <= 1. Proof. destruct (s_leap y); cbn; lia. Qed.
Lemma J1 : J 1 = 1. Proof. reflexivity. Qed.
(** the characterization used below *)
Lemma iso_intro n y k : 1 <= n -> 1 <= y -> let t := n - s_weekday n + 3 in
  J y <= t < J (y + 1) -> t = W y + 3 + 7 * k -> iso n (y, k + 1, s_weekday n + 1).
Proof.
  cbv zeta. intros H1 Hy HJ Ht. unfold iso. destruct (jan1_date y Hy) as [D P].
  split; [apply year_between; [lia | exact HJ]|]. split; [reflexivity|]. exists (J y). split; [exact P|]. split; [exact D|].
  pose proof (W_spec y). rewrite Ht. lia.
Qed.
Lemma iso_elim n y w d : 1 <= n -> iso n (y, w, d) ->
  1 <= y /\ d = s_weekday n + 1 /\ J y <= n - s_weekday n + 3 < J (y + 1) /\ n - s_weekday n + 3 = W y + 3 + 7 * (w - 1).
Proof.
  intros H1 (Hy & Hd & j & J1' & Dj & Hw). unfold s_weekday in *.
  assert (T : 1 <= n - (n - 1) mod 7 + 3) by lia.
  pose proof (year_of _ T) as Y. rewrite Hy in Y.
  assert (1 <= y) by (destruct (s_date_num _ T) as (_ & _ & P); lia).
  destruct (jan1_date y) as [D P]; [assumption|]. assert (j = J y) as -> by (apply s_date_inj; congruence).
  pose proof (W_spec y). split; [assumption|]. split; [assumption|]. split; [assumption|]. lia.
Qed.
Lemma iso_total n : 1 <= n -> isocalendar (s_date n) = Ok (let t := n - s_weekday n + 3 in (s_year t, (t - J (s_year t)) / 7 + 1, s_weekday n + 1)) /\
  exists t, iso n t /\ isocalendar (s_date n) = Ok t.
Proof.
  intros H1. assert (X : exists y k, isocalendar (s_date n) = Ok (y, k + 1, s_weekday n + 1) /\ 1 <= y /\
    J y <= n - s_weekday n + 3 < J (y + 1) /\ n - s_weekday n + 3 = W y + 3 + 7 * k).
  { pose proof (year_of n H1) as Y. unfold s_year in Y. destruct (s_date_num n H1) as (V & E & P). unfold s_year in P. unfold isocalendar.
    destruct (s_date n) as [[y m] d]. cbn [fst] in Y, P. rewrite isoweek1_ok. cbn [bind]. rewrite (ymd2ord_num _ _ _ V), E. cbn [bind].
    pose proof (W_spec y) as Wy. unfold s_weekday.
    destruct (Z.ltb_spec ((n - W y) / 7) 0) as [L|L].
    - rewrite isoweek1_ok. cbn [bind]. pose proof (W_spec (y - 1)) as Wp.
      assert (Hy : 1 <= y - 1). { destruct (Z.eq_dec y 1) as [->|]; [|lia]. change (W 1) with 1 in *. lia. }
      pose proof (J_next (y - 1)) as Jn. replace (y - 1 + 1) with y in Jn by lia. pose proof (leap_b (y - 1)).
      exists (y - 1), ((n - W (y - 1)) / 7). replace (y - 1 + 1) with y by lia.
      split; [do 2 f_equal; lia|]. split; [exact Hy|]. split; lia.
    - destruct (Z.leb_spec 52 ((n - W y) / 7)) as [G|G].
      + rewrite isoweek1_ok. cbn [bind]. pose proof (W_spec (y + 1)) as Wn. pose proof (J_next y) as Jn. pose proof (J_next (y + 1)) as Jn2.
        pose proof (leap_b y). pose proof (leap_b (y + 1)).
        destruct (Z.leb_spec (W (y + 1)) n) as [Q|Q].
        * exists (y + 1), 0. split; [do 2 f_equal; lia|]. split; [lia|]. split; lia.
        * exists y, ((n - W y) / 7). split; [do 2 f_equal; lia|]. split; [lia|]. split; lia.
      + pose proof (J_next y) as Jn. pose proof (leap_b y).
        exists y, ((n - W y) / 7). split; [do 2 f_equal; lia|]. split; [lia|]. split; lia. }
  destruct X as (y & k & E & P & HJ & Ht). pose proof (iso_intro n y k H1 P HJ Ht) as I. split.
  - rewrite E. cbv zeta. unfold iso in I. destruct I as (I1 & _ & j & A & B & C). rewrite I1.
    destruct (jan1_date y P) as [D Q]. assert (j = J y) as -> by (apply s_date_inj; congruence). rewrite <- C. reflexivity.
  - eexists. split; [exact I | exact E].
Qed.
Lemma iso_unique n n' t : 1 <= n -> 1 <= n' -> iso n t -> iso n' t -> n = n'.
Proof.
  destruct t as [[y w] d]. intros H H' I I'. apply iso_elim in I; [|exact H]. apply iso_elim in I'; [|exact H']. lia.
Qed.
Lemma iso_det n t t' : 1 <= n -> iso n t -> iso n t' -> t = t'.
Proof.
  destruct t as [[y w] d], t' as [[y' w'] d']. intros H I I'.
  assert (y = y') as <-. { destruct I as [I _], I' as [I' _]. congruence. }
  apply iso_elim in I; [|exact H]. apply iso_elim in I'; [|exact H]. repeat f_equal; lia.
Qed.
Lemma fromiso_ok y w d :
  (exists n, in_range n /\ iso n (y, w, d) /\ m_fromisocalendar y w d = Ok (mkD (Some (s_date n)) None)) \/
  ((forall n, in_range n -> ~ iso n (y, w, d)) /\ m_fromisocalendar y w d = Err ValueError).
Proof.
  unfold m_fromisocalendar, MINYEAR, MAXYEAR.
  destruct ((1 <=? y) && (y <=? 9999)) eqn:Ey; cbn [negb].
  2:{ right. split; [|reflexivity]. intros n R I. apply in_range_iff in R. unfold MAXORDINAL in R. destruct I as (Hy & _).
      set (t := n - s_weekday n + 3) in *. unfold s_weekday in t. assert (R' : in_range t) by (apply in_range_iff; unfold MAXORDINAL, t; lia).
      destruct R' as [R1 R2]. destruct (s_date_num t R1) as (_ & _ & P). lia. }
  rewrite jan1. cbn [bind]. rewrite leap_eq.
  pose proof (W_spec y) as Wy. pose proof (J_next y) as Jn.
  set (bad := if negb ((0 <? w) && (w <? 53)) then _ else _).
  assert (Ebad : bad = Ok (negb ((0 <? w) && ((w <? 53) || (w =? 53) && (W y + 3 + 364 <? J (y + 1)))))).
  { unfold bad. destruct (negb ((0 <? w) && (w <? 53))) eqn:E1.
    - destruct (Z.eqb_spec w 53) as [->|N]; [|f_equal; lia].
      f_equal. cbn [Z.ltb Z.compare Pos.compare Pos.compare_cont andb orb]. f_equal.
      rewrite Jn. destruct (s_leap y); cbn [b2z andb]; lia.
    - f_equal. lia. }
  rewrite Ebad. cbn [bind]. clear bad Ebad.
  destruct ((0 <? w) && ((w <? 53) || (w =? 53) && (W y + 3 + 364 <? J (y + 1)))) eqn:Ew; cbn [negb].
  2:{ right. split; [|reflexivity]. intros n R I. apply iso_elim in I; [|apply R]. pose proof (leap_b y). lia. }
  destruct ((0 <? d) && (d <? 8)) eqn:Ed; cbn [negb].
  2:{ right. split; [|reflexivity]. intros n R I. apply iso_elim in I; [|apply R]. unfold s_weekday in I. lia. }
  rewrite isoweek1_ok. cbn [bind]. set (n := W y + ((w - 1) * 7 + (d - 1))).
  assert (W1 : 1 <= W y). { destruct (Z.eq_dec y 1) as [->|]; [reflexivity|]. pose proof (J_mono 1 y ltac:(lia)) as A. change (J (1 + 1)) with 366 in A. lia. }
  assert (I : iso n (y, w, d)).
  { assert (Wd : s_weekday n = d - 1) by (unfold s_weekday, n; lia).
    pose proof (iso_intro n y (w - 1) ltac:(unfold n; lia) ltac:(lia)) as X. cbv zeta in X. rewrite Wd in X.
    replace (w - 1 + 1) with w in X by lia. replace (d - 1 + 1) with d in X by lia. pose proof (leap_b y). apply X; unfold n; lia. }
  destruct (fromordinal_ok n) as [[R ->]|[R ->]].
  - left. exists n. auto.
  - right. split; [|reflexivity]. intros k Rk Ik. apply R. rewrite <- (iso_unique k n _ ltac:(apply Rk) ltac:(unfold n; lia) Ik I). exact Rk.
Qed.

(** *** Comparison *)
Lemma existsb_map_ {A B} (f : B -> bool) (g : A -> B) l : existsb f (map g l) = existsb (fun x => f (g x)) l.
Proof. induction l; cbn; congruence. Qed.
Lemma forallb_map_ {A B} (f : B -> bool) (g : A -> B) l : forallb f (map g l) = forallb (fun x => f (g x)) l.
Proof. induction l; cbn; congruence. Qed.
Lemma existsb_ext_ {A} (f g : A -> bool) l : (forall x, f x = g x) -> existsb f l = existsb g l.
Proof. intros H. induction l; cbn; [|rewrite H]; congruence. Qed.
Lemma existsb_andb_ {A} b (f : A -> bool) l : existsb (fun x => b && f x) l = b && existsb f l.
Proof. destruct b; cbn [andb]; [reflexivity|]. induction l; cbn; auto. Qed.
Lemma lex_lt_cons a l b r : lex_lt (a :: l) (b :: r) = (a <? b) || (a =? b) && lex_lt l r.
Proof.
  unfold lex_lt. cbn [length seq existsb forallb nth andb]. f_equal. rewrite <- seq_shift, existsb_map_, <- existsb_andb_.
  apply existsb_ext_. intros i. cbn [seq forallb nth]. rewrite <- seq_shift, forallb_map_. cbn [nth]. rewrite andb_assoc. reflexivity.
Qed.
Lemma lex_lt_nil r : lex_lt [] r = false. Proof. reflexivity. Qed.
Lemma rel_cmp1 r a b : rel_of r (cmp [a] [b]) = s_rel r a b.
Proof.
  unfold cmp. rewrite !lex_lt_cons, !lex_lt_nil, !andb_false_r, !orb_false_r.
  destruct (Z.ltb_spec b a), (Z.ltb_spec a b); destruct r; cbn [rel_of s_rel b2z]; lia.
Qed.
Definition triple (f : Z * Z * Z) : list Z := let '(y, m, d) := f in [y; m; d].
Lemma lex_lt3 f g : lex_lt (triple f) (triple g) = true <-> lexlt f g.
Proof.
  destruct f as [[y m] d], g as [[y' m'] d']. unfold triple, lexlt. rewrite !lex_lt_cons, lex_lt_nil. lia.
Qed.
Lemma rel_cmp3 r a b : 1 <= a -> 1 <= b -> rel_of r (cmp (triple (s_date a)) (triple (s_date b))) = s_rel r a b.
Proof.
  intros A B. destruct (s_date_num a A) as (Va & Ea & _), (s_date_num b B) as (Vb & Eb & _). unfold cmp.
  assert (X : forall a b, 1 <= a -> 1 <= b -> lex_lt (triple (s_date a)) (triple (s_date b)) = (a <? b)).
  { clear. intros a b A B. destruct (s_date_num a A) as (Va & Ea & _), (s_date_num b B) as (Vb & Eb & _).
    destruct (lexlt_total (s_date a) (s_date b)) as [E|[L|L]].
    - rewrite E. apply s_date_inj in E; auto. subst b. rewrite Z.ltb_irrefl.
      destruct (lex_lt _ _) eqn:F; [|reflexivity]. apply lex_lt3 in F. apply num_mono in F; auto. lia.
    - pose proof (num_mono _ _ Va Vb L). apply lex_lt3 in L. rewrite L. lia.
    - pose proof (num_mono _ _ Vb Va L). destruct (lex_lt _ _) eqn:F; [|lia]. apply lex_lt3 in F. apply num_mono in F; auto. lia. }
  rewrite !X by assumption. destruct (Z.ltb_spec b a), (Z.ltb_spec a b); destruct r; cbn [rel_of s_rel b2z]; lia.
Qed.

(** *** The fresh fields are exactly the date *)
Lemma bridge_iff n f : in_range n -> bridge n f = true <-> f = s_date n.
Proof.
  intros R. destruct R as [R1 R2]. destruct (s_date_num n R1) as (V & E & P). split.
  - destruct f as [[y m] d]. unfold bridge. rewrite !andb_true_iff. unfold MINYEAR, MAXYEAR. intros (((((((A & B) & C) & D) & F) & G) & H) & K).
    assert (Hm : 1 <= m <= 12) by lia. rewrite (constraint_eq y m d Hm) in K.
    assert (V' : validf (y, m, d)) by (split; lia). apply num_inj; auto. unfold num at 1. lia.
  - intros ->. unfold s_year in *. destruct (s_date n) as [[y m] d]. cbn [fst] in *. unfold bridge. destruct V as [V1 V2].
    rewrite (constraint_eq y m d V1). unfold MINYEAR, MAXYEAR. unfold num in E. pose proof (ml_bounds y m). rewrite !andb_true_iff. repeat split; lia.
Qed.

(** *** Histories of calls *)
Section Histories.
Variable concrete : Z -> bool.
Variable pick : Z -> Z * Z * Z.
Hypothesis picked : forall n, 1 <= n <= MAXORDINAL -> bridge n (pick n) = true.

Definition rep (o : dobj) (n : Z) : Prop :=
  in_range n /\ ((ymd o = Some (s_date n) /\ ord o = None) \/ (ymd o = None /\ ord o = Some n) \/ (ymd o = Some (s_date n) /\ ord o = Some n)).
Lemma decompose_ok o n : rep o n -> exists o', decompose concrete pick o = Ok (s_date n, o') /\ rep o' n.
Proof.
  intros [R [[E1 E2]|[[E1 E2]|[E1 E2]]]]; unfold decompose; rewrite E1.
  - eexists. split; [reflexivity|]. split; auto.
  - rewrite E2. assert (X : (if concrete n then ord2ymd n else Ok (pick n)) = Ok (s_date n)).
    { destruct (concrete n); [apply ord2ymd_ok, R|]. f_equal. apply bridge_iff; [exact R|]. apply picked, in_range_iff, R. }
    rewrite X. cbn [bind]. eexists. split; [reflexivity|]. split; [exact R|]. right; right. auto.
  - eexists. split; [reflexivity|]. split; auto.
Qed.
Lemma toordinal_ok o n : rep o n -> exists o', toordinal o = Ok (n, o') /\ rep o' n.
Proof.
  intros [R [[E1 E2]|[[E1 E2]|[E1 E2]]]]; unfold toordinal; rewrite E2.
  - rewrite E1. destruct (s_date_num n) as (V & E & _); [apply R|]. destruct (s_date n) as [[y m] d] eqn:D.
    rewrite (ymd2ord_num _ _ _ V), E. cbn [bind]. eexists. split; [reflexivity|]. split; [exact R|]. right; right. cbn. rewrite D. auto.
  - eexists. split; [reflexivity|]. split; auto.
  - eexists. split; [reflexivity|]. split; auto.
Qed.
Lemma geto_ok h sh i n : Forall2 rep h sh -> nth_error sh i = Some n -> rep (geto h i) n.
Proof. intros F. revert i. induction F; intros [|i] E; try discriminate; cbn in *; [congruence|]. apply IHF, E. Qed.
Lemma seto_ok h sh i n o : Forall2 rep h sh -> nth_error sh i = Some n -> rep o n -> Forall2 rep (seto h i o) sh.
Proof.
  intros F. revert i. induction F; intros [|i] E R; try discriminate; cbn in *.
  - inversion E; subst. constructor; auto.
  - constructor; auto.
Qed.
Lemma f2_len h sh : Forall2 rep h sh -> length h = length sh.
Proof. induction 1; cbn; congruence. Qed.
Lemma lookup (sh : list Z) i : (i < length sh)%nat -> exists n, nth_error sh i = Some n.
Proof. intros H. apply nth_error_Some in H. destruct (nth_error sh i) eqn:E; [eauto | congruence]. Qed.

Definition good (h : heap) (sh : list Z) (op : dop) : Prop :=
  exists sh', spec sh op (fst (dstep concrete pick h op)) sh' /\ Forall2 rep (snd (dstep concrete pick h op)) sh'.
Lemma dnew_ok h sh r is e :
  Forall2 rep h sh ->
  ((exists n o, in_range n /\ is n /\ r = Ok o /\ rep o n) \/ ((forall n, in_range n -> ~ is n) /\ r = Err e)) ->
  exists sh', makes is e sh (fst (dnew h r)) sh' /\ Forall2 rep (snd (dnew h r)) sh'.
Proof.
  intros F [(n & o & R & I & -> & O)|[H ->]]; cbn [dnew fst snd].
  - exists (sh ++ [n]). rewrite (f2_len _ _ F). split; [constructor; auto|]. apply Forall2_app; [exact F|]. constructor; auto.
  - exists sh. split; [constructor; exact H | exact F].
Qed.
Lemma rep_fields n : in_range n -> rep (mkD (Some (s_date n)) None) n.
Proof. split; auto. Qed.
Lemma date_new_rep y m d : (exists n o, in_range n /\ s_date n = (y, m, d) /\ date_new y m d = Ok o /\ rep o n) \/
  ((forall n, in_range n -> s_date n <> (y, m, d)) /\ date_new y m d = Err ValueError).
Proof.
  destruct (date_new_ok y m d) as [(n & R & E & N)|H]; [left|right; exact H].
  exists n. eexists. split; [exact R|]. split; [exact E|]. split; [exact N|]. apply rep_fields, R.
Qed.
Lemma add_ok h sh i n days : Forall2 rep h sh -> nth_error sh i = Some n ->
  exists sh', makes (fun k => k = n + days) OverflowError sh (fst (let '(r, h) := date_add h i days in dnew h r)) sh' /\
              Forall2 rep (snd (let '(r, h) := date_add h i days in dnew h r)) sh'.
Proof.
  intros F Hn. unfold date_add. destruct (toordinal_ok _ _ (geto_ok _ _ _ _ F Hn)) as (o & E & O). rewrite E.
  apply dnew_ok; [exact (seto_ok _ _ _ _ _ F Hn O)|].
  destruct ((0 <? n + days) && (n + days <=? MAXORDINAL)) eqn:B.
  - left. assert (R : in_range (n + days)) by (apply in_range_iff; lia). exists (n + days). eexists.
    split; [exact R|]. split; [reflexivity|]. split; [reflexivity|]. split; [exact R|]. right; left. auto.
  - right. split; [|reflexivity]. intros k R ->. apply in_range_iff in R. lia.
Qed.
Lemma dstep_ok h sh op : Forall2 rep h sh -> refers (length sh) op -> good h sh op.
Proof.
  intros F W. unfold good. destruct op as [y m d|n|y w d|i|i|i|i|i|i y m d|r i j|i days|i days|i j]; cbn [refers] in W; cbn [dstep].
  - destruct (dnew_ok h sh _ _ ValueError F (date_new_rep y m d)) as (sh' & A & B). exists sh'. split; [constructor|]; assumption.
  - destruct (dnew_ok h sh (m_fromordinal n) (fun k => k = n) ValueError F) as (sh' & A & B).
    { destruct (fromordinal_ok n) as [[R E]|[R E]].
      - left. exists n. eexists. split; [exact R|]. split; [reflexivity|]. split; [exact E|]. apply rep_fields, R.
      - right. split; [|exact E]. intros k Rk ->. contradiction. }
    exists sh'. split; [constructor|]; assumption.
  - destruct (dnew_ok h sh (m_fromisocalendar y w d) (fun n => iso n (y, w, d)) ValueError F) as (sh' & A & B).
    { destruct (fromiso_ok y w d) as [(n & R & I & E)|X].
      - left. exists n. eexists. split; [exact R|]. split; [exact I|]. split; [exact E|]. apply rep_fields, R.
      - right. exact X. }
    exists sh'. split; [constructor|]; assumption.
  - destruct (lookup _ _ W) as [n Hn]. destruct (decompose_ok _ _ (geto_ok _ _ _ _ F Hn)) as (o & E & O). rewrite E.
    exists sh. split; [constructor; exact Hn | exact (seto_ok _ _ _ _ _ F Hn O)].
  - destruct (lookup _ _ W) as [n Hn]. destruct (toordinal_ok _ _ (geto_ok _ _ _ _ F Hn)) as (o & E & O). rewrite E.
    exists sh. split; [constructor; exact Hn | exact (seto_ok _ _ _ _ _ F Hn O)].
  - destruct (lookup _ _ W) as [n Hn]. destruct (toordinal_ok _ _ (geto_ok _ _ _ _ F Hn)) as (o & E & O). rewrite E.
    exists sh. cbn [fst snd]. split; [|exact (seto_ok _ _ _ _ _ F Hn O)]. replace ((n + 6) mod 7) with (s_weekday n) by (unfold s_weekday; lia).
    constructor; exact Hn.
  - destruct (lookup _ _ W) as [n Hn]. destruct (toordinal_ok _ _ (geto_ok _ _ _ _ F Hn)) as (o & E & O). rewrite E.
    exists sh. cbn [fst snd]. split; [|exact (seto_ok _ _ _ _ _ F Hn O)].
    replace (if n mod 7 =? 0 then 7 else n mod 7) with (s_weekday n + 1) by (unfold s_weekday; destruct (Z.eqb_spec (n mod 7) 0); lia).
    constructor; exact Hn.
  - destruct (lookup _ _ W) as [n Hn]. pose proof (geto_ok _ _ _ _ F Hn) as G. destruct (decompose_ok _ _ G) as (o & E & O). rewrite E.
    exists sh. cbn [fst snd]. split; [|exact (seto_ok _ _ _ _ _ F Hn O)].
    destruct (iso_total n) as (_ & t & I & ->); [apply G|]. econstructor; eassumption.
  - destruct (lookup _ _ W) as [n Hn]. destruct (decompose_ok _ _ (geto_ok _ _ _ _ F Hn)) as (o & E & O). rewrite E.
    destruct (s_date n) as [[y0 m0] d0] eqn:D.
    destruct (dnew_ok (seto h i o) sh _ _ ValueError (seto_ok _ _ _ _ _ F Hn O) (date_new_rep (orelse y y0) (orelse m m0) (orelse d d0))) as (sh' & A & B).
    pose proof (S_Replace sh i n y m d y0 m0 d0) as SR.
    destruct y as [y|], m as [m|], d as [d|]; try (exists sh'; split; [eapply SR; eassumption | exact B]).
    destruct (dnew_ok h sh _ _ ValueError F (date_new_rep y m d)) as (sh2 & A2 & B2).
    exists sh2. split; [eapply SR; [exact Hn | exact D | exact A2] | exact B2].
  - destruct W as [Wi Wj]. destruct (lookup _ _ Wi) as [a Ha]. destruct (lookup _ _ Wj) as [b Hb].
    pose proof (geto_ok _ _ _ _ F Ha) as Ra. pose proof (geto_ok _ _ _ _ F Hb) as Rb.
    exists sh.
    assert (Slow : exists c h', (do ra <- toordinal (geto h i); let h := seto h i (snd ra) in
            do rb <- toordinal (geto h j); let h := seto h j (snd rb) in
            Ok (cmp [fst ra] [fst rb], h)) = Ok (c, h') /\ rel_of r c = s_rel r a b /\ Forall2 rep h' sh).
    { destruct (toordinal_ok _ _ Ra) as (oa & -> & Oa). cbn [bind fst snd]. pose proof (seto_ok _ _ _ _ _ F Ha Oa) as F1.
      destruct (toordinal_ok _ _ (geto_ok _ _ _ _ F1 Hb)) as (ob & -> & Ob). cbn [bind fst snd].
      do 2 eexists. split; [reflexivity|]. split; [apply rel_cmp1 | exact (seto_ok _ _ _ _ _ F1 Hb Ob)]. }
    assert (X : exists c h', date_cmp h i j = Ok (c, h') /\ rel_of r c = s_rel r a b /\ Forall2 rep h' sh).
    { unfold date_cmp. destruct (ymd (geto h i)) as [[[y m] d]|] eqn:Ya; [|exact Slow].
      destruct (ymd (geto h j)) as [[[y2 m2] d2]|] eqn:Yb; [|exact Slow].
      assert (Da : s_date a = (y, m, d)) by (destruct Ra as [_ [[]|[[]|[]]]]; congruence).
      assert (Db : s_date b = (y2, m2, d2)) by (destruct Rb as [_ [[]|[[]|[]]]]; congruence).
      do 2 eexists. split; [reflexivity|]. split; [|exact F].
      rewrite <- (rel_cmp3 r a b); [|apply Ra|apply Rb]. rewrite Da, Db. reflexivity. }
    destruct X as (c & h' & -> & E & F'). cbn [fst snd]. rewrite E. split; [constructor; assumption | exact F'].
  - destruct (lookup _ _ W) as [n Hn]. destruct (add_ok h sh i n days F Hn) as (sh' & A & B). exists sh'. split; [econstructor; eassumption | exact B].
  - destruct (lookup _ _ W) as [n Hn]. destruct (add_ok h sh i n (- days) F Hn) as (sh' & A & B). exists sh'. split; [|exact B].
    econstructor; [exact Hn|]. destruct A as [k R E|E]; [left; [exact R | lia]|]. right. intros k R ->. apply (E _ R). lia.
  - destruct W as [Wi Wj]. destruct (lookup _ _ Wi) as [a Ha]. destruct (lookup _ _ Wj) as [b Hb].
    pose proof (geto_ok _ _ _ _ F Ha) as Ra. destruct (toordinal_ok _ _ Ra) as (oa & -> & Oa). pose proof (seto_ok _ _ _ _ _ F Ha Oa) as F1.
    destruct (toordinal_ok _ _ (geto_ok _ _ _ _ F1 Hb)) as (ob & -> & Ob). exists sh. cbn [fst snd].
    split; [constructor; assumption | exact (seto_ok _ _ _ _ _ F1 Hb Ob)].
Qed.
Lemma makes_len is e h r h' : makes is e h r h' -> length h' = match r with DObj _ => S (length h) | _ => length h end.
Proof. intros [n R I|N]; [rewrite app_length; cbn; lia | reflexivity]. Qed.
Lemma spec_len h o r h' : spec h o r h' -> length h' = match r with DObj _ => S (length h) | _ => length h end.
Proof. intros X. inversion X; subst; try reflexivity; eapply makes_len; eassumption. Qed.
Lemma drun_ok ops : forall h sh, Forall2 rep h sh -> well_formed (fst (drun concrete pick h ops)) (length sh) ops ->
  specs sh ops (fst (drun concrete pick h ops)).
Proof.
  induction ops as [|o ops IH]; intros h sh F W; cbn [drun fst] in *; [constructor|].
  destruct (dstep concrete pick h o) as [r h1] eqn:E1. destruct (drun concrete pick h1 ops) as [rs h2] eqn:E2. cbn [fst well_formed] in *.
  destruct W as [W1 W2]. destruct (dstep_ok h sh o F W1) as (sh' & A & B). rewrite E1 in A, B. cbn [fst snd] in *.
  econstructor; [exact A|]. specialize (IH h1 sh' B). rewrite E2 in IH. cbn [fst] in IH. apply IH.
  rewrite (spec_len _ _ _ _ A). exact W2.
Qed.
End Histories.

(** The specification leaves no choice *)
Lemma makes_det (is : Z -> Prop) e h r h' r' h'' : (forall a b, in_range a -> in_range b -> is a -> is b -> a = b) ->
  makes is e h r h' -> makes is e h r' h'' -> r = r' /\ h' = h''.
Proof.
  intros U [n R I|N] [n' R' I'|N']; auto.
  - rewrite (U n n' R R' I I'). auto.
  - exfalso. eapply N'; eassumption.
  - exfalso. eapply N; eassumption.
Qed.
Lemma spec_det h o r h' r' h'' : Forall in_range h -> spec h o r h' -> spec h o r' h'' -> r = r' /\ h' = h''.
Proof.
  intros F A B.
  assert (G : forall i n, nth_error h i = Some n -> in_range n) by (intros i n E; rewrite Forall_forall in F; apply F; eapply nth_error_In; eassumption).
  destruct A; inversion B; subst;
    repeat match goal with H1 : nth_error ?h ?i = Some ?a, H2 : nth_error ?h ?i = Some ?b |- _ => rewrite H1 in H2; injection H2 as <- end; auto.
  - eapply makes_det; [|eassumption|eassumption]. cbn beta. intros a b Ra Rb Ea Eb. apply s_date_inj; [apply Ra | apply Rb | congruence].
  - eapply makes_det; [|eassumption|eassumption]. cbn beta. intros; congruence.
  - eapply makes_det; [|eassumption|eassumption]. cbn beta. intros a b Ra Rb Ea Eb. eapply iso_unique; [apply Ra | apply Rb | |]; eassumption.
  - match goal with E : nth_error ?h ?i = Some ?n, I : iso ?n ?t, I' : iso ?n ?t' |- _ => rewrite (iso_det n t t' (proj1 (G _ _ E)) I I'); auto end.
  - match goal with E1 : s_date ?n = (?a, ?b, ?c), E2 : s_date ?n = (?a', ?b', ?c') |- _ => rewrite E1 in E2; injection E2 as <- <- <- end.
    eapply makes_det; [|eassumption|eassumption]. cbn beta. intros a b Ra Rb Ea Eb. apply s_date_inj; [apply Ra | apply Rb | congruence].
  - eapply makes_det; [|eassumption|eassumption]. cbn beta. intros; congruence.
  - eapply makes_det; [|eassumption|eassumption]. cbn beta. intros; congruence.
Qed.
Lemma spec_range h o r h' : Forall in_range h -> spec h o r h' -> Forall in_range h'.
Proof.
  intros F A. inversion A; subst; auto;
    match goal with M : makes _ _ _ _ _ |- _ => destruct M; [apply Forall_app; split; [exact F|]; constructor; auto | exact F] end.
Qed.
Lemma specs_det os : forall h rs rs', Forall in_range h -> specs h os rs -> specs h os rs' -> rs = rs'.
Proof.
  induction os as [|o os IH]; intros h rs rs' F A B; inversion A; inversion B; subst; [reflexivity|].
  match goal with S1 : spec ?h o _ ?h1, S2 : spec ?h o _ ?h2 |- _ => pose proof (spec_range _ _ _ _ F S1); destruct (spec_det _ _ _ _ _ _ F S1 S2) as [-> <-] end.
  f_equal. eapply IH; eassumption.
Qed.
