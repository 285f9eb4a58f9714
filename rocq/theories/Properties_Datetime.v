(** C57-C60: datetimes, times and how they are generated. *)
From Coq Require Import ZArith List Bool Lia ZifyBool.
From Verif Require Import Py Calendar_Model Calendar_Spec Calendar_Proofs Timedelta_Model Timedelta_Spec Timedelta_Proofs
  Datetime_Model Datetime_Spec Datetime_Proofs Time_Proofs Properties_Calendar.
Import ListNotations.
Open Scope Z_scope.

(** C57.  For time zones of any behaviour that keep to the rules (offsets less than a day),
    however the date part is held: differences and comparisons of datetimes are those of the
    moments they stand for, sums are moments again or overflow exactly outside years 1-9999,
    and equal datetimes hash alike. *)
Theorem datetimes_are_moments : forall concrete pick tz,
  (forall n, 1 <= n <= 3652059 -> bridge n (pick n) = true) -> zones_ok tz ->
  forall a b m m', is_moment a m -> is_moment b m' ->
  s_diff tz m m' (dt_diff concrete pick tz a b) /\
  (forall r, s_order tz r m m' (dt_rel concrete pick tz r a b)) /\
  (dt_rel concrete pick tz REq a b = Ok true ->
   exists h, dt_hash concrete pick tz a = Ok h /\ dt_hash concrete pick tz b = Ok h).
Proof.
  intros concrete pick tz P Z a b m m' A B.
  split; [apply dt_diff_ok; assumption|]. split; [intros r; apply dt_rel_ok; assumption|]. apply (hash_eq concrete pick P tz Z a b m m' A B).
Qed.
Print Assumptions datetimes_are_moments.
Theorem datetime_plus_timedelta : forall a m t x, is_moment a m -> stands_for t x ->
  ((in_span (local m + x) /\ exists b, dt_add a t = Ok b /\ is_moment b (mkM (local m + x) (mzone m) 0)) \/
   (~ in_span (local m + x) /\ dt_add a t = Err OverflowError)) /\
  ((in_span (local m - x) /\ exists b, dt_sub a t = Ok b /\ is_moment b (mkM (local m - x) (mzone m) 0)) \/
   (~ in_span (local m - x) /\ dt_sub a t = Err OverflowError)).
Proof. intros a m t x M T. split; [apply (dt_add_ok (fun _ => true) fields_of fields_of_ok) | apply (dt_sub_ok (fun _ => true) fields_of fields_of_ok)]; assumption. Qed.
Print Assumptions datetime_plus_timedelta.
(** Conversion to a fixed zone keeps the instant. *)
Theorem astimezone_keeps_the_instant : forall concrete pick tz,
  (forall n, 1 <= n <= 3652059 -> bridge n (pick n) = true) -> zones_ok tz ->
  forall a m mz o z offset x,
  is_moment a m -> mzone m = Some mz -> off tz m = Some o -> z <> mz ->
  stands_for offset x -> (forall f c k, tz z f c k = Some offset) ->
  let utc := local m - o in
  (in_span utc /\ in_span (utc + x) /\
   exists b m', dt_astimezone concrete pick tz a z offset = Ok b /\ is_moment b m' /\ mzone m' = Some z /\ key tz m' = key tz m) \/
  (~ (in_span utc /\ in_span (utc + x)) /\ dt_astimezone concrete pick tz a z offset = Err OverflowError).
Proof.
  intros concrete pick tz P Z a m mz o z offset x M Ez Eo Nz Sx Hz utc.
  destruct (astimezone_ok concrete pick P tz Z a m mz o z offset x M Ez Eo Sx Nz) as [(S1 & S2 & b & E & Mb)|[S E]]; [left|right; auto].
  split; [exact S1|]. split; [exact S2|].
  exists b. eexists. split; [exact E|]. split; [exact Mb|]. split; [reflexivity|].
  unfold key. rewrite Eo. unfold off. cbn [mzone local mfold]. rewrite Hz. cbn [option_map]. rewrite (stands_us _ _ Sx). unfold utc. lia.
Qed.
Print Assumptions astimezone_keeps_the_instant.

(** Zones 0 (UTC), 1 (+01:00), 2 (a summer time that ends on 2024-10-27, when 02:00-03:00 happens twice) *)
Definition x_tz (z : nat) (f : Z * Z * Z) (c : Z * Z * Z * Z) (k : Z) : option td :=
  match z with
  | O => Some (mkTd 0 0 0)
  | 1%nat => Some (mkTd 0 3600 0)
  | 2%nat => let '(y, m, d) := f in let '(h, _, _, _) := c in
             Some (if (y =? 2024) && (m =? 10) && (d =? 27) && (h =? 2) && (k =? 0) then mkTd 0 7200 0 else mkTd 0 3600 0)
  | _ => None
  end.
Lemma x_tz_ok : zones_ok x_tz.
Proof.
  intros z f c k t E. destruct z as [|[|[|z]]]; cbn [x_tz] in E.
  - injection E as <-. vm_compute. repeat split; discriminate.
  - injection E as <-. vm_compute. repeat split; discriminate.
  - destruct f as [[y m] d], c as [[[h mi] s] u]. destruct (_ && (k =? 0)); injection E as <-; vm_compute; repeat split; discriminate.
  - discriminate.
Qed.
Definition x_at (z : option nat) (h k : Z) : dt := mkDt (mkD None (Some 739186)) h 30 0 0 z k. (* 2024-10-27, as an ordinal *)
Definition x_mom (z : option nat) (h k : Z) : moment := mkM (739186 * us_per_day + h * 3600000000 + 1800000000) z k.
Lemma x_is z h k : 0 <= h < 24 -> k = 0 \/ k = 1 -> is_moment (x_at z h k) (x_mom z h k).
Proof.
  intros H K. destruct (clock_intro 739186 h 30 0 0) as [D C]; [lia.. |]. cbv zeta in D, C.
  unfold is_moment, x_at, x_mom. cbn [local mzone mfold dp ymd ord hh mi se us zone fold].
  replace (739186 * us_per_day + h * 3600000000 + 1800000000) with (739186 * us_per_day + h * 3600000000 + 30 * 60000000 + 0 * 1000000 + 0) by lia.
  rewrite D, C. split; [unfold in_span, us_per_day; lia|]. split; [right; reflexivity|]. split; [discriminate|].
  split; [intros n E; congruence|]. repeat split; auto.
Qed.
Example x_moments :
  (* 02:30 summer time (fold 0) is 00:30 UTC, 02:30 winter time (fold 1) is 01:30 UTC; neither equals them *)
  dt_rel (fun _ => true) fields_of x_tz RLt (x_at (Some 2%nat) 2 0) (x_at (Some 0%nat) 1 0) = Ok true /\
  dt_rel (fun _ => true) fields_of x_tz RLe (x_at (Some 2%nat) 2 1) (x_at (Some 0%nat) 1 0) = Ok true /\
  dt_rel (fun _ => true) fields_of x_tz REq (x_at (Some 2%nat) 2 1) (x_at (Some 0%nat) 1 0) = Ok false /\
  dt_rel (fun _ => true) fields_of x_tz REq (x_at (Some 1%nat) 2 1) (x_at (Some 0%nat) 1 0) = Ok true /\
  dt_rel (fun _ => true) fields_of x_tz RLt (x_at None 2 1) (x_at (Some 0%nat) 1 0) = Err TypeError /\
  dt_diff (fun _ => false) fields_of x_tz (x_at (Some 1%nat) 2 0) (x_at (Some 0%nat) 2 0) = Ok (mkTd (-1) 82800 0) /\
  dt_hash (fun _ => false) fields_of x_tz (x_at (Some 1%nat) 2 1) = dt_hash (fun _ => true) fields_of x_tz (x_at (Some 0%nat) 1 0) /\
  dt_add (x_at None 2 0) (mkTd (-739186) 75600 0) = Err OverflowError /\
  dt_astimezone (fun _ => true) fields_of x_tz (x_at (Some 2%nat) 2 0) 1 (mkTd 0 3600 0) = Ok (mkDt (mkD None (Some 739186)) 1 30 0 0 (Some 1%nat) 0).
Proof. vm_compute. repeat split. Qed.

(** C58.  In full: a date and a datetime are never equal and have no order (CPython raises
    TypeError).  Proved when the datetime was made under analysis; refuted when it was made
    before. *)
Theorem date_and_datetime_do_not_compare_partial : forall r k k' n n' v,
  mixed_rel r k k' n n' = Some v -> k <> RealDatetime -> k' <> RealDatetime ->
  v = match r with REq => Ok false | RNe => Ok true | _ => Err TypeError end.
Proof. intros r k k' n n' v E N N'. destruct k, k'; try contradiction; cbn in E; try discriminate; injection E as <-; reflexivity. Qed.
Print Assumptions date_and_datetime_do_not_compare_partial.
Example x_mixed : mixed_rel RLt RealDate ChDatetime 5 6 = Some (Err TypeError) /\ mixed_rel REq ChDate ChDatetime 5 5 = Some (Ok false).
Proof. auto. Qed.
Theorem date_and_datetime_do_not_compare_refuted : exists k k' n n',
  mixed_rel REq k k' n n' = Some (Ok true) /\ mixed_rel RLe k k' n n' = Some (Ok true) /\ mixed_rel REq k' k n' n = Some (Ok true).
Proof. exists ChDate, RealDatetime, 5, 5. vm_compute. auto. Qed.
Print Assumptions date_and_datetime_do_not_compare_refuted.

(** C59.  In full: times of day compare by their time less the UTC offset, naive and aware ones
    are unequal and unordered, and equal times hash alike.  Proved for offsets of whole
    minutes; refuted for others. *)
Theorem times_compare_partial : forall a b, is_time a -> is_time b -> t_consistent a b -> whole_minutes a -> whole_minutes b ->
  (forall r, s_time_order r a b (tm_rel r a b)) /\
  (tm_rel REq a b = Ok true -> exists h, tm_hash a = Ok h /\ tm_hash b = Ok h).
Proof.
  intros a b A B C WA WB. split; [intros r; apply tm_rel_ok; assumption|]. intros E.
  pose proof (tm_rel_ok REq a b A B C WA WB) as H. unfold s_time_order in H. destruct (Bool.eqb _ _); [|congruence].
  rewrite E in H. injection H as H. cbn [s_rel] in H. symmetry in H. apply Z.eqb_eq in H.
  exists (hash_of (t_key a)). split; [apply tm_hash_ok; assumption|]. rewrite H. apply tm_hash_ok; assumption.
Qed.
Print Assumptions times_compare_partial.
Definition x_time h m s z := mkTm h m s 0 z.
Ltac is_a_time := unfold is_time; cbn [th tmi ts tus ttz x_time]; do 4 (split; [split; reflexivity || discriminate|]);
  let E := fresh in intros ? ? E; first [discriminate E | injection E as <- <-; vm_compute; repeat split; discriminate].
Example x_times :
  let a := x_time 1 15 0 (Some (1%nat, mkTd 0 3600 0)) in let b := x_time 23 45 0 (Some (2%nat, mkTd (-1) 81000 0)) in
  let c := x_time 0 15 0 (Some (3%nat, mkTd 0 0 0)) in
  is_time a /\ whole_minutes a /\ t_consistent a b /\ tm_rel REq a c = Ok true /\ tm_hash a = Ok (HTime 0 15 0 0) /\ tm_rel RLt a b = Ok true /\ tm_hash b = Ok (HTuple 25 15 0 0).
Proof.
  cbv zeta. split; [|split; [|split]].
  - is_a_time.
  - intros z o E. injection E as <- <-. reflexivity.
  - intros z o o' E E'. injection E as <- <-. discriminate.
  - vm_compute. auto.
Qed.
(** 00:00:30 at UTC+00:00:30 is midnight UTC; the code says it is not equal to it, and it has no hash *)
Theorem times_compare_refuted : exists a b, is_time a /\ is_time b /\ t_consistent a b /\
  ~ s_time_order REq a b (tm_rel REq a b) /\ tm_hash a = Err AssertionError.
Proof.
  exists (x_time 0 0 30 (Some (1%nat, mkTd 0 30 0))), (x_time 0 0 0 (Some (2%nat, mkTd 0 0 0))).
  split; [|split; [|split; [|split]]].
  - is_a_time.
  - is_a_time.
  - intros z o o' E E'. injection E as <- <-. discriminate.
  - vm_compute. discriminate.
  - reflexivity.
Qed.
Print Assumptions times_compare_refuted.

(** C60.  In full: a datetime, time or timezone argument can be any datetime, time or fixed
    offset time zone.  Proved for datetimes whose fold is 0, for all times, and for offsets other than the two
    extreme ones; refuted for the rest. *)
Theorem symbolic_datetimes_partial : forall l z, in_span l ->
  exists n h m s u f a, make_datetime n h m s u f z = Some a /\ is_moment a (mkM l z 0).
Proof.
  intros l z S. destruct (clock l) as [[[h m] s] u] eqn:C. pose proof (proj1 (clock_eq _ _ _ _ _) C) as B.
  pose proof (proj1 (in_range_iff _) (span_range _ S)) as R.
  exists (day_of l), h, m, s, u, 0, (dt_from_ordinal (day_of l) h m s u z). split.
  - unfold make_datetime, in_bounds. replace (_ && ((0 <=? 0) && (0 <=? 1))) with true; [reflexivity|]. symmetry. rewrite !andb_true_iff. repeat split; lia.
  - unfold is_moment, dt_from_ordinal. cbn [local mzone mfold dp ymd ord hh mi se us zone fold]. rewrite C. split; [exact S|]. split; [auto|].
    split; [discriminate|]. split; [intros n E; congruence|]. repeat split; auto.
Qed.
Print Assumptions symbolic_datetimes_partial.
Example x_span : in_span (739186 * us_per_day + 1). Proof. split; reflexivity || discriminate. Qed.
Theorem symbolic_datetimes_refuted : exists m, in_span (local m) /\ mfold m = 1 /\
  forall n h mi s u f z a, make_datetime n h mi s u f z = Some a -> ~ is_moment a m.
Proof.
  exists (x_mom None 2 1). split; [split; reflexivity || discriminate|]. split; [reflexivity|].
  intros n h mi s u f z a E M. unfold make_datetime in E. destruct (_ && in_bounds 0 1 f) eqn:B in E; [|discriminate]. injection E as <-.
  destruct M as (_ & _ & _ & _ & _ & _ & F & _). discriminate.
Qed.
Print Assumptions symbolic_datetimes_refuted.
Theorem symbolic_times : forall a k, is_time a -> k = 0 \/ k = 1 ->
  exists h m s u f, make_time h m s u f (ttz a) = Some (a, k).
Proof.
  intros [h m s u z] k (A1 & A2 & A3 & A4 & _) K. cbn [th tmi ts tus ttz] in *. exists h, m, s, u, k.
  unfold make_time, in_bounds. replace (_ && _) with true by (symmetry; rewrite !andb_true_iff; repeat split; lia). reflexivity.
Qed.
Print Assumptions symbolic_times.
Example x_time_ok : is_time (x_time 23 59 59 None).
Proof. is_a_time. Qed.
(** [timezone] accepts any offset strictly between -24 and 24 hours *)
Theorem symbolic_timezones_partial : forall o x, stands_for o x -> -86399999999 < x < 86399999999 ->
  exists explicit delta, make_timezone explicit delta = Some o.
Proof.
  intros o x S B. exists true, o. unfold make_timezone.
  assert (S1 : stands_for minoffset (-86399999999)) by (vm_compute; repeat split; discriminate).
  assert (S2 : stands_for maxoffset 86399999999) by (vm_compute; repeat split; discriminate).
  rewrite (cmp_ok _ _ _ _ S1 S), (cmp_ok _ _ _ _ S S2). cbn [s_rel]. replace (_ && _) with true by lia. reflexivity.
Qed.
Print Assumptions symbolic_timezones_partial.
Example x_zone : stands_for (mkTd (-1) 3600 0) (-82800000000). Proof. vm_compute. repeat split; discriminate. Qed.
Theorem symbolic_timezones_refuted : exists o x, stands_for o x /\ - us_per_day < x < us_per_day /\
  forall explicit delta, make_timezone explicit delta <> Some o.
Proof.
  exists maxoffset, 86399999999. split; [vm_compute; repeat split; discriminate|]. split; [split; reflexivity|].
  intros [|] delta E; [|discriminate]. unfold make_timezone in E. destruct (m_cmp RLt minoffset delta && m_cmp RLt delta maxoffset) eqn:B; [|discriminate].
  injection E as ->. vm_compute in B. discriminate.
Qed.
Print Assumptions symbolic_timezones_refuted.

(** C57, for time zones that break the rules: asking for the offset raises ValueError exactly
    when the zone answers with a day or more either way. *)
Theorem utcoffset_is_checked : forall concrete pick tz a f z t x,
  fields concrete pick a = Ok f -> zone a = Some z ->
  tz z f (hh a, mi a, se a, us a) (fold a) = Some t -> stands_for t x ->
  (- us_per_day < x < us_per_day /\ utcoffset concrete pick tz a = Ok (Some t)) \/
  (~ - us_per_day < x < us_per_day /\ utcoffset concrete pick tz a = Err ValueError).
Proof.
  intros concrete pick tz a f z t x F Ez T S1. unfold utcoffset. rewrite Ez, F. cbn [bind]. rewrite T. cbn [check_utc_offset].
  assert (D1 : stands_for (mkTd (-1) 0 0) (- us_per_day)) by (vm_compute; repeat split; discriminate).
  assert (D2 : stands_for (mkTd 1 0 0) us_per_day) by (vm_compute; repeat split; discriminate).
  rewrite (cmp_ok _ _ _ _ D1 S1), (cmp_ok _ _ _ _ S1 D2). cbn [s_rel].
  destruct (_ && _) eqn:B; [left | right]; (split; [lia | reflexivity]).
Qed.
Print Assumptions utcoffset_is_checked.
Example utcoffset_is_checked_ex : exists a,
  dt_new 2020 1 2 3 4 5 6 (Some 0%nat) 0 = Ok a /\ zone a = Some 0%nat /\
  (exists f, fields (fun _ => true) fields_of a = Ok f) /\
  utcoffset (fun _ => true) fields_of (fun _ _ _ _ => Some (mkTd 1 0 0)) a = Err ValueError /\
  utcoffset (fun _ => true) fields_of (fun _ _ _ _ => Some (mkTd (-1) 0 1)) a = Ok (Some (mkTd (-1) 0 1)).
Proof. eexists. split; [reflexivity|]. split; [reflexivity|]. split; [eexists; reflexivity|]. split; vm_compute; reflexivity. Qed.
