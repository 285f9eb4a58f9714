(** C54, C55: symbolic dates follow the Gregorian calendar. *)
From Coq Require Import ZArith List Bool Lia.
From Verif Require Import Py Calendar_Model Calendar_Spec Calendar_Proofs.
Import ListNotations.
Open Scope Z_scope.

(** C54.  The arguments are any dates [ns] (a symbolic date is one integer in
    1..3652059); the fields chosen for an ordinal are any that satisfy the constraints
    that are added for them.  Then whatever is done with those dates and with the dates made
    from them, in any order, every answer is the one the calendar gives, and no other
    answer is. *)
Theorem dates_follow_the_calendar : forall concrete pick ns ops,
  (forall n, 1 <= n <= 3652059 -> bridge n (pick n) = true) ->
  Forall (fun n => 1 <= n <= 3652059) ns ->
  let answers := fst (drun concrete pick (map date_from_ordinal ns) ops) in
  well_formed answers (length ns) ops ->
  specs ns ops answers /\ forall other, specs ns ops other -> other = answers.
Proof.
  intros concrete pick ns ops P R answers W.
  assert (R' : Forall in_range ns) by (eapply Forall_impl; [|exact R]; intros n H; apply in_range_iff, H).
  assert (S0 : specs ns ops answers).
  { apply (drun_ok concrete pick P ops); [|exact W]. clear - R'. induction R'; cbn [map]; constructor; auto. split; [assumption|]. right; left. auto. }
  split; [exact S0|]. intros other S1. eapply specs_det; eassumption.
Qed.
Print Assumptions dates_follow_the_calendar.

Definition fields_of (n : Z) : Z * Z * Z := match ord2ymd n with Ok f => f | Err _ => (0, 0, 0) end.
Lemma fields_of_ok n : 1 <= n <= 3652059 -> bridge n (fields_of n) = true.
Proof. intros H. apply bridge_iff; [apply in_range_iff, H|]. unfold fields_of. rewrite ord2ymd_ok by lia. reflexivity. Qed.
(** 2024-02-28 and 2023-03-01, as ordinals, one read through chosen fields; leap days, week years,
    overflow and invalid dates *)
Definition x_ops : list dop :=
  [AddDays 0 1; Fields 2; Replace 2 (Some 2023) None None; AddDays 2 1; Fields 3; Compare RLt 1 3; Diff 3 1;
   New 2024 12 30; IsoCalendar 4; FromIso 2025 1 1; Compare REq 4 5; FromIso 2024 53 1; FromOrdinal 0; FromOrdinal 3652059;
   AddDays 6 1; SubDays 6 3652058; Fields 7; IsoWeekday 6; Weekday 0].
Example x_history :
  let answers := fst (drun Z.even fields_of (map date_from_ordinal [738944; 738580]) x_ops) in
  answers = [DObj 2; DTriple (2024, 2, 29); DErr ValueError; DObj 3; DTriple (2024, 3, 1); DBool true; DDays 366;
             DObj 4; DTriple (2025, 1, 1); DObj 5; DBool true; DErr ValueError; DErr ValueError; DObj 6;
             DErr OverflowError; DObj 7; DTriple (1, 1, 1); DInt 5; DInt 2]
  /\ well_formed answers 2 x_ops.
Proof. vm_compute. repeat split; repeat constructor. Qed.

(** C55.  A symbolic date is any date from 0001-01-01 to 9999-12-31 and nothing else: each integer it
    can be is a date, each date is such an integer, and the constraints on the year, month and day
    that are made when its fields are read have exactly one solution, the fields of that date. *)
Theorem symbolic_dates_are_all_dates :
  (forall n, 1 <= n <= 3652059 <-> in_range n) /\
  (forall y m d, 1 <= y <= 9999 -> 1 <= m <= 12 -> 1 <= d <= month_length y m ->
     exists n, in_range n /\ s_date n = (y, m, d)) /\
  (forall n, in_range n -> let '(y, m, d) := s_date n in 1 <= y <= 9999 /\ 1 <= m <= 12 /\ 1 <= d <= month_length y m) /\
  (forall n f, in_range n -> bridge n f = true <-> f = s_date n).
Proof.
  split; [intros n; symmetry; apply in_range_iff|]. split; [|split; [|intros n f; apply bridge_iff]].
  - intros y m d Hy Hm Hd. assert (V : validf (y, m, d)) by (split; lia). pose proof (num_pos y m d V ltac:(lia)) as P.
    pose proof (is_s_date _ V P) as E. exists (num (y, m, d)). split; [|symmetry; exact E]. split; [exact P|]. unfold s_year. rewrite <- E. cbn [fst]. lia.
  - intros n [R1 R2]. destruct (s_date_num n R1) as (V & _ & P). unfold s_year in *. destruct (s_date n) as [[y m] d]. cbn [fst] in *. destruct V. lia.
Qed.
Print Assumptions symbolic_dates_are_all_dates.
Example x_bridge : bridge 738945 (2024, 2, 29) = true /\ bridge 738945 (2024, 3, 0) = false /\ bridge 738946 (2024, 2, 30) = false.
Proof. vm_compute. auto. Qed.
(** the two ways of asking whether a year is leap, and of building an ordinal, agree with the calendar *)
Theorem ordinals_count_days : forall n, in_range n ->
  (let '(y, m, d) := s_date n in ymd2ord y m d) = Ok n /\ ord2ymd n = Ok (s_date n).
Proof.
  intros n [R1 _]. split; [|apply ord2ymd_ok, R1]. destruct (s_date_num n R1) as (V & E & _). destruct (s_date n) as [[y m] d].
  rewrite (ymd2ord_num _ _ _ V), E. reflexivity.
Qed.
Print Assumptions ordinals_count_days.
Example x_ordinals : ymd2ord 9999 12 31 = Ok 3652059 /\ ord2ymd 3652059 = Ok (9999, 12, 31) /\ ord2ymd 146097 = Ok (400, 12, 31).
Proof. vm_compute. auto. Qed.
