(** C61: isoformat and fromisoformat. *)
From Coq Require Import ZArith List Bool Lia ZifyBool ZifyNat String Ascii.
From Verif Require Import Py Calendar_Model Calendar_Spec Calendar_Proofs Timedelta_Model Timedelta_Spec Timedelta_Proofs
  Datetime_Model Parse_Spec Iso_Model Iso_Spec Iso_Proofs.
Import ListNotations.
Open Scope Z_scope.

(** int() of up to six ASCII digits is their number; bad input gives ValueError; a number is
    shorter than its text *)
Definition int_works (int : list Z -> res Z) : Prop :=
  (forall s, s <> [] -> (List.length s <= 6)%nat -> forallb digit s = true -> int s = Ok (number s)) /\
  (forall s e, int s = Err e -> e = ValueError) /\
  (forall s v, int s = Ok v -> Z.abs v < 10 ^ Z.of_nat (List.length s)).

(** isoformat writes exactly the ISO text of the value, as much of it as the timespec asks for *)
Theorem isoformat_text : forall y mo d h m s u z x sep spec,
  real_date (y, mo, d) -> real_clock (h, m, s, u) -> zone_is z x -> real_offset x ->
  date_text (date_iso y mo d) (y, mo, d) /\
  match part_of spec u with
  | None => time_iso h m s u z spec = Err ValueError /\ datetime_iso y mo d h m s u z sep spec = Err ValueError
  | Some p => exists t o, clock_text p t (cut p (h, m, s, u)) /\ canonical_offset o x /\
      time_iso h m s u z spec = Ok (t ++ o) /\ datetime_iso y mo d h m s u z sep spec = Ok (date_iso y mo d ++ [sep] ++ t ++ o)
  end.
Proof.
  intros y mo d h m s u z x sep spec D C Z R. split; [exact (date_iso_ok _ D)|].
  unfold time_iso, datetime_iso. destruct (part_of spec u) as [p|] eqn:P.
  - destruct (format_time_ok (h, m, s, u) spec p C P) as (t & -> & T). cbn [bind].
    assert (K : check_utc_offset z = Ok z).
    { destruct z as [o|]; [|reflexivity]. destruct x as [x|]; [|contradiction]. cbn in Z. unfold real_offset in R. unfold check_utc_offset.
      assert (S1 : stands_for (mkTd (-1) 0 0) (-us_per_day)) by (vm_compute; repeat split; discriminate).
      assert (S2 : stands_for (mkTd 1 0 0) us_per_day) by (vm_compute; repeat split; discriminate).
      rewrite (cmp_ok _ _ _ _ S1 Z), (cmp_ok _ _ _ _ Z S2). cbn [s_rel]. replace (_ && _) with true by lia. reflexivity. }
    rewrite K. cbn [bind]. destruct (format_offset_ok z x Z R) as (o & -> & O). cbn [bind].
    exists t, o. split; [exact T|]. split; [exact O|]. split; [reflexivity|]. rewrite <- !app_assoc. reflexivity.
  - destruct spec; try discriminate. split; reflexivity.
Qed.
Print Assumptions isoformat_text.

(** fromisoformat reads every text of those forms, and gives ValueError if the text names no
    date, time or offset *)
Theorem fromisoformat_reads : forall int, int_works int ->
  forall D f p s c o x, date_text D f -> clock_text p s c -> offset_text o x ->
  ((real_date f -> date_from_iso int D = Ok f) /\ (~ real_date f -> date_from_iso int D = Err ValueError)) /\
  (real_clock c /\ real_offset x -> exists z, time_from_iso int (s ++ o) = Ok (c, z) /\ zone_is z x) /\
  (~ (real_clock c /\ real_offset x) -> time_from_iso int (s ++ o) = Err ValueError) /\
  (forall sep, (real_date f /\ real_clock c /\ real_offset x -> exists z, datetime_from_iso int (D ++ [sep] ++ s ++ o) = Ok (f, (c, z)) /\ zone_is z x) /\
               (~ (real_date f /\ real_clock c /\ real_offset x) -> datetime_from_iso int (D ++ [sep] ++ s ++ o) = Err ValueError)) /\
  ((real_date f -> datetime_from_iso int D = Ok (f, (0, 0, 0, 0, None))) /\ (~ real_date f -> datetime_from_iso int D = Err ValueError)).
Proof.
  intros int [I1 _] D f p s c o x TD TC TO.
  destruct (parse_date_ok int I1 D f TD) as [LD PD]. destruct f as [[y mo] d]. destruct c as [[[h m] sc] u].
  pose proof (check_date_ok y mo d) as KD. pose proof (check_time_ok h m sc u) as KC.
  pose proof (parse_time_ok int I1 p s _ o x TC TO) as KT.
  split.
  { unfold date_from_iso. rewrite LD. cbn [Nat.eqb negb]. rewrite PD. cbn [bind]. destruct KD as [[RD ->]|[RD ->]]; split; intros; tauto || reflexivity. }
  split.
  { intros [RC RO]. destruct KT as [(_ & z & PT & Z)|[]]; [|tauto]. destruct KC as [[_ CC]|[]]; [|tauto].
    exists z. unfold time_from_iso. rewrite PT. cbn [bind]. rewrite CC. split; [reflexivity | exact Z]. }
  split.
  { intros Q. unfold time_from_iso. destruct KT as [(RO & z & PT & Z)|[_ PT]]; rewrite PT; cbn [bind]; [|reflexivity].
    destruct KC as [[RC _]|[_ CC]]; [tauto|]. rewrite CC. reflexivity. }
  split.
  { intros sep. unfold datetime_from_iso, slice. cbn [Nat.sub]. rewrite skipn_O, firstn_app, firstn_all2 by lia. rewrite LD. cbn [Nat.sub firstn]. rewrite app_nil_r, PD. cbn [bind].
    rewrite skipn_app, skipn_all2, LD by lia. cbn [app Nat.sub skipn].
    destruct (s ++ o) as [|c0 so] eqn:Es; [exfalso; apply app_eq_nil in Es; destruct Es as [-> _]; pose proof (clock_length _ _ _ TC) as L; destruct p; discriminate L|].
    destruct KT as [(RO & z & PT & Z)|[RO PT]]; rewrite PT; cbn [bind]; [|split; intros; tauto || reflexivity].
    destruct KD as [[RD CD]|[RD CD]]; rewrite CD; cbn [bind]; [|split; intros; tauto || reflexivity].
    destruct KC as [[RC CC]|[RC CC]]; rewrite CC; cbn [bind]; [|split; intros; tauto || reflexivity].
    split; intros Q; [|tauto]. exists z. split; [reflexivity | exact Z]. }
  unfold datetime_from_iso, slice. rewrite (skipn_all2 D (n:=11)) by lia. cbn [skipn Nat.sub]. rewrite firstn_all2 by lia. rewrite PD. cbn [bind].
  destruct KD as [[RD ->]|[RD ->]]; split; intros; tauto || reflexivity.
Qed.
Print Assumptions fromisoformat_reads.

(** So reading back what isoformat wrote gives the value again, cut to the timespec *)
Theorem isoformat_round_trip : forall int, int_works int ->
  forall y mo d h m s u z x sep spec p,
  real_date (y, mo, d) -> real_clock (h, m, s, u) -> zone_is z x -> real_offset x -> part_of spec u = Some p ->
  date_from_iso int (date_iso y mo d) = Ok (y, mo, d) /\
  (exists t, time_iso h m s u z spec = Ok t /\ time_from_iso int t = Ok (cut p (h, m, s, u), z)) /\
  (exists t, datetime_iso y mo d h m s u z sep spec = Ok t /\
             datetime_from_iso int t = Ok ((y, mo, d), (cut p (h, m, s, u), z))).
Proof.
  intros int I y mo d h m s u z x sep spec p D C Z R P.
  pose proof (isoformat_text y mo d h m s u z x sep spec D C Z R) as H. rewrite P in H. destruct H as (TD & t & o & TC & TO & E1 & E2).
  destruct (fromisoformat_reads int I _ _ _ _ _ _ _ TD TC (canonical_text _ _ TO)) as ((H1 & _) & H2 & _ & H3 & _).
  assert (C' : real_clock (cut p (h, m, s, u))).
  { clear -C. unfold real_clock in *. destruct p; cbn [cut]; lia. }
  assert (U : forall z', zone_is z' x -> z' = z).
  { intros z' Z'. destruct z as [a|], z' as [b|], x as [x|]; cbn in Z, Z'; try contradiction; [f_equal; eapply stands_inj; eassumption | reflexivity]. }
  split; [auto|]. split.
  - exists (t ++ o). split; [exact E1|]. destruct (H2 (conj C' R)) as (z' & E & Z'). rewrite E, (U _ Z'). reflexivity.
  - eexists. split; [exact E2|]. destruct (H3 sep) as [H4 _]. destruct (H4 (conj D (conj C' R))) as (z' & E & Z'). rewrite E, (U _ Z'). reflexivity.
Qed.
Print Assumptions isoformat_round_trip.

(** CPython's int works, and so does int() of a symbolic string *)
Definition c_int (s : list Z) : res Z := py_int (fun _ => false) (fun _ => None) (Some 4300) s 10.
Lemma digits_run l : forall v n a, forallb digit l = true -> l <> [] \/ a = true ->
  digits 10 l v n a = Some (fold_left (fun a c => a * 10 + (c - 48)) l v, n + Z.of_nat (List.length l), []).
Proof.
  induction l as [|c l IH]; intros v n a D H; cbn [digits].
  - destruct H as [H| ->]; [contradiction|]. cbn [fold_left List.length]. do 3 f_equal. lia.
  - cbn [forallb] in D. apply andb_true_iff in D. destruct D as [D1 D2]. unfold digit in D1.
    destruct (Z.eqb_spec c 95); [lia|]. unfold digit_value. rewrite D1. destruct (Z.ltb_spec (c - 48) 10); [|lia].
    rewrite IH by auto. cbn [fold_left List.length]. do 3 f_equal. lia.
Qed.
Lemma digit_value_pos c : 0 <= digit_value c.
Proof. unfold digit_value. destruct ((48 <=? c) && (c <=? 57)) eqn:A; [lia|]. destruct ((97 <=? c) && (c <=? 122)) eqn:B; [lia|]. destruct ((65 <=? c) && (c <=? 90)) eqn:C; lia. Qed.
Lemma digits_bound l : forall v n a v' n' rest, 0 <= v -> digits 10 l v n a = Some (v', n', rest) ->
  0 <= v' /\ v' + 1 <= (v + 1) * 10 ^ Z.of_nat (List.length l).
Proof.
  induction l as [|c l IH]; intros v n a v' n' rest V; cbn [digits].
  - destruct a; [|discriminate]. intros E. injection E as <- <- <-. cbn. lia.
  - cbn [List.length]. rewrite Nat2Z.inj_succ, Z.pow_succ_r by lia. assert (P : 0 < 10 ^ Z.of_nat (List.length l)) by (apply Z.pow_pos_nonneg; lia).
    destruct (c =? 95).
    + destruct a; [|discriminate]. intros E. apply IH in E; [|exact V]. nia.
    + destruct (Z.ltb_spec (digit_value c) 10) as [B|B].
      * pose proof (digit_value_pos c). intros E. apply IH in E; [|lia]. nia.
      * destruct a; [|discriminate]. intros E. injection E as <- <- <-. nia.
Qed.
Lemma skip_space_le l : (List.length (skip_space l) <= List.length l)%nat.
Proof. induction l as [|c l IH]; cbn [skip_space]; [lia|]. destruct (c_space c); cbn [List.length]; lia. Qed.
Lemma c_int_works : int_works c_int.
Proof.
  split; [|split].
  - intros s N L D. unfold c_int, py_int. change (negb (10 =? 0) && ((10 <? 2) || (36 <? 10))) with false. cbv iota.
    assert (E : map (to_ascii (fun _ => false) (fun _ => None)) s = s).
    { clear -D. induction s as [|c s IH]; [reflexivity|]. cbn [forallb map] in *. apply andb_true_iff in D. destruct D as [D1 D2]. rewrite IH by exact D2. f_equal.
      unfold to_ascii, digit in *. destruct (Z.ltb_spec c 127); [reflexivity | lia]. }
    rewrite E. destruct s as [|c s]; [contradiction|]. pose proof D as D'. cbn [forallb] in D'. apply andb_true_iff in D'. destruct D' as [D1 _]. unfold digit in D1.
    cbn [skip_space]. replace (c_space c) with false by (unfold c_space; lia). destruct (Z.eqb_spec c 43); [lia|]. destruct (Z.eqb_spec c 45); [lia|].
    unfold prefixed. change (10 =? 0) with false. change (10 =? 16) with false. change (10 =? 8) with false. change (10 =? 2) with false. cbn [andb orb].
    rewrite digits_run by (auto; left; discriminate). cbn [skip_space]. replace (limited 10 && _) with false by lia. cbn [andb]. reflexivity.
  - intros s e. unfold c_int, py_int. cbn [Z.eqb negb andb Z.ltb Z.compare Pos.compare Pos.compare_cont orb].
    destruct (match skip_space _ with [] => _ | _ => _ end) as [neg r]. destruct (prefixed 10 r) as [[b r'] zeros].
    destruct (digits b r' 0 0 false) as [[[v n] rest]|]; [|congruence]. destruct (skip_space rest); [|congruence].
    destruct (limited b && _); [congruence|]. destruct (zeros && _); congruence.
  - intros s v. unfold c_int, py_int. cbn [Z.eqb negb andb Z.ltb Z.compare Pos.compare Pos.compare_cont orb].
    set (l := skip_space (map _ s)). assert (Ll : (List.length l <= List.length s)%nat).
    { unfold l. rewrite <- (map_length (to_ascii (fun _ => false) (fun _ => None)) s). apply skip_space_le. }
    destruct (match l with [] => _ | _ => _ end) as [neg r] eqn:Er.
    assert (Lr : (List.length r <= List.length l)%nat).
    { destruct l as [|c l']; [injection Er as <- <-; lia|]. destruct (c =? 43); [injection Er as <- <-; cbn; lia|]. destruct (c =? 45); injection Er as <- <-; cbn; lia. }
    unfold prefixed. change (10 =? 0) with false. change (10 =? 16) with false. change (10 =? 8) with false. change (10 =? 2) with false. cbn [andb orb].
    destruct (digits 10 r 0 0 false) as [[[w n] rest]|] eqn:Ed; [|discriminate]. apply digits_bound in Ed; [|lia].
    destruct (skip_space rest); [|discriminate]. destruct (limited 10 && _); [discriminate|].
    intros E. injection E as <-. apply Z.lt_le_trans with (10 ^ Z.of_nat (List.length r)); [destruct neg; lia|]. apply Z.pow_le_mono_r; lia.
Qed.
Definition text (s : string) : list Z := map (fun a => Z.of_nat (nat_of_ascii a)) (list_ascii_of_string s).
Example x_iso :
  date_iso 123 4 5 = text "0123-04-05" /\
  datetime_iso 2024 2 29 1 2 3 0 (Some (mkTd (-1) 86390 1)) 84 Auto = Ok (text "2024-02-29T01:02:03-00:00:09.999999") /\
  time_iso 23 59 0 1999 (Some (mkTd 0 19800 0)) Milliseconds = Ok (text "23:59:00.001+05:30") /\
  datetime_from_iso c_int (text "2024-02-29T01:02:03-00:00:09.999999") = Ok ((2024, 2, 29), (1, 2, 3, 0, Some (mkTd (-1) 86390 1))) /\
  date_from_iso c_int (text "2023-02-29") = Err ValueError /\
  time_from_iso c_int (text "12:00+24:00") = Err ValueError.
Proof. vm_compute. repeat split. Qed.
Example x_real : real_date (2024, 2, 29).
Proof. destruct (check_date_ok 2024 2 29) as [[R _]|[_ C]]; [exact R | vm_compute in C; discriminate]. Qed.

(** In full: on every string, fromisoformat gives what CPython gives; on strings that are not a
    date, a ValueError.  Proved: only ValueError, if there are eight characters or more. *)
Theorem fromisoformat_errors_partial : forall int, int_works int -> forall s e,
  (date_from_iso int s = Err e -> e = ValueError) /\ (time_from_iso int s = Err e -> e = ValueError) /\
  ((8 <= List.length s)%nat -> datetime_from_iso int s = Err e -> e = ValueError).
Proof.
  intros int (_ & I & IB) s e. split; [unfold date_from_iso, all_as_value_error; destruct (if negb _ then _ else _); congruence|].
  split; [unfold time_from_iso, all_as_value_error; destruct (bind _ _); congruence|].
  intros L. unfold datetime_from_iso.
  assert (G : forall k, (k < 8)%nat -> exists c, char k (slice 0 10 s) = Ok c).
  { intros k K. unfold char, slice. cbn [skipn Nat.sub]. destruct (nth_error (firstn 10 s) k) as [c|] eqn:E; [eauto|].
    apply nth_error_None in E. rewrite firstn_length in E. lia. }
  assert (PD : forall e', parse_date int (slice 0 10 s) = Err e' -> e' = ValueError).
  { intros e'. unfold parse_date. destruct (int _) eqn:E1; cbn [bind]; [|intros Q; injection Q as <-; exact (I _ _ E1)].
    destruct (G 4%nat ltac:(lia)) as (c4 & ->). cbn [bind]. destruct (negb (c4 =? 45)); [congruence|].
    destruct (int _) eqn:E2 in |- *; cbn [bind]; [|intros Q; injection Q as <-; exact (I _ _ E2)].
    destruct (G 7%nat ltac:(lia)) as (c7 & ->). cbn [bind]. destruct (negb (c7 =? 45)); [congruence|].
    destruct (int _) eqn:E3 in |- *; cbn [bind]; [congruence|]. intros Q. injection Q as <-. exact (I _ _ E3). }
  assert (HM : forall t todo pos, match hh_mm_ss int t todo pos with Err e' => e' = ValueError | Ok (l, _) => Forall (fun v => Z.abs v < 100) l end).
  { intros t todo. induction todo as [|todo IH]; intros pos; cbn [hh_mm_ss]; [constructor|].
    destruct (_ <? 2)%nat; [reflexivity|]. destruct (int _) as [v|] eqn:E1; cbn [bind]; [|exact (I _ _ E1)].
    assert (V : Z.abs v < 100).
    { apply IB in E1. eapply Z.lt_le_trans; [exact E1|]. change 100 with (10 ^ Z.of_nat 2). apply Z.pow_le_mono_r; [lia|]. unfold slice. rewrite firstn_length. lia. }
    destruct (slice (pos + 2) _ t) as [|c r]; [repeat constructor; exact V|]. destruct todo as [|todo]; [repeat constructor; exact V|]. destruct (negb (c =? 58)); [reflexivity|].
    specialize (IH (pos + 2 + 1)%nat). destruct (hh_mm_ss int t (S todo) (pos + 2 + 1)) as [[l k]|]; cbn [bind fst snd]; [constructor; assumption | exact IH]. }
  assert (PC : forall t, match parse_clock int t with Err e' => e' = ValueError | Ok (h, m, x, u) => Z.abs h < 100 /\ Z.abs m < 100 /\ Z.abs x < 100 /\ Z.abs u < 1000000 end).
  { intros t. unfold parse_clock. specialize (HM t 3%nat 0%nat). destruct (hh_mm_ss int t 3 0) as [[l pos]|]; cbn [bind]; [|exact HM].
    assert (N : forall i, Z.abs (nth i l 0) < 100).
    { intros i. destruct (Nat.lt_ge_cases i (List.length l)) as [Hi|Hi]; [|rewrite nth_overflow by exact Hi; reflexivity].
      rewrite Forall_forall in HM. apply HM, nth_In, Hi. }
    destruct (Nat.ltb_spec pos (List.length t)); cbn [bind]; [|repeat split; try apply N; reflexivity].
    unfold char. destruct (nth_error t pos) as [c|] eqn:E2; [|apply nth_error_None in E2; lia]. cbn [bind].
    destruct (negb (c =? 46)); cbn [bind]; [reflexivity|]. destruct (negb (_ || _)) eqn:R; cbn [bind]; [reflexivity|].
    destruct (int _) as [v|] eqn:E3; cbn [bind]; [|exact (I _ _ E3)]. apply IB in E3. rewrite skipn_length in E3.
    repeat (split; [apply N|]). destruct (Nat.eqb_spec (List.length t - (pos + 1)) 3) as [W|W].
    - rewrite W in E3. change (10 ^ Z.of_nat 3) with 1000 in E3. lia.
    - destruct (Nat.eqb_spec (List.length t - (pos + 1)) 6) as [W'|W']; [rewrite W' in E3; exact E3 | discriminate R]. }
  destruct (parse_date int (slice 0 10 s)) as [[[y mo] d]|e1]; cbn [bind]; [|intros Q; injection Q as <-; apply PD; reflexivity].
  assert (PT : forall e', match skipn 11 s with [] => Ok (0, 0, 0, 0, None) | _ => parse_time int (skipn 11 s) end = Err e' -> e' = ValueError).
  { intros e'. destruct (skipn 11 s) as [|c0 t0]; [discriminate|]. generalize (c0 :: t0). clear -I PC. intros t. unfold parse_time. destruct (_ <? 2)%nat; [congruence|].
    set (tz := match find1 45 t with O => find1 43 t | S n => S n end).
    assert (Tz : (tz <= List.length t)%nat).
    { assert (F : forall c l, (find1 c l <= List.length l)%nat).
      { intros c l. induction l as [|a l IH]; cbn [find1 List.length]; [lia|]. destruct (a =? c); [lia|]. destruct (find1 c l); lia. }
      unfold tz. pose proof (F 45 t). pose proof (F 43 t). destruct (find1 45 t); lia. }
    pose proof (PC (if (0 <? tz)%nat then firstn (tz - 1) t else t)) as P1. set (ts := if (0 <? tz)%nat then firstn (tz - 1) t else t) in *. destruct (parse_clock int ts) as [ck|]; cbn [bind]; [|congruence].
    destruct (Nat.ltb_spec 0 tz) as [T0|]; [|discriminate]. destruct (negb _); [congruence|].
    pose proof (PC (skipn tz t)) as P2. destruct (parse_clock int (skipn tz t)) as [[[[zh zm] zs] zu]|]; cbn [bind]; [|congruence].
    destruct (_ && (zu =? 0)); [discriminate|]. unfold char. destruct (nth_error t (tz - 1)) as [sg|] eqn:E2; [|apply nth_error_None in E2; lia]. cbn [bind].
    pose proof (td_new_gives 0 zs zu 0 zm zh 0) as G1. apply gives_in in G1; [|unfold us_min, us_max, us_per_day; lia]. destruct G1 as (q & -> & Sq). cbn [bind].
    pose proof (mul_gives _ _ Sq (if sg =? 45 then -1 else 1)) as G2. apply gives_in in G2; [|unfold us_min, us_max, us_per_day; destruct (sg =? 45); lia]. destruct G2 as (o & -> & So). cbn [bind].
    destruct (timezone_ok _ _ So) as [(R & z & -> & Sz)|[R ->]]; cbn [bind]; congruence. }
  destruct (match skipn 11 s with [] => _ | _ => _ end) as [[[[[h m] x] u] z]|e2]; cbn [bind]; [|intros Q; injection Q as <-; apply PT; reflexivity].
  destruct (check_date_ok y mo d) as [[_ ->]|[_ ->]]; cbn [bind]; [|congruence].
  destruct (check_time_ok h m x u) as [[_ ->]|[_ ->]]; cbn [bind]; congruence.
Qed.
Print Assumptions fromisoformat_errors_partial.
Example x_errors : datetime_from_iso c_int (text "2024-02-30") = Err ValueError /\ datetime_from_iso c_int (text "2024-0230T00") = Err ValueError
  /\ datetime_from_iso c_int (text "2024-02-28T00:00+99:99:99.999999") = Err ValueError.
Proof. vm_compute. auto. Qed.
(** A short string gives IndexError; CPython (3.11) raises ValueError *)
Theorem datetime_fromisoformat_refuted : datetime_from_iso c_int (text "2020") = Err IndexError.
Proof. reflexivity. Qed.
Print Assumptions datetime_fromisoformat_refuted.
(** Texts that are no dates are taken: int() allows a sign, spaces and underscores.  CPython
    raises ValueError for each of these. *)
Theorem fromisoformat_lenient_refuted :
  date_from_iso c_int (text "+123-01-01") = Ok (123, 1, 1) /\ date_from_iso c_int (text "2_20- 1-+1") = Ok (220, 1, 1) /\
  time_from_iso c_int (text " 1: 2") = Ok (1, 2, 0, 0, None) /\
  datetime_from_iso c_int (text "2020-01-01T") = Ok ((2020, 1, 1), (0, 0, 0, 0, None)).
Proof. vm_compute. repeat split. Qed.
Print Assumptions fromisoformat_lenient_refuted.
(** and texts CPython 3.11 reads are refused: 20200101 is 2020-01-01 *)
Theorem fromisoformat_basic_refuted : date_from_iso c_int (text "20200101") = Err ValueError /\ time_from_iso c_int (text "00:00Z") = Err ValueError.
Proof. vm_compute. auto. Qed.
Print Assumptions fromisoformat_basic_refuted.
