(** C146: values read from the solver.  Model: [SmtLit_Model]; spec: [SmtLit_Spec]. *)
From Coq Require Import ZArith List Bool String QArith Lia.
Import ListNotations.
From Verif Require Import SmtLit_Model SmtLit_Spec.
Open Scope Z_scope.

Lemma after_app p t : after p (p ++ t) = Some t.
Proof. induction p as [|c p IH]; [reflexivity|]. cbn [after app]. now rewrite Z.eqb_refl. Qed.
Definition decimal (base : Z) (c : Z) : Prop := exists d, 0 <= d < base /\ c = hex_char d.
Lemma span_digits ds c t : Forall (decimal 2) ds -> is_digit c = false -> span (ds ++ c :: t) = (ds, c :: t).
Proof.
  intros F N. induction F as [|x ds (d & D & ->) F IH]; cbn [app span]; [now rewrite N|].
  replace (is_digit (hex_char d)) with true; [now rewrite IH|]. unfold hex_char, is_digit. destruct (Z.ltb_spec d 10); [|lia].
  symmetry. apply andb_true_iff. split; apply Z.leb_le; lia.
Qed.
Lemma digits_range base n : 1 < base -> forall v, 0 <= v -> Forall (fun d => 0 <= d < base) (digits base n v).
Proof.
  intros B. induction n as [|n IH]; intros v V; cbn [digits]; [constructor|]. apply Forall_app. split.
  - apply IH. apply Z.div_pos; lia.
  - constructor; [apply Z.mod_pos_bound; lia|constructor].
Qed.
Lemma chars_range base n : 1 < base -> forall v, 0 <= v -> Forall (decimal base) (map hex_char (digits base n v)).
Proof.
  intros B v V. apply Forall_map. eapply Forall_impl; [|apply (digits_range base n B v V)]. intros d D. exists d. split; [exact D|reflexivity].
Qed.
Lemma digit_value_hex d : 0 <= d < 16 -> digit_value (hex_char d) = Some d.
Proof.
  intros D. unfold hex_char. destruct (Z.ltb_spec d 10) as [L|L]; unfold digit_value, is_digit.
  - replace ((48 <=? 48 + d) && (48 + d <=? 57)) with true; [f_equal; lia|]. symmetry. apply andb_true_iff. split; apply Z.leb_le; lia.
  - replace ((48 <=? 87 + d) && (87 + d <=? 57)) with false; [|symmetry; apply andb_false_iff; right; apply Z.leb_gt; lia].
    replace ((97 <=? 87 + d) && (87 + d <=? 102)) with true; [f_equal; lia|]. symmetry. apply andb_true_iff. split; apply Z.leb_le; lia.
Qed.
Lemma int_digits_app base a : forall acc b, int_digits base acc (a ++ b) =
  match int_digits base acc a with Some v => int_digits base v b | None => None end.
Proof.
  induction a as [|c a IH]; intros acc b; [reflexivity|]. cbn [app int_digits]. destruct (digit_value c) as [d|]; [|reflexivity].
  destruct (d <? base); [apply IH|reflexivity].
Qed.
Lemma int_digits_ok base n : 1 < base -> base <= 16 -> forall v, 0 <= v < base ^ Z.of_nat n ->
  int_digits base 0 (map hex_char (digits base n v)) = Some v.
Proof.
  intros B C. induction n as [|n IH]; intros v V.
  - cbn in V. assert (v = 0) by lia. now subst.
  - cbn [digits]. rewrite map_app, int_digits_app. cbn [map].
    assert (P : base ^ Z.of_nat (S n) = base * base ^ Z.of_nat n) by (rewrite Nat2Z.inj_succ, Z.pow_succ_r by lia; reflexivity).
    rewrite IH by (split; [apply Z.div_pos; lia|apply Z.div_lt_upper_bound; lia]). cbn [int_digits].
    pose proof (Z.mod_pos_bound v base ltac:(lia)) as M. rewrite digit_value_hex by lia.
    destruct (Z.ltb_spec (v mod base) base); [|lia]. f_equal. pose proof (Z.div_mod v base ltac:(lia)). lia.
Qed.
Lemma up_to_last_ok ds : Forall (decimal 16) ds -> up_to_last (ds ++ [41]) = Some ds.
Proof.
  induction 1 as [|x ds (d & D & ->) F IH]; [reflexivity|]. cbn [app]. remember (ds ++ [41]) as r. destruct r as [|y r]; [now destruct ds|].
  change (up_to_last (hex_char d :: y :: r)) with (if hex_char d =? 10 then None else match up_to_last (y :: r) with Some s => Some (hex_char d :: s) | None => None end).
  rewrite IH. destruct (Z.eqb_spec (hex_char d) 10) as [E|]; [|reflexivity]. unfold hex_char in E. destruct (Z.ltb_spec d 10); lia.
Qed.
Lemma digits_not_nil base n v : digits base (S n) v <> [].
Proof. cbn [digits]. intros H. symmetry in H. now apply app_cons_not_nil in H. Qed.
Lemma lor_bits s e m : 0 <= s -> 0 <= e < 2048 -> 0 <= m < 2 ^ 52 ->
  Z.lor (Z.lor (Z.shiftl s 63) (Z.shiftl e 52)) m = s * 2 ^ 63 + e * 2 ^ 52 + m.
Proof.
  intros S E M.
  assert (L : forall a b k, 0 <= k -> 0 <= b < 2 ^ k -> Z.lor (a * 2 ^ k) b = a * 2 ^ k + b).
  { intros a b k K B.
    assert (D : Z.land (a * 2 ^ k) b = 0).
    { apply Z.bits_inj'. intros n N. rewrite Z.land_spec, Z.bits_0. destruct (Z.lt_ge_cases n k).
      - rewrite Z.mul_pow2_bits_low by lia. reflexivity.
      - rewrite <- (Z.mod_small b (2 ^ k)), Z.mod_pow2_bits_high by lia. apply andb_false_r. }
    rewrite <- Z.lxor_lor by exact D. symmetry. now apply Z.add_nocarry_lxor. }
  rewrite !Z.shiftl_mul_pow2 by lia.
  assert (P : 2 ^ 63 = 2 ^ 52 * 2048) by reflexivity.
  rewrite (L s (e * 2 ^ 52) 63) by lia.
  replace (s * 2 ^ 63 + e * 2 ^ 52) with ((s * 2048 + e) * 2 ^ 52) by (rewrite P; ring).
  now rewrite L.
Qed.

Lemma lookup_fp t : lookup literal_consts (txt "(fp " ++ t) = None.
Proof. reflexivity. Qed.
Lemma parse_fp x : valid x -> parse (fp_text x) = Bits (bits x).
Proof.
  intros (S & E & M). unfold fp_text, bits_text, hex_text. unfold parse. rewrite lookup_fp.
  set (sd := map hex_char (digits 2 1 (sign x))). set (ed := map hex_char (digits 2 11 (exponent x))). set (md := map hex_char (digits 16 13 (significand x))).
  replace (txt "(fp " ++ (txt "#b" ++ sd) ++ txt " " ++ (txt "#b" ++ ed) ++ txt " " ++ (txt "#x" ++ md) ++ txt ")")
    with (txt "(fp #b" ++ sd ++ txt " #b" ++ ed ++ txt " #x" ++ md ++ [41]) 
    by (change (txt "(fp #b") with (txt "(fp " ++ txt "#b"); change (txt " #b") with (txt " " ++ txt "#b"); change (txt " #x") with (txt " " ++ txt "#x");
        change [41] with (txt ")"); rewrite <- !app_assoc; reflexivity).
  rewrite after_app.
  assert (FS : Forall (decimal 2) sd) by (apply chars_range; lia).
  assert (FE : Forall (decimal 2) ed) by (apply chars_range; lia).
  assert (FM : Forall (decimal 16) md) by (apply chars_range; lia).
  change (txt " #b" ++ ed ++ txt " #x" ++ md ++ [41]) with (32 :: txt "#b" ++ ed ++ txt " #x" ++ md ++ [41]).
  rewrite (span_digits sd 32 _ FS eq_refl).
  change (32 :: txt "#b" ++ ed ++ txt " #x" ++ md ++ [41]) with (txt " #b" ++ ed ++ txt " #x" ++ md ++ [41]). rewrite after_app.
  change (txt " #x" ++ md ++ [41]) with (32 :: txt "#x" ++ md ++ [41]).
  rewrite (span_digits ed 32 _ FE eq_refl).
  change (32 :: txt "#x" ++ md ++ [41]) with (txt " #x" ++ md ++ [41]). rewrite after_app, (up_to_last_ok md FM).
  assert (IS : int_digits 2 0 sd = Some (sign x)) by (apply int_digits_ok; cbn; lia).
  assert (IE : int_digits 2 0 ed = Some (exponent x)) by (apply int_digits_ok; cbn; lia).
  assert (IM : int_digits 16 0 md = Some (significand x)) by (apply int_digits_ok; [lia|lia|]; change (16 ^ Z.of_nat 13) with (2 ^ 52); exact M).
  rewrite IS, IE, IM.
  assert (NS : sd <> []) by (unfold sd; intros H; apply map_eq_nil in H; now apply digits_not_nil in H).
  assert (NE : ed <> []) by (unfold ed; intros H; apply map_eq_nil in H; now apply digits_not_nil in H).
  assert (NM : md <> []) by (unfold md; intros H; apply map_eq_nil in H; now apply digits_not_nil in H).
  destruct sd; [contradiction|]. destruct ed; [contradiction|]. destruct md; [contradiction|].
  unfold bits. now rewrite lor_bits by lia.
Qed.

(** C146, partial.  Every float that the solver writes is read back bit by bit: zeros with their sign, subnormal and
    normal numbers, infinities and not-a-number.
    Missing: symbolic floats that are modelled as reals; refuted below. *)
Theorem C146_floats_partial (x : float) (t : text) : written x t -> parse t = Bits (bits x).
Proof.
  intros W. destruct W; try reflexivity. now apply parse_fp.
Qed.
Print Assumptions C146_floats_partial.
(** the least subnormal number, and minus one and a half *)
Example C146_floats_partial_witness :
  written (Float 0 0 1) (txt "(fp #b0 #b00000000000 #x0000000000001)") /\
  written (Float 1 1023 (2 ^ 51)) (txt "(fp #b1 #b01111111111 #x8000000000000)") /\
  (number (Float 1 1023 (2 ^ 51)) == -3 # 2)%Q.
Proof.
  split; [|split].
  - apply (write_fp (Float 0 0 1)). unfold valid. cbn [sign exponent significand]. lia.
  - apply (write_fp (Float 1 1023 (2 ^ 51))). unfold valid. cbn [sign exponent significand]. lia.
  - vm_compute. reflexivity.
Qed.
(** C146.  Different floats are read as different floats. *)
Theorem C146_distinct (x y : float) : valid x -> valid y -> bits x = bits y -> x = y.
Proof.
  intros (A & B & C) (D & E & F) H. unfold bits in H. destruct x as [s e m], y as [s' e' m']. cbn [sign exponent significand] in *.
  assert (P : 2 ^ 63 = 2048 * 2 ^ 52) by reflexivity. rewrite P in H. clear P. set (k := 2 ^ 52) in *.
  assert (K : 0 < k) by (unfold k; lia). clearbody k.
  assert (H1 : (s * 2048 + e) * k + m = (s' * 2048 + e') * k + m') by lia.
  assert (H2 : s * 2048 + e = s' * 2048 + e') by nia. rewrite H2 in H1. assert (m = m') by lia. assert (s = s') by lia. assert (e = e') by lia. now subst.
Qed.
Print Assumptions C146_distinct.
(** C146.  Every sequence that the solver builds from elements is read back as the list of its elements. *)
Theorem C146_sequences (A : Type) (v : seq_value A) (l : list A) : denotes v l -> seq_to_list v = Some l.
Proof. induction 1 as [|a|a v l D IH]; [reflexivity|reflexivity|]. cbn. now rewrite IH. Qed.
Print Assumptions C146_sequences.
Example C146_sequences_witness : denotes (Concat [Unit 1; Concat [Unit 2; Unit 3]]) [1; 2; 3].
Proof. repeat constructor. Qed.

Lemma three_powers k : 0 <= k -> forall a, 3 * a <> 2 ^ k.
Proof.
  intros K. pattern k. apply natlike_ind; [|clear k K|exact K].
  - intros a. change (2 ^ 0) with 1. lia.
  - intros k K IH a H. rewrite Z.pow_succ_r in H by lia. assert (Z.even (3 * a) = true) by (rewrite H, Z.even_mul; reflexivity).
    rewrite Z.even_mul in H0. cbn [Z.even orb] in H0. apply Z.even_spec in H0 as [b ->]. apply (IH b). lia.
Qed.
(** C146, violated.  Where symbolic floats are modelled as reals, the solver may choose a number such as 1/3 that is no
    float: whatever float is shown in its place, it is not the number that the solver found to satisfy the conditions. *)
Theorem C146_reals_refuted : exists q : Q, forall x : float, valid x -> ~ (number x == q)%Q.
Proof.
  exists (1 # 3)%Q. intros x (S & E & M) H. unfold number in H.
  assert (D : exists a k, 0 <= k /\ (number x == inject_Z a * / inject_Z (2 ^ k))%Q).
  { unfold number. set (g := if sign x =? 0 then 1%Q else (-1)%Q).
    assert (G : exists z, (g == inject_Z z)%Q) by (unfold g; destruct (sign x =? 0); [exists 1|exists (-1)]; reflexivity). destruct G as [z G].
    assert (P : forall (w e : Z), exists a k, 0 <= k /\ (inject_Z w * power2 e == inject_Z a * / inject_Z (2 ^ k))%Q).
    { intros w e. unfold power2. destruct (Z.leb_spec 0 e).
      - exists (w * 2 ^ e), 0. split; [lia|]. rewrite inject_Z_mult. cbn [Z.pow]. change (/ inject_Z 1)%Q with 1%Q. ring.
      - exists w, (- e). split; [lia|]. reflexivity. }
    destruct (exponent x =? 0).
    - destruct (P (significand x) (-1074)) as (a & k & K & Q). exists (z * a), k. split; [exact K|]. rewrite Q, G, inject_Z_mult. ring.
    - destruct (P (2 ^ 52 + significand x) (exponent x - 1075)) as (a & k & K & Q). exists (z * a), k. split; [exact K|]. rewrite Q, G, inject_Z_mult. ring. }
  destruct D as (a & k & K & D). unfold number in D. rewrite D in H.
  assert (P : 0 < 2 ^ k) by (apply Z.pow_pos_nonneg; lia).
  assert (H2 : (inject_Z (3 * a) == inject_Z (2 ^ k))%Q).
  { rewrite inject_Z_mult. assert (N : ~ (inject_Z (2 ^ k) == 0)%Q) by (intros Q; unfold Qeq, inject_Z in Q; cbn [Qnum Qden] in Q; lia).
    transitivity (inject_Z 3 * (inject_Z a * / inject_Z (2 ^ k)) * inject_Z (2 ^ k))%Q; [now field|]. rewrite H. change (inject_Z 3) with (3 # 1)%Q. ring. }
  unfold Qeq, inject_Z in H2. cbn [Qnum Qden] in H2. apply (three_powers k K a). lia.
Qed.
Print Assumptions C146_reals_refuted.
