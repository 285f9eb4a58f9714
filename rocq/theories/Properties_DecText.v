(** C131: the texts of decimal numbers *)
From Coq Require Import ZArith QArith Qpower Qfield Lia List Bool ZifyBool ZifyNat.
From Verif Require Import Dec_Model Dec_Spec Dec_Digits Dec_Text Dec_TextSpec Dec_TextProofs.
Import ListNotations.
Open Scope Z_scope.

(** A text of digits, signs, points, ASCII letters and other characters makes exactly the number that the
    grammar of the documentation gives it; a text outside the grammar is refused. *)
Theorem decimal_text_read_partial : forall s, proper s -> Forall (fun c => match c with Let _ Odd => False | _ => True end) s ->
  forall d, parse s = Some d <-> text_of false s d.
Proof. intros s P A d. now apply parse_alphabetic. Qed.
(** "  -_1_2.50e-3 " *)
Example decimal_text_read_witness :
  let s := [Space; Sgn true; Under; Dig 1; Under; Dig 2; Dot; Dig 5; Dig 0; Let LE Small; Sgn true; Dig 3; Space] in
  proper s /\ parse s = Some (Fin true [1; 2; 5; 0] (-5)) /\ text_of false s (Fin true [1; 2; 5; 0] (-5)).
Proof.
  intro s. assert (P : proper s) by (repeat constructor; cbn; lia). assert (E : parse s = Some (Fin true [1; 2; 5; 0] (-5))) by reflexivity.
  split; [exact P|]. split; [exact E|]. now apply decimal_text_read_partial; [|repeat constructor|].
Qed.
(** What is missing: characters that are no ASCII letters but are taken for one when the case is ignored are
    accepted too.  The number read from a text is the one of the grammar in which they are letters. *)
Theorem decimal_text_read_letters : forall s, proper s -> forall d, parse s = Some d <-> text_of true s d.
Proof. intros. now apply parse_iff. Qed.
Example decimal_text_read_letters_witness : parse [Let LS Odd; Let LN Large; Let LA Small; Let LN Large; Dig 0; Dig 7] = Some (NaN true false [7]).
Proof. reflexivity. Qed.
Theorem decimal_text_read_refuted : exists s d, proper s /\ parse s = Some d /\ ~ exists d', text_of false s d'.
Proof.
  exists [Let LI Odd; Let LN Small; Let LF Small], (Inf false). split; [repeat constructor|]. split; [reflexivity|].
  intros (d' & body & S & L). apply stripped_iff in S. apply literal_alphabetic in L. subst body. inversion L as [|? ? H]; subst. exact H.
Qed.
(** A text has at most one meaning. *)
Theorem decimal_text_one_meaning : forall odd s d d', proper s -> text_of odd s d -> text_of odd s d' -> d = d'.
Proof.
  assert (M : forall odd s d, text_of odd s d -> text_of true s d).
  { intros [] s d H; [assumption|]. destruct H as (body & S & L). exists body. split; [assumption|now apply literal_mono]. }
  intros odd s d d' P H H'. apply M, parse_iff in H; [|assumption]. apply M, parse_iff in H'; [|assumption]. congruence.
Qed.
Example decimal_text_one_meaning_witness : exists d, text_of false [Dig 0; Dig 7; Dot] d.
Proof. exists (Fin false [7] 0). apply decimal_text_read_partial; [repeat constructor; cbn; lia|repeat constructor|reflexivity]. Qed.

(** The text of a number reads back as the same number: sign, digits and exponent. *)
Lemma word_spelled : forall l, Forall (fun '(_, f) => f <> Odd) l -> spelled false (map fst l) (word l).
Proof. induction 1 as [|[a f] l H _ IH]; [constructor|]. cbn [map fst word]. constructor; [intros ->; congruence|exact IH]. Qed.
Theorem decimal_text_round_trip : forall capitals x, canonical x -> parse (show false capitals x) = Some x.
Proof.
  intros cap x C. apply literal_read. destruct x as [s i e|s|g s p].
  - cbn [canonical] in C. pose proof (show_literal false cap s i e C) as L. cbv zeta in L.
    replace (Z.max 0 (dotplace false i e - len i)) with 0 in L.
    + change (10 ^ 0) with 1 in L. rewrite Z.mul_1_r, to_str_number, Z.sub_0_r in L by assumption. exact L.
    + unfold dotplace. pose proof (length_pos i C) as LP. unfold len in *. destruct ((e <=? 0) && (-6 <? e + Z.of_nat (length i))) eqn:T; cbn [negb]; lia.
  - destruct (sign_exists s) as (m & E & ->). cbn [show]. rewrite E. apply lit_inf. right.
    apply (word_spelled [(LI, Large); (LN, Small); (LF, Small); (LI, Small); (LN, Small); (LI, Small); (LT, Small); (LY, Small)]). repeat constructor; discriminate.
  - destruct (sign_exists s) as (m & E & ->). cbn [show]. rewrite E. cbn [canonical] in C. destruct C as [F H].
    assert (P : payload_of (number p) p) by (split; [assumption|split; [assumption|reflexivity]]).
    destruct g.
    + rewrite app_assoc with (l := word [(LS, Small)]). apply lit_snan; auto.
      apply (word_spelled [(LS, Small); (LN, Large); (LA, Small); (LN, Large)]). repeat constructor; discriminate.
    + cbn [app]. apply (lit_nan false m (word [(LN, Large); (LA, Small); (LN, Large)])); auto. apply (word_spelled [(LN, Large); (LA, Small); (LN, Large)]). repeat constructor; discriminate.
Qed.
Example decimal_text_round_trip_witness :
  canonical (Fin true [1; 2; 5] (-9)) /\
  show false true (Fin true [1; 2; 5] (-9)) = [Sgn true; Dig 1; Dot; Dig 2; Dig 5; Let LE Large; Sgn true; Dig 7].
Proof. split; [|reflexivity]. repeat constructor; try discriminate; cbn; lia. Qed.
(** Two numbers with the same text are the same. *)
Theorem decimal_texts_differ : forall c c' x y, canonical x -> canonical y -> show false c x = show false c' y -> x = y.
Proof. intros c c' x y X Y E. apply (decimal_text_round_trip c) in X. apply (decimal_text_round_trip c') in Y. congruence. Qed.
Example decimal_texts_differ_witness : show false true (Fin false [1; 0] 0) <> show false true (Fin false [1] 1).
Proof. discriminate. Qed.

(** Scientific notation: the digits of the number, with no exponent if the exponent of the number is not
    positive and that of its first digit is at least -6, and otherwise with one digit before the point and
    the exponent of the first digit. *)
Theorem decimal_text_scientific : forall capitals s i e, coefficient i ->
  let first := e + Z.of_nat (length i) - 1 in
  exists a b E n, coefficient_of (Z.abs E) n /\
    show false capitals (Fin s i e) =
      (if s then [Sgn true] else []) ++ digits a ++ match b with [] => [] | _ => Dot :: digits b end ++
      (if E =? 0 then [] else Let LE (if capitals then Large else Small) :: Sgn (E <? 0) :: digits n) /\
    a <> [] /\ (hd 1 a = 0 -> a = [0]) /\ number (a ++ b) = number i /\ E - Z.of_nat (length b) = e /\
    (if (e <=? 0) && (-6 <=? first) then E = 0 else E = first /\ length a = 1%nat).
Proof.
  intros cap s i e C first. destruct (show_shape false cap s i e C) as (a & b & Hs & Fa & Fb & Na & Ha & Nu & La & Lb & _).
  pose proof (length_pos i C) as LP. exists a, b, (e + len i - dotplace false i e), (to_str (Z.abs (e + len i - dotplace false i e))). split; [apply coefficient_of_str; [lia|reflexivity]|]. split; [exact Hs|]. split; [assumption|]. split; [assumption|].
  unfold dotplace in *. unfold len in *. subst first. cbn [negb] in *. destruct ((e <=? 0) && (-6 <? e + Z.of_nat (length i))) eqn:T.
  - replace (Z.max 0 (e + Z.of_nat (length i) - Z.of_nat (length i))) with 0 in Nu by lia. change (10 ^ 0) with 1 in Nu.
    split; [lia|]. split; [lia|]. destruct ((e <=? 0) && (-6 <=? _)) eqn:T2; lia.
  - replace (Z.max 0 (1 - Z.of_nat (length i))) with 0 in Nu by lia. change (10 ^ 0) with 1 in Nu.
    split; [lia|]. split; [lia|]. destruct ((e <=? 0) && (-6 <=? _)) eqn:T2; lia.
Qed.
Example decimal_text_scientific_witness :
  show false false (Fin false [5] (-7)) = [Dig 5; Let LE Small; Sgn true; Dig 7] /\
  show false false (Fin false [5] (-6)) = [Dig 0; Dot; Dig 0; Dig 0; Dig 0; Dig 0; Dig 0; Dig 5].
Proof. split; reflexivity. Qed.

(** Engineering notation: the same rule for no exponent; otherwise the exponent is a multiple of 3 and there
    are one to three digits before the point, the first of them not zero unless the number is zero. *)
Theorem decimal_text_engineering : forall capitals s i e, coefficient i ->
  let first := e + Z.of_nat (length i) - 1 in
  exists a b E n, coefficient_of (Z.abs E) n /\
    show true capitals (Fin s i e) =
      (if s then [Sgn true] else []) ++ digits a ++ match b with [] => [] | _ => Dot :: digits b end ++
      (if E =? 0 then [] else Let LE (if capitals then Large else Small) :: Sgn (E <? 0) :: digits n) /\
    a <> [] /\ (hd 1 a = 0 -> a = [0]) /\
    (if (e <=? 0) && (-6 <=? first) then E = 0
     else E mod 3 = 0 /\ (1 <= length a <= 3)%nat /\ (0 < number i -> hd 1 a <> 0 /\ E <= first < E + 3) /\ (number i = 0 -> a = [0] /\ E - Z.of_nat (length b) = e /\ (length b <= 2)%nat)).
Proof.
  intros cap s i e C first. destruct (show_shape true cap s i e C) as (a & b & Hs & Fa & Fb & Na & Ha & Nu & La & Lb & Hd).
  pose proof (length_pos i C) as LP. exists a, b, (e + len i - dotplace true i e), (to_str (Z.abs (e + len i - dotplace true i e))). split; [apply coefficient_of_str; [lia|reflexivity]|]. split; [exact Hs|]. split; [assumption|]. split; [assumption|].
  pose proof (is0_iff i C) as Z0. unfold dotplace in *. unfold len in *. subst first. cbn [negb] in *.
  destruct ((e <=? 0) && (-6 <? e + Z.of_nat (length i))) eqn:T.
  { destruct ((e <=? 0) && (-6 <=? _)) eqn:T2; lia. }
  replace ((e <=? 0) && (-6 <=? e + Z.of_nat (length i) - 1)) with false by lia.
  destruct (is0 i) eqn:I.
  - assert (NI : number i = 0) by now apply Z0. assert (Ei := zero_coefficient i C NI). subst i. cbn [length] in *. change (Z.of_nat 1) with 1 in *. clear T.
    pose proof (Z.mod_pos_bound (e + 1 + 1) 3 ltac:(lia)) as B. pose proof (Z.div_mod (e + 1 + 1) 3 ltac:(lia)) as D.
    set (r := (e + 1 + 1) mod 3) in *. set (q := (e + 1 + 1) / 3) in *.
    split; [replace (e + 1 - (r - 1)) with (q * 3) by lia; apply Z.mod_mul; lia|]. split; [lia|]. split; [lia|]. intros _.
    split; [|lia]. apply Ha. destruct a as [|d a]; [congruence|]. destruct a; [|cbn [length] in La; lia]. cbn [hd].
    rewrite NI in Nu. cbn [app] in Nu. change (d :: b) with ([d] ++ b) in Nu. rewrite number_app in Nu. cbn [number length] in Nu.
    pose proof (number_bound b Fb). pose proof (pow10_nat (length b)). inversion Fa; subst. unfold is_digit in *. change (10 ^ Z.of_nat 0) with 1 in Nu. nia.
  - assert (NI : 0 < number i) by (apply is0_false; assumption). 
    pose proof (Z.mod_pos_bound (e + Z.of_nat (length i) - 1) 3 ltac:(lia)) as B. pose proof (Z.div_mod (e + Z.of_nat (length i) - 1) 3 ltac:(lia)) as D.
    set (r := (e + Z.of_nat (length i) - 1) mod 3) in *. set (q := (e + Z.of_nat (length i) - 1) / 3) in *. clear T.
    split; [replace (e + Z.of_nat (length i) - (r + 1)) with (q * 3) by lia; apply Z.mod_mul; lia|]. split; [lia|]. split; [|lia]. intros _.
    split; [|lia]. rewrite Hd by lia. intro H. destruct C as (_ & _ & H0). rewrite (H0 H) in NI. cbn in NI. lia.
Qed.
Example decimal_text_engineering_witness :
  show true true (Fin false [1; 2; 3; 4] 6) = [Dig 1; Dot; Dig 2; Dig 3; Dig 4; Let LE Large; Sgn false; Dig 9] /\
  show true true (Fin false [1] 5) = [Dig 1; Dig 0; Dig 0; Let LE Large; Sgn false; Dig 3] /\
  show true true (Fin true [0] 1) = [Sgn true; Dig 0; Dot; Dig 0; Dig 0; Let LE Large; Sgn false; Dig 3].
Proof. repeat split. Qed.
(** Read back, it is the same number up to zeros at the end: the same value, and the same digits and exponent
    unless zeros were added before the point. *)
Theorem decimal_text_engineering_value : forall capitals s i e, coefficient i ->
  exists i' e', parse (show true capitals (Fin s i e)) = Some (Fin s i' e') /\ (value s i' e' == value s i e)%Q /\
    e' <= e <= e' + 2 /\ (number i = 0 -> i' = i /\ e' = e).
Proof.
  intros cap s i e C. pose proof (show_literal true cap s i e C) as L. cbv zeta in L. apply literal_read in L.
  set (k := Z.max 0 (dotplace true i e - len i)) in *. exists (to_str (number i * 10 ^ k)), (e - k). split; [exact L|].
  pose proof C as (F & _). pose proof (number_bound i F) as B. pose proof (length_pos i C) as LP.
  assert (P : 0 < 10 ^ k) by (apply pow10_pos; lia).
  assert (K : 0 <= k <= 2 /\ (number i = 0 -> k = 0)).
  { unfold k, dotplace, len in *. pose proof (is0_iff i C) as Z0. cbn [negb].
    pose proof (Z.mod_pos_bound (e + Z.of_nat (length i) - 1) 3 ltac:(lia)). pose proof (Z.mod_pos_bound (e + Z.of_nat (length i) + 1) 3 ltac:(lia)).
    destruct ((e <=? 0) && (-6 <? e + Z.of_nat (length i))) eqn:T; [lia|]. clear T L. destruct (is0 i); [lia|]. split; [lia|].
    intro N. apply Z0 in N. discriminate. }
  split; [|split; [lia|]].
  - unfold value. rewrite number_to_str by nia. unfold ten.
    assert (T : (Qpower (10 # 1) e == inject_Z (10 ^ k) * Qpower (10 # 1) (e - k))%Q).
    { replace e with (k + (e - k)) at 1 by lia. rewrite Qpower_plus by discriminate. f_equiv.
      rewrite Zpower_Qpower by lia. reflexivity. }
    rewrite T. assert (S : inject_Z (signed s (number i * 10 ^ k)) = (inject_Z (signed s (number i)) * inject_Z (10 ^ k))%Q).
    { rewrite <- inject_Z_mult. f_equal. destruct s; cbn [signed]; ring. }
    rewrite S. ring.
  - intro N. destruct K as [_ K]. rewrite (K N). change (10 ^ 0) with 1. rewrite Z.mul_1_r, to_str_number, Z.sub_0_r by assumption. split; reflexivity.
Qed.
Example decimal_text_engineering_value_witness : parse (show true true (Fin false [1] 5)) = Some (Fin false [1; 0; 0] 3).
Proof. reflexivity. Qed.

Print Assumptions decimal_text_read_partial.
Print Assumptions decimal_text_read_letters.
Print Assumptions decimal_text_read_refuted.
Print Assumptions decimal_text_one_meaning.
Print Assumptions decimal_text_round_trip.
Print Assumptions decimal_texts_differ.
Print Assumptions decimal_text_scientific.
Print Assumptions decimal_text_engineering.
Print Assumptions decimal_text_engineering_value.
