(** C184: rotate and shift of decimals move the digits of the coefficient. *)
From Coq Require Import ZArith List Bool Lia.
From Verif Require Import DecShift_Model DecShift_Spec.
Import ListNotations.
Open Scope Z_scope.

Lemma int_snoc : forall l d, int_of (l ++ [d]) = int_of l * 10 + d.
Proof. intros. unfold int_of. rewrite fold_left_app. reflexivity. Qed.

Lemma ok_app : forall a b, digits_ok (a ++ b) <-> digits_ok a /\ digits_ok b.
Proof. intros. unfold digits_ok. apply Forall_app. Qed.

Lemma int_app : forall b a, int_of (a ++ b) = int_of a * 10 ^ Z.of_nat (length b) + int_of b.
Proof.
  induction b as [|d b IH] using rev_ind; intros a.
  - rewrite app_nil_r. cbn. lia.
  - rewrite app_assoc, !int_snoc, IH, app_length. cbn [length].
    rewrite Nat2Z.inj_add, Z.pow_add_r by lia. change (10 ^ Z.of_nat 1) with 10. ring.
Qed.

Lemma int_coefficient : forall l, coefficient l = int_of l.
Proof.
  induction l as [|d l IH]; [reflexivity|].
  change (d :: l) with ([d] ++ l) at 2. rewrite int_app, <- IH.
  change (int_of [d]) with d. reflexivity.
Qed.

Lemma int_bound : forall l, digits_ok l -> 0 <= int_of l < 10 ^ Z.of_nat (length l).
Proof.
  induction l as [|d l IH] using rev_ind; intros H.
  - cbn. lia.
  - apply ok_app in H. destruct H as [H1 H2]. inversion H2; subst.
    specialize (IH H1). rewrite int_snoc, app_length. cbn [length].
    rewrite Nat2Z.inj_add, Z.pow_add_r by lia. change (10 ^ Z.of_nat 1) with 10. lia.
Qed.

Lemma digit_nth : forall l, digits_ok l -> forall i, (i < length l)%nat ->
  digit (int_of l) (Z.of_nat i) = nth (length l - 1 - i) l 0.
Proof.
  induction l as [|d l IH] using rev_ind; intros H i Hi; [cbn in Hi; lia|].
  apply ok_app in H. destruct H as [H1 H2]. inversion H2; subst.
  rewrite app_length in *. cbn [length] in *. rewrite int_snoc. unfold digit.
  destruct i as [|i].
  - rewrite app_nth2 by lia. replace (_ - _)%nat with 0%nat by lia. cbn [nth].
    change (10 ^ Z.of_nat 0) with 1. rewrite Z.div_1_r, Z.add_comm, Z.mod_add by lia.
    apply Z.mod_small; assumption.
  - rewrite app_nth1 by lia.
    replace (length l + 1 - 1 - S i)%nat with (length l - 1 - i)%nat by lia.
    rewrite <- IH by (assumption || lia). unfold digit. f_equal.
    rewrite Nat2Z.inj_succ, Z.pow_succ_r by lia.
    rewrite <- Z.div_div by lia. f_equal.
    rewrite Z.add_comm, Z.div_add by lia. rewrite Z.div_small by assumption. lia.
Qed.

Lemma digit_beyond : forall l i, digits_ok l -> Z.of_nat (length l) <= i ->
  digit (int_of l) i = 0.
Proof.
  intros l i H Hi. unfold digit. pose proof (int_bound l H) as B.
  rewrite Z.div_small; [reflexivity|]. split; [lia|].
  eapply Z.lt_le_trans; [apply B|]. apply Z.pow_le_mono_r; lia.
Qed.

Lemma nth_skip : forall (l : list Z) k q, nth q (skipn k l) 0 = nth (k + q) l 0.
Proof.
  induction l as [|d l IH]; intros [|k] q; cbn; try reflexivity.
  - destruct q; reflexivity.
  - apply IH.
Qed.

Lemma nth_first : forall (l : list Z) k q, (q < k)%nat -> nth q (firstn k l) 0 = nth q l 0.
Proof.
  induction l as [|d l IH]; intros [|k] q Hq; try lia; [reflexivity|].
  destruct q; cbn; [reflexivity|]. apply IH. lia.
Qed.

Lemma ok_skip : forall l k, digits_ok l -> digits_ok (skipn k l).
Proof.
  intros l k H. rewrite <- (firstn_skipn k l) in H. apply (proj1 (ok_app _ _)) in H. apply H.
Qed.

Lemma ok_first : forall l k, digits_ok l -> digits_ok (firstn k l).
Proof.
  intros l k H. rewrite <- (firstn_skipn k l) in H. apply (proj1 (ok_app _ _)) in H. apply H.
Qed.

Lemma ok_zeros : forall n, digits_ok (zeros n).
Proof.
  intros n. unfold zeros. induction (Z.to_nat n); cbn; constructor; [lia|assumption].
Qed.

Lemma int_zeros : forall n, int_of (zeros n) = 0.
Proof.
  intros n. unfold zeros, int_of. induction (Z.to_nat n); cbn; [reflexivity|assumption].
Qed.

Lemma strip_int : forall l, int_of (or_zero (lstrip l)) = int_of l.
Proof.
  induction l as [|d l IH]; [reflexivity|]. cbn [lstrip].
  destruct (d =? 0) eqn:E; [|reflexivity]. apply Z.eqb_eq in E. subst d. exact IH.
Qed.

Lemma strip_plain : forall l, digits_ok l -> plain (or_zero (lstrip l)).
Proof.
  induction l as [|d l IH]; intros H.
  - split; [|left; reflexivity]. constructor; [lia|constructor].
  - cbn [lstrip]. inversion H; subst. destruct (d =? 0) eqn:E; [apply IH; assumption|].
    split; [exact H|]. right. exists d, l. split; [reflexivity|]. apply Z.eqb_neq. exact E.
Qed.

Lemma pad_facts : forall prec l, 0 < prec -> digits_ok l ->
  Z.of_nat (length (pad prec l)) = prec /\ digits_ok (pad prec l)
  /\ forall i, 0 <= i < prec -> digit (int_of (pad prec l)) i = digit (int_of l) i.
Proof.
  intros prec l Hp H. unfold pad.
  destruct (0 <? prec - Z.of_nat (length l)) eqn:E.
  - apply Z.ltb_lt in E. split; [|split].
    + rewrite app_length. unfold zeros. rewrite repeat_length. lia.
    + apply ok_app. split; [apply ok_zeros|exact H].
    + intros i Hi. rewrite int_app, int_zeros. reflexivity.
  - apply Z.ltb_ge in E. destruct (prec - Z.of_nat (length l) <? 0) eqn:E2.
    + apply Z.ltb_lt in E2. unfold from, index.
      replace (- (prec - Z.of_nat (length l)) <? 0) with false
        by (symmetry; apply Z.ltb_ge; lia).
      set (k := Z.to_nat (- (prec - Z.of_nat (length l)))).
      assert (Hk : Z.of_nat k = Z.of_nat (length l) - prec) by (unfold k; lia).
      clearbody k.
      assert (HL : length (skipn k l) = (length l - k)%nat) by apply skipn_length.
      split; [lia|]. split; [apply ok_skip; exact H|].
      intros i Hi. rewrite <- (Z2Nat.id i) by lia.
      rewrite !digit_nth by (try apply ok_skip; try assumption; lia).
      rewrite nth_skip. f_equal. lia.
    + apply Z.ltb_ge in E2. split; [lia|]. split; [exact H|]. reflexivity.
Qed.

Lemma places_some : forall prec n other, by_places prec n other -> places prec other = Some n.
Proof.
  intros prec n other (neg & l & -> & Hn & Hb). cbn [places].
  rewrite int_coefficient in Hn. cbn [negb Z.eqb]. rewrite <- Hn.
  replace (- prec <=? n) with true by (symmetry; apply Z.leb_le; lia).
  replace (n <=? prec) with true by (symmetry; apply Z.leb_le; lia).
  reflexivity.
Qed.

Lemma places_none : forall prec other, (forall n, ~ by_places prec n other) ->
  places prec other = None.
Proof.
  intros prec [neg l e|neg] H; [|reflexivity]. cbn [places].
  destruct (e =? 0) eqn:E; [|reflexivity]. apply Z.eqb_eq in E. subst e. cbn [negb].
  destruct (andb _ _) eqn:B; [|reflexivity]. exfalso.
  apply andb_prop in B. destruct B as [B1 B2]. apply Z.leb_le in B1. apply Z.leb_le in B2.
  eapply H. exists neg, l. split; [reflexivity|]. split; [reflexivity|].
  rewrite int_coefficient. lia.
Qed.

Theorem C184_rotate : forall prec n other s l e,
  0 < prec -> digits_ok l -> by_places prec n other ->
  exists l', rotate prec (Fin s l e) other = Answer (Fin s l' e)
    /\ plain l' /\ rotated prec n (coefficient l) (coefficient l').
Proof.
  intros prec n other s l e Hp H HB. unfold rotate. rewrite (places_some _ _ _ HB).
  destruct HB as (_ & _ & _ & _ & Hn).
  eexists. split; [reflexivity|].
  destruct (pad_facts prec l Hp H) as (HL & HD & HX).
  set (P := pad prec l) in *. clearbody P.
  unfold from, upto.
  set (j := index P n).
  assert (Hj : Z.of_nat j = if n <? 0 then prec + n else n).
  { unfold j, index. destruct (n <? 0) eqn:E;
      [apply Z.ltb_lt in E|apply Z.ltb_ge in E]; lia. }
  clearbody j.
  assert (Hjp : (j <= length P)%nat).
  { destruct (n <? 0) eqn:E; [apply Z.ltb_lt in E|]; lia. }
  assert (HD2 : digits_ok (skipn j P ++ firstn j P)).
  { apply ok_app. split; [apply ok_skip|apply ok_first]; exact HD. }
  assert (HL2 : length (skipn j P ++ firstn j P) = length P).
  { rewrite app_length, skipn_length, firstn_length. lia. }
  split; [apply strip_plain; exact HD2|].
  rewrite !int_coefficient, strip_int. split.
  - pose proof (int_bound _ HD2) as B. rewrite HL2, HL in B. exact B.
  - intros i Hi. rewrite <- (HX i Hi).
    assert (HM : (i + n) mod prec
                 = if i + Z.of_nat j <? prec then i + Z.of_nat j else i + Z.of_nat j - prec).
    { assert (HQ : (i + n) mod prec = (i + Z.of_nat j) mod prec).
      { rewrite Hj. destruct (n <? 0); [|reflexivity].
        replace (i + (prec + n)) with (i + n + 1 * prec) by lia.
        rewrite Z.mod_add by lia. reflexivity. }
      rewrite HQ. destruct (i + Z.of_nat j <? prec) eqn:E.
      - apply Z.ltb_lt in E. apply Z.mod_small. lia.
      - apply Z.ltb_ge in E.
        replace (i + Z.of_nat j) with (i + Z.of_nat j - prec + 1 * prec) at 1 by lia.
        rewrite Z.mod_add by lia. apply Z.mod_small. lia. }
    rewrite HM. rewrite <- (Z2Nat.id i) by lia. set (m := Z.to_nat i).
    assert (Hm : Z.of_nat m = i) by (unfold m; lia). clearbody m.
    rewrite (digit_nth P HD m) by lia.
    destruct (Z.of_nat m + Z.of_nat j <? prec) eqn:E.
    + apply Z.ltb_lt in E. rewrite <- Nat2Z.inj_add.
      rewrite digit_nth by (try assumption; lia). rewrite HL2.
      rewrite app_nth1 by (rewrite skipn_length; lia).
      rewrite nth_skip. f_equal. lia.
    + apply Z.ltb_ge in E.
      replace (Z.of_nat m + Z.of_nat j - prec) with (Z.of_nat (m + j - length P)) by lia.
      rewrite digit_nth by (try assumption; lia). rewrite HL2.
      rewrite app_nth2 by (rewrite skipn_length; lia). rewrite skipn_length.
      rewrite nth_first by lia. f_equal. lia.
Qed.
Print Assumptions C184_rotate.

Theorem C184_shift : forall prec n other s l e,
  0 < prec -> digits_ok l -> by_places prec n other ->
  exists l', shift prec (Fin s l e) other = Answer (Fin s l' e)
    /\ plain l' /\ shifted prec n (coefficient l) (coefficient l').
Proof.
  intros prec n other s l e Hp H HB. unfold shift. rewrite (places_some _ _ _ HB).
  destruct HB as (_ & _ & _ & _ & Hn).
  eexists. split; [reflexivity|].
  destruct (pad_facts prec l Hp H) as (HL & HD & HX).
  set (P := pad prec l) in *. clearbody P.
  destruct (n <? 0) eqn:E.
  - apply Z.ltb_lt in E. unfold upto, index.
    replace (n <? 0) with true by (symmetry; apply Z.ltb_lt; lia).
    set (j := Z.to_nat (Z.of_nat (length P) + n)).
    assert (Hj : Z.of_nat j = prec + n) by (unfold j; lia). clearbody j.
    assert (HD2 : digits_ok (firstn j P)) by (apply ok_first; exact HD).
    assert (HL2 : length (firstn j P) = j) by (rewrite firstn_length; lia).
    split; [apply strip_plain; exact HD2|].
    rewrite !int_coefficient, strip_int. split.
    + pose proof (int_bound _ HD2) as B. rewrite HL2 in B. split; [apply B|].
      eapply Z.lt_le_trans; [apply B|]. apply Z.pow_le_mono_r; lia.
    + intros i Hi. replace (0 <=? i - n) with true by (symmetry; apply Z.leb_le; lia).
      cbn [andb]. destruct (i - n <? prec) eqn:E2.
      * apply Z.ltb_lt in E2. rewrite <- HX by lia.
        rewrite <- (Z2Nat.id i) at 1 by lia. rewrite <- (Z2Nat.id (i - n)) by lia.
        rewrite !digit_nth by (try assumption; lia). rewrite HL2.
        rewrite nth_first by lia. f_equal. lia.
      * apply Z.ltb_ge in E2. apply digit_beyond; [exact HD2|]. lia.
  - apply Z.ltb_ge in E. unfold from, index.
    replace (- prec <? 0) with true by (symmetry; apply Z.ltb_lt; lia).
    assert (HZ : length (zeros n) = Z.to_nat n) by apply repeat_length.
    rewrite app_length, HZ.
    set (j := Z.to_nat (Z.of_nat (length P + Z.to_nat n) + - prec)).
    assert (Hj : Z.of_nat j = n) by (unfold j; lia). clearbody j.
    assert (HD2 : digits_ok (skipn j (P ++ zeros n))).
    { apply ok_skip. apply ok_app. split; [exact HD|apply ok_zeros]. }
    assert (HL2 : length (skipn j (P ++ zeros n)) = length P).
    { rewrite skipn_length, app_length, HZ. lia. }
    split; [apply strip_plain; exact HD2|].
    rewrite !int_coefficient, strip_int. split.
    + pose proof (int_bound _ HD2) as B. rewrite HL2, HL in B. exact B.
    + intros i Hi. replace (i - n <? prec) with true by (symmetry; apply Z.ltb_lt; lia).
      rewrite andb_true_r.
      rewrite <- (Z2Nat.id i) at 1 by lia.
      rewrite digit_nth by (try assumption; lia). rewrite HL2, nth_skip.
      destruct (0 <=? i - n) eqn:E2.
      * apply Z.leb_le in E2. rewrite <- HX by lia.
        rewrite <- (Z2Nat.id (i - n)) by lia.
        rewrite digit_nth by (try assumption; lia).
        rewrite app_nth1 by lia. f_equal. lia.
      * apply Z.leb_gt in E2. rewrite app_nth2 by lia. unfold zeros. apply nth_repeat.
Qed.
Print Assumptions C184_shift.

Theorem C184_others : forall prec other,
  ((forall n, ~ by_places prec n other) ->
     forall d, rotate prec d other = InvalidOperation /\ shift prec d other = InvalidOperation)
  /\ (forall n s, by_places prec n other ->
     rotate prec (Inf s) other = Answer (Inf s) /\ shift prec (Inf s) other = Answer (Inf s)).
Proof.
  intros prec other. split.
  - intros H d. unfold rotate, shift. rewrite (places_none _ _ H). split; reflexivity.
  - intros n s H. unfold rotate, shift. rewrite (places_some _ _ _ H). split; reflexivity.
Qed.
Print Assumptions C184_others.

(** 12345 at a precision of four digits, rotated by -1 and shifted by 2; 1E+1 places are refused *)
Example C184_example :
  digits_ok [1; 2; 3; 4; 5] /\ by_places 4 (-1) (Fin true [1] 0)
  /\ by_places 4 2 (Fin false [2] 0)
  /\ rotate 4 (Fin false [1; 2; 3; 4; 5] 7) (Fin true [1] 0) = Answer (Fin false [5; 2; 3; 4] 7)
  /\ shift 4 (Fin false [1; 2; 3; 4; 5] 7) (Fin false [2] 0) = Answer (Fin false [4; 5; 0; 0] 7)
  /\ (forall n, ~ by_places 4 n (Fin false [1] 1)).
Proof.
  split; [repeat constructor; lia|].
  split; [exists true, [1]; cbn; repeat split; lia|].
  split; [exists false, [2]; cbn; repeat split; lia|].
  split; [reflexivity|]. split; [reflexivity|].
  intros n (neg & l & H & _). discriminate H.
Qed.
