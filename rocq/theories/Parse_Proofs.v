From Coq Require Import ZArith List Bool Lia ZifyBool ZifyNat.
From Verif Require Import Py Parse_Spec Parse_Model.
Import ListNotations.
Open Scope Z_scope.

Definition in_base (base c : Z) : bool := (48 <=? c) && (c <? 48 + base).
Definition value_of (base : Z) (s : list Z) (r : Z) : Z := fold_left (fun a c => a * base + (c - 48)) s r.

Section P.
Variable uspace : Z -> bool.
Variable udecimal : Z -> option Z.
Variable max_digits : option Z.
Notation py := (py_int uspace udecimal max_digits).
Notation fits base s := (limited base = true -> match max_digits with Some m => Z.of_nat (length s) <= m | None => True end).

Lemma digits_all base s : 2 <= base <= 10 -> forall r k, forallb (in_base base) s = true -> s <> [] \/ k = true ->
  forall n, digits base s r n k = Some (value_of base s r, n + Z.of_nat (length s), []).
Proof.
  intro B. induction s as [|c s IH]; intros r k F K n.
  - destruct K as [K| ->]; [congruence|]. cbn. do 3 f_equal. lia.
  - cbn [forallb] in F. apply andb_true_iff in F as [C F]. unfold in_base in C. cbn [digits]. replace (c =? 95) with false by lia.
    assert (D : digit_value c = c - 48) by (unfold digit_value; replace ((48 <=? c) && (c <=? 57)) with true by lia; reflexivity).
    rewrite D. replace (c - 48 <? base) with true by lia. rewrite (IH _ true F (or_intror eq_refl)). cbn [value_of fold_left length]. do 3 f_equal. lia.
Qed.
Lemma ascii_all base s : 2 <= base <= 10 -> forallb (in_base base) s = true -> map (to_ascii uspace udecimal) s = s.
Proof.
  intros B. induction s as [|c s IH]; intro F; [reflexivity|]. cbn [forallb map] in *. apply andb_true_iff in F as [C F]. unfold in_base in C. rewrite (IH F).
  unfold to_ascii. now replace (c <? 127) with true by lia.
Qed.
Lemma py_digits base s : 2 <= base <= 10 -> s <> [] -> forallb (in_base base) s = true -> fits base s -> py s base = Ok (value_of base s 0).
Proof.
  intros B N F L. unfold py_int. replace (negb (base =? 0) && ((base <? 2) || (36 <? base))) with false by lia. rewrite (ascii_all base s B F).
  destruct s as [|c s]; [congruence|]. pose proof F as F'. cbn [forallb] in F'. apply andb_true_iff in F' as [C F']. unfold in_base in C.
  cbn [skip_space]. replace (c_space c) with false by (unfold c_space; lia).
  replace (c =? 43) with false by lia. replace (c =? 45) with false by lia.
  assert (PF : prefixed base (c :: s) = (base, c :: s, false)).
  { unfold prefixed. replace (base =? 0) with false by lia.
    set (mark := match c :: s with z :: c :: _ => if z =? 48 then lower c else 0 | _ => 0 end).
    assert (M : mark <= 57).
    { unfold mark. destruct s as [|c' s]; [lia|]. cbn [forallb] in F'. apply andb_true_iff in F' as [C' _]. unfold in_base in C'.
      assert (lower c' = c') by (unfold lower; replace ((65 <=? c') && (c' <=? 90)) with false by lia; reflexivity). destruct (c =? 48); lia. }
    now replace (((base =? 16) && (mark =? 120)) || ((base =? 8) && (mark =? 111)) || ((base =? 2) && (mark =? 98))) with false by lia. }
  rewrite PF, (digits_all base (c :: s) B 0 false F (or_introl N)). cbn [skip_space].
  destruct (limited base) eqn:LB; cbn [andb]; [|reflexivity]. specialize (L eq_refl). destruct max_digits as [m|]; [|reflexivity].
  now replace (m <? 0 + Z.of_nat (length (c :: s))) with false by lia.
Qed.
Lemma loop_ok val base s : forall r, forallb (in_base base) s = true -> loop py val base s r = Ok (value_of base s r).
Proof.
  induction s as [|c s IH]; intros r F; [reflexivity|]. cbn [forallb] in F. apply andb_true_iff in F as [C F]. unfold in_base in C. cbn [loop].
  replace ((c - 48 <? 0) || (base <=? c - 48)) with false by lia. now rewrite IH.
Qed.
Lemma loop_other val base s : forall r, forallb (in_base base) s = false -> loop py val base s r = py val 10.
Proof.
  induction s as [|c s IH]; intros r F; [discriminate|]. cbn [forallb loop] in *. unfold in_base in F at 1. destruct ((c - 48 <? 0) || (base <=? c - 48)) eqn:E; [reflexivity|].
  apply IH. apply andb_false_iff in F as [F|F]; [lia|exact F].
Qed.
Definition the_base (b : option Z) : Z := match b with None => 10 | Some b => b end.
Lemma m_int_ok val b : (the_base b = 10 \/ the_base b < 2 \/ 10 < the_base b \/ forallb (in_base (the_base b)) val = true) ->
  (forallb (in_base (the_base b)) val = true -> fits (the_base b) val) ->
  m_int py val b = py val (the_base b).
Proof.
  intros H L. unfold m_int. fold (the_base b). set (base := the_base b) in *. destruct ((base <? 2) || (10 <? base)) eqn:R; cbn [orb]; [reflexivity|].
  destruct val as [|c val]; [reflexivity|]. destruct (forallb (in_base base) (c :: val)) eqn:F.
  - rewrite loop_ok by exact F. symmetry. apply py_digits; [lia|discriminate|exact F|exact (L eq_refl)].
  - rewrite loop_other by exact F. assert (E : base = 10) by (destruct H as [H|[H|[H|H]]]; [exact H|lia|lia|congruence]). now rewrite E.
Qed.
(** floats *)
Lemma span_spec s : let '(a, b) := span s in s = a ++ b /\ forallb is_digit a = true /\ match b with [] => True | c :: _ => is_digit c = false end.
Proof.
  induction s as [|c s IH]; [cbn; auto|]. cbn [span]. destruct (is_digit c) eqn:E; [|cbn; auto]. destruct (span s) as [a b]. destruct IH as (-> & F & N). cbn. rewrite E. auto.
Qed.
Lemma span_digits a b : forallb is_digit a = true -> match b with [] => True | c :: _ => is_digit c = false end -> span (a ++ b) = (a, b).
Proof.
  induction a as [|c a IH]; intros F N; cbn [app].
  - destruct b as [|c b]; [reflexivity|]. cbn. now rewrite N.
  - cbn [forallb] in F. apply andb_true_iff in F as [C F]. cbn [span]. rewrite C, (IH F N). reflexivity.
Qed.
Lemma digit_base s : forallb is_digit s = forallb (in_base 10) s.
Proof. induction s as [|c s IH]; [reflexivity|]. cbn [forallb]. rewrite IH. unfold is_digit, in_base. f_equal. f_equal. lia. Qed.
Lemma int_digits s : s <> [] -> forallb is_digit s = true -> m_int py s None = Ok (number s).
Proof.
  intros N F. unfold m_int. cbn [Z.ltb Z.compare Pos.compare Pos.compare_cont orb]. destruct s as [|c s]; [congruence|]. rewrite loop_ok by now rewrite <- digit_base. reflexivity.
Qed.
Lemma fold_shift b : forall a, fold_left (fun a c => a * 10 + (c - 48)) b a = a * 10 ^ Z.of_nat (length b) + number b.
Proof.
  induction b as [|c b IH]; intro a; cbn [fold_left length].
  - unfold number. cbn. lia.
  - unfold number. cbn [fold_left]. rewrite !IH. rewrite Nat2Z.inj_succ, Z.pow_succ_r by lia. lia.
Qed.
Lemma number_app a b : number (a ++ b) = number a * 10 ^ Z.of_nat (length b) + number b.
Proof. unfold number at 1. rewrite fold_left_app. apply fold_shift. Qed.
Lemma sign_split sign i rest : (sign = [] \/ sign = [43] \/ sign = [45]) -> i <> [] -> forallb is_digit i = true -> split_sign (sign ++ i ++ rest) = (sign, i ++ rest).
Proof.
  intros [->|[->| ->]] N F; try reflexivity. cbn [app]. destruct i as [|c i]; [congruence|]. cbn [forallb] in F. apply andb_true_iff in F as [C _]. unfold is_digit in C.
  cbn [app split_sign]. now replace ((c =? 43) || (c =? 45)) with false by lia.
Qed.
Lemma float_ok s num den : decimal s num den -> m_float py s = Some (Ok (num, den)).
Proof.
  intro D. unfold m_float, fullmatch. destruct D as [sign i SG N F|sign i f SG N F FF]; change digit with is_digit in *.
  - pose proof (sign_split sign i [] SG N F) as E. rewrite !app_nil_r in E. rewrite E. rewrite <- (app_nil_r i) at 1. rewrite (span_digits i [] F I).
    destruct i as [|c i]; [congruence|]. rewrite (int_digits (c :: i) N F). cbn [bind fst snd]. do 3 f_equal; destruct SG as [->|[->| ->]]; cbn [Z.eqb Pos.eqb]; lia.
  - rewrite (sign_split sign i (46 :: f) SG N F). rewrite (span_digits i (46 :: f) F eq_refl). rewrite Z.eqb_refl.
    pose proof (span_digits f [] FF I) as SF. rewrite app_nil_r in SF. rewrite SF.
    destruct i as [|c i]; [congruence|]. rewrite (int_digits (c :: i) N F). cbn [bind]. rewrite number_app. set (k := c :: i) in *.
    assert (G : (match f with [] => Ok (number k, 1) | _ :: _ => do f0 <- m_int py f None; Ok (number k * 10 ^ Z.of_nat (length f) + f0, 10 ^ Z.of_nat (length f)) end)
       = Ok (number k * 10 ^ Z.of_nat (length f) + number f, 10 ^ Z.of_nat (length f))).
    { destruct f as [|d f]; [cbn; f_equal; f_equal; lia|]. rewrite (int_digits (d :: f)) by (congruence || exact FF). reflexivity. }
    cbv zeta. rewrite G. cbn [bind fst snd]. do 3 f_equal; destruct SG as [->|[->| ->]]; cbn [Z.eqb Pos.eqb]; lia.
Qed.
Lemma head_split s : exists sign, (sign = [] \/ sign = [43] \/ sign = [45]) /\ exists r, split_sign s = (sign, r) /\ s = sign ++ r.
Proof.
  destruct s as [|c s]; [exists []; split; [auto|]; exists []; auto|]. cbn [split_sign]. destruct ((c =? 43) || (c =? 45)) eqn:E.
  - exists [c]. split; [|exists s; auto]. destruct (Z.eqb_spec c 43); [subst; auto|]. assert (c = 45) by lia. subst. auto.
  - exists []. split; [auto|]. exists (c :: s). auto.
Qed.
Lemma float_only s r : m_float py s = Some r -> exists num den, decimal s num den.
Proof.
  unfold m_float. destruct (fullmatch s) as [[[p i] f]|] eqn:E; [|discriminate]. intros _. unfold fullmatch in E.
  destruct (head_split s) as (sign & SG & q & Eq & ->). rewrite Eq in E. clear Eq. pose proof (span_spec q) as SP. destruct (span q) as [a b]. destruct SP as (-> & FA & NB).
  destruct a as [|c a]; [discriminate|]. set (k := c :: a) in *. assert (N : k <> []) by discriminate. clearbody k.
  destruct b as [|d b].
  - rewrite app_nil_r. eexists _, _. apply decimal_int; auto.
  - destruct (Z.eqb_spec d 46) as [->|ND].
    + pose proof (span_spec b) as SB. destruct (span b) as [g h]. destruct SB as (-> & FG & _). destruct k; [congruence|]. destruct h; [|discriminate]. rewrite app_nil_r.
      eexists _, _. apply decimal_point; auto.
    + destruct k; discriminate.
Qed.
End P.
