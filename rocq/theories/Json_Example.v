(** Concrete numbers for Json: decimal integers as Python writes and reads them, and whole floats
    with NaN and the infinities.  They show that what the theorems assume of numbers can hold. *)
From Coq Require Import ZArith List Bool Lia ZifyBool ZifyNat.
From Verif Require Import Py Json_Model Json_Spec.
Import ListNotations.
Open Scope Z_scope.

Fixpoint dec (fuel : nat) (n : Z) : str :=
  match fuel with O => [] | S f => if n <? 10 then [48 + n] else dec f (n / 10) ++ [48 + n mod 10] end.
Definition decimal (z : Z) : str := if z <? 0 then 45 :: dec (S (Z.to_nat (- z))) (- z) else dec (S (Z.to_nat z)) z.
Definition number (s : str) : Z := fold_left (fun a c => a * 10 + (c - 48)) s 0.
Definition read_int (s : str) : res Z := Ok (match s with c :: r => if c =? 45 then - number r else number s | [] => 0 end).

Lemma dec_ok : forall fuel n, 0 <= n < Z.of_nat fuel -> number (dec fuel n) = n /\
  ((n = 0 /\ dec fuel n = [48]) \/ exists c r, dec fuel n = c :: r /\ 49 <= c <= 57 /\ Forall decimal_digit r).
Proof.
  induction fuel as [|f IH]; intros n N; [lia|]. cbn [dec]. destruct (n <? 10) eqn:L.
  - split; [unfold number; cbn [fold_left]; lia|]. destruct (Z.eq_dec n 0) as [->|Nz]; [auto|]. right. exists (48 + n), []. split; [reflexivity|]. split; [lia|constructor].
  - assert (D : 0 <= n / 10 < Z.of_nat f).
    { split; [apply Z.div_pos; lia|]. apply Z.div_lt_upper_bound; lia. }
    destruct (IH _ D) as [V Sh]. pose proof (Z.mod_pos_bound n 10 ltac:(lia)). pose proof (Z.div_mod n 10 ltac:(lia)).
    split; [unfold number in *; rewrite fold_left_app, V; cbn [fold_left]; lia|]. right.
    destruct Sh as [[Z0 _]|(c & r & E & C & R)]; [lia|]. exists c, (r ++ [48 + n mod 10]). split; [now rewrite E|]. split; [assumption|].
    apply Forall_app. split; [assumption|]. constructor; [unfold decimal_digit; lia|constructor].
Qed.
Lemma decimal_ints : forall z, int_part (decimal z) /\ read_int (decimal z) = Ok z.
Proof.
  intro z. unfold decimal. destruct (z <? 0) eqn:N.
  - destruct (dec_ok (S (Z.to_nat (- z))) (- z) ltac:(lia)) as [V Sh]. remember (dec (S (Z.to_nat (- z))) (- z)) as t eqn:E. clear E. split.
    + exists [45], t. split; [reflexivity|]. split; [auto|]. destruct Sh as [[Z0 _]|(c & r & E & C & R)]; [lia|]. right. exists c, r. auto.
    + unfold read_int. change (45 =? 45) with true. cbn match. f_equal. lia.
  - destruct (dec_ok (S (Z.to_nat z)) z ltac:(lia)) as [V Sh]. remember (dec (S (Z.to_nat z)) z) as t eqn:E. clear E. split.
    + exists [], t. split; [reflexivity|]. split; [auto|]. destruct Sh as [[_ ->]|(c & r & -> & C & R)]; [auto|]. right. exists c, r. auto.
    + unfold read_int. destruct Sh as [[-> ->]|(c & r & -> & C & R)]; [reflexivity|]. destruct (c =? 45) eqn:?; [lia|]. now f_equal.
Qed.

Inductive whole := Num (z : Z) | NaN | Inf | NegInf.
Definition weq (a b : whole) : bool := match a, b with Num x, Num y => x =? y | Inf, Inf => true | NegInf, NegInf => true | _, _ => false end.
Definition wrepr (f : whole) : str := match f with Num z => decimal z ++ [46; 48] | _ => [] end.
Definition read_whole (s : str) : res whole := map_res Num (read_int (firstn (length s - 2) s)).
Lemma whole_floats : forall f, finite whole weq Inf NegInf f -> real_number (wrepr f) /\ read_whole (wrepr f) = Ok f.
Proof.
  intros [z| | |] (A & B & C); try discriminate. destruct (decimal_ints z) as [I P]. cbn [wrepr]. split.
  - exists (decimal z), [46; 48], []. split; [reflexivity|]. split; [assumption|]. split; [right; exists 48, []; split; [reflexivity|]; repeat (constructor; [unfold decimal_digit; lia|]); constructor|].
    split; [auto|]. left. discriminate.
  - unfold read_whole. rewrite app_length. cbn [length]. replace (length (decimal z) + 2 - 2)%nat with (length (decimal z) + 0)%nat by lia.
    rewrite firstn_app_2. cbn [firstn]. rewrite app_nil_r, P. reflexivity.
Qed.
Lemma whole_nans : forall f, weq f f = false -> f = NaN.
Proof. intros [z| | |] H; cbn in H; try discriminate; [rewrite Z.eqb_refl in H; discriminate|reflexivity]. Qed.
Lemma whole_infs : forall f, weq f Inf = true -> f = Inf.
Proof. intros [z| | |] H; cbn in H; try discriminate. reflexivity. Qed.
Lemma whole_neginfs : forall f, weq f NegInf = true -> f = NegInf.
Proof. intros [z| | |] H; cbn in H; try discriminate. reflexivity. Qed.
