(** Operations on infinities and NaNs. *)
From Coq Require Import ZArith QArith Qabs Lqa List Bool Lia ZifyBool ZifyNat.
From Verif Require Import Dec_Model Dec_Spec Dec_Digits Dec_Round Dec_Fix Dec_Arith Dec_Ops.
Import ListNotations.
Open Scope Z_scope.

Lemma lstrip0_number : forall s, number (lstrip0 s) = number s /\ (hd 1 (lstrip0 s) <> 0).
Proof.
  induction s as [|d s (IH & IH')]; cbn [lstrip0]; [split; [reflexivity|discriminate]|]. destruct (d =? 0) eqn:D.
  - split; [|exact IH']. rewrite IH. cbn [number]. replace d with 0 by lia. lia.
  - split; [reflexivity|]. cbn [hd]. lia.
Qed.
Lemma quiet_quieted : forall c g s p, valid c -> Forall is_digit p -> quieted c (NaN g s p) (quiet c (NaN g s p)).
Proof.
  intros c g s p (P1 & _) D. unfold quieted, quiet, fix_nan. cbv zeta.
  replace (prec c - (if clamp c then 1 else 0)) with (if clamp c then prec c - 1 else prec c) by (destruct (clamp c); lia).
  remember (if clamp c then prec c - 1 else prec c) as room eqn:Er. assert (0 <= room) by (destruct (clamp c); lia).
  destruct (len p >? room) eqn:G; unfold len in *.
  - exists g, s, p. eexists. split; [reflexivity|]. split; [reflexivity|]. split; [lia|]. intros _.
    destruct (lstrip0_number (from p (Z.of_nat (length p) - room))) as (N & Hd). split; [|exact Hd]. rewrite N.
    pose proof (from_mod p (Z.of_nat (length p) - room) D) as FM. unfold len in FM. rewrite FM by lia. f_equal. f_equal. lia.
  - exists g, s, p, p. split; [reflexivity|]. split; [reflexivity|]. split; [reflexivity|]. lia.
Qed.
(** The common start of the binary operations. *)
Lemma nans_passed : forall c x y z b k f, valid c -> good x -> good y -> passed_on x y z b ->
  exists r, quieted c z r /\ after_nans c x (Some y) k f = report c (if b then [InvalidOperation] else []) r f.
Proof.
  intros c x y z b k f V Gx Gy P.
  assert (R : forall g s p, report c [InvalidOperation] (quiet c (NaN g s p)) f = (let* r := raise_in c InvalidOperation (quiet c (NaN g s p)) in ret r) f).
  { intros. cbn [report]. unfold bind, raise_in, ret. destruct (traps c InvalidOperation); reflexivity. }
  assert (Q : forall g s p, good (NaN g s p) -> quieted c (NaN g s p) (quiet c (NaN g s p))) by (intros; now apply quiet_quieted).
  destruct x as [| |[|] sx px], y as [| |[|] sy py]; cbn [passed_on] in P; try contradiction; destruct P as (-> & ->); eexists;
    (split; [apply Q; assumption|]); unfold after_nans, check_nans; cbn [isnan]; cbn [Z.eqb negb orb Pos.eqb];
    unfold bind, raise_in, ret; cbn [report]; try reflexivity; destruct (traps c InvalidOperation); reflexivity.
Qed.
