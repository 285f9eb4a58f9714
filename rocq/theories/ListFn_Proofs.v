From Coq Require Import ZArith List Bool Lia ZifyBool ZifyNat.
From Verif Require Import Py Range_Spec PySeq_Spec Seq_Proofs ArrTuple_Proofs ListFn_Model ListFn_Spec.
Import ListNotations.
Open Scope Z_scope.
Section Index.
Variable A : Type.
Variable eqb : A -> A -> bool.
Lemma scan_ok x l : forall k, 0 <= k ->
  match scan A eqb l x k with
  | Ok i => k <= i < k + Z.of_nat (length l) /\ (exists y, nth_error l (Z.to_nat (i - k)) = Some y /\ eqb x y = true) /\
            forall j y, k <= j < i -> nth_error l (Z.to_nat (j - k)) = Some y -> eqb x y = false
  | Err e => e = ValueError /\ forall j y, nth_error l j = Some y -> eqb x y = false
  end.
Proof.
  induction l as [|z l IH]; intros k K; cbn [scan].
  - split; [reflexivity|]. intros [|j] y H; discriminate.
  - destruct (eqb x z) eqn:E.
    + cbn [length]. split; [lia|]. split; [exists z; rewrite Z.sub_diag; auto|]. intros; lia.
    + specialize (IH (k + 1) ltac:(lia)). destruct (scan A eqb l x (k + 1)) as [i|e].
      * destruct IH as (R & (y & Y & EY) & F). cbn [length]. split; [lia|]. split.
        -- exists y. replace (Z.to_nat (i - k)) with (S (Z.to_nat (i - (k + 1)))) by lia. auto.
        -- intros j w J W. destruct (Z.eq_dec j k) as [->|]; [rewrite Z.sub_diag in W; injection W as <-; exact E|].
           apply (F j w); [lia|]. replace (Z.to_nat (j - k)) with (S (Z.to_nat (j - (k + 1)))) in W by lia. exact W.
      * destruct IH as [-> F]. split; [reflexivity|]. intros [|j] y H; [injection H as <-; exact E|]. exact (F j y H).
Qed.
Lemma nth_firstn {B} (l : list B) : forall k i, (i < k)%nat -> nth_error (firstn k l) i = nth_error l i.
Proof. induction l as [|x l IH]; intros [|k] [|i] H; cbn; auto; try lia. apply IH. lia. Qed.
Lemma nth_skipn {B} (l : list B) : forall k i, nth_error (skipn k l) i = nth_error l (k + i).
Proof. induction l as [|x l IH]; intros [|k] i; cbn; auto. now destruct i. Qed.
(** the index in the list is the answer plus the lower bound *)
Lemma index_shift self x a b : Z.of_nat (length self) <= 9223372036854775807 ->
  let n := Z.of_nat (length self) in
  first_pos (eqb x) self (low n a) (high n b) (map_res (Z.add (low n a)) (list_index A eqb self x a b)).
Proof.
  intros MX n.
  assert (GEN : forall a b, (do l <- py_slice self (mkSl (Some a) (Some b) None); scan A eqb l x 0) =
     scan A eqb (firstn (Z.to_nat (high n (Some b) - low n (Some a))) (skipn (Z.to_nat (low n (Some a))) self)) x 0).
  { intros a0 b0. rewrite slice1_eq by (left; reflexivity). cbv zeta. cbn [bind]. fold n. unfold Str_Spec.win_start, Str_Spec.win_end, low, high.
    f_equal. assert (0 <= n) by lia. f_equal; [f_equal; ifs; lia|]. f_equal. f_equal. ifs; lia. }
  assert (MAIN : forall u w, 0 <= u -> w <= n -> first_pos (eqb x) self u w (map_res (Z.add u) (scan A eqb (firstn (Z.to_nat (w - u)) (skipn (Z.to_nat u) self)) x 0))).
  { intros u w U W. set (l := firstn _ _).
    assert (NTH : forall j, 0 <= j < w - u -> nth_error l (Z.to_nat j) = nth_error self (Z.to_nat (u + j))).
    { intros j J. unfold l. rewrite nth_firstn by lia. rewrite nth_skipn. f_equal. lia. }
    assert (LEN : Z.of_nat (length l) = Z.max 0 (w - u)) by (unfold l; rewrite firstn_length, skipn_length; lia).
    pose proof (scan_ok x l 0 ltac:(lia)) as S. destruct (scan A eqb l x 0) as [i|e]; cbn [map_res bind].
    - destruct S as (R & (y & Y & EY) & F). rewrite Z.sub_0_r in Y. split; [lia|]. split.
      + exists y. rewrite <- NTH by lia. auto.
      + intros j z J Z. apply (F (j - u) z); [lia|]. rewrite Z.sub_0_r, NTH by lia. replace (u + (j - u)) with j by lia. exact Z.
    - destruct S as [-> F]. split; [reflexivity|]. intros j z J Z. apply (F (Z.to_nat (j - u)) z). rewrite NTH by lia. replace (u + (j - u)) with j by lia. exact Z. }
  assert (LB : 0 <= low n a) by (unfold low; destruct a; ifs; lia). assert (HB : high n b <= n) by (unfold high; destruct b; ifs; lia).
  specialize (MAIN (low n a) (high n b) LB HB).
  assert (E : list_index A eqb self x a b = scan A eqb (firstn (Z.to_nat (high n b - low n a)) (skipn (Z.to_nat (low n a)) self)) x 0); [|now rewrite E].
  unfold list_index. destruct a as [a|], b as [b|].
  - apply GEN.
  - rewrite GEN. do 2 f_equal. do 2 f_equal. unfold high. ifs; lia.
  - rewrite GEN. unfold low. replace (0 <? 0) with false by lia. now replace (Z.min 0 n) with 0 by lia.
  - cbn [low high]. replace (Z.to_nat 0) with O by lia. cbn [skipn]. now rewrite firstn_all2 by lia.
Qed.
End Index.
Lemma join_from_pos sep items : forall r k, 0 < k -> join_from sep r k items = r ++ flat_map (fun x => sep ++ x) items.
Proof.
  induction items as [|x items IH]; intros r k K; cbn [join_from flat_map]; [now rewrite app_nil_r|]. replace (0 <? k) with true by lia.
  rewrite IH by lia. now rewrite <- !app_assoc.
Qed.
Lemma join_ok sep items : separated sep items (join sep items).
Proof.
  unfold join. destruct items as [|x items]; [constructor|]. cbn [join_from]. replace (0 <? 0) with false by lia. cbn [app]. rewrite join_from_pos by lia.
  revert x. induction items as [|y items IH]; intro x; cbn [flat_map]; [rewrite app_nil_r; constructor|]. rewrite <- app_assoc. constructor. apply IH.
Qed.
Lemma separated_fun sep items s : separated sep items s -> forall t, separated sep items t -> s = t.
Proof. induction 1; intros t T; inversion T; subst; auto. f_equal. f_equal. auto. Qed.
