(** C179: the logical operations of decimals work digit by digit. *)
From Coq Require Import ZArith List Bool Lia.
From Verif Require Import DecLogic_Model DecLogic_Spec.
Import ListNotations.
Open Scope Z_scope.

Lemma binary_iff : forall l, binary l = true <-> forall x, In x l -> x = 0 \/ x = 1.
Proof.
  induction l as [|d l IH]; cbn [binary]; [split; [intros _ x []|reflexivity]|].
  destruct (Z.eqb_spec d 0) as [E|E]; [|destruct (Z.eqb_spec d 1) as [E1|E1]]; cbn [orb].
  - rewrite IH. split; intros H x; [intros [<-|I]; [left; exact E|apply H; exact I]|intro I; apply H; right; exact I].
  - rewrite IH. split; intros H x; [intros [<-|I]; [right; exact E1|apply H; exact I]|intro I; apply H; right; exact I].
  - split; [discriminate|]. intro H. destruct (H d (or_introl eq_refl)); contradiction.
Qed.
Lemma is_logical_iff : forall d, is_logical d = true <-> logical d.
Proof.
  intros [s e l]. unfold is_logical, logical. cbn [sign exponent digits].
  destruct (Z.eqb_spec s 0) as [->|N]; cbn [negb]; [|split; [discriminate|intros [H _]; contradiction]].
  destruct e as [e|]; [|split; [discriminate|intros [_ [H _]]; discriminate]].
  destruct (Z.eqb_spec e 0) as [->|N]; cbn [negb].
  - rewrite binary_iff. split; [auto|intros [_ [_ H]]; exact H].
  - split; [discriminate|]. intros [_ [H _]]. congruence.
Qed.

Definition at_ (l : list Z) (i : nat) : Z := nth i (rev l) 0.
Lemma fill_length : forall p l, length (fill p l) = p.
Proof.
  intros p l. unfold fill. destruct (Nat.ltb_spec (length l) p); [rewrite app_length, repeat_length; lia|].
  destruct (Nat.ltb_spec p (length l)); [rewrite skipn_length; lia|lia].
Qed.
Lemma at_zeros : forall k l i, at_ (repeat 0 k ++ l) i = at_ l i.
Proof.
  intros k l i. unfold at_. rewrite rev_app_distr. destruct (Nat.lt_ge_cases i (length (rev l))) as [L|L].
  - rewrite app_nth1 by exact L. reflexivity.
  - rewrite app_nth2 by exact L. rewrite (nth_overflow (rev l)) by exact L.
    assert (A : forall x, In x (rev (repeat 0 k)) -> x = 0) by (intros x X; apply in_rev in X; apply repeat_spec in X; exact X).
    destruct (nth_in_or_default (i - length (rev l)) (rev (repeat 0 k)) 0) as [I|I]; [apply A; exact I|exact I].
Qed.
Lemma at_fill : forall p l i, (i < p)%nat -> at_ (fill p l) i = at_ l i.
Proof.
  intros p l i L. unfold fill. destruct (Nat.ltb_spec (length l) p); [apply at_zeros|].
  destruct (Nat.ltb_spec p (length l)) as [H1|H1]; [|reflexivity].
  unfold at_. rewrite <- firstn_rev. rewrite <- (firstn_skipn p (rev l)) at 2.
  rewrite app_nth1; [reflexivity|]. rewrite firstn_length, rev_length. lia.
Qed.
Lemma each_length : forall f a b, length (each f a b) = Nat.min (length a) (length b).
Proof. intros. unfold each. rewrite map_length, combine_length. reflexivity. Qed.
Lemma at_each : forall f a b i, length a = length b -> (i < length a)%nat -> at_ (each f a b) i = f (at_ a i) (at_ b i).
Proof.
  intros f a b i E L. unfold at_.
  rewrite !rev_nth by (rewrite ?each_length; lia). rewrite each_length, <- E, Nat.min_id.
  unfold each. rewrite (nth_indep _ 0 (f (fst (0, 0)) (snd (0, 0)))) by (rewrite map_length, combine_length; lia).
  rewrite (map_nth (fun p => f (fst p) (snd p))), combine_nth by exact E. reflexivity.
Qed.
Lemma strip_split : forall l, exists k, l = repeat 0 k ++ lstrip l.
Proof.
  induction l as [|d l [k E]]; cbn [lstrip]; [exists O; reflexivity|].
  destruct (Z.eqb_spec d 0) as [->|]; [|exists O; reflexivity]. exists (S k). cbn [repeat app]. rewrite <- E. reflexivity.
Qed.
Lemma strip_head : forall l x r, lstrip l = x :: r -> x <> 0.
Proof.
  induction l as [|d l IH]; intros x r; cbn [lstrip]; [discriminate|].
  destruct (Z.eqb_spec d 0); [apply IH|]. intro E. injection E as <- _. assumption.
Qed.
Lemma clean_right : forall l, (forall x, In x l -> x = 0 \/ x = 1) ->
  logical (clean l) /\ normal (clean l) /\ forall i, digit (clean l) i = at_ l i.
Proof.
  intros l B. unfold clean, logical, normal, digit. cbn [sign exponent digits].
  destruct (strip_split l) as [k E]. destruct (lstrip l) as [|x r] eqn:S'.
  - split; [split; [reflexivity|split; [reflexivity|intros x [<-|[]]; left; reflexivity]]|]. split; [left; reflexivity|].
    intro i. rewrite E, at_zeros. unfold at_. destruct i as [|[|i]]; reflexivity.
  - split; [split; [reflexivity|split; [reflexivity|]]|].
    + intros y Y. apply B. rewrite E. apply in_app_iff. right. exact Y.
    + split; [right; exists x, r; split; [reflexivity|exact (strip_head _ _ _ S')]|].
      intro i. rewrite E, at_zeros. reflexivity.
Qed.
Lemma digit_binary : forall d i, logical d -> digit d i = 0 \/ digit d i = 1.
Proof.
  intros d i [_ [_ B]]. unfold digit. destruct (nth_in_or_default i (rev (digits d)) 0) as [I|I]; [|left; exact I].
  apply B. apply in_rev. exact I.
Qed.
Lemma op_right : forall f g prec a b, (forall x y, x = 0 \/ x = 1 -> y = 0 \/ y = 1 -> f x y = g x y /\ (f x y = 0 \/ f x y = 1)) ->
  logical a -> logical b -> digitwise g prec a b (clean (each f (fill prec (digits a)) (fill prec (digits b)))).
Proof.
  intros f g prec a b F La Lb.
  set (r := each f (fill prec (digits a)) (fill prec (digits b))).
  assert (Len : length r = prec) by (unfold r; rewrite each_length, !fill_length; lia).
  assert (At : forall i, (i < prec)%nat -> at_ r i = f (digit a i) (digit b i)).
  { intros i L. unfold r. rewrite at_each by (rewrite !fill_length; auto). rewrite !at_fill by exact L. reflexivity. }
  destruct (clean_right r) as [C1 [C2 C3]].
  - intros x X. apply in_rev in X. destruct (In_nth _ _ 0 X) as [i [L <-]]. rewrite rev_length, Len in L.
    change (nth i (rev r) 0) with (at_ r i). rewrite At by exact L. apply F; apply digit_binary; assumption.
  - split; [exact C1|]. split; [exact C2|]. intro i. rewrite C3. destruct (Nat.ltb_spec i prec) as [L|L].
    + rewrite At by exact L. apply F; apply digit_binary; assumption.
    + unfold at_. apply nth_overflow. rewrite rev_length. lia.
Qed.

(** Operands that are not logical are invalid; the others give the digitwise result. *)
Theorem C179_operands : forall prec a b, (~ logical a \/ ~ logical b) ->
  logical_and prec a b = Invalid /\ logical_or prec a b = Invalid /\ logical_xor prec a b = Invalid /\
  (~ logical a -> logical_invert prec a = Invalid).
Proof.
  intros prec a b H.
  assert (E : negb (is_logical a) || negb (is_logical b) = true).
  { apply orb_true_iff. destruct H as [H|H]; [left|right]; apply negb_true_iff; apply not_true_iff_false; rewrite is_logical_iff; exact H. }
  unfold logical_and, logical_or, logical_xor. rewrite E. repeat split. intro N.
  unfold logical_invert, logical_xor. assert (X : is_logical a = false) by (apply not_true_iff_false; rewrite is_logical_iff; exact N).
  rewrite X. reflexivity.
Qed.
Theorem C179_digitwise : forall prec a b, logical a -> logical b ->
  (exists r, logical_and prec a b = Gives r /\ digitwise both prec a b r) /\
  (exists r, logical_or prec a b = Gives r /\ digitwise either prec a b r) /\
  (exists r, logical_xor prec a b = Gives r /\ digitwise differ prec a b r).
Proof.
  intros prec a b La Lb. unfold logical_and, logical_or, logical_xor.
  rewrite (proj2 (is_logical_iff a) La), (proj2 (is_logical_iff b) Lb). cbn [negb orb].
  split; [|split]; (eexists; split; [reflexivity|apply op_right; [|assumption|assumption]]);
    intros x y [X|X] [Y|Y]; subst; cbn; auto.
Qed.
Theorem C179_invert : forall prec a, logical a -> exists r, logical_invert prec a = Gives r /\ logical r /\ normal r /\
  forall i, digit r i = if Nat.ltb i prec then other (digit a i) else 0.
Proof.
  intros prec a La. set (ones := Decimal 0 (Some 0) (repeat 1 prec)).
  assert (Lo : logical ones).
  { split; [reflexivity|]. split; [reflexivity|]. intros x X. apply repeat_spec in X. right. exact X. }
  destruct (C179_digitwise prec a ones La Lo) as [_ [_ [r [E [R1 [R2 R3]]]]]].
  exists r. split; [exact E|]. split; [exact R1|]. split; [exact R2|]. intro i. rewrite R3.
  destruct (Nat.ltb_spec i prec) as [L|L]; [|reflexivity].
  assert (O1 : digit ones i = 1).
  { unfold digit, ones. cbn [digits]. assert (I : In (nth i (rev (repeat 1 prec)) 0) (rev (repeat 1 prec))) by (apply nth_In; rewrite rev_length, repeat_length; exact L).
    apply in_rev in I. apply repeat_spec in I. exact I. }
  rewrite O1. destruct (digit_binary a i La) as [->| ->]; reflexivity.
Qed.
Example C179_example : logical (Decimal 0 (Some 0) [1; 1; 0; 0; 1]) /\ ~ logical (Decimal 0 (Some 0) [2]) /\
  logical_and 4 (Decimal 0 (Some 0) [1; 1; 0; 0; 1]) (Decimal 0 (Some 0) [1; 0; 0; 1; 1]) = Gives (Decimal 0 (Some 0) [1]) /\
  logical_xor 4 (Decimal 0 (Some 0) [1; 1; 0; 0; 1]) (Decimal 0 (Some 0) [1; 1]) = Gives (Decimal 0 (Some 0) [1; 0; 1; 0]) /\
  logical_invert 3 (Decimal 0 (Some 0) [1]) = Gives (Decimal 0 (Some 0) [1; 1; 0]).
Proof.
  split; [apply is_logical_iff; reflexivity|]. split; [rewrite <- is_logical_iff; discriminate|]. repeat split.
Qed.
Print Assumptions C179_operands.
Print Assumptions C179_digitwise.
Print Assumptions C179_invert.
