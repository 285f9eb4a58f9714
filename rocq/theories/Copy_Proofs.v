(** Copies are isomorphic to the original and apart from it. *)
From Coq Require Import List Bool Arith ZArith Lia.
From Verif Require Import Copy_Model Copy_Spec.
Import ListNotations.

Lemma find_cons : forall x o c m, find x ((o, c) :: m) = if x =? o then Some c else find x m.
Proof. reflexivity. Qed.
Lemma same_eq : forall a b, same a b = true <-> a = b.
Proof.
  induction a as [|x a IH]; intros [|y b]; cbn; split; intros H; try discriminate; try reflexivity.
  - apply andb_true_iff in H. destruct H as [H1 H2]. apply Nat.eqb_eq in H1. apply IH in H2. congruence.
  - inversion H; subst. rewrite Nat.eqb_refl. now apply IH.
Qed.
Lemma change_length : forall h y f, length (change h y f) = length h.
Proof. induction h as [|n h IH]; intros [|y] f; cbn; congruence. Qed.
Lemma change_other : forall h y f i, i <> y -> nth_error (change h y f) i = nth_error h i.
Proof.
  induction h as [|n h IH]; intros [|y] f [|i] N; cbn; try reflexivity; try lia.
  apply IH. lia.
Qed.
Lemma change_at : forall h y f n, nth_error h y = Some n -> nth_error (change h y f) y = Some (f n).
Proof. induction h as [|m h IH]; intros [|y] f n E; cbn in *; try discriminate; [congruence|now apply IH]. Qed.
Lemma nth_alloc_old : forall (h : heap) n i, i < length h -> nth_error (h ++ [n]) i = nth_error h i.
Proof. intros. now apply nth_error_app1. Qed.
Lemma nth_alloc_new : forall (h : heap) n, nth_error (h ++ [n]) (length h) = Some n.
Proof. intros. rewrite nth_error_app2 by lia. now rewrite Nat.sub_diag. Qed.

Lemma walk_app : forall h p q r o, walk h r p = Some o -> walk h r (p ++ q) = walk h o q.
Proof.
  induction p as [|i p IH]; intros q r o H; cbn in *; [now inversion H|].
  destruct (nth_error h r) as [[k cs]|]; [|discriminate]. destruct (nth_error cs i); [|discriminate]. now apply IH.
Qed.
Lemma reach_refl : forall h a, reach h a a.
Proof. intros. now exists []. Qed.
Lemma reach_child : forall h o k cs a x, nth_error h o = Some (k, cs) -> In a cs -> reach h a x -> reach h o x.
Proof.
  intros h o k cs a x N I0 [p W]. apply In_nth_error in I0. destruct I0 as [i E].
  exists (i :: p). cbn. now rewrite N, E.
Qed.

Section P.
Variable md : mode.
Variable h0 : heap.
Notation n0 := (length h0).
Hypothesis WF : well_formed h0.

Definition known (s : st) (a a' : nat) : Prop := find a (memo s) = Some a'.
Definition finished (s : st) (o c : nat) : Prop :=
  exists k cs cs', nth_error h0 o = Some (k, cs) /\ nth_error (objects s) c = Some (becomes md k, cs') /\
  Forall2 (known s) cs cs' /\ (c = o -> fixed k = true).
Record Inv (open : list nat) (s : st) : Prop := {
  I_len : n0 <= length (objects s);
  I_old : forall i, i < n0 -> nth_error (objects s) i = nth_error h0 i;
  I_dom : forall o c, known s o c -> o < n0 /\ c < length (objects s) /\ (c = o \/ n0 <= c);
  I_inj : forall o1 o2 c, known s o1 c -> known s o2 c -> o1 = o2;
  I_done : forall o c, known s o c -> ~ In o open -> finished s o c }.
Record ext (n : nat) (s s' : st) : Prop := {
  E_memo : forall o c, known s o c -> known s' o c;
  E_len : length (objects s) <= length (objects s');
  E_same : forall c, c < n -> c < length (objects s) -> nth_error (objects s') c = nth_error (objects s) c }.
Definition exts (s s' : st) : Prop := ext (length (objects s)) s s'.
Definition only (from : nat -> Prop) (s s' : st) : Prop :=
  forall x, find x (memo s) = None -> find x (memo s') <> None -> exists a, from a /\ reach h0 a x.

Lemma ext_refl : forall n s, ext n s s.
Proof. intros. constructor; auto. Qed.
Lemma ext_trans : forall n s1 s2 s3, ext n s1 s2 -> ext n s2 s3 -> ext n s1 s3.
Proof.
  intros n s1 s2 s3 [A1 A2 A3] [B1 B2 B3]. constructor; [auto|lia|].
  intros c H L. rewrite B3 by lia. now apply A3.
Qed.
Lemma exts_ext : forall n s s', exts s s' -> ext n s s'.
Proof. intros n s s' [A B C]. constructor; auto. Qed.
Lemma exts_trans : forall s1 s2 s3, exts s1 s2 -> exts s2 s3 -> exts s1 s3.
Proof. intros. eapply ext_trans; [eassumption|now apply exts_ext]. Qed.
Lemma only_refl : forall f s, only f s s.
Proof. intros f s x A B. contradiction. Qed.
Lemma only_trans : forall f s1 s2 s3, only f s1 s2 -> only f s2 s3 -> only f s1 s3.
Proof.
  intros f s1 s2 s3 A B x N K. destruct (find x (memo s2)) eqn:E.
  - apply A; [exact N|congruence].
  - now apply B.
Qed.
Lemma only_weaken : forall (f g : nat -> Prop) s1 s2, (forall a x, f a -> reach h0 a x -> exists b, g b /\ reach h0 b x) -> only f s1 s2 -> only g s1 s2.
Proof. intros f g s1 s2 W A x N K. destruct (A x N K) as (a & F & R). eauto. Qed.
Lemma known_mono : forall n s s' cs cs', ext n s s' -> Forall2 (known s) cs cs' -> Forall2 (known s') cs cs'.
Proof. intros n s s' cs cs' E F. induction F; constructor; auto. now apply (E_memo _ _ _ E). Qed.

Definition good_copier (cp : st -> nat -> result (st * nat)) : Prop :=
  forall open s o s' c, Inv open s -> o < n0 -> cp s o = Done (s', c) ->
  Inv open s' /\ exts s s' /\ known s' o c /\ only (eq o) s s'.

Section Loops.
Variable cp : st -> nat -> result (st * nat).
Hypothesis G : good_copier cp.
Lemma copy_all_ok : forall cs open s s' cs', Inv open s -> (forall a, In a cs -> a < n0) ->
  copy_all cp s cs = Done (s', cs') ->
  Inv open s' /\ exts s s' /\ Forall2 (known s') cs cs' /\ only (fun a => In a cs) s s'.
Proof.
  induction cs as [|a cs IH]; intros open s s' cs' I0 B H; cbn in H.
  - inversion H; subst. split; [exact I0|]. split; [apply ext_refl|]. split; [constructor|apply only_refl].
  - destruct (cp s a) as [[s1 c]|] eqn:E1; cbn in H; [|discriminate].
    destruct (copy_all cp s1 cs) as [[s2 cs2]|] eqn:E2; cbn in H; [|discriminate]. inversion H; subst.
    destruct (G open s a s1 c) as (I1 & X1 & K1 & O1); auto; [apply B; now left|].
    destruct (IH open s1 s' cs2) as (I2 & X2 & K2 & O2); auto; [intros x D; apply B; now right|].
    split; [exact I2|]. split; [now apply (exts_trans s s1)|]. split.
    + constructor; [now apply (E_memo _ _ _ X2)|exact K2].
    + apply (only_trans _ s s1).
      * eapply only_weaken; [|exact O1]. intros b x <- R. exists a. split; [now left|exact R].
      * eapply only_weaken; [|exact O2]. intros b x D R. exists b. split; [now right|exact R].
Qed.
Lemma push_inv : forall open s o y k pre c, Inv open s -> In o open -> known s o y -> n0 <= y ->
  nth_error (objects s) y = Some (k, pre) ->
  Inv open (push s y c) /\ ext y s (push s y c) /\ nth_error (objects (push s y c)) y = Some (k, pre ++ [c]).
Proof.
  intros open s o y k pre c I0 Op K L N. split; [|split].
  - destruct I0 as [A B C D E]. constructor; cbn [push objects memo].
    + rewrite change_length. exact A.
    + intros i Hi. rewrite change_other by lia. now apply B.
    + intros o1 c1 K1. rewrite change_length. now apply C.
    + exact D.
    + intros o1 c1 K1 Nop. assert (c1 <> y).
      { intros ->. apply Nop. rewrite (D o1 o y); auto. }
      destruct (E o1 c1 K1 Nop) as (k1 & cs1 & cs1' & N1 & N2 & F & Fx).
      exists k1, cs1, cs1'. cbn [push objects]. rewrite change_other by assumption. repeat split; auto.
  - constructor; cbn [push objects memo]; auto.
    + rewrite change_length. lia.
    + intros i Hi _. apply change_other. lia.
  - cbn [push objects]. rewrite (change_at _ _ _ _ N). reflexivity.
Qed.
Lemma fill_ok : forall cs open s o y k pre s', Inv open s -> (forall a, In a cs -> a < n0) ->
  In o open -> known s o y -> n0 <= y -> nth_error (objects s) y = Some (k, pre) ->
  fill cp s y cs = Done s' ->
  Inv open s' /\ ext y s s' /\ only (fun a => In a cs) s s' /\
  exists cs', Forall2 (known s') cs cs' /\ nth_error (objects s') y = Some (k, pre ++ cs').
Proof.
  induction cs as [|a cs IH]; intros open s o y k pre s' I0 B Op K L N H; cbn in H.
  - inversion H; subst. split; [exact I0|]. split; [apply ext_refl|]. split; [apply only_refl|].
    exists []. split; [constructor|now rewrite app_nil_r].
  - destruct (cp s a) as [[s1 c]|] eqn:E1; cbn in H; [|discriminate].
    destruct (G open s a s1 c) as (I1 & X1 & K1 & O1); auto; [apply B; now left|].
    assert (Ky : known s1 o y) by (now apply (E_memo _ _ _ X1)).
    assert (Ly : y < length (objects s)) by (apply (I_dom _ _ I0 o y K)).
    assert (Ny : nth_error (objects s1) y = Some (k, pre)) by (rewrite (E_same _ _ _ X1); auto).
    destruct (push_inv open s1 o y k pre c I1 Op Ky L Ny) as (I2 & X2 & N2).
    destruct (IH open (push s1 y c) o y k (pre ++ [c]) s') as (I3 & X3 & O3 & cs' & F3 & N3); auto.
    { intros x D. apply B. now right. }
    split; [exact I3|]. split; [|split].
    + apply (ext_trans y s s1); [now apply exts_ext|]. now apply (ext_trans y s1 (push s1 y c)).
    + apply (only_trans _ s s1).
      * eapply only_weaken; [|exact O1]. intros b x <- R. exists a. split; [now left|exact R].
      * eapply only_weaken; [|exact O3]. intros b x D R. exists b. split; [now right|exact R].
    + exists (c :: cs'). split; [|now rewrite <- app_assoc in N3].
      constructor; [|exact F3]. apply (E_memo _ _ _ X3). exact K1.
Qed.
End Loops.

Lemma known_remember : forall s o c x y, known (remember s o c) x y <-> (x = o /\ y = c) \/ (x <> o /\ known s x y).
Proof.
  intros s o c x y. unfold known, remember. cbn [memo]. rewrite find_cons.
  destruct (Nat.eqb_spec x o); split; intros H.
  - left. split; [assumption|congruence].
  - destruct H as [[_ ->]|[N _]]; [reflexivity|contradiction].
  - right. now split.
  - destruct H as [[N _]|[_ H]]; [contradiction|exact H].
Qed.
Lemma finished_mono : forall n s s' o c, ext n s s' -> c < n -> finished s o c -> finished s' o c.
Proof.
  intros n s s' o c X L (k & cs & cs' & N1 & N2 & F & Fx). exists k, cs, cs'. split; [exact N1|]. split; [|split; [|exact Fx]].
  - rewrite (E_same _ _ _ X); auto. apply nth_error_Some. congruence.
  - eapply known_mono; eassumption.
Qed.
(** what the memo says already *)
Lemma finish_known : forall open s s1 o c, Inv open s1 -> exts s s1 -> only (eq o) s s1 -> known s1 o c ->
  Inv open (remember s1 o c) /\ exts s (remember s1 o c) /\ known (remember s1 o c) o c /\ only (eq o) s (remember s1 o c).
Proof.
  intros open s s1 o c I1 X O K.
  assert (E : forall x, find x (memo (remember s1 o c)) = find x (memo s1)).
  { intros x. cbn [remember memo]. rewrite find_cons. destruct (Nat.eqb_spec x o); [subst; now symmetry|reflexivity]. }
  assert (E' : forall x y, known (remember s1 o c) x y <-> known s1 x y) by (intros; unfold known; rewrite E; tauto).
  split; [|split; [|split]].
  - destruct I1 as [A B C D F]. constructor; auto.
    + intros x y H. apply E' in H. now apply C.
    + intros x y z H1 H2. apply E' in H1. apply E' in H2. now apply (D x y z).
    + intros x y H Nop. apply E' in H. destruct (F x y H Nop) as (k & cs & cs' & N1 & N2 & F2 & Fx).
      exists k, cs, cs'. repeat split; auto. clear - F2 E'. induction F2; constructor; auto. now apply E'.
  - destruct X as [A B C]. constructor; auto. intros x y H. apply E'. auto.
  - now apply E'.
  - intros x N H. rewrite E in H. now apply O.
Qed.
(** a new entry *)
Lemma remember_new : forall open s1 o c, Inv open s1 -> o < n0 -> c < length (objects s1) -> find o (memo s1) = None ->
  (c = o \/ n0 <= c /\ forall x, ~ known s1 x c) ->
  (finished s1 o c \/ In o open) ->
  Inv open (remember s1 o c).
Proof.
  intros open s1 o c I1 Lo Lc N Fr Fin.
  assert (X : exts s1 (remember s1 o c)).
  { constructor; auto. intros x y H. apply known_remember. right. split; [|exact H]. intros ->. unfold known in H. congruence. }
  destruct I1 as [A B C D F]. constructor; auto.
  - intros x y H. apply known_remember in H. destruct H as [[-> ->]|[_ H]]; [|now apply C].
    split; [exact Lo|]. split; [exact Lc|]. destruct Fr as [->|[L _]]; [now left|now right].
  - intros x y z H1 H2. apply known_remember in H1. apply known_remember in H2.
    assert (Q : forall u, known s1 u c -> u = o).
    { intros u Hu. destruct Fr as [->|[_ Fr]]; [|exfalso; now apply (Fr u)].
      destruct (C u o Hu) as (_ & _ & [E|E]); [now symmetry|lia]. }
    destruct H1 as [[-> ->]|[N1 H1]]; destruct H2 as [[-> H2]|[N2 H2]]; try reflexivity.
    + symmetry. now apply Q.
    + subst. now apply Q.
    + now apply (D x y z).
  - intros x y H Nop. apply known_remember in H. destruct H as [[-> ->]|[_ H]].
    + destruct Fin as [Fin|Op]; [|contradiction]. eapply finished_mono; [exact X|exact Lc|exact Fin].
    + eapply finished_mono; [exact X| |now apply F]. now apply C in H.
Qed.
Lemma finish_new : forall open s s1 o c, Inv open s1 -> exts s s1 -> only (eq o) s s1 -> o < n0 -> c < length (objects s1) ->
  find o (memo s1) = None -> (c = o \/ n0 <= c /\ forall x, ~ known s1 x c) -> finished s1 o c ->
  Inv open (remember s1 o c) /\ exts s (remember s1 o c) /\ known (remember s1 o c) o c /\ only (eq o) s (remember s1 o c).
Proof.
  intros open s s1 o c I1 X O Lo Lc N Fr Fin. split; [now apply remember_new; auto|]. split; [|split].
  - apply (exts_trans s s1); [exact X|]. constructor; auto. intros x y H. apply known_remember. right.
    split; [|exact H]. intros ->. unfold known in H. congruence.
  - apply known_remember. now left.
  - apply (only_trans _ s s1); [exact O|]. intros x Hx K. cbn [remember memo] in K. rewrite find_cons in K.
    destruct (Nat.eqb_spec x o); [subst; exists o; split; [reflexivity|apply reach_refl]|contradiction].
Qed.
Lemma alloc_inv : forall open s n, Inv open s ->
  let s' := fst (alloc s n) in Inv open s' /\ exts s s' /\ (forall x, ~ known s' x (length (objects s))).
Proof.
  intros open s n I0 s'. assert (X : exts s s').
  { constructor; cbn; auto; [rewrite app_length; cbn; lia|]. intros c L _. now apply nth_alloc_old. }
  split; [|split; [exact X|]].
  - destruct I0 as [A B C D F]. constructor; cbn [s' alloc fst objects memo].
    + rewrite app_length. lia.
    + intros i L. rewrite nth_alloc_old by lia. now apply B.
    + intros o c K. destruct (C o c K) as (H1 & H2 & H3). rewrite app_length. cbn. repeat split; auto. lia.
    + exact D.
    + intros o c K Nop. eapply finished_mono; [exact X| |now apply F]. now apply C in K.
  - intros x K. destruct (I_dom _ _ I0 x _ K) as (_ & L & _). lia.
Qed.

Hypothesis MK : makeable md h0.

(** made, entered, then filled *)
Lemma made_first_ok : forall cp, good_copier cp -> forall open s s1 o k cs args args' rest s2,
  Inv open s1 -> exts s s1 -> only (eq o) s s1 -> o < n0 -> find o (memo s1) = None ->
  nth_error h0 o = Some (k, cs) -> cs = args ++ rest -> Forall2 (known s1) args args' -> fixed k = false -> becomes md k = k ->
  fill cp (remember (fst (alloc s1 (k, args'))) o (length (objects s1))) (length (objects s1)) rest = Done s2 ->
  let y := length (objects s1) in
  Inv open (remember s2 o y) /\ exts s (remember s2 o y) /\ known (remember s2 o y) o y /\ only (eq o) s (remember s2 o y).
Proof.
  intros cp G open s s1 o k cs args args' rest s2 I1 X1 O1 Lo N Nk -> Fa Fx Bk H y.
  set (sa := fst (alloc s1 (k, args'))) in *.
  assert (I1' : Inv (o :: open) s1).
  { destruct I1 as [A B C D F]. constructor; auto. intros x c K Nop. apply F; [exact K|]. intros X. apply Nop. now right. }
  destruct (alloc_inv (o :: open) s1 (k, args') I1') as (Ia & Xa & Na). fold sa in Ia, Xa, Na.
  assert (Ly : y < length (objects sa)) by (unfold sa, y; cbn; rewrite app_length; cbn; lia).
  assert (Ln : n0 <= y) by (unfold y; apply (I_len _ _ I1)).
  assert (Ir : Inv (o :: open) (remember sa o y)).
  { apply remember_new; [exact Ia|exact Lo|exact Ly|exact N| |right; now left]. right. split; [exact Ln|]. intros x. apply Na. }
  destruct (fill_ok cp G rest (o :: open) (remember sa o y) o y k args' s2) as (I2 & X2 & O2 & cs' & F2 & N2); auto.
  - intros a D. apply (WF o k (args ++ rest) Nk). apply in_or_app. now right.
  - now left.
  - apply known_remember. now left.
  - cbn [remember objects]. unfold sa, y. cbn. apply nth_alloc_new.
  - assert (K2 : known s2 o y). { apply (E_memo _ _ _ X2). apply known_remember. now left. }
    assert (Xr : exts s1 (remember sa o y)).
    { apply (exts_trans s1 sa); [exact Xa|]. constructor; auto. intros x c K. apply known_remember. right.
      split; [|exact K]. intros ->. unfold known, sa in K. cbn in K. congruence. }
    assert (X12 : exts s1 s2) by (eapply ext_trans; [exact Xr|exact X2]).
    apply finish_known; auto.
    + destruct I2 as [A B C D F]. constructor; auto.
      intros x c K Nop. destruct (Nat.eq_dec x o) as [->|Ne].
      * assert (c = y) by (unfold known in *; congruence). subst c.
        exists k, (args ++ rest), (args' ++ cs'). split; [exact Nk|]. split; [now rewrite Bk|]. split.
        -- apply Forall2_app; [|exact F2]. eapply known_mono; [exact X12|exact Fa].
        -- intros E. exfalso. lia.
      * apply F; [exact K|]. intros [E|E]; [congruence|contradiction].
    + now apply (exts_trans s s1).
    + apply (only_trans _ s s1); [exact O1|]. apply (only_trans _ s1 (remember sa o y)).
      * intros x Hx K. cbn [remember memo] in K. rewrite find_cons in K.
        destruct (Nat.eqb_spec x o); [subst; exists o; split; [reflexivity|apply reach_refl]|contradiction].
      * eapply only_weaken; [|exact O2]. intros a x D R. exists o. split; [reflexivity|].
        eapply reach_child; [exact Nk| |exact R]. apply in_or_app. now right.
Qed.
(** made from what was copied before, then entered *)
Lemma made_last_ok : forall open s s1 o k cs cs' k', Inv open s1 -> exts s s1 -> only (eq o) s s1 -> o < n0 ->
  find o (memo s1) = None -> nth_error h0 o = Some (k, cs) -> Forall2 (known s1) cs cs' -> becomes md k = k' ->
  let s2 := fst (alloc s1 (k', cs')) in let y := length (objects s1) in
  Inv open (remember s2 o y) /\ exts s (remember s2 o y) /\ known (remember s2 o y) o y /\ only (eq o) s (remember s2 o y).
Proof.
  intros open s s1 o k cs cs' k' I1 X1 O1 Lo N Nk F Bk s2 y.
  destruct (alloc_inv open s1 (k', cs') I1) as (Ia & Xa & Na). fold s2 in Ia, Xa, Na.
  assert (Ln : n0 <= y) by (unfold y; apply (I_len _ _ I1)).
  apply finish_new; auto.
  - now apply (exts_trans s s1).
  - unfold s2, y. cbn. rewrite app_length. cbn. lia.
  - exists k, cs, cs'. split; [exact Nk|]. split; [|split].
    + unfold s2, y. cbn. rewrite nth_alloc_new. now rewrite Bk.
    + exact F.
    + intros E. exfalso. lia.
Qed.

Lemma none_before : forall s s1 o k cs, nth_error h0 o = Some (k, cs) -> find o (memo s) = None ->
  only (fun a => In a (needed md k cs)) s s1 -> find o (memo s1) = None.
Proof.
  intros s s1 o k cs Nk N O. destruct (find o (memo s1)) eqn:E; [|reflexivity]. exfalso.
  destruct (O o N) as (a & D & R); [congruence|]. now apply (MK o k cs a).
Qed.
Lemma only_children : forall s s1 o k cs (l : list nat), nth_error h0 o = Some (k, cs) -> incl l cs ->
  only (fun a => In a l) s s1 -> only (eq o) s s1.
Proof.
  intros s s1 o k cs l Nk I0 O. eapply only_weaken; [|exact O]. intros a x D R. exists o. split; [reflexivity|].
  eapply reach_child; [exact Nk|exact (I0 _ D)|exact R].
Qed.
Lemma firstn_incl : forall n (l : list nat), incl (firstn n l) l.
Proof. intros n l x D. rewrite <- (firstn_skipn n l). apply in_or_app. now left. Qed.

Lemma copy_good : forall fuel, good_copier (copy fuel md).
Proof.
  induction fuel as [|fuel IH]; intros open s o s' c I0 Lo H; cbn [copy] in H; [discriminate|].
  destruct (find o (memo s)) as [c0|] eqn:N.
  { inversion H; subst. split; [exact I0|]. split; [apply ext_refl|]. split; [exact N|apply only_refl]. }
  rewrite (I_old _ _ I0 o Lo) in H.
  destruct (nth_error h0 o) as [[k cs]|] eqn:Nk; [|discriminate].
  destruct (WF o k cs Nk) as [Wc Wl].
  assert (First : forall k', k = k' -> fixed k' = false -> becomes md k' = k' -> 
     bind (let (s1, y) := alloc s (k', []) in bind (fill (copy fuel md) (remember s1 o y) y cs) (fun s => Done (s, y)))
          (fun r => Done (remember (fst r) o (snd r), snd r)) = Done (s', c) ->
     Inv open s' /\ exts s s' /\ known s' o c /\ only (eq o) s s').
  { intros k' -> Fx Bk E. cbn [alloc] in E.
    destruct (fill (copy fuel md) _ _ cs) as [s2|] eqn:E2; cbn in E; [|discriminate]. inversion E; subst.
    eapply (made_first_ok (copy fuel md) IH open s s o k' cs [] [] cs); eauto; try apply ext_refl; try apply only_refl. }
  assert (Last : forall k', becomes md k = k' -> needed md k cs = cs ->
     bind (bind (copy_all (copy fuel md) s cs) (fun r => Done (alloc (fst r) (k', snd r))))
          (fun r => Done (remember (fst r) o (snd r), snd r)) = Done (s', c) ->
     Inv open s' /\ exts s s' /\ known s' o c /\ only (eq o) s s').
  { intros k' Bk Nd E. destruct (copy_all (copy fuel md) s cs) as [[s1 cs']|] eqn:E2; [|discriminate].
    cbn [bind fst snd] in E. inversion E; subst. 
    destruct (copy_all_ok _ IH cs open s s1 cs' I0 Wc E2) as (I1 & X1 & F1 & O1).
    eapply made_last_ok; eauto.
    - eapply only_children; eauto. apply incl_refl.
    - eapply none_before; eauto. rewrite Nd. exact O1. }
  assert (Leaf : forall s1, k = KAtom (match k with KAtom v => v | _ => 0%Z end) \/ k = KStuck (match k with KStuck v => v | _ => 0%Z end) -> 
     Done (remember s o o, o) = Done (s1, c) -> Inv open s1 /\ exts s s1 /\ known s1 o c /\ only (eq o) s s1).
  { intros s1 Lf E. inversion E; subst.
    assert (Fx : fixed k = true /\ becomes md k = k /\ cs = []).
    { destruct Lf as [Lf|Lf]; rewrite Lf in *; repeat split; try (destruct md; reflexivity); apply Wl; reflexivity. }
    destruct Fx as (Fx & Bk & ->).
    apply finish_new; auto; try apply ext_refl; try apply only_refl.
    - pose proof (I_len _ _ I0). lia.
    - exists k, [], []. split; [exact Nk|]. split; [rewrite Bk, (I_old _ _ I0); auto|]. split; [constructor|now intros]. }
  destruct k as [v|v| | | |cls n names|v| |].
  - apply (Leaf s'); [now left|exact H].
  - destruct md; [discriminate H| |]; (apply (Leaf s'); [now right|exact H]).
  - apply (First KLst); auto. destruct md; reflexivity.
  - apply (First KDct); auto. destruct md; reflexivity.
  - destruct (copy_all (copy fuel md) s cs) as [[s1 cs']|] eqn:E2; [|discriminate]. cbn [bind fst snd] in H.
    destruct (copy_all_ok _ IH cs open s s1 cs' I0 Wc E2) as (I1 & X1 & F1 & O1).
    assert (O1' : only (eq o) s s1) by (eapply only_children; eauto; apply incl_refl).
    destruct (find o (memo s1)) as [c1|] eqn:N1.
    + inversion H; subst. now apply finish_known.
    + destruct (same cs cs') eqn:Sm.
      * apply same_eq in Sm. subst cs'. inversion H; subst.
        apply finish_new; auto.
        -- pose proof (I_len _ _ I1). lia.
        -- exists KTup, cs, cs. split; [exact Nk|]. split; [rewrite (I_old _ _ I1) by exact Lo; rewrite Nk; destruct md; reflexivity|]. now split.
      * cbn [alloc bind fst snd] in H. inversion H; subst.
        eapply made_last_ok; eauto. destruct md; reflexivity.
  - destruct (copy_all (copy fuel md) s (firstn n cs)) as [[s1 args']|] eqn:E2; [|discriminate]. cbn [bind fst snd alloc] in H.
    destruct (fill (copy fuel md) _ _ (skipn n cs)) as [s2|] eqn:E3; cbn in H; [|discriminate]. inversion H; subst.
    destruct (copy_all_ok _ IH (firstn n cs) open s s1 args' I0) as (I1 & X1 & F1 & O1); [|exact E2|].
    { intros a D. apply Wc. exact (firstn_incl n cs a D). }
    eapply (made_first_ok (copy fuel md) IH open s s1 o _ cs (firstn n cs) args' (skipn n cs)); eauto.
    + eapply (only_children _ _ _ _ _ (firstn n cs)); [exact Nk|apply firstn_incl|exact O1].
    + eapply none_before; eauto.
    + now rewrite firstn_skipn.
    + destruct md; reflexivity.
  - cbn [bind fst snd alloc] in H. inversion H; subst.
    assert (cs = []) by (now apply Wl). subst cs.
    eapply made_last_ok; eauto; try apply ext_refl; try apply only_refl.
  - destruct md eqn:M; [apply (First KSLst); auto|apply (First KSLst); auto|apply (Last KLst); auto].
  - destruct md eqn:M; [apply (First KSDct); auto|apply (First KSDct); auto|apply (Last KDct); auto].
Qed.

(** The result of copying from an empty memo *)
Lemma start_inv : Inv [] (mkSt h0 []).
Proof.
  constructor; cbn; auto; intros; unfold known in *; cbn in *; discriminate.
Qed.
Section Result.
Variable s : st.
Variable r r' : nat.
Hypothesis I0 : Inv [] s.
Hypothesis K0 : known s r r'.
Lemma walk_known : forall p a a', known s a a' ->
  match walk h0 a p, walk (objects s) a' p with
  | Some o, Some c => known s o c
  | None, None => True
  | _, _ => False
  end.
Proof.
  induction p as [|i p IH]; intros a a' K; [exact K|]. cbn.
  destruct (I_done _ _ I0 a a' K) as (k & cs & cs' & N1 & N2 & F & _); [intros []|].
  rewrite N1, N2.
  assert (Q : match nth_error cs i, nth_error cs' i with Some x, Some x' => known s x x' | None, None => True | _, _ => False end).
  { clear - F. revert i. induction F as [|x x' cs cs' H F IHF]; intros i; [destruct i; exact I|destruct i; cbn; [exact H|apply IHF]]. }
  destruct (nth_error cs i), (nth_error cs' i); try contradiction; [now apply IH|exact I].
Qed.
Lemma result_shape : same_shape md h0 r (objects s) r'.
Proof.
  intros p. pose proof (walk_known p r r' K0) as W.
  destruct (walk h0 r p), (walk (objects s) r' p); try contradiction; auto.
  destruct (I_done _ _ I0 _ _ W) as (k & cs & cs' & N1 & N2 & F & _); [intros []|].
  exists k, cs, cs'. split; [exact N1|]. split; [exact N2|]. clear - F. induction F; cbn; congruence.
Qed.
Lemma result_sharing : same_sharing h0 r (objects s) r'.
Proof.
  intros p q Hp Hq. pose proof (walk_known p r r' K0) as Wp. pose proof (walk_known q r r' K0) as Wq.
  destruct (walk h0 r p) as [o1|]; [|contradiction]. destruct (walk h0 r q) as [o2|]; [|contradiction].
  destruct (walk (objects s) r' p) as [c1|]; [|contradiction]. destruct (walk (objects s) r' q) as [c2|]; [|contradiction].
  split; intros E; inversion E; subst; f_equal.
  - unfold known in *. congruence.
  - now apply (I_inj _ _ I0 o1 o2 c2).
Qed.
Lemma result_apart : apart h0 (objects s) r'.
Proof.
  intros p c Hp L. pose proof (walk_known p r r' K0) as W. rewrite Hp in W.
  destruct (walk h0 r p) as [o|]; [|contradiction].
  destruct (I_done _ _ I0 _ _ W) as (k & cs & cs' & N1 & N2 & F & Fx); [intros []|].
  destruct (I_dom _ _ I0 _ _ W) as (_ & _ & [E|E]); [|lia].
  exists (becomes md k), cs'. split; [exact N2|]. specialize (Fx E). destruct k; try discriminate; destruct md; reflexivity.
Qed.
End Result.

Theorem deepcopy_ok : forall fuel r h' r', r < n0 -> deepcopy fuel md h0 r = Done (h', r') ->
  unchanged h0 h' /\ same_shape md h0 r h' r' /\ same_sharing h0 r h' r' /\ apart h0 h' r'.
Proof.
  intros fuel r h' r' L H. unfold deepcopy in H.
  destruct (copy fuel md (mkSt h0 []) r) as [[s c]|] eqn:E; cbn in H; [|discriminate]. inversion H; subst.
  destruct (copy_good fuel [] _ r s r' start_inv L E) as (I1 & X & K & _).
  split; [intros o Lo; apply (I_old _ _ I1 o Lo)|].
  split; [now apply result_shape|]. split; [now apply result_sharing|now apply (result_apart s r r')].
Qed.
End P.

(** Later changes to the original do not show in the copy. *)
Theorem apart_isolated : forall h h' h'' r', apart h h' r' -> (forall p c, walk h' r' p = Some c -> c < length h') ->
  original_changed h h' h'' -> forall p, walk h'' r' p = walk h' r' p /\
  forall c, walk h' r' p = Some c -> nth_error h'' c = nth_error h' c.
Proof.
  intros h h' h'' r' A R O.
  assert (Nd : forall p c, walk h' r' p = Some c -> nth_error h'' c = nth_error h' c).
  { intros p c W. destruct (nth_error h' c) as [[k cs]|] eqn:N.
    - apply O; [exact N|]. destruct (le_lt_dec (length h) c) as [L|L]; [now left|right].
      destruct (A p c W L) as (k' & cs' & N' & F). congruence.
    - exfalso. apply (proj2 (nth_error_Some h' c)); [now apply (R p)|exact N]. }
  assert (Wk : forall q p c, walk h' r' p = Some c -> walk h'' c q = walk h' c q).
  { induction q as [|i q IH]; intros p c W; [reflexivity|]. cbn. rewrite (Nd p c W).
    destruct (nth_error h' c) as [[k cs]|] eqn:N; [|reflexivity].
    destruct (nth_error cs i) as [x|] eqn:E; [|reflexivity].
    apply (IH (p ++ [i])). rewrite (walk_app _ _ _ _ _ W). cbn. now rewrite N, E. }
  intros p. split; [apply (Wk p [] r' eq_refl)|]. intros c. apply Nd.
Qed.
