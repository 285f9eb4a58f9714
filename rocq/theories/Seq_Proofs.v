From Coq Require Import ZArith List Bool Lia.
From Coq Require Import ZifyBool ZifyNat.
From Verif Require Import Py Range_Spec Range_Proofs PySeq_Spec Seq_Model Seq_Spec.
Import ListNotations.
Open Scope Z_scope.

Ltac ifs := repeat (match goal with |- context [if ?b then _ else _] =>
                      lazymatch b with context [if _ then _ else _] => fail | _ => destruct b eqn:? end end;
                    cbn beta iota zeta).

(** *** Ranges *)
Lemma py_range_prog a b s : py_range a b s = the_list a b s.
Proof.
  unfold py_range, the_list. change (range_count a b s) with (count_of a b s).
  set (n := Z.to_nat (count_of a b s)). clearbody n.
  apply list_ext; [now rewrite map_length, seq_length, prog_length|].
  intros i Hi. rewrite map_length, seq_length in Hi. rewrite prog_nth by auto.
  rewrite nth_error_map, (nth_error_nth' _ 0%nat) by now rewrite seq_length.
  rewrite seq_nth by auto. reflexivity.
Qed.
Lemma py_range_is a b s : s <> 0 -> is_range a b s (py_range a b s).
Proof. intro. rewrite py_range_prog. now apply the_list_range. Qed.

Lemma range_in_pos a b s x : 0 < s -> In x (py_range a b s) <-> (a <= x < b /\ (x - a) mod s = 0).
Proof.
  intro S. rewrite (in_l a b s _ ltac:(lia) (py_range_is a b s ltac:(lia))). split.
  - intros (i & Hi & ->).
    assert (B : before s (a + s * i) b) by (apply count_spec; lia).
    unfold before in B. replace (0 <? s) with true in B by lia. split; [nia|].
    replace (a + s * i - a) with (i * s) by lia. apply Z.mod_mul. lia.
  - intros [B M]. exists ((x - a) / s).
    assert (E : x = a + s * ((x - a) / s)) by (pose proof (Z.div_mod (x - a) s); lia).
    split; auto. assert (0 <= (x - a) / s) by (apply Z.div_pos; lia). split; auto.
    apply count_spec; try lia. unfold before. replace (0 <? s) with true by lia. lia.
Qed.
Lemma range_in_neg a b s x : s < 0 -> In x (py_range a b s) <-> (b < x <= a /\ (a - x) mod (- s) = 0).
Proof.
  intro S. rewrite (in_l a b s _ ltac:(lia) (py_range_is a b s ltac:(lia))). split.
  - intros (i & Hi & ->).
    assert (B : before s (a + s * i) b) by (apply count_spec; lia).
    unfold before in B. replace (0 <? s) with false in B by lia. split; [nia|].
    replace (a - (a + s * i)) with (i * - s) by lia. apply Z.mod_mul. lia.
  - intros [B M]. exists ((a - x) / - s).
    assert (E : x = a + s * ((a - x) / - s)) by (pose proof (Z.div_mod (a - x) (- s)); lia).
    split; auto. assert (0 <= (a - x) / - s) by (apply Z.div_pos; lia). split; auto.
    apply count_spec; try lia. unfold before. replace (0 <? s) with false by lia. lia.
Qed.

(** *** Positional filters *)
Section Keep.
  Context {A : Type}.
  Implicit Types l : list A.

  Lemma keep_ext f g : forall l p,
    (forall x, p <= x < p + Z.of_nat (length l) -> f x = g x) -> keep f p l = keep g p l.
  Proof.
    induction l as [|x l IH]; intros p H; cbn [keep]; auto. cbn [length] in H.
    rewrite (H p) by lia. rewrite (IH (p + 1)); auto. intros y Hy. apply H. lia.
  Qed.
  Lemma keep_shift f : forall l p d, keep f (p + d) l = keep (fun x => f (x + d)) p l.
  Proof.
    induction l as [|x l IH]; intros p d; cbn [keep]; auto.
    replace (p + d + 1) with (p + 1 + d) by lia. now rewrite IH.
  Qed.
  Lemma keep_app f l1 : forall p l2,
    keep f p (l1 ++ l2) = keep f p l1 ++ keep f (p + Z.of_nat (length l1)) l2.
  Proof.
    induction l1 as [|x l1 IH]; intros p l2; cbn [keep app length].
    - f_equal. lia.
    - rewrite IH. replace (p + 1 + Z.of_nat (length l1)) with (p + Z.of_nat (S (length l1))) by lia.
      destruct (f p); reflexivity.
  Qed.
  Lemma keep_app0 f l1 l2 : keep f 0 (l1 ++ l2)
    = keep f 0 l1 ++ keep (fun x => f (x + Z.of_nat (length l1))) 0 l2.
  Proof. rewrite keep_app. f_equal. now rewrite keep_shift. Qed.
  Lemma keep_all f : forall l p, (forall x, p <= x < p + Z.of_nat (length l) -> f x = true) -> keep f p l = l.
  Proof.
    induction l as [|x l IH]; intros p H; cbn [keep]; auto. cbn [length] in H.
    rewrite (H p) by lia. f_equal. apply IH. intros. apply H. lia.
  Qed.
  Lemma keep_none f : forall l p, (forall x, p <= x < p + Z.of_nat (length l) -> f x = false) -> keep f p l = [].
  Proof.
    induction l as [|x l IH]; intros p H; cbn [keep]; auto. cbn [length] in H.
    rewrite (H p) by lia. apply IH. intros. apply H. lia.
  Qed.

  (** Picking along a strictly increasing list of positions is filtering. *)
  Lemma pick_cons l i r : pick l (i :: r)
    = match nth_error l (Z.to_nat i) with Some x => [x] | None => [] end ++ pick l r.
  Proof. reflexivity. Qed.
  Lemma pick_app l r1 r2 : pick l (r1 ++ r2) = pick l r1 ++ pick l r2.
  Proof. apply flat_map_app. Qed.

  Lemma pick_rev l r : pick l (rev r) = rev (pick l r).
  Proof.
    induction r as [|i r IH]; auto. cbn [rev]. rewrite pick_app, IH, (pick_cons l i r), rev_app_distr.
    f_equal. unfold pick. cbn. rewrite app_nil_r. now destruct (nth_error l (Z.to_nat i)).
  Qed.

  Lemma pick_shift x l r : Forall (fun i => 1 <= i) r ->
    pick (x :: l) r = pick l (map (fun i => i - 1) r).
  Proof.
    induction 1 as [|i r Hi _ IH]; auto. cbn [map]. rewrite !pick_cons, IH. f_equal.
    replace (Z.to_nat i) with (S (Z.to_nat (i - 1))) by lia. reflexivity.
  Qed.

  Inductive incr : Z -> list Z -> Prop :=
  | incr_nil p : incr p []
  | incr_cons p i r : p <= i -> incr (i + 1) r -> incr p (i :: r).
  Lemma incr_weaken p q r : q <= p -> incr p r -> incr q r.
  Proof. intros H I. inversion I; constructor; auto; lia. Qed.
  Lemma incr_forall p r : incr p r -> Forall (fun i => p <= i) r.
  Proof.
    induction 1; constructor; auto. eapply Forall_impl; [|eassumption]. cbn. intros; lia.
  Qed.
  Lemma incr_map p r d : incr p r -> incr (p - d) (map (fun i => i - d) r).
  Proof.
    induction 1; cbn; constructor; try lia.
    eapply incr_weaken; [|eassumption]. lia.
  Qed.
  Lemma incr_prog s n : 0 < s -> forall a, incr a (prog_list a s n).
  Proof.
    intro S. induction n; intro a; cbn; constructor; [lia|].
    eapply incr_weaken; [|apply IHn]. lia.
  Qed.

  Lemma existsb_in x r : existsb (Z.eqb x) r = true <-> In x r.
  Proof.
    rewrite existsb_exists. split.
    - intros (y & I & E). apply Z.eqb_eq in E. now subst.
    - intro. exists x. split; auto. apply Z.eqb_refl.
  Qed.

  Lemma pick_keep : forall l r, incr 0 r -> pick l r = keep (fun x => existsb (Z.eqb x) r) 0 l.
  Proof.
    induction l as [|x l IH]; intros r I.
    - cbn. induction r as [|i r IHr]; auto. rewrite pick_cons. inversion I; subst.
      rewrite IHr by (eapply incr_weaken; [|eassumption]; lia).
      now destruct (Z.to_nat i).
    - cbn [keep]. rewrite (keep_shift _ l 0 1). destruct r as [|i r].
      + cbn. symmetry. apply keep_none. auto.
      + inversion I; subst. destruct (Z.eq_dec i 0) as [->|N].
        * change (existsb (Z.eqb 0) (0 :: r)) with true. cbn iota. rewrite pick_cons. cbn [Z.to_nat nth_error app]. f_equal.
          rewrite pick_shift by now apply incr_forall.
          rewrite IH by now apply (incr_map 1 r 1).
          apply keep_ext. intros y Hy. apply eq_true_iff_eq. rewrite !existsb_in.
          rewrite in_map_iff. cbn [In]. split.
          -- intros (z & <- & Hz). right. now replace (z - 1 + 1) with z by lia.
          -- intros [H|H]; [lia|]. exists (y + 1). split; [lia|auto].
        * assert (existsb (Z.eqb 0) (i :: r) = false) as ->.
          { apply not_true_iff_false. rewrite existsb_in. intros [H|H]; [lia|].
            apply incr_forall in H3. rewrite Forall_forall in H3. apply H3 in H. lia. }
          assert (J : incr 1 (i :: r)) by (constructor; auto; lia).
          rewrite pick_shift by now apply incr_forall.
          rewrite IH by now apply (incr_map 1 (i :: r) 1).
          apply keep_ext. intros y Hy. apply eq_true_iff_eq. rewrite !existsb_in.
          rewrite in_map_iff. split.
          -- intros (z & <- & Hz). now replace (z - 1 + 1) with z by lia.
          -- intros H. exists (y + 1). split; [lia|auto].
  Qed.
End Keep.

(** Slices as positional filters. *)
Definition ppos (a b s : Z) (x : Z) : bool := (a <=? x) && (x <? b) && ((x - a) mod s =? 0).
Definition pneg (a b s : Z) (x : Z) : bool := (b <? x) && (x <=? a) && ((a - x) mod (- s) =? 0).

Lemma incr_ge p q r : incr p r -> Forall (fun i => q <= i) r -> incr q r.
Proof. intros I F. inversion I; subst; constructor; auto. now inversion F. Qed.

Lemma pick_pos {A} (l : list A) a b s : 0 < s -> 0 <= a ->
  pick l (py_range a b s) = keep (ppos a b s) 0 l.
Proof.
  intros S Ha. rewrite py_range_prog.
  rewrite pick_keep by (eapply incr_weaken; [exact Ha|]; apply incr_prog; auto).
  rewrite <- py_range_prog. apply keep_ext. intros x _. apply eq_true_iff_eq.
  rewrite existsb_in, range_in_pos by auto. unfold ppos. lia.
Qed.

Lemma pick_neg {A} (l : list A) a b s : s < 0 -> -1 <= b -> 
  pick l (py_range a b s) = rev (keep (pneg a b s) 0 l).
Proof.
  intros S Hb. rewrite <- (rev_involutive (py_range a b s)), pick_rev. f_equal.
  rewrite py_range_prog. unfold the_list. rewrite rev_prog by lia.
  set (n := Z.to_nat (count_of a b s)). set (a' := a + s * (Z.of_nat n - 1)).
  assert (I : incr a' (prog_list a' (- s) n)) by (apply incr_prog; lia).
  assert (M : forall x, In x (prog_list a' (- s) n) <-> (b < x <= a /\ (a - x) mod (- s) = 0)).
  { intro x. rewrite <- range_in_neg by auto. unfold a'. rewrite <- rev_prog by lia.
    rewrite <- in_rev. rewrite py_range_prog. reflexivity. }
  rewrite pick_keep.
  - apply keep_ext. intros x _. apply eq_true_iff_eq. rewrite existsb_in, M. unfold pneg. lia.
  - eapply incr_ge; [exact I|]. apply Forall_forall. intros x Hx. apply M in Hx. lia.
Qed.

(** Adjusted indices stay in range. *)
Lemma adjust_pos_range n step d x : 0 <= n -> 0 < step -> 0 <= d <= n -> 0 <= adjust n step d x <= n.
Proof.
  intros. unfold adjust. destruct x as [i|]; [|auto].
  cbn zeta. ifs; lia.
Qed.
Lemma adjust_neg_range n step d x : 0 <= n -> step < 0 -> -1 <= d <= n - 1 -> -1 <= adjust n step d x <= n - 1.
Proof.
  intros. unfold adjust. destruct x as [i|]; [|auto].
  cbn zeta. ifs; lia.
Qed.

(** Normal form of a slice. *)
Definition the_step (sl : slice) : Z := match sl_step sl with None => 1 | Some s => s end.
Definition a_start n sl := let s := the_step sl in adjust n s (if s <? 0 then n - 1 else 0) (sl_start sl).
Definition a_stop n sl := let s := the_step sl in adjust n s (if s <? 0 then -1 else n) (sl_stop sl).

Lemma py_slice_nf {A} (l : list A) sl :
  py_slice l sl =
  let n := Z.of_nat (length l) in
  let s := the_step sl in
  if s =? 0 then Err ValueError
  else Ok (if 0 <? s then keep (ppos (a_start n sl) (a_stop n sl) s) 0 l
           else rev (keep (pneg (a_start n sl) (a_stop n sl) s) 0 l)).
Proof.
  unfold py_slice, py_indices. fold (the_step sl). cbn zeta. unfold a_start, a_stop. cbn zeta.
  set (s := the_step sl). destruct (s =? 0) eqn:?; [reflexivity|]. cbn [bind]. f_equal.
  destruct (0 <? s) eqn:?.
  - apply pick_pos; [lia|]. apply adjust_pos_range; try lia. destruct (s <? 0) eqn:?; lia.
  - apply pick_neg; [lia|]. apply adjust_neg_range; try lia; destruct (s <? 0) eqn:?; lia.
Qed.

(** *** Lengths, items *)
Section Seqs.
  Context {A : Type}.
  Implicit Types s a b v : pseq A.

  Lemma m_len_ok s : wf s -> m_len s = Z.of_nat (length (contents s)).
  Proof.
    induction s as [t l|a IHa b IHb|q IHq i j]; cbn [m_len contents wf]; auto.
    - intros [Wa Wb]. rewrite IHa, IHb, app_length; auto. lia.
    - intros (Wq & B & C). rewrite firstn_length, skipn_length. lia.
  Qed.

  Lemma check_idx_pos i n : check_idx i n = py_pos n i.
  Proof.
    unfold check_idx, py_pos, normalize_idx. cbn zeta.
    set (j := if i <? 0 then i + n else i).
    destruct (j <? 0) eqn:?, (n <=? j) eqn:?; cbn [orb];
      destruct ((0 <=? j) && (j <? n)) eqn:?; auto; lia.
  Qed.
  Lemma py_getitem_pos (l : list A) i : py_getitem l i =
    do j <- py_pos (Z.of_nat (length l)) i;
    match nth_error l (Z.to_nat j) with Some x => Ok x | None => Err IndexError end.
  Proof.
    unfold py_getitem, py_pos. cbn zeta. set (j := if i <? 0 then _ else _).
    destruct ((j <? 0) || (Z.of_nat (length l) <=? j)); reflexivity.
  Qed.
  Lemma py_pos_ok n i j : py_pos n i = Ok j -> 0 <= j < n.
  Proof.
    unfold py_pos. cbn zeta. set (k := if i <? 0 then _ else _).
    destruct ((k <? 0) || (n <=? k)) eqn:?; [discriminate|]. intro E. injection E as <-. lia.
  Qed.
  Lemma py_pos_id n j : 0 <= j < n -> py_pos n j = Ok j.
  Proof.
    intro H. unfold py_pos. replace (j <? 0) with false by lia. cbn zeta.
    replace ((j <? 0) || (n <=? j)) with false by lia. reflexivity.
  Qed.

  Lemma nth_error_firstn' {B} (l : list B) n i : (i < n)%nat -> nth_error (firstn n l) i = nth_error l i.
  Proof.
    revert l i. induction n; intros l i H; [lia|]. destruct l; [now destruct i|].
    destruct i; cbn; auto. apply IHn. lia.
  Qed.
  Lemma nth_error_skipn' {B} (l : list B) n i : nth_error (skipn n l) i = nth_error l (n + i).
  Proof. revert l. induction n; intro l; auto. destruct l; cbn; auto. now destruct i. Qed.

  Lemma m_getitem_ok s : wf s -> forall i, m_getitem s i = py_getitem (contents s) i.
  Proof.
    induction s as [t l|a IHa b IHb|q IHq st sp]; cbn [m_getitem contents wf]; auto.
    - intros [Wa Wb] i. rewrite check_idx_pos, !m_len_ok by auto.
      rewrite py_getitem_pos, app_length. rewrite <- Nat2Z.inj_add.
      destruct (py_pos _ i) as [j|e] eqn:P; auto. cbn [bind]. apply py_pos_ok in P.
      destruct (j <? Z.of_nat (length (contents a))) eqn:C.
      + rewrite IHa, py_getitem_pos, py_pos_id by (auto; lia). cbn [bind].
        now rewrite nth_error_app1 by lia.
      + rewrite IHb, py_getitem_pos, py_pos_id by (auto; lia). cbn [bind].
        rewrite nth_error_app2 by lia. now replace (Z.to_nat j - length (contents a))%nat
          with (Z.to_nat (j - Z.of_nat (length (contents a)))) by lia.
    - intros (Wq & B & C) i. rewrite check_idx_pos, py_getitem_pos.
      rewrite firstn_length, skipn_length.
      replace (Z.of_nat (Nat.min (Z.to_nat (sp - st)) (length (contents q) - Z.to_nat st)))
        with (sp - st) by lia.
      destruct (py_pos _ i) as [j|e] eqn:P; auto. cbn [bind]. apply py_pos_ok in P.
      rewrite IHq, py_getitem_pos, py_pos_id by (auto; lia). cbn [bind].
      rewrite nth_error_firstn' by lia. rewrite nth_error_skipn'.
      now replace (Z.to_nat st + Z.to_nat j)%nat with (Z.to_nat (st + j)) by lia.
  Qed.

  Lemma py_range1 (a b : Z) : a <= b -> py_range a b 1 = map (fun k => a + Z.of_nat k) (seq 0 (Z.to_nat (b - a))).
  Proof.
    intro. unfold py_range. replace (range_count a b 1) with (b - a).
    - apply map_ext. intro. lia.
    - unfold range_count. cbn. rewrite Z.div_1_r. lia.
  Qed.

  Lemma seq_items (q : pseq A) k : forall n, (k + n <= length (contents q))%nat -> wf q ->
    sequence_res (map (fun i => m_getitem q (Z.of_nat i)) (seq k n)) = Ok (firstn n (skipn k (contents q))).
  Proof.
    intros n. revert k. induction n as [|n IH]; intros k H W; cbn [seq map sequence_res firstn]; auto.
    rewrite m_getitem_ok, py_getitem_pos, py_pos_id by (auto; lia). cbn [bind].
    rewrite Nat2Z.id. destruct (nth_error (contents q) k) as [x|] eqn:E.
    - cbn [bind]. rewrite IH by (auto; lia). cbn [bind]. f_equal.
      assert (skipn k (contents q) = x :: skipn (S k) (contents q)) as ->; auto.
      clear - E. revert k E. generalize (contents q). induction l; intros [|k] E; cbn in *; try discriminate.
      + now injection E as ->.
      + now apply IHl.
    - apply nth_error_None in E. lia.
  Qed.

  Lemma m_iter_ok s : wf s -> m_iter s = Ok (contents s).
  Proof.
    induction s as [t l|a IHa b IHb|q IHq st sp]; cbn [m_iter contents wf]; auto.
    - intros [Wa Wb]. rewrite IHa, IHb by auto. reflexivity.
    - intros (Wq & B & C). rewrite py_range1 by lia. rewrite map_map.
      destruct C as [C|C].
      + rewrite <- (seq_items q (Z.to_nat st) (Z.to_nat (sp - st))) by (auto; lia). f_equal.
        apply list_ext; [now rewrite !map_length, !seq_length|].
        intros i Hi. rewrite map_length, seq_length in Hi.
        rewrite !nth_error_map, !(nth_error_nth' _ 0%nat) by now rewrite seq_length.
        rewrite !seq_nth by auto. cbn. do 2 f_equal. lia.
      + subst. replace (sp - sp) with 0 by lia. reflexivity.
  Qed.

  Lemma m_concat_ok a b : wf a -> wf b -> wf (m_concat a b) /\ contents (m_concat a b) = contents a ++ contents b.
  Proof.
    intros Wa Wb. unfold m_concat.
    repeat match goal with |- context [match ?x with _ => _ end] => destruct x end;
      cbn [wf contents] in *; repeat split; try tauto; rewrite ?app_assoc; auto.
  Qed.

  (** *** Slicing *)
  Lemma refines_ok r s : refines (Ok r) (Ok (contents s)) -> wf r /\ contents r = contents s.
  Proof. intros (x & E & W & C). injection E as <-. auto. Qed.

  Lemma firstn_skipn_keep (l : list A) : forall i j p, 0 <= i -> i <= j ->
    firstn (Z.to_nat (j - i)) (skipn (Z.to_nat i) l) = keep (fun x => (p + i <=? x) && (x <? p + j)) p l.
  Proof.
    induction l as [|x l IH]; intros i j p Hi Hj.
    - cbn. now rewrite skipn_nil, firstn_nil.
    - cbn [keep]. destruct (Z.eq_dec i 0) as [->|N].
      + cbn [Z.to_nat skipn]. replace (j - 0) with j by lia.
        destruct (Z.eq_dec j 0) as [->|M].
        * replace ((p + 0 <=? p) && (p <? p + 0)) with false by lia. cbn. symmetry. apply keep_none. intros; lia.
        * replace ((p + 0 <=? p) && (p <? p + j)) with true by lia.
          replace (Z.to_nat j) with (S (Z.to_nat (j - 1))) by lia. cbn [firstn]. f_equal.
          specialize (IH 0 (j - 1) (p + 1) ltac:(lia) ltac:(lia)). cbn [Z.to_nat skipn] in IH.
          replace (j - 1 - 0) with (j - 1) in IH by lia. rewrite IH. apply keep_ext. intros; lia.
      + replace ((p + i <=? p) && (p <? p + j)) with false by lia.
        replace (Z.to_nat i) with (S (Z.to_nat (i - 1))) by lia. cbn [skipn].
        specialize (IH (i - 1) (j - 1) (p + 1) ltac:(lia) ltac:(lia)).
        replace (j - 1 - (i - 1)) with (j - i) in IH by lia. rewrite IH. apply keep_ext. intros; lia.
  Qed.

  Lemma keep_keep_window (l : list A) f i j : 0 <= i -> i <= j ->
    forall p, keep f 0 (firstn (Z.to_nat (j - i)) (skipn (Z.to_nat i) l))
    = keep (fun x => (p + i <=? x) && (x <? p + j) && f (x - p - i)) p l.
  Proof.
    revert f i j. induction l as [|x l IH]; intros f i j Hi Hj p.
    - now rewrite skipn_nil, firstn_nil.
    - cbn [keep]. destruct (Z.eq_dec i 0) as [->|N].
      + cbn [Z.to_nat skipn]. replace (j - 0) with j by lia.
        destruct (Z.eq_dec j 0) as [->|M].
        * replace ((p + 0 <=? p) && (p <? p + 0)) with false by lia. cbn. symmetry. apply keep_none.
          intros; replace (x0 <? p + 0) with false by lia; rewrite andb_false_r; auto.
        * replace ((p + 0 <=? p) && (p <? p + j)) with true by lia. cbn [andb].
          replace (Z.to_nat j) with (S (Z.to_nat (j - 1))) by lia. cbn [firstn keep].
          replace (p - p - 0) with 0 by lia.
          specialize (IH (fun x => f (x + 1)) 0 (j - 1) ltac:(lia) ltac:(lia) (p + 1)). cbn [Z.to_nat skipn] in IH.
          replace (j - 1 - 0) with (j - 1) in IH by lia. rewrite (keep_shift f _ 0 1), IH.
          destruct (f 0); [f_equal|]; apply keep_ext; intros y Hy;
            (replace (y - (p + 1) - 0 + 1) with (y - p - 0) by lia;
             replace (p + 1 + 0 <=? y) with (p + 0 <=? y) by lia;
             replace (y <? p + 1 + (j - 1)) with (y <? p + j) by lia; reflexivity).
      + replace ((p + i <=? p) && (p <? p + j)) with false by lia. cbn [andb].
        replace (Z.to_nat i) with (S (Z.to_nat (i - 1))) by lia. cbn [skipn].
        specialize (IH f (i - 1) (j - 1) ltac:(lia) ltac:(lia) (p + 1)).
        replace (j - 1 - (i - 1)) with (j - i) in IH by lia. rewrite IH. apply keep_ext. intros y Hy.
        replace (y - (p + 1) - (i - 1)) with (y - p - i) by lia.
        replace (p + 1 + (i - 1)) with (p + i) by lia. replace (p + 1 + (j - 1)) with (p + j) by lia. reflexivity.
  Qed.

  (** Arithmetic of strides. *)
  Lemma mod_sub0 (s u v : Z) : 0 < s -> u mod s = 0 -> ((v - u) mod s =? 0) = (v mod s =? 0).
  Proof.
    intros S U. apply Z.mod_divide in U; [|lia]. destruct U as [k ->].
    replace (v - k * s) with (v + (- k) * s) by lia. now rewrite Z.mod_add by lia.
  Qed.
  Lemma mod_ge (s x p : Z) : 0 < s -> 0 <= p < s -> 0 <= x -> (x - p) mod s = 0 -> p <= x.
  Proof.
    intros S P X M. destruct (Z_lt_le_dec x p); auto. exfalso.
    apply Z.mod_divide in M; [|lia]. destruct M as [k M]. assert (k <= -1 \/ 0 <= k) as [K|K] by lia; nia.
  Qed.

  (** The filter of a forward slice on the two parts. *)
  Definition fwd (n : Z) (sl : slice) (s : Z) : Z -> bool :=
    ppos (adjust n s 0 (sl_start sl)) (adjust n s n (sl_stop sl)) s.
  Definition bwd (n : Z) (sl : slice) (s : Z) : Z -> bool :=
    pneg (adjust n s (n - 1) (sl_start sl)) (adjust n s (-1) (sl_stop sl)) s.

  Lemma fwd_clamp (n u v s x : Z) : 0 < s -> 0 <= n -> 0 <= x < n ->
    (0 <= u \/ v <= 0 \/ v <= u) -> fwd n (clamp_slice u v s n) s x = ppos u v s x.
  Proof.
    intros S N X C. unfold clamp_slice. replace (s <? 0) with false by lia. unfold fwd. cbn [sl_start sl_stop].
    assert (E : forall i, adjust n s 0 (if i <? 0 then Some 0 else if n <? i then Some n else Some i)
                          = Z.max 0 (Z.min i n)).
    { intro i. unfold adjust. destruct (i <? 0) eqn:?; [|destruct (n <? i) eqn:?]; cbn zeta; ifs; lia. }
    assert (E' : forall i, adjust n s n (if i <? 0 then Some 0 else if n <? i then Some n else Some i)
                          = Z.max 0 (Z.min i n)).
    { intro i. unfold adjust. destruct (i <? 0) eqn:?; [|destruct (n <? i) eqn:?]; cbn zeta; ifs; lia. }
    rewrite E, E'. unfold ppos. apply eq_true_iff_eq. rewrite !andb_true_iff, !Z.leb_le, !Z.ltb_lt, !Z.eqb_eq.
    split; intros [B M].
    - replace (Z.max 0 (Z.min u n)) with u in M by lia. split; auto; lia.
    - replace (Z.max 0 (Z.min u n)) with u by lia. split; auto; lia.
  Qed.

  Lemma bwd_clamp (n u v s x : Z) : s < 0 -> 0 <= n -> 0 <= x < n -> u <= n - 1 ->
    bwd n (clamp_slice u v s n) s x = pneg u v s x.
  Proof.
    intros S N X C. unfold clamp_slice. replace (s <? 0) with true by lia.
    destruct ((u <? 0) || (n - 1 <=? v)) eqn:E.
    - unfold bwd, pneg. cbn [sl_start sl_stop]. unfold adjust. cbn zeta.
      apply eq_true_iff_eq. rewrite !andb_true_iff, !Z.leb_le, !Z.ltb_lt, !Z.eqb_eq.
      split; intros [B M]; exfalso; revert B; ifs; lia.
    - unfold bwd, pneg. cbn [sl_start sl_stop].
      replace (u <? 0) with false by lia. replace (n <=? u) with false by lia.
      replace (adjust n s (n - 1) (Some u)) with u by (unfold adjust; cbn zeta; ifs; lia).
      replace (adjust n s (-1) (if v <? 0 then None else if n <=? v then Some (n - 1) else Some v)) with (Z.max (-1) v)
        by (unfold adjust; cbn zeta; ifs; lia).
      apply eq_true_iff_eq. rewrite !andb_true_iff, !Z.leb_le, !Z.ltb_lt, !Z.eqb_eq.
      split; intros [B M]; split; auto; lia.
  Qed.

  Lemma cut_fwd (a b s n1 n2 x : Z) : 0 < s -> 0 <= n1 -> 0 <= n2 -> 0 <= a <= n1 + n2 -> 0 <= b <= n1 + n2 ->
    let '((ls, le), (rs, re)) := cut_slice a b s n1 in
    (0 <= x < n1 -> fwd n1 (clamp_slice ls le s n1) s x = ppos a b s x) /\
    (0 <= x < n2 -> fwd n2 (clamp_slice (rs - n1) (re - n1) s n2) s x = ppos a b s (x + n1)).
  Proof.
    intros S N1 N2 A' B. unfold cut_slice. replace (s <? 0) with false by lia.
    set (d := - Z.min (Z.min a b) n1). cbn beta iota zeta.
    destruct (n1 + d <? a + d) eqn:C1; [|destruct (b + d <? n1 + d) eqn:C2].
    - cbn beta iota zeta. split; intro X; rewrite fwd_clamp by lia; unfold ppos.
      + apply eq_true_iff_eq. lia.
      + replace (a + d - d - n1) with (a - n1) by lia. replace (b + d - d - n1) with (b - n1) by lia.
        replace (x - (a - n1)) with (x + n1 - a) by lia. f_equal. lia.
    - cbn beta iota zeta. split; intro X; rewrite fwd_clamp by lia; unfold ppos.
      + replace (a + d - d) with a by lia. replace (b + d - d) with b by lia. auto.
      + apply eq_true_iff_eq. lia.
    - cbn beta iota zeta. assert (Ed : d = - a) by lia. rewrite Ed. clearbody d.
      replace (a + - a) with 0 by lia.
      replace (Z.min (n1 + - a) (b + - a)) with (n1 - a) by lia.
      pose proof (Z.mod_pos_bound (n1 - a) s S) as MB.
      set (pad := if 0 <? (n1 - a) mod s then s - (n1 - a) mod s else 0).
      replace (if 0 <? (n1 - a) mod s then n1 - a + (s - (n1 - a) mod s) else n1 - a) with (n1 - a + pad)
        by (unfold pad; destruct (0 <? _); lia).
      assert (P : 0 <= pad < s) by (unfold pad; destruct (0 <? _) eqn:?; lia).
      assert (PM : (n1 - a + pad) mod s = 0).
      { unfold pad. pose proof (Z.div_mod (n1 - a) s ltac:(lia)) as D.
        destruct (0 <? _) eqn:?.
        - replace (n1 - a + (s - (n1 - a) mod s)) with (((n1 - a) / s + 1) * s) by lia. apply Z.mod_mul. lia.
        - rewrite Z.add_0_r. lia. }
      clearbody pad. split; intro X; rewrite fwd_clamp by lia; unfold ppos.
      + replace (0 - - a) with a by lia. apply eq_true_iff_eq. lia.
      + replace (n1 - a + pad - - a - n1) with pad by lia. replace (b + - a - - a - n1) with (b - n1) by lia.
        apply eq_true_iff_eq. rewrite !andb_true_iff, !Z.leb_le, !Z.ltb_lt.
        assert (E : ((x - pad) mod s =? 0) = ((x + n1 - a) mod s =? 0)).
        { rewrite <- (mod_sub0 s _ (x + n1 - a) S PM). do 2 f_equal. lia. }
        rewrite <- E. split; intros [H M]; split; auto; try lia.
        split; [|lia]. apply (mod_ge s); try lia.
  Qed.

  Lemma cut_bwd (a b s n1 n2 x : Z) : s < 0 -> 0 <= n1 -> 0 <= n2 -> -1 <= a <= n1 + n2 - 1 -> -1 <= b <= n1 + n2 - 1 ->
    let '((ls, le), (rs, re)) := cut_slice a b s (n1 - 1) in
    (0 <= x < n1 -> bwd n1 (clamp_slice rs re s n1) s x = pneg a b s x) /\
    (0 <= x < n2 -> bwd n2 (clamp_slice (ls - n1) (le - n1) s n2) s x = pneg a b s (x + n1)).
  Proof.
    intros S N1 N2 A' B. unfold cut_slice. replace (s <? 0) with true by lia.
    cbn beta iota zeta. set (c := - (n1 - 1)).
    set (d := - Z.min (Z.min (- a) (- b)) c).
    destruct (c + d <? - a + d) eqn:C1; [|destruct (- b + d <? c + d) eqn:C2].
    - cbn beta iota zeta. unfold c in *. split; intro X; rewrite bwd_clamp by lia; unfold pneg.
      + replace (- (- a + d - d)) with a by lia. replace (- (- b + d - d)) with b by lia. auto.
      + apply eq_true_iff_eq. lia.
    - cbn beta iota zeta. unfold c in *. split; intro X; rewrite bwd_clamp by lia; unfold pneg.
      + apply eq_true_iff_eq. lia.
      + replace (- (- a + d - d) - n1) with (a - n1) by lia. replace (- (- b + d - d) - n1) with (b - n1) by lia.
        replace (a - (x + n1)) with (a - n1 - x) by lia. f_equal. lia.
    - cbn beta iota zeta. assert (Ed : d = a) by lia. rewrite Ed. clearbody d.
      replace (Z.min (c + a) (- b + a)) with (a - n1 + 1) by lia. unfold c.
      set (m := a - n1 + 1).
      pose proof (Z.mod_pos_bound m (- s) ltac:(lia)) as MB.
      set (pad := if 0 <? m mod - s then - s - m mod - s else 0).
      replace (if 0 <? m mod - s then m + (- s - m mod - s) else m) with (m + pad)
        by (unfold pad; destruct (0 <? _); lia).
      assert (P : 0 <= pad < - s) by (unfold pad; destruct (0 <? _) eqn:?; lia).
      assert (PM : (m + pad) mod (- s) = 0).
      { unfold pad. pose proof (Z.div_mod m (- s) ltac:(lia)) as D.
        destruct (0 <? _) eqn:?.
        - replace (m + (- s - m mod - s)) with ((m / - s + 1) * - s) by lia. apply Z.mod_mul. lia.
        - rewrite Z.add_0_r. lia. }
      clearbody pad. split; intro X; rewrite bwd_clamp by lia; unfold pneg.
      + replace (- (m + pad - a)) with (n1 - 1 - pad) by lia. replace (- (- b + a - a)) with b by lia.
        apply eq_true_iff_eq. rewrite !andb_true_iff, !Z.leb_le, !Z.ltb_lt.
        assert (E : ((n1 - 1 - pad - x) mod (- s) =? 0) = ((a - x) mod (- s) =? 0)).
        { rewrite <- (mod_sub0 (- s) _ (a - x) ltac:(lia) PM). do 2 f_equal. lia. }
        rewrite <- E. split; intros [H M]; split; auto; try lia.
        split; [lia|]. enough (pad <= n1 - 1 - x) by lia. apply (mod_ge (- s)); try lia.
        replace (n1 - 1 - x - pad) with (n1 - 1 - pad - x) by lia. lia.
      + replace (- (- a + a - a) - n1) with (a - n1) by lia.
        replace (a - n1 - x) with (a - (x + n1)) by lia. apply eq_true_iff_eq. lia.
  Qed.

  Lemma py_slice_fwd (l : list A) sl : 0 < the_step sl ->
    py_slice l sl = Ok (keep (fwd (Z.of_nat (length l)) sl (the_step sl)) 0 l).
  Proof.
    intro S. rewrite py_slice_nf. cbn zeta. unfold a_start, a_stop. cbn zeta.
    replace (the_step sl =? 0) with false by lia. replace (0 <? the_step sl) with true by lia.
    replace (the_step sl <? 0) with false by lia. reflexivity.
  Qed.
  Lemma py_slice_bwd (l : list A) sl : the_step sl < 0 ->
    py_slice l sl = Ok (rev (keep (bwd (Z.of_nat (length l)) sl (the_step sl)) 0 l)).
  Proof.
    intro S. rewrite py_slice_nf. cbn zeta. unfold a_start, a_stop. cbn zeta.
    replace (the_step sl =? 0) with false by lia. replace (0 <? the_step sl) with false by lia.
    replace (the_step sl <? 0) with true by lia. reflexivity.
  Qed.

  Lemma clamp_step (u v s n : Z) : the_step (clamp_slice u v s n) = s.
  Proof. unfold clamp_slice. now ifs. Qed.

  Lemma refines_concat (r1 r2 : res (pseq A)) l1 l2 l : refines r1 (Ok l1) -> refines r2 (Ok l2) -> l = l1 ++ l2 ->
    refines (do x <- r1; do y <- r2; Ok (m_concat x y)) (Ok l).
  Proof.
    intros (x & -> & Wx & Cx) (y & -> & Wy & Cy) ->. cbn [bind].
    destruct (m_concat_ok x y Wx Wy) as [W C]. exists (m_concat x y). rewrite C, Cx, Cy. auto.
  Qed.
  Lemma refines_eq (r : res (pseq A)) l l' : refines r (Ok l) -> l = l' -> refines r (Ok l').
  Proof. now intros H ->. Qed.

  Lemma getslice_ok s : wf s -> forall sl, refines (m_getslice s sl) (py_slice (contents s) sl).
  Proof.
    induction s as [t l|a IHa b IHb|q IHq st sp].
    - intros _ sl. cbn [m_getslice contents]. destruct (py_slice l sl) as [r|e]; cbn; [exists (PRaw t r); cbn|]; auto.
    - intros [Wa Wb] sl. specialize (IHa Wa). specialize (IHb Wb).
      set (L1 := contents a) in *. set (L2 := contents b) in *.
      pose proof (m_len_ok a Wa) as N1. pose proof (m_len_ok b Wb) as N2. fold L1 in N1. fold L2 in N2.
      assert (EQ : contents (PCat a b) = L1 ++ L2) by reflexivity. rewrite EQ.
      assert (LN : Z.of_nat (length (L1 ++ L2)) = m_len a + m_len b) by (rewrite app_length; lia).
      assert (N1' : 0 <= m_len a) by lia. assert (N2' : 0 <= m_len b) by lia.
      cbn [m_getslice].
      match goal with |- context [bind (py_indices sl ?n) ?f] => set (general := bind (py_indices sl n) f) end.
      assert (G : refines general (py_slice (L1 ++ L2) sl)).
      { unfold general. unfold py_indices. fold (the_step sl). cbn zeta.
        destruct (the_step sl =? 0) eqn:Z0.
        - cbn [bind]. rewrite py_slice_nf. cbn zeta. rewrite Z0. reflexivity.
        - cbn [bind]. destruct (0 <? the_step sl) eqn:S.
          + replace (the_step sl <? 0) with false by lia.
            set (A0 := adjust _ _ 0 _). set (B0 := adjust _ _ _ _).
            assert (RA : 0 <= A0 <= m_len a + m_len b) by (apply adjust_pos_range; lia).
            assert (RB : 0 <= B0 <= m_len a + m_len b) by (apply adjust_pos_range; lia).
            pose proof (fun x => cut_fwd A0 B0 (the_step sl) (m_len a) (m_len b) x ltac:(lia) N1' N2' RA RB) as K.
            destruct (cut_slice _ _ _ _) as [[ls le] [rs re]].
            pose proof (IHa (clamp_slice ls le (the_step sl) (m_len a))) as Ra.
            pose proof (IHb (clamp_slice (rs - m_len a) (re - m_len a) (the_step sl) (m_len b))) as Rb.
            rewrite py_slice_fwd in Ra, Rb by (rewrite clamp_step; lia). rewrite clamp_step in Ra, Rb.
            rewrite py_slice_fwd by lia. eapply refines_concat; [exact Ra|exact Rb|].
            rewrite keep_app0, LN, <- N1, <- N2. unfold fwd at 1 2. fold A0 B0. f_equal.
            * apply keep_ext. intros x Hx. symmetry. apply K. lia.
            * apply keep_ext. intros x Hx. symmetry. apply K. lia.
          + replace (the_step sl <? 0) with true by lia.
            set (A0 := adjust _ _ (_ - 1) _). set (B0 := adjust _ _ (-1) _).
            assert (RA : -1 <= A0 <= m_len a + m_len b - 1) by (apply adjust_neg_range; lia).
            assert (RB : -1 <= B0 <= m_len a + m_len b - 1) by (apply adjust_neg_range; lia).
            pose proof (fun x => cut_bwd A0 B0 (the_step sl) (m_len a) (m_len b) x ltac:(lia) N1' N2' RA RB) as K.
            destruct (cut_slice _ _ _ _) as [[ls le] [rs re]].
            pose proof (IHa (clamp_slice rs re (the_step sl) (m_len a))) as Ra.
            pose proof (IHb (clamp_slice (ls - m_len a) (le - m_len a) (the_step sl) (m_len b))) as Rb.
            rewrite py_slice_bwd in Ra, Rb by (rewrite clamp_step; lia). rewrite clamp_step in Ra, Rb.
            rewrite py_slice_bwd by lia. eapply refines_concat; [exact Rb|exact Ra|].
            rewrite keep_app0, LN, <- N1, <- N2, rev_app_distr. unfold bwd at 1 2. fold A0 B0. f_equal; f_equal.
            * apply keep_ext. intros x Hx. symmetry. apply K. lia.
            * apply keep_ext. intros x Hx. symmetry. apply K. lia. }
      clearbody general.
      destruct sl as [ost osp ostep]. cbn [sl_start sl_stop sl_step].
      assert (S' : (match ostep with None => true | Some st => 0 <? st end) = (0 <? the_step (mkSl ost osp ostep)))
        by (destruct ostep; reflexivity).
      rewrite S'. destruct (0 <? the_step _) eqn:S; [|exact G]. clear S'.
      set (s := the_step (mkSl ost osp ostep)) in *.
      assert (FW : forall (u v : option Z), the_step (mkSl u v ostep) = s) by reflexivity.
      assert (SPEC : py_slice (L1 ++ L2) (mkSl ost osp ostep)
        = Ok (keep (fwd (m_len a + m_len b) (mkSl ost osp ostep) s) 0 L1
              ++ keep (fun x => fwd (m_len a + m_len b) (mkSl ost osp ostep) s (x + m_len a)) 0 L2)).
      { rewrite py_slice_fwd by (rewrite FW; lia). rewrite FW, keep_app0, LN, N1. reflexivity. }
      match goal with |- refines (match osp with Some _ => _ | None => ?x end) _ => set (after := x) end.
      assert (AF : match ost with Some st => m_len a <= st -> 
                     (match osp with Some sp => sp < 0 \/ m_len a < sp | None => True end) | None => True end
                   -> refines after (py_slice (L1 ++ L2) (mkSl ost osp ostep))).
      { intro H. unfold after. destruct ost as [st|]; [|exact G].
        destruct (m_len a <=? st) eqn:E; [|exact G]. specialize (H ltac:(lia)).
        match goal with |- refines (m_getslice b ?sl) _ => pose proof (IHb sl) as Rb end.
        rewrite py_slice_fwd in Rb by (rewrite FW; lia). rewrite FW in Rb.
        rewrite SPEC. eapply refines_eq; [exact Rb|].
        rewrite (keep_none _ L1).
        - cbn [app]. apply keep_ext. intros x Hx. rewrite <- N2.
          unfold fwd, ppos. cbn [sl_start sl_stop]. unfold adjust. cbn zeta.
          apply eq_true_iff_eq. rewrite !andb_true_iff, !Z.leb_le, !Z.ltb_lt, !Z.eqb_eq.
          replace (st <? 0) with false by lia. replace (st - m_len a <? 0) with false by lia.
          replace (s <? 0) with false by lia.
          destruct (m_len b <=? st - m_len a) eqn:E2.
          + replace (m_len a + m_len b <=? st) with true by lia. cbn iota. destruct osp; cbn zeta; ifs; lia.
          + replace (m_len a + m_len b <=? st) with false by lia. 
            cbn iota. replace (x - (st - m_len a)) with (x + m_len a - st) by lia.
            destruct osp as [sp|].
            * destruct (sp <? 0) eqn:?; cbn iota zeta; ifs; try lia;
                replace (x - (st - m_len a)) with (x + m_len a - st) by lia; lia.
            * ifs; try lia; replace (x - (st - m_len a)) with (x + m_len a - st) by lia; lia.
        - intros x Hx. unfold fwd, ppos. cbn [sl_start sl_stop].
          assert (m_len a <= adjust (m_len a + m_len b) s 0 (Some st)) by (unfold adjust; cbn zeta; ifs; lia).
          replace (_ <=? x) with false by lia. reflexivity. }
      destruct osp as [sp|]; [|apply AF; destruct ost; auto].
      destruct ((0 <=? sp) && (sp <=? m_len a)) eqn:E; [|apply AF; destruct ost; auto; lia].
      assert (FST : forall st', match ost with 
           | None => st' = None 
           | Some st => (0 <= st /\ st' = Some st) \/ (st < - m_len b /\ st' = Some (st + m_len b)) end ->
         refines (m_getslice a (mkSl st' (Some sp) ostep)) (py_slice (L1 ++ L2) (mkSl ost (Some sp) ostep))).
      { intros st' H. pose proof (IHa (mkSl st' (Some sp) ostep)) as Ra.
        rewrite py_slice_fwd in Ra by (rewrite FW; lia). rewrite FW in Ra.
        rewrite SPEC. eapply refines_eq; [exact Ra|].
        rewrite (keep_none _ L2).
        - rewrite app_nil_r. apply keep_ext. intros x Hx. rewrite <- N1.
          unfold fwd, ppos. cbn [sl_start sl_stop].
          replace (adjust (m_len a) s (m_len a) (Some sp)) with sp by (unfold adjust; cbn zeta; ifs; lia).
          replace (adjust (m_len a + m_len b) s (m_len a + m_len b) (Some sp)) with sp
            by (unfold adjust; cbn zeta; ifs; lia).
          destruct ost as [st|]; [|subst st'; reflexivity].
          destruct H as [[H ->]|[H ->]]; unfold adjust; cbn zeta; replace (s <? 0) with false by lia.
          + replace (st <? 0) with false by lia.
            destruct (m_len a <=? st) eqn:E1; [|replace (m_len a + m_len b <=? st) with false by lia; auto].
            apply eq_true_iff_eq. rewrite !andb_true_iff, !Z.leb_le, !Z.ltb_lt, !Z.eqb_eq. ifs; lia.
          + replace (st <? 0) with true by lia. replace (st + m_len b <? 0) with true by lia.
            replace (st + m_len b + m_len a) with (st + (m_len a + m_len b)) by lia.
            destruct (st + (m_len a + m_len b) <? 0) eqn:?; auto.
            replace (m_len a <=? st + (m_len a + m_len b)) with false by lia.
            replace (m_len a + m_len b <=? st + (m_len a + m_len b)) with false by lia. auto.
        - intros x Hx. unfold fwd, ppos. cbn [sl_start sl_stop].
          replace (adjust (m_len a + m_len b) s (m_len a + m_len b) (Some sp)) with sp
            by (unfold adjust; cbn zeta; ifs; lia).
          replace (x + m_len a <? sp) with false by lia. now rewrite andb_false_r. }
      destruct ost as [st|]; [|now apply FST].
      destruct (0 <=? st) eqn:E1; [apply FST; left; split; auto; lia|].
      destruct (st <? - m_len b) eqn:E2; [apply FST; right; split; auto; lia|].
      apply AF. lia.
    - intros W sl. pose proof (m_iter_ok _ W) as IT. destruct W as (Wq & B & C).
      set (L := contents (PView q st sp)) in *.
      assert (LN : Z.of_nat (length L) = sp - st).
      { unfold L. cbn [contents]. rewrite firstn_length, skipn_length. lia. }
      cbn [m_getslice].
      assert (LIST : refines (do l <- m_iter (PView q st sp); map_res (PRaw false) (py_slice l sl)) (py_slice L sl)).
      { rewrite IT. cbn [bind]. destruct (py_slice L sl) as [r|e]; cbn; [|auto].
        exists (PRaw false r). cbn. auto. }
      unfold m_indices. fold (the_step sl). destruct (the_step sl <=? 0) eqn:S.
      + unfold py_indices. fold (the_step sl). cbn zeta. destruct (the_step sl =? 0) eqn:Z0.
        * rewrite py_slice_nf. cbn zeta. rewrite Z0. reflexivity.
        * cbn [bind]. replace (the_step sl =? 1) with false by lia. exact LIST.
      + cbn [bind]. destruct (the_step sl =? 1) eqn:S1; [|exact LIST].
        assert (E1 : the_step sl = 1) by lia. rewrite E1. unfold clamp_slice. cbn [Z.ltb Z.compare sl_start sl_stop].
        set (u := match sl_start sl with None => _ | Some _ => _ end).
        set (v := match sl_stop sl with None => _ | Some _ => _ end).
        rewrite py_slice_fwd by lia. rewrite E1, LN.
        set (M := sp - st) in *.
        replace (match (if u <? 0 then Some 0 else if M <? u then Some M else Some u) with Some x => x | None => 0 end)
          with (adjust M 1 0 (sl_start sl))
          by (unfold u, adjust, normalize_idx; destruct (sl_start sl); cbn zeta; cbn [Z.ltb Z.compare]; ifs; lia).
        replace (match (if v <? 0 then Some 0 else if M <? v then Some M else Some v) with Some x => x | None => 0 end)
          with (adjust M 1 M (sl_stop sl))
          by (unfold v, adjust, normalize_idx; destruct (sl_stop sl); cbn zeta; cbn [Z.ltb Z.compare]; ifs; lia).
        unfold fwd. set (U := adjust M 1 0 _). set (V := adjust M 1 M _).
        assert (0 <= U <= M) by (apply adjust_pos_range; lia).
        assert (0 <= V <= M) by (apply adjust_pos_range; lia). clearbody U V. clear u v.
        destruct (st + V <=? st + U) eqn:D.
        * exists (PView (PRaw true []) 0 0). split; auto. split; [cbn; lia|]. cbn [contents].
          symmetry. apply keep_none. intros x Hx. unfold ppos. lia.
        * exists (PView q (st + U) (st + V)). split; auto. split; [cbn [wf]; repeat split; auto; lia|].
          cbn [contents]. unfold L. cbn [contents].
          rewrite (firstn_skipn_keep (contents q) (st + U) (st + V) 0) by lia.
          rewrite (keep_keep_window (contents q) _ st sp) with (p := 0) by lia.
          apply keep_ext. intros x Hx. unfold ppos. rewrite Z.mod_1_r. lia.
  Qed.
End Seqs.
