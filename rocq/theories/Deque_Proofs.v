From Coq Require Import ZArith List Bool Lia ZifyBool ZifyNat.
From Verif Require Import Py Range_Spec PySeq_Spec Seq_Model Seq_Proofs SeqMut_Proofs Deque_Model Deque_Spec.
Import ListNotations.
Open Scope Z_scope.

Section Deque.
Variable A : Type.
Variables (is_ eqb : A -> A -> bool).
(** an object equals itself *)
Hypothesis eqb_is : forall x y, is_ x y = true -> eqb x y = true.
Notation len := (len A).
Notation does := (does A is_ eqb).
Notation step := (step A is_ eqb).
Notation matches := (matches A is_ eqb).

Lemma len_nonneg l : 0 <= len l. Proof. unfold len, Deque_Model.len. lia. Qed.
Lemma len_app a b : len (a ++ b) = len a + len b. Proof. unfold len, Deque_Model.len. rewrite app_length. lia. Qed.
Lemma len_cons x a : len (x :: a) = 1 + len a. Proof. unfold len, Deque_Model.len. cbn [length]. lia. Qed.
Lemma pos_ok l i : py_pos (len l) i = match at_ A l i with Some _ => Ok (if i <? 0 then i + len l else i) | None => Err IndexError end.
Proof.
  unfold py_pos, at_. cbv zeta. unfold len, Deque_Model.len. destruct (i <? 0) eqn:N.
  - destruct (0 <=? i + Z.of_nat (length l)) eqn:P.
    + destruct (nth_error l _) eqn:E.
      * apply (fun H => nth_error_Some_lt' H) in E || (assert (Z.to_nat (i + Z.of_nat (length l)) < length l)%nat by (apply nth_error_Some; congruence)).
        replace ((i + Z.of_nat (length l) <? 0) || _) with false by lia. reflexivity.
      * apply nth_error_None in E. lia.
    + replace ((i + Z.of_nat (length l) <? 0) || _) with true by lia. reflexivity.
  - destruct (nth_error l _) eqn:E.
    + assert (Z.to_nat i < length l)%nat by (apply nth_error_Some; congruence).
      replace ((i <? 0) || _) with false by lia. reflexivity.
    + apply nth_error_None in E. replace ((i <? 0) || _) with true by lia. reflexivity.
Qed.
Lemma at_split l i x : at_ A l i = Some x -> exists a b, l = a ++ x :: b /\ (i = len a \/ i = len a - len l) /\ (if i <? 0 then i + len l else i) = len a.
Proof.
  unfold at_. intro H. set (j := if i <? 0 then i + len l else i).
  assert (N : nth_error l (Z.to_nat j) = Some x /\ 0 <= j).
  { unfold j. destruct (i <? 0) eqn:E; [destruct (0 <=? i + len l) eqn:P; [|discriminate]|]; split; auto; lia. }
  destruct N as [N P]. apply nth_error_split in N as (a & b & -> & L). exists a, b. split; [reflexivity|].
  assert (j = len a) by (unfold len, Deque_Model.len; lia). split; [|assumption]. unfold j in *. destruct (i <? 0); lia.
Qed.
Lemma firstn_app_exact (a b : list A) n : n = length a -> firstn n (a ++ b) = a.
Proof. intros ->. rewrite firstn_app, firstn_all, Nat.sub_diag. cbn. apply app_nil_r. Qed.
Lemma skipn_app_exact (a b : list A) n : n = length a -> skipn n (a ++ b) = b.
Proof. intros ->. rewrite skipn_app, skipn_all, Nat.sub_diag. reflexivity. Qed.
Lemma delitem_split a x b i : i = len a \/ i = len a - len (a ++ x :: b) -> py_delitem (a ++ x :: b) i = Ok (a ++ b).
Proof.
  intro H. unfold py_delitem, py_pos. fold (len (a ++ x :: b)). rewrite len_app, len_cons in *. pose proof (len_nonneg a). pose proof (len_nonneg b). cbv zeta.
  assert (J : (if i <? 0 then i + (len a + (1 + len b)) else i) = len a) by (destruct (i <? 0) eqn:?; lia). rewrite J.
  replace ((len a <? 0) || (len a + (1 + len b) <=? len a)) with false by lia. cbn [bind].
  rewrite firstn_app_exact by (unfold len, Deque_Model.len; lia). f_equal. f_equal.
  replace (a ++ x :: b) with ((a ++ [x]) ++ b) by (rewrite <- app_assoc; reflexivity). apply skipn_app_exact. rewrite app_length. cbn. unfold len, Deque_Model.len. lia.
Qed.
Lemma list_set_split (a : list A) x b y : list_set (a ++ x :: b) (length a) y = a ++ y :: b.
Proof. induction a as [|z a IH]; cbn; [reflexivity|]. now rewrite IH. Qed.
Lemma setitem_split a x b y i : i = len a \/ i = len a - len (a ++ x :: b) -> py_setitem (a ++ x :: b) i y = Ok (a ++ y :: b).
Proof.
  intro H. unfold py_setitem, py_pos. fold (len (a ++ x :: b)). rewrite len_app, len_cons in *. pose proof (len_nonneg a). pose proof (len_nonneg b). cbv zeta.
  assert (J : (if i <? 0 then i + (len a + (1 + len b)) else i) = len a) by (destruct (i <? 0) eqn:?; lia). rewrite J.
  replace ((len a <? 0) || (len a + (1 + len b) <=? len a)) with false by lia. cbn [bind]. f_equal.
  replace (Z.to_nat (len a)) with (length a) by (unfold len, Deque_Model.len; lia). apply list_set_split.
Qed.
Lemma getitem_ok (l : list A) i : py_getitem l i = match at_ A l i with Some x => Ok x | None => Err IndexError end.
Proof.
  unfold py_getitem. cbv zeta. unfold at_. unfold len, Deque_Model.len. destruct (i <? 0) eqn:N.
  - destruct (0 <=? i + Z.of_nat (length l)) eqn:P.
    + destruct (nth_error l _) eqn:E.
      * assert (Z.to_nat (i + Z.of_nat (length l)) < length l)%nat by (apply nth_error_Some; congruence).
        replace ((i + Z.of_nat (length l) <? 0) || _) with false by lia. reflexivity.
      * apply nth_error_None in E. lia.
    + replace ((i + Z.of_nat (length l) <? 0) || _) with true by lia. reflexivity.
  - destruct (nth_error l _) eqn:E.
    + assert (Z.to_nat i < length l)%nat by (apply nth_error_Some; congruence).
      replace ((i <? 0) || _) with false by lia. reflexivity.
    + apply nth_error_None in E. replace ((i <? 0) || _) with true by lia. reflexivity.
Qed.
Lemma count_ok l x : forall c, count_ A eqb c l x = c + len (filter (matches x) l).
Proof.
  induction l as [|y l IH]; intro c; cbn [count_ filter]; [unfold len, Deque_Model.len; cbn; lia|]. rewrite IH.
  pose proof (eqb_is y x) as H. assert (M : matches x y = eqb y x) by (unfold Deque_Spec.matches; destruct (is_ y x), (eqb y x); auto; symmetry; now apply H).
  rewrite M. destruct (eqb y x); rewrite ?len_cons; lia.
Qed.
Lemma scan_ok l x a b : forall i, 0 <= i ->
  match scan A is_ eqb l i x a b with
  | Ok r => i <= r < i + len l /\ a <= r < b /\ (exists y, nth_error l (Z.to_nat (r - i)) = Some y /\ matches x y = true) /\
            forall j y, a <= j < r -> i <= j -> nth_error l (Z.to_nat (j - i)) = Some y -> matches x y = false
  | Err e => e = ValueError /\ forall j y, a <= j < b -> i <= j -> nth_error l (Z.to_nat (j - i)) = Some y -> matches x y = false
  end.
Proof.
  induction l as [|z l IH]; intros i I; cbn [scan].
  - split; [reflexivity|]. intros j y _ _ E. destruct (Z.to_nat _); discriminate.
  - destruct ((a <=? i) && (i <? b) && (is_ z x || eqb z x)) eqn:C.
    + rewrite len_cons. pose proof (len_nonneg l). split; [lia|]. split; [lia|]. split.
      * exists z. rewrite Z.sub_diag. split; [reflexivity|]. unfold Deque_Spec.matches. destruct (is_ z x), (eqb z x); cbn [orb] in *; auto; lia.
      * intros. lia.
    + specialize (IH (i + 1) ltac:(lia)). destruct (scan A is_ eqb l (i + 1) x a b) as [r|e].
      * destruct IH as (R & B & (y & Y & M) & N). rewrite len_cons. split; [lia|]. split; [lia|]. split.
        -- exists y. split; [|assumption]. replace (Z.to_nat (r - i)) with (S (Z.to_nat (r - (i + 1)))) by lia. exact Y.
        -- intros j w J1 J2 E. destruct (Z.eq_dec j i) as [->|D].
           ++ rewrite Z.sub_diag in E. injection E as <-. unfold Deque_Spec.matches. destruct (is_ z x), (eqb z x); cbn [orb] in *; auto; lia.
           ++ apply (N j w); [lia|lia|]. replace (Z.to_nat (j - i)) with (S (Z.to_nat (j - (i + 1)))) in E by lia. exact E.
      * destruct IH as [-> N]. split; [reflexivity|]. intros j w J1 J2 E. destruct (Z.eq_dec j i) as [->|D].
        -- rewrite Z.sub_diag in E. injection E as <-. unfold Deque_Spec.matches. destruct (is_ z x), (eqb z x); cbn [orb] in *; auto; lia.
        -- apply (N j w); [lia|lia|]. replace (Z.to_nat (j - i)) with (S (Z.to_nat (j - (i + 1)))) in E by lia. exact E.
Qed.
Lemma slice_from_ l k : 0 <= k -> slice_ A l (Some k) None = skipn (Z.to_nat k) l.
Proof. intro H. unfold slice_. pose proof (slice_from l k H) as E. unfold sl_from in E. now rewrite E. Qed.
Lemma slice_to_ l k : 0 <= k -> slice_ A l None (Some k) = firstn (Z.to_nat k) l.
Proof. intro H. unfold slice_. pose proof (slice_to l k H) as E. unfold sl_to in E. now rewrite E. Qed.
Lemma slice_all l : slice_ A l None None = l.
Proof. transitivity (slice_ A l (Some 0) None); [destruct l; reflexivity|]. now rewrite slice_from_. Qed.
Lemma nth_error_skipn_ (l : list A) n i : nth_error (skipn n l) i = nth_error l (n + i).
Proof. revert l. induction n as [|n IH]; intro l; [reflexivity|]. destruct l; [now destruct i|]. cbn. apply IH. Qed.
Lemma nth_error_firstn_ (l : list A) n i : (i < n)%nat -> nth_error (firstn n l) i = nth_error l i.
Proof. revert l i. induction n as [|n IH]; intros l i H; [lia|]. destruct l; [now destruct i|]. destruct i; cbn; [reflexivity|]. apply IH. lia. Qed.
Lemma rotate_ok d n : rotated A (contents A d) (contents A (rotate A d n)) n /\ maxlen A (rotate A d n) = maxlen A d.
Proof.
  unfold rotate. set (l := contents A d). destruct (len l =? 0) eqn:Z0; cbn [orb].
  - split; [|reflexivity]. split; [reflexivity|]. intros j J. lia.
  - pose proof (len_nonneg l). destruct (n mod len l =? 0) eqn:N0.
    + split; [|reflexivity]. split; [reflexivity|]. intros j J. fold l. f_equal. f_equal.
      rewrite <- Z.add_mod_idemp_r by lia. replace (n mod len l) with 0 by lia. rewrite Z.add_0_r. apply Z.mod_small. lia.
    + split; [|reflexivity]. cbn [contents with_]. pose proof (Z.mod_pos_bound (- n) (len l) ltac:(lia)) as B. set (k := - n mod len l) in *.
      rewrite slice_from_, slice_to_ by lia.
      assert (LL : len l = Z.of_nat (length l)) by reflexivity.
      assert (NK : n mod len l = len l - k).
      { unfold k. rewrite Z.mod_opp_l_nz by lia. lia. }
      split; [rewrite app_length, skipn_length, firstn_length; lia|]. intros j J.
      rewrite <- Z.add_mod_idemp_r, NK by lia.
      destruct (Z_lt_ge_dec j k) as [C|C].
      * rewrite Z.mod_small by lia. rewrite nth_error_app2 by (rewrite skipn_length; lia). rewrite skipn_length.
        rewrite nth_error_firstn_ by lia. f_equal. lia.
      * replace (j + (len l - k)) with ((j - k) + 1 * len l) by ring. rewrite Z.mod_add, Z.mod_small by lia.
        rewrite nth_error_app1 by (rewrite skipn_length; lia). rewrite nth_error_skipn_. f_equal. lia.
Qed.
Lemma mul_ok d n : mul A d n = mkDq A (concat (repeat (contents A d) (Z.to_nat n))) (maxlen A d).
Proof.
  unfold mul. assert (G : forall k acc, fold_left (fun r _ => extend A r (contents A d)) (repeat tt k) (mkDq A acc (maxlen A d)) =
     mkDq A (acc ++ concat (repeat (contents A d) k)) (maxlen A d)).
  { induction k as [|k IH]; intro acc; cbn [repeat fold_left concat]; [now rewrite app_nil_r|].
    change (extend A (mkDq A acc (maxlen A d)) (contents A d)) with (mkDq A (acc ++ contents A d) (maxlen A d)). rewrite IH, app_assoc. reflexivity. }
  apply (G _ []).
Qed.
Lemma list_eqb_ok a : forall b, list_eqb A is_ eqb a b = match Nat.eqb (length a) (length b) with
     true => forallb (fun p => is_ (fst p) (snd p) || eqb (fst p) (snd p)) (combine a b) | false => false end.
Proof.
  induction a as [|x a IH]; intros [|y b]; cbn; try reflexivity. rewrite IH. destruct (Nat.eqb _ _); [reflexivity|apply andb_false_r].
Qed.
Lemma len_repeat l k : len (concat (repeat l k)) = Z.of_nat k * len l.
Proof. induction k as [|k IH]; cbn [repeat concat]; [reflexivity|]. rewrite len_app, IH. lia. Qed.
Lemma keep_last_fits m l : match m with None => True | Some m => len l <= m end -> keep_last A m l = l.
Proof. destruct m as [m|]; [|reflexivity]. cbn. intro H. unfold len, Deque_Model.len in H. replace (length l - Z.to_nat m)%nat with O by lia. reflexivity. Qed.
Lemma keep_first_fits m l : match m with None => True | Some m => len l <= m end -> keep_first A m l = l.
Proof. destruct m as [m|]; [|reflexivity]. cbn. intro H. apply firstn_all2. unfold len, Deque_Model.len in H. lia. Qed.
Lemma does_eq_ret l m o r r' l' : r = r' -> does l m o r l' -> does l m o r' l'. Proof. now intros ->. Qed.
Lemma does_eq_state l m o r l' l'' : l' = l'' -> does l m o r l' -> does l m o r l''. Proof. now intros ->. Qed.

(** One call *)
Lemma step_ok d o : within A (maxlen A d) (contents A d) o ->
  match step d o with
  | Ok (r, d') => does (contents A d) (maxlen A d) o (Ok r) (contents A d') /\ maxlen A d' = maxlen A d
  | Err e => does (contents A d) (maxlen A d) o (Err e) (contents A d)
  end.
Proof.
  destruct d as [l m]. cbn [contents maxlen]. intro W. pose proof (len_nonneg l) as LN.
  destruct o; unfold step, Deque_Model.step; cbn [contents maxlen].
  - (* append *) unfold append, has_room. cbn [contents maxlen]. destruct m as [m|]; [|cbn; split; [|reflexivity]; exact (does_append A is_ eqb l None x)].
    destruct W as (M & L & _). destruct (len l <? m) eqn:R.
    + cbn. split; [|reflexivity]. eapply does_eq_state; [|constructor]. apply keep_last_fits. rewrite len_app, len_cons. change (Deque_Model.len A []) with 0. lia.
    + destruct l as [|y l]; [cbn in *; lia|]. pose proof (delitem_split [] y l 0 ltac:(left; reflexivity)) as E. cbn [app] in E. rewrite E. cbn.
      split; [|reflexivity]. eapply does_eq_state; [|constructor]. unfold keep_last. cbn [app].
      rewrite len_cons in *. replace (length (y :: l ++ [x]) - Z.to_nat m)%nat with 1%nat by (cbn [length]; rewrite app_length; cbn [length]; unfold Deque_Model.len in *; lia).
      reflexivity.
  - (* appendleft *) unfold appendleft, has_room. cbn [contents maxlen]. destruct m as [m|]; [|cbn; split; [|reflexivity]; exact (does_appendleft A is_ eqb l None x)].
    destruct W as (M & L & _). destruct (len l <? m) eqn:R.
    + cbn. split; [|reflexivity]. eapply does_eq_state; [|constructor]. apply keep_first_fits. rewrite len_cons. lia.
    + destruct l as [|y l0 _] using rev_ind; [cbn in *; lia|]. rewrite len_app, len_cons in *. change (Deque_Model.len A []) with 0 in *.
      pose proof (delitem_split l0 y [] (-1)) as E. rewrite E; [|right; rewrite len_app, len_cons; change (Deque_Model.len A []) with 0; lia]. cbn.
      split; [|reflexivity]. eapply does_eq_state; [|constructor]. unfold keep_first. rewrite app_nil_r.
      replace (Z.to_nat m) with (length (x :: l0)) by (cbn [length]; unfold Deque_Model.len in *; lia).
      change (x :: l0 ++ [y]) with ((x :: l0) ++ [y]). apply firstn_app_exact. reflexivity.
  - cbn. split; [|reflexivity]. eapply does_eq_state; [|constructor]. apply keep_last_fits. destruct m; [|exact I]. rewrite len_app. cbn in W. lia.
  - cbn. split; [|reflexivity]. eapply does_eq_state; [|constructor]. apply keep_first_fits. destruct m; [|exact I]. rewrite len_app. cbn in W.
    unfold len, Deque_Model.len in *. rewrite rev_length. lia.
  - cbn. split; [|reflexivity]. unfold py_insert. cbv zeta. fold (len l). set (j := if i <? 0 then _ else _).
    assert (J : 0 <= j <= len l) by (unfold j; destruct (i <? 0) eqn:?; lia).
    apply does_insert; [|symmetry; apply firstn_skipn|].
    + unfold full. destruct m; [|reflexivity]. cbn in W. lia.
    + unfold len, Deque_Model.len in *. rewrite firstn_length. unfold j in *. lia.
  - rewrite getitem_ok. destruct l as [|y l0 _] using rev_ind; [cbn; constructor; reflexivity|].
    assert (E : at_ A (l0 ++ [y]) (-1) = Some y).
    { unfold at_. rewrite len_app, len_cons. change (Deque_Model.len A []) with 0. pose proof (len_nonneg l0). 
      cbn [Z.ltb Z.compare]. replace (0 <=? -1 + (Deque_Model.len A l0 + (1 + 0))) with true by lia.
      rewrite nth_error_app2 by (unfold Deque_Model.len; lia). replace (_ - _)%nat with O by (unfold Deque_Model.len; lia). reflexivity. }
    rewrite E. cbn [bind]. pose proof (delitem_split l0 y [] (-1)) as E2. rewrite E2; [|right; rewrite len_app, len_cons; change (Deque_Model.len A []) with 0; lia].
    cbn. split; [|reflexivity]. rewrite app_nil_r. now constructor.
  - rewrite getitem_ok. destruct l as [|y l]; [cbn; constructor; reflexivity|]. cbn [at_ Z.ltb Z.compare]. unfold at_. cbn [Z.ltb Z.compare Z.to_nat nth_error bind].
    pose proof (delitem_split [] y l 0 ltac:(left; reflexivity)) as E. cbn [app] in E. rewrite E. cbn. split; [|reflexivity]. now constructor.
  - (* remove *) unfold list_remove. pose proof (scan_ok l x 0 (len l) 0 ltac:(lia)) as S. destruct (scan A is_ eqb l 0 x 0 (Deque_Model.len A l)) as [r|e]; cbn [bind].
    + destruct S as (R & _ & (y & Y & My) & N). rewrite Z.sub_0_r in Y. pose proof Y as Y2. apply nth_error_split in Y as (a & b & -> & L).
      rewrite delitem_split by (left; unfold len, Deque_Model.len; lia). cbn. split; [|reflexivity].
      apply (does_remove A is_ eqb _ _ x a y b); auto. apply Forall_forall. intros z Iz. apply In_nth_error in Iz as (q & Q).
      assert (QL : (q < length a)%nat) by (apply nth_error_Some; congruence).
      apply (N (Z.of_nat q) z); [lia|lia|]. rewrite Z.sub_0_r, Nat2Z.id. rewrite nth_error_app1 by lia. exact Q.
    + destruct S as [-> N]. apply does_remove_none. apply Forall_forall. intros z Iz. apply In_nth_error in Iz as (q & Q).
      assert (QL : (q < length l)%nat) by (apply nth_error_Some; congruence).
      apply (N (Z.of_nat q) z); [unfold Deque_Model.len; lia|lia|]. now rewrite Z.sub_0_r, Nat2Z.id.
  - cbn. split; [|reflexivity]. constructor.
  - destruct (rotate_ok (mkDq A l m) n) as [R M]. split; [|exact M]. now constructor.
  - cbn. split; [|reflexivity]. constructor.
  - rewrite getitem_ok. destruct (at_ A l i) eqn:E; cbn; [split; [|reflexivity]|]; now constructor.
  - destruct (at_ A l i) as [y|] eqn:E.
    + destruct (at_split l i y E) as (a & b & -> & D & _). rewrite (setitem_split a y b x i D). cbn. split; [|reflexivity]. now apply (does_set A is_ eqb _ _ i x a y b).
    + unfold py_setitem. pose proof (pos_ok l i) as P. rewrite E in P. unfold len, Deque_Model.len in P. rewrite P. cbn. now constructor.
  - destruct (at_ A l i) as [y|] eqn:E.
    + destruct (at_split l i y E) as (a & b & -> & D & _). rewrite (delitem_split a y b i D). cbn. split; [|reflexivity]. now apply (does_del A is_ eqb _ _ i a y b).
    + unfold py_delitem. pose proof (pos_ok l i) as P. rewrite E in P. unfold len, Deque_Model.len in P. rewrite P. cbn. now constructor.
  - split; [|reflexivity]. cbn [contents]. rewrite count_ok. rewrite Z.add_0_l. constructor.
  - unfold list_index. pose proof (scan_ok l x (bound (len l) a) (bound (len l) b) 0 ltac:(lia)) as S. 
    destruct (scan A is_ eqb l 0 x _ _) as [r|e]; cbn [bind].
    + destruct S as (R & B & (y & Y & My) & N). split; [|reflexivity]. constructor. unfold first_at. unfold bound in *. split; [exact B|]. split; [lia|].
      rewrite Z.sub_0_r in Y. split; [eauto|]. intros j w J1 J2 E. apply (N j w J1 J2). now rewrite Z.sub_0_r.
    + destruct S as [-> N]. constructor. unfold none_at. intros j w J1 J2 E. apply (N j w J1 J2). now rewrite Z.sub_0_r.
  - split; [|reflexivity]. constructor.
  - split; [|reflexivity]. rewrite slice_all. constructor.
  - rewrite mul_ok. cbn [contents maxlen]. split; [|reflexivity].
    apply (does_eq_ret l m (Mul A n) (Ok (RDeque A (keep_last A m (concat (repeat l (Z.to_nat n)))) m))); [|constructor].
    rewrite keep_last_fits; [reflexivity|]. destruct m as [m|]; [|exact I]. destruct W as (M & L & W). rewrite len_repeat. 
    destruct (Z_le_gt_dec 0 n); [|replace (Z.to_nat n) with O by lia; lia]. rewrite Z2Nat.id by lia. exact W.
  - cbn. split; [|reflexivity].
    apply (does_eq_ret l m (Add A l0) (Ok (RDeque A (keep_last A m (l ++ l0)) m))); [|constructor].
    rewrite keep_last_fits; [reflexivity|]. destruct m as [m|]; [|exact I]. cbn in W. rewrite len_app. lia.
  - split; [|reflexivity]. cbn [contents]. rewrite list_eqb_ok. constructor.
Qed.
Lemma run_ok os : forall l, let '(rs, d') := run A is_ eqb (mkDq A l None) os in
  history A is_ eqb None l os rs (contents A d') /\ maxlen A d' = None.
Proof.
  induction os as [|o os IH]; intro l; cbn [run]; [split; [constructor|reflexivity]|].
  pose proof (step_ok (mkDq A l None) o I) as S. fold (step (mkDq A l None) o) in *. destruct (step (mkDq A l None) o) as [[r [l' m']]|e].
  - cbn [contents maxlen] in S. destruct S as [S ->]. specialize (IH l'). destruct (run A is_ eqb (mkDq A l' None) os) as [rs d']. destruct IH as [H M].
    split; [|exact M]. econstructor; eauto.
  - cbn [contents maxlen] in S. specialize (IH l). destruct (run A is_ eqb (mkDq A l None) os) as [rs d']. destruct IH as [H M].
    split; [|exact M]. econstructor; eauto.
Qed.
End Deque.

Section DefaultDict.
Variables (K V : Type).
Variable keqb : K -> K -> bool.
Hypothesis keqb_eq : forall a b, keqb a b = true <-> a = b.
Lemma dget_dset (d : dict K V) k v k' : dget K V keqb (dset K V keqb d k v) k' = if keqb k' k then Some v else dget K V keqb d k'.
Proof.
  induction d as [|[a w] d IH]; cbn; [reflexivity|]. destruct (keqb k a) eqn:E; cbn.
  - apply keqb_eq in E. subst a. destruct (keqb k' k); reflexivity.
  - rewrite IH. destruct (keqb k' a) eqn:E2; [|reflexivity]. destruct (keqb k' k) eqn:E3; [|reflexivity].
    apply keqb_eq in E2, E3. subst. rewrite (proj2 (keqb_eq a a) eq_refl) in E. discriminate.
Qed.
End DefaultDict.
