(** Proofs about the string algorithms: searching. *)
From Coq Require Import ZArith List Bool Lia ZifyBool ZifyNat.
From Verif Require Import Py Range_Spec PySeq_Spec Seq_Proofs SeqMut_Proofs Str_Model Str_Spec.
Import ListNotations.
Open Scope Z_scope.

Lemma slen_len s : slen s = len s. Proof. reflexivity. Qed.
Lemma slen_nonneg s : 0 <= slen s. Proof. unfold slen. lia. Qed.
Lemma slen_app a b : slen (a ++ b) = slen a + slen b. Proof. unfold slen. rewrite app_length. lia. Qed.
Lemma slen_nil : slen [] = 0. Proof. reflexivity. Qed.
Lemma slen_cons c s : slen (c :: s) = slen s + 1. Proof. unfold slen. cbn [length]. lia. Qed.
Lemma slen_0 s : slen s = 0 -> s = []. Proof. unfold slen. destruct s; cbn [length]; auto. lia. Qed.
Lemma skipn_skipn_ {A} (l : list A) : forall a b, skipn a (skipn b l) = skipn (b + a) l.
Proof. induction l as [|x l IH]; intros a [|b]; cbn [skipn Nat.add]; auto using skipn_nil. Qed.

(** *** Slicing *)
Lemma sslice_eq s a b :
  sslice s a b =
  firstn (Z.to_nat (win_end (slen s) b - Z.min (slen s) (win_start (slen s) a)))
         (skipn (Z.to_nat (Z.min (slen s) (win_start (slen s) a))) s).
Proof.
  unfold sslice. rewrite py_slice_fwd by (cbn; lia).
  set (A := Z.min (slen s) (win_start (slen s) a)). set (B := win_end (slen s) b).
  assert (HA : 0 <= A <= slen s) by (unfold A, win_start, slen; destruct a; ifs; lia).
  assert (HB : 0 <= B <= slen s) by (unfold B, win_end, slen; destruct b; ifs; lia).
  destruct (Z_le_gt_dec A B) as [L|L].
  - rewrite (firstn_skipn_keep s A B 0) by lia. apply keep_ext. intros x Hx.
    unfold fwd, ppos. change (the_step _) with 1. rewrite Z.mod_1_r. cbn [sl_start sl_stop].
    unfold A, B, win_start, win_end, adjust. cbn zeta. fold (slen s) in *. destruct a, b; ifs; lia.
  - replace (Z.to_nat (B - A)) with O by lia. cbn [firstn]. apply keep_none. intros x Hx.
    unfold fwd, ppos. change (the_step _) with 1. rewrite Z.mod_1_r. cbn [sl_start sl_stop].
    unfold A, B, win_start, win_end, adjust in *. cbn zeta. fold (slen s) in *. destruct a, b; ifs; lia.
Qed.
Lemma slen_sslice s a b :
  slen (sslice s a b) = Z.max 0 (win_end (slen s) b - Z.min (slen s) (win_start (slen s) a)).
Proof.
  rewrite sslice_eq. unfold slen at 1. rewrite firstn_length, skipn_length.
  assert (0 <= win_end (slen s) b <= slen s) by (unfold win_end, slen; destruct b; ifs; lia).
  assert (0 <= win_start (slen s) a) by (unfold win_start, slen; destruct a; ifs; lia).
  unfold slen in *. lia.
Qed.
Lemma sslice_app_l p q : sslice (p ++ q) None (Some (slen p)) = p.
Proof.
  rewrite sslice_eq. unfold win_start, win_end. pose proof (slen_nonneg p). pose proof (slen_nonneg q).
  rewrite slen_app. ifs; try lia. replace (Z.to_nat _) with (length p) by (unfold slen; lia).
  replace (Z.to_nat (Z.min _ 0)) with O by lia. cbn [skipn]. rewrite firstn_app, Nat.sub_diag, firstn_all.
  cbn [firstn]. apply app_nil_r.
Qed.
Lemma sslice_app_r p q : sslice (p ++ q) (Some (slen p)) None = q.
Proof.
  rewrite sslice_eq. unfold win_start, win_end. pose proof (slen_nonneg p). pose proof (slen_nonneg q).
  rewrite slen_app. ifs; try lia. replace (Z.to_nat (Z.min _ _)) with (length p) by (unfold slen; lia).
  rewrite skipn_app, skipn_all, Nat.sub_diag. cbn [skipn app]. apply firstn_all2. unfold slen in *. lia.
Qed.
Lemma sslice_mid s i j : 0 <= i -> i <= j -> j <= slen s ->
  sslice s (Some i) (Some j) = firstn (Z.to_nat (j - i)) (skipn (Z.to_nat i) s).
Proof.
  intros. rewrite sslice_eq. unfold win_start, win_end. ifs; try lia.
  replace (Z.min (slen s) i) with i by lia. now replace (Z.min j (slen s)) with j by lia.
Qed.

(** *** Occurrences *)
Lemma occurs_iff s sub i : occurs s sub i <->
  0 <= i /\ i + slen sub <= slen s /\ firstn (length sub) (skipn (Z.to_nat i) s) = sub.
Proof.
  split.
  - intros (p & q & -> & L). unfold len in L. subst i. rewrite !slen_app. unfold slen.
    split; [lia|]. split; [lia|]. rewrite Nat2Z.id, skipn_app, skipn_all, Nat.sub_diag. cbn [skipn app].
    rewrite firstn_app, Nat.sub_diag, firstn_all. cbn [firstn]. apply app_nil_r.
  - intros (H1 & H2 & E). exists (firstn (Z.to_nat i) s), (skipn (length sub) (skipn (Z.to_nat i) s)).
    split.
    + rewrite <- E at 1. now rewrite (firstn_skipn (length sub)), firstn_skipn.
    + unfold len, slen in *. rewrite firstn_length. lia.
Qed.
Lemma occurs_bounds s sub i : occurs s sub i -> 0 <= i /\ i + slen sub <= slen s.
Proof. rewrite occurs_iff. tauto. Qed.
Lemma zip_eq_true x : forall y, length x = length y -> zip_eq x y = true <-> x = y.
Proof.
  unfold zip_eq. induction x as [|a x IH]; intros [|b y] L; cbn in *; try discriminate; [tauto|].
  injection L as L. rewrite andb_true_iff, Z.eqb_eq, (IH y L). split; [intros [-> ->]; auto|intro E; injection E; auto].
Qed.
Lemma match_at_true s i sub : 0 <= i -> i + slen sub <= slen s -> match_at s i sub = true <-> occurs s sub i.
Proof.
  intros H1 H2. unfold match_at. pose proof (slen_nonneg sub). rewrite sslice_mid by lia.
  replace (Z.to_nat (i + slen sub - i)) with (length sub) by (unfold slen; lia).
  rewrite zip_eq_true, occurs_iff; [tauto|].
  rewrite firstn_length, skipn_length. unfold slen in *. lia.
Qed.
Lemma occurs_window s sub A B i : 0 <= A -> A <= B -> B <= slen s ->
  occurs (firstn (Z.to_nat (B - A)) (skipn (Z.to_nat A) s)) sub i <-> occurs_in s sub A B (A + i).
Proof.
  intros H1 H2 H3. unfold occurs_in. rewrite !occurs_iff. pose proof (slen_nonneg sub).
  assert (L : slen (firstn (Z.to_nat (B - A)) (skipn (Z.to_nat A) s)) = B - A)
    by (unfold slen in *; rewrite firstn_length, skipn_length; lia).
  rewrite L. fold (slen sub). change (len sub) with (slen sub).
  assert (E : 0 <= i -> i + slen sub <= B - A ->
    firstn (length sub) (skipn (Z.to_nat i) (firstn (Z.to_nat (B - A)) (skipn (Z.to_nat A) s)))
    = firstn (length sub) (skipn (Z.to_nat (A + i)) s)).
  { intros. rewrite skipn_firstn_comm, firstn_firstn, skipn_skipn_.
    replace (Nat.min _ _) with (length sub) by (unfold slen in *; lia). do 2 f_equal. lia. }
  split.
  - intros (? & ? & K). rewrite E in K by lia. repeat split; auto; lia.
  - intros ((? & ? & K) & ? & ?). repeat split; try lia. rewrite E by lia. auto.
Qed.

(** *** Scanning positions *)
Lemma range_up k : py_range 0 k 1 = map Z.of_nat (seq 0 (Z.to_nat k)).
Proof.
  unfold py_range, range_count. cbn [Z.ltb]. rewrite Z.div_1_r.
  replace (Z.to_nat _) with (Z.to_nat k) by (change (0 <? 1) with true; cbn iota; lia).
  apply map_ext. intros. lia.
Qed.
Lemma range_down k : py_range k (-1) (-1) = map (fun j => k - Z.of_nat j) (seq 0 (Z.to_nat (k + 1))).
Proof.
  unfold py_range, range_count. change (0 <? -1) with false. cbn iota. change (- -1) with 1. rewrite Z.div_1_r.
  replace (Z.to_nat _) with (Z.to_nat (k + 1)) by lia. apply map_ext. intros. lia.
Qed.
Lemma first_match_pos pts sub st l :
  first_match pts sub st l = match first_pos pts sub l with Some i => st + i | None => -1 end.
Proof. induction l as [|i l IH]; cbn [first_match first_pos]; auto. now destruct (match_at pts i sub). Qed.
Lemma first_pos_seq s sub (f : nat -> Z) n : forall k,
  match first_pos s sub (map f (seq k n)) with
  | Some i => exists j, (k <= j < k + n)%nat /\ i = f j /\ match_at s i sub = true
              /\ forall j', (k <= j' < j)%nat -> match_at s (f j') sub = false
  | None => forall j, (k <= j < k + n)%nat -> match_at s (f j) sub = false
  end.
Proof.
  induction n as [|n IH]; intro k; cbn [seq map first_pos].
  - intros; lia.
  - destruct (match_at s (f k) sub) eqn:M.
    + exists k. repeat split; auto; lia.
    + specialize (IH (S k)). destruct (first_pos s sub (map f (seq (S k) n))) as [i|].
      * destruct IH as (j & ? & ? & ? & K). exists j. repeat split; auto; try lia.
        intros j' ?. destruct (Nat.eq_dec j' k) as [->|]; auto. apply K. lia.
      * intros j ?. destruct (Nat.eq_dec j k) as [->|]; auto. apply IH. lia.
Qed.
Lemma first_pos_up s sub :
  match first_pos s sub (py_range 0 (1 + slen s - slen sub) 1) with
  | Some i => occurs s sub i /\ forall j, occurs s sub j -> i <= j
  | None => forall j, ~ occurs s sub j
  end.
Proof.
  rewrite range_up. pose proof (first_pos_seq s sub Z.of_nat (Z.to_nat (1 + slen s - slen sub)) 0) as H.
  destruct (first_pos _ _ _) as [i|].
  - destruct H as (j & ? & -> & M & K). split; [apply match_at_true; auto; lia|].
    intros j' O. pose proof (occurs_bounds _ _ _ O). destruct (Z_le_gt_dec (Z.of_nat j) j'); auto. exfalso.
    specialize (K (Z.to_nat j') ltac:(lia)). rewrite Z2Nat.id in K by lia.
    apply match_at_true in O; try lia. congruence.
  - intros j O. pose proof (occurs_bounds _ _ _ O).
    specialize (H (Z.to_nat j) ltac:(lia)). rewrite Z2Nat.id in H by lia.
    apply match_at_true in O; try lia. congruence.
Qed.
Lemma first_pos_down s sub :
  match first_pos s sub (py_range (slen s - slen sub) (-1) (-1)) with
  | Some i => occurs s sub i /\ forall j, occurs s sub j -> j <= i
  | None => forall j, ~ occurs s sub j
  end.
Proof.
  rewrite range_down. set (k := slen s - slen sub).
  pose proof (first_pos_seq s sub (fun j => k - Z.of_nat j) (Z.to_nat (k + 1)) 0) as H.
  destruct (first_pos _ _ _) as [i|].
  - destruct H as (j & ? & -> & M & K). split; [apply match_at_true; auto; lia|].
    intros j' O. pose proof (occurs_bounds _ _ _ O). destruct (Z_le_gt_dec j' (k - Z.of_nat j)); auto. exfalso.
    specialize (K (Z.to_nat (k - j')) ltac:(lia)). replace (k - _) with j' in K by lia.
    apply match_at_true in O; try lia. congruence.
  - intros j O. pose proof (occurs_bounds _ _ _ O).
    specialize (H (Z.to_nat (k - j)) ltac:(lia)). cbn beta in H. replace (k - _) with j in H by lia.
    apply match_at_true in O; try lia. congruence.
Qed.

(** *** find, rfind *)
Definition bound_ok (n : Z) (x : option Z) : Prop := match x with None => True | Some x => - n <= x end.

Lemma occurs_nil s i : occurs s [] i <-> 0 <= i <= slen s.
Proof.
  rewrite occurs_iff. cbn [length firstn]. rewrite slen_nil. split; [lia|]. intro. repeat split; lia.
Qed.
Lemma find_correct s sub a b (fr : bool) : bound_ok (slen s) a -> bound_ok (slen s) b ->
  (if fr then is_rfind else is_find) s sub (win_start (slen s) a) (win_end (slen s) b) (find_ s sub a b fr).
Proof.
  intros Ba Bb. unfold find_. cbn zeta.
  set (st := match a with None => 0 | Some x => if x <? 0 then x + slen s else x end).
  set (e := match b with None => slen s | Some x => if x <? 0 then x + slen s else x end).
  assert (Hst : win_start (slen s) a = st /\ 0 <= st)
    by (unfold st, win_start, bound_ok in *; destruct a; ifs; lia).
  assert (He : win_end (slen s) b = Z.min e (slen s) /\ 0 <= e)
    by (unfold e, win_end, bound_ok in *; pose proof (slen_nonneg s); destruct b; ifs; lia).
  destruct Hst as [-> Hst]. destruct He as [-> He]. clearbody st e. clear a b Ba Bb.
  set (E := Z.min e (slen s)). set (A := Z.min (slen s) st).
  assert (Hm : (if negb (st =? 0) || negb (e =? slen s) then sslice s (Some st) (Some e) else s)
               = firstn (Z.to_nat (E - A)) (skipn (Z.to_nat A) s)).
  { destruct (negb (st =? 0) || negb (e =? slen s)) eqn:C.
    - rewrite sslice_eq. unfold win_start, win_end. ifs; try lia. reflexivity.
    - unfold E, A. replace (Z.to_nat (Z.min (slen s) st)) with O by lia. cbn [skipn].
      symmetry. apply firstn_all2. unfold slen in *. lia. }
  rewrite Hm. set (m := firstn (Z.to_nat (E - A)) (skipn (Z.to_nat A) s)).
  assert (Lm : slen m = Z.max 0 (E - A)).
  { unfold m, slen in *. rewrite firstn_length, skipn_length. unfold E, A, slen in *. lia. }
  pose proof (slen_nonneg s). pose proof (slen_nonneg sub).
  destruct (slen sub =? 0) eqn:S0.
  - apply Z.eqb_eq, slen_0 in S0. subst sub. clear Hm.
    destruct ((slen m =? 0) && (Z.min (slen s) (Z.max e 0) <? st)) eqn:C.
    + assert (K : forall j, ~ occurs_in s [] st E j).
      { intros j (_ & ? & ?). unfold len in *. cbn [length] in *. unfold E in *. lia. }
      destruct fr; right; auto.
    + assert (st <= E) by (unfold E, A in *; lia).
      destruct fr; left; unfold occurs_in; rewrite occurs_nil; unfold len; cbn [length].
      * split; [unfold E in *; lia|]. intros j (? & ?). unfold E in *. lia.
      * split; [unfold E in *; lia|]. intros j (? & ?). lia.
  - destruct (Z_le_gt_dec st E) as [L|L].
    + assert (A = st) by (unfold A, E in *; lia).
      assert (W : forall i, occurs m sub i <-> occurs_in s sub st E (st + i)).
      { intro i. unfold m. rewrite occurs_window by (unfold E, A in *; lia). now replace A with st by lia. }
      rewrite first_match_pos. destruct fr.
      * pose proof (first_pos_down m sub) as F. destruct (first_pos _ _ _) as [i|].
        -- destruct F as (O & K). left. split; [now apply W|]. intros j J.
           specialize (K (j - st)). rewrite W in K. replace (st + (j - st)) with j in K by lia. specialize (K J). lia.
        -- right. split; auto. intros j J. apply (F (j - st)). apply W. now replace (st + (j - st)) with j by lia.
      * replace (slen m - slen sub + 1) with (1 + slen m - slen sub) by lia.
        pose proof (first_pos_up m sub) as F. destruct (first_pos _ _ _) as [i|].
        -- destruct F as (O & K). left. split; [now apply W|]. intros j J.
           specialize (K (j - st)). rewrite W in K. replace (st + (j - st)) with j in K by lia. specialize (K J). lia.
        -- right. split; auto. intros j J. apply (F (j - st)). apply W. now replace (st + (j - st)) with j by lia.
    + assert (K : forall j, ~ occurs_in s sub st E j).
      { intros j (_ & ? & ?). change (len sub) with (slen sub) in *. lia. }
      assert (slen m = 0) by (unfold A, E in *; lia).
      destruct fr; right; (split; [|auto]).
      * rewrite range_down. replace (Z.to_nat _) with O by lia. reflexivity.
      * rewrite range_up. replace (Z.to_nat _) with O by lia. reflexivity.
Qed.
(** the empty substring, with any bounds whose window starts at the start *)
Lemma find_empty s a b (fr : bool) : win_start (slen s) a = 0 ->
  (if fr then is_rfind else is_find) s [] 0 (win_end (slen s) b) (find_ s [] a b fr).
Proof.
  intros Hs. unfold find_. cbn zeta. rewrite slen_nil. cbn [Z.eqb].
  set (st := match a with None => 0 | Some x => if x <? 0 then x + slen s else x end).
  set (e := match b with None => slen s | Some x => if x <? 0 then x + slen s else x end).
  pose proof (slen_nonneg s).
  assert (Hst : st <= 0) by (unfold st, win_start in *; destruct a; ifs; lia).
  assert (He : win_end (slen s) b = Z.max (Z.min e (slen s)) 0) by (unfold e, win_end; destruct b; ifs; lia).
  replace (Z.min (slen s) (Z.max e 0) <? st) with false by (symmetry; apply Z.ltb_ge; lia). rewrite andb_false_r, He.
  destruct fr; left; unfold occurs_in; rewrite occurs_nil; unfold len; cbn [length].
  - split; [lia|]. intros j (? & ?). lia.
  - split; [lia|]. intros j (? & ?). lia.
Qed.
Lemma find_spec s sub a b : bound_ok (slen s) a -> bound_ok (slen s) b ->
  is_find s sub (win_start (slen s) a) (win_end (slen s) b) (m_find s sub a b).
Proof. exact (find_correct s sub a b false). Qed.
Lemma rfind_spec s sub a b : bound_ok (slen s) a -> bound_ok (slen s) b ->
  is_rfind s sub (win_start (slen s) a) (win_end (slen s) b) (m_rfind s sub a b).
Proof. exact (find_correct s sub a b true). Qed.
Lemma index_spec s sub a b : bound_ok (slen s) a -> bound_ok (slen s) b ->
  is_index (is_find s sub (win_start (slen s) a) (win_end (slen s) b)) (m_index s sub a b).
Proof.
  intros Ha Hb. pose proof (find_spec s sub a b Ha Hb) as F. unfold m_index. cbn zeta.
  destruct (m_find s sub a b =? -1) eqn:E; cbn.
  - split; auto. apply Z.eqb_eq in E. now rewrite <- E.
  - split; auto. lia.
Qed.
Lemma rindex_spec s sub a b : bound_ok (slen s) a -> bound_ok (slen s) b ->
  is_index (is_rfind s sub (win_start (slen s) a) (win_end (slen s) b)) (m_rindex s sub a b).
Proof.
  intros Ha Hb. pose proof (rfind_spec s sub a b Ha Hb) as F. unfold m_rindex. cbn zeta.
  destruct (m_rfind s sub a b =? -1) eqn:E; cbn.
  - split; auto. apply Z.eqb_eq in E. now rewrite <- E.
  - split; auto. lia.
Qed.

(** *** startswith, endswith *)
Lemma unfindable_correct s a b :
  unfindable_range a b (slen s) = (win_end (slen s) b <? win_start (slen s) a).
Proof.
  pose proof (slen_nonneg s). unfold unfindable_range, win_start, win_end. destruct a as [a|]; destruct b as [b|]; ifs; lia.
Qed.
Lemma sslice_window s a b : win_start (slen s) a <= win_end (slen s) b ->
  sslice s a b = firstn (Z.to_nat (win_end (slen s) b - win_start (slen s) a)) (skipn (Z.to_nat (win_start (slen s) a)) s)
  /\ 0 <= win_start (slen s) a /\ win_end (slen s) b <= slen s.
Proof.
  intro H. pose proof (slen_nonneg s).
  assert (0 <= win_start (slen s) a) by (unfold win_start; destruct a; ifs; lia).
  assert (win_end (slen s) b <= slen s) by (unfold win_end; destruct b; ifs; lia).
  split; auto. rewrite sslice_eq. now replace (Z.min (slen s) (win_start (slen s) a)) with (win_start (slen s) a) by lia.
Qed.
Lemma prefix_occurs m p : slen p <= slen m -> zip_eq (sslice m None (Some (slen p))) p = true <-> occurs m p 0.
Proof.
  intro H. pose proof (slen_nonneg p). rewrite occurs_iff. rewrite zip_eq_true.
  - rewrite sslice_eq. unfold win_start, win_end. ifs; try lia.
    replace (Z.to_nat (Z.min (slen m) 0)) with O by lia. change (Z.to_nat 0) with O. cbn [skipn].
    replace (Z.to_nat _) with (length p) by (unfold slen in *; lia). split; [intro; repeat split; auto; lia|tauto].
  - apply Nat2Z.inj. fold (slen (sslice m None (Some (slen p)))). rewrite slen_sslice. unfold win_start, win_end, slen in *. ifs; lia.
Qed.
Lemma suffix_occurs m p : 0 < slen p -> slen p <= slen m ->
  zip_eq (sslice m (Some (- slen p)) None) p = true <-> occurs m p (slen m - slen p).
Proof.
  intros H0 H. rewrite occurs_iff. rewrite zip_eq_true.
  - rewrite sslice_eq. unfold win_start, win_end. ifs; try lia.
    replace (Z.min (slen m) _) with (slen m - slen p) by lia.
    rewrite firstn_all2 by (rewrite skipn_length; unfold slen in *; lia).
    rewrite firstn_all2 by (rewrite skipn_length; unfold slen in *; lia).
    split; [intro; repeat split; auto; lia|tauto].
  - apply Nat2Z.inj. fold (slen (sslice m (Some (- slen p)) None)). rewrite slen_sslice. unfold win_start, win_end, slen in *. ifs; lia.
Qed.
Lemma window_full s : win_start (slen s) None = 0 /\ win_end (slen s) None = slen s.
Proof. auto. Qed.
Lemma occurs_in_full s sub i : occurs_in s sub 0 (slen s) i <-> occurs s sub i.
Proof.
  unfold occurs_in. split; [tauto|]. intro O. pose proof (occurs_bounds _ _ _ O). repeat split; auto; change (len sub) with (slen sub); lia.
Qed.
Lemma startswith1_correct s p a b :
  m_startswith1 s p a b = true <->
  occurs_in s p (win_start (slen s) a) (win_end (slen s) b) (win_start (slen s) a).
Proof.
  unfold m_startswith1. cbn zeta.
  set (body := fun matchable => if slen matchable <? slen p then false else zip_eq (sslice matchable None (Some (slen p))) p).
  assert (B : forall m, body m = true <-> occurs m p 0).
  { intro m. unfold body. destruct (slen m <? slen p) eqn:L.
    - split; [discriminate|]. intro O. apply occurs_bounds in O. lia.
    - apply prefix_occurs. lia. }
  change ((if is_none a && is_none b then body s else if unfindable_range a b (slen s) then false else body (sslice s a b)) = true
          <-> occurs_in s p (win_start (slen s) a) (win_end (slen s) b) (win_start (slen s) a)).
  destruct (is_none a && is_none b) eqn:N.
  - destruct a, b; try discriminate. rewrite B. cbn [win_start win_end]. now rewrite occurs_in_full.
  - rewrite unfindable_correct. destruct (win_end (slen s) b <? win_start (slen s) a) eqn:U.
    + split; [discriminate|]. intros (_ & _ & K). change (len p) with (slen p) in K. pose proof (slen_nonneg p). lia.
    + destruct (sslice_window s a b ltac:(lia)) as (-> & ? & ?). rewrite B, occurs_window by lia.
      now rewrite Z.add_0_r.
Qed.
Lemma endswith1_correct s p a b :
  m_endswith1 s p a b = true <->
  occurs_in s p (win_start (slen s) a) (win_end (slen s) b) (win_end (slen s) b - slen p).
Proof.
  unfold m_endswith1. cbn zeta. pose proof (slen_nonneg s). pose proof (slen_nonneg p).
  assert (Hs : 0 <= win_start (slen s) a) by (unfold win_start; destruct a; ifs; lia).
  assert (He : 0 <= win_end (slen s) b <= slen s) by (unfold win_end; destruct b; ifs; lia).
  destruct (slen p =? 0) eqn:P0.
  - apply Z.eqb_eq, slen_0 in P0. subst p. rewrite unfindable_correct. unfold occurs_in. rewrite occurs_nil.
    rewrite slen_nil. change (len []) with 0. rewrite negb_true_iff, Z.ltb_ge. lia.
  - assert (B : forall m, (if slen m <? slen p then false else zip_eq (sslice m (Some (- slen p)) None) p) = true
                          <-> occurs m p (slen m - slen p)).
    { intro m. destruct (slen m <? slen p) eqn:L.
      - split; [discriminate|]. intro O. apply occurs_bounds in O. lia.
      - apply suffix_occurs; lia. }
    rewrite B. destruct (is_none a && is_none b) eqn:N.
    + destruct a, b; try discriminate. cbn [win_start win_end]. now rewrite occurs_in_full.
    + destruct (Z_le_gt_dec (win_start (slen s) a) (win_end (slen s) b)) as [L|L].
      * rewrite slen_sslice. destruct (sslice_window s a b ltac:(lia)) as (-> & ? & ?).
        rewrite occurs_window by lia.
        match goal with |- occurs_in _ _ _ _ ?x <-> occurs_in _ _ _ _ ?y => replace x with y by lia end. tauto.
      * assert (E0 : slen (sslice s a b) = 0) by (rewrite slen_sslice; lia).
        split.
        -- intro O. apply occurs_bounds in O. lia.
        -- intros (_ & K & _). lia.
Qed.
Lemma startswith_correct s ps a b :
  m_startswith s ps a b = true <->
  exists p, In p ps /\ occurs_in s p (win_start (slen s) a) (win_end (slen s) b) (win_start (slen s) a).
Proof.
  unfold m_startswith. rewrite existsb_exists. split; intros (p & I & H); exists p; (split; [auto|]); now apply startswith1_correct.
Qed.
Lemma endswith_correct s ps a b :
  m_endswith s ps a b = true <->
  exists p, In p ps /\ occurs_in s p (win_start (slen s) a) (win_end (slen s) b) (win_end (slen s) b - slen p).
Proof.
  unfold m_endswith. rewrite existsb_exists. split; intros (p & I & H); exists p; (split; [auto|]); now apply endswith1_correct.
Qed.
Lemma contains_correct s sub : m_contains s sub = true <-> exists i, occurs s sub i.
Proof.
  unfold m_contains. cbn zeta. rewrite existsb_exists, range_up. pose proof (slen_nonneg sub).
  assert (Z : forall i, 0 <= i -> i + slen sub <= slen s ->
     zip_eq sub (sslice s (Some i) (Some (i + slen sub))) = true <-> occurs s sub i).
  { intros i H1 H2. rewrite sslice_mid by lia. replace (Z.to_nat (i + slen sub - i)) with (length sub) by (unfold slen; lia).
    rewrite zip_eq_true, occurs_iff.
    - split; [intro E; rewrite <- E; auto|intros (_ & _ & E); auto].
    - rewrite firstn_length, skipn_length. unfold slen in *. lia. }
  split.
  - intros (i & I & M). apply in_map_iff in I. destruct I as (k & <- & K). apply in_seq in K.
    exists (Z.of_nat k). apply Z; auto; lia.
  - intros (i & O). pose proof (occurs_bounds _ _ _ O). exists i. split.
    + apply in_map_iff. exists (Z.to_nat i). rewrite in_seq. lia.
    + apply Z; auto; lia.
Qed.

(** *** count *)
Lemma apart_mono s sub a a' b l : a' <= a -> apart s sub a b l -> apart s sub a' b l.
Proof. destruct l as [|i l]; cbn [apart]; auto. intros ? ((? & ? & ?) & ?). repeat split; auto; lia. Qed.
Lemma count_loop_correct s sub : 0 < slen sub -> forall fuel pos total, 0 <= pos ->
  Z.of_nat fuel > slen s - pos -> (1 <= fuel)%nat ->
  exists n, count_loop fuel s sub total pos = Ok (total + n)
  /\ (exists l, apart s sub pos (slen s) l /\ Z.of_nat (length l) = n)
  /\ forall l, apart s sub pos (slen s) l -> Z.of_nat (length l) <= n.
Proof.
  intro P. induction fuel as [|fuel IH]; intros pos total Hp Hf H1; [lia|]. cbn [count_loop].
  pose proof (find_spec s sub (Some pos) None) as F. cbn [bound_ok] in F.
  specialize (F ltac:(pose proof (slen_nonneg s); lia) I). cbn [win_end] in F.
  replace (win_start (slen s) (Some pos)) with pos in F by (unfold win_start; ifs; lia).
  destruct F as [(O & Least)|(E & None_)].
  - pose proof O as O'. destruct O as (O & ? & ?). pose proof (occurs_bounds _ _ _ O). change (len sub) with (slen sub) in *.
    set (i := m_find s sub (Some pos) None) in *. replace (i =? -1) with false by lia.
    destruct (IH (i + slen sub) (total + 1) ltac:(lia) ltac:(lia) ltac:(lia)) as (n & -> & (l & Al & Ll) & Max).
    exists (n + 1). split; [f_equal; lia|]. split.
    + exists (i :: l). split; [split; auto|]. cbn [length]. lia.
    + intros [|j l'] A; cbn [length]; [pose proof (Max [] I); cbn [length] in *; lia|].
      destruct A as (Oj & A). pose proof (Least j Oj).
      specialize (Max l'). assert (apart s sub (i + slen sub) (slen s) l').
      { eapply apart_mono; [|exact A]. change (len sub) with (slen sub). lia. }
      specialize (Max H4). lia.
  - rewrite E. cbn [Z.eqb Pos.eqb]. exists 0. split; [f_equal; lia|]. split.
    + exists []. split; [exact I|reflexivity].
    + intros [|j l] A; [cbn; lia|]. destruct A as (A & _). destruct (None_ j A).
Qed.
Lemma apart_window s sub A B : 0 <= A -> A <= B -> B <= slen s -> forall l c, 0 <= c ->
  apart (firstn (Z.to_nat (B - A)) (skipn (Z.to_nat A) s)) sub c (B - A) l <-> apart s sub (A + c) B (map (fun i => A + i) l).
Proof.
  intros HA HB Hs. induction l as [|i l IH]; intros c Hc; cbn [apart map]; [tauto|].
  unfold occurs_in at 1. rewrite occurs_window by lia. pose proof (slen_nonneg sub).
  split.
  - intros (((O & ? & ?) & ? & ?) & R). change (len sub) with (slen sub) in *. split; [repeat split; auto; change (len sub) with (slen sub); lia|].
    apply IH in R; [|lia]. now rewrite <- Z.add_assoc.
  - intros ((O & ? & ?) & R). change (len sub) with (slen sub) in *. split; [repeat split; auto; change (len sub) with (slen sub); lia|].
    apply IH; [lia|]. now rewrite Z.add_assoc.
Qed.
Lemma count_correct s sub a b :
  (slen sub = 0 -> win_start (slen s) a <= win_end (slen s) b) ->
  exists n, m_count s sub a b = Ok n /\ is_count s sub (win_start (slen s) a) (win_end (slen s) b) n.
Proof.
  intro H0. unfold m_count, is_count. cbn zeta. change (len sub) with (slen sub). pose proof (slen_nonneg sub).
  destruct (slen sub =? 0) eqn:E0.
  - exists (slen (sslice s a b) + 1). split; auto. rewrite slen_sslice. specialize (H0 ltac:(lia)).
    assert (win_end (slen s) b <= slen s) by (pose proof (slen_nonneg s); unfold win_end; destruct b; ifs; lia). lia.
  - destruct (count_loop_correct (sslice s a b) sub ltac:(lia) (S (length (sslice s a b))) 0 0 ltac:(lia) ltac:(unfold slen; lia) ltac:(lia))
      as (n & -> & (l & Al & Ll) & Max).
    exists n. split; [f_equal; lia|].
    destruct (Z_le_gt_dec (win_start (slen s) a) (win_end (slen s) b)) as [L|L].
    + rewrite slen_sslice in Al, Max. destruct (sslice_window s a b L) as (E & ? & ?).
      rewrite E in Al, Max. set (A := win_start (slen s) a) in *. set (B := win_end (slen s) b) in *.
      replace (Z.max 0 _) with (B - A) in Al, Max by lia.
      split.
      * exists (map (fun i => A + i) l). rewrite map_length. split; auto.
        apply apart_window in Al; try lia. now rewrite Z.add_0_r in Al.
      * intros l' A'. specialize (Max (map (fun i => i - A) l')). rewrite map_length in Max. apply Max.
        apply apart_window; try lia. rewrite Z.add_0_r, map_map.
        rewrite (map_ext _ (fun i => i)) by (intro; lia). now rewrite map_id.
    + assert (E : slen (sslice s a b) = 0).
      { rewrite slen_sslice. assert (win_end (slen s) b <= slen s) by (pose proof (slen_nonneg s); unfold win_end; destruct b; ifs; lia). lia. }
      assert (Em : forall l', apart s sub (win_start (slen s) a) (win_end (slen s) b) l' -> l' = []).
      { intros [|i l'] A'; auto. destruct A' as ((_ & ? & ?) & _). change (len sub) with (slen sub) in *. lia. }
      assert (l = []).
      { destruct l as [|i l]; auto. destruct Al as ((_ & ? & K) & _). rewrite E in K. change (len sub) with (slen sub) in *. lia. }
      subst l. split; [exists []; split; [exact I|auto]|]. intros l' A'. rewrite (Em l' A'). auto.
Qed.
