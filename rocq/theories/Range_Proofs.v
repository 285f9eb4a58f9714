From Coq Require Import ZArith List Bool Lia.
From Coq Require Import ZifyBool ZifyNat.
From Verif Require Import Py IntOps_Model IntOps_Proofs Range_Model Range_Spec.
Import ListNotations.
Open Scope Z_scope.

(** The contents, explicitly. *)
Fixpoint prog_list (start step : Z) (n : nat) : list Z :=
  match n with O => [] | S n => start :: prog_list (start + step) step n end.

Lemma prog_length n : forall a s, length (prog_list a s n) = n.
Proof. induction n; intros; cbn; auto. Qed.
Lemma prog_nth n : forall a s i, (i < n)%nat -> nth_error (prog_list a s n) i = Some (a + s * Z.of_nat i).
Proof.
  induction n; intros a s i H; [lia|]. destruct i; cbn [nth_error prog_list].
  - f_equal. lia.
  - rewrite IHn by lia. f_equal. lia.
Qed.

Lemma list_ext {A} (l l' : list A) : length l = length l' ->
  (forall i, (i < length l)%nat -> nth_error l i = nth_error l' i) -> l = l'.
Proof.
  revert l'. induction l as [|x l IH]; intros [|y l'] L H; cbn in L; try discriminate; auto.
  pose proof (H 0%nat ltac:(cbn; lia)) as H0. cbn in H0. injection H0 as ->. f_equal.
  apply IH; [lia|]. intros i Hi. apply (H (S i)). cbn; lia.
Qed.

Lemma before_mono step a stop i j : step <> 0 -> 0 <= i <= j ->
  before step (a + step * j) stop -> before step (a + step * i) stop.
Proof. unfold before. destruct (0 <? step) eqn:?; nia. Qed.

Lemma is_range_unique a b s l l' : s <> 0 -> is_range a b s l -> is_range a b s l' -> l = l'.
Proof.
  intros S [A B] [A' B'].
  assert (length l = length l').
  { destruct (lt_eq_lt_dec (length l) (length l')) as [[H|H]|H]; auto; exfalso.
    - apply B. apply A'. auto.
    - apply B'. apply A. auto. }
  apply list_ext; auto. intros i Hi. destruct (A i Hi) as [-> _]. destruct (A' i) as [-> _]; auto. lia.
Qed.

(** Number of elements. *)
Definition count_of (a b s : Z) : Z :=
  if 0 <? s then Z.max 0 ((b - a + s - 1) / s) else Z.max 0 ((a - b - s - 1) / - s).

Lemma count_spec a b s k : s <> 0 -> 0 <= k -> before s (a + s * k) b <-> k < count_of a b s.
Proof.
  intros S K. unfold before, count_of. destruct (0 <? s) eqn:?.
  - pose proof (Z.div_mod (b - a + s - 1) s ltac:(lia)).
    pose proof (Z.mod_pos_bound (b - a + s - 1) s ltac:(lia)).
    set (q := (b - a + s - 1) / s) in *. split; intro; nia.
  - pose proof (Z.div_mod (a - b - s - 1) (- s) ltac:(lia)).
    pose proof (Z.mod_pos_bound (a - b - s - 1) (- s) ltac:(lia)).
    set (q := (a - b - s - 1) / - s) in *. split; intro; nia.
Qed.
Lemma count_nonneg a b s : 0 <= count_of a b s.
Proof. unfold count_of. destruct (0 <? s); lia. Qed.

Definition the_list a b s : list Z := prog_list a s (Z.to_nat (count_of a b s)).

Lemma the_list_range a b s : s <> 0 -> is_range a b s (the_list a b s).
Proof.
  intro S. unfold is_range, the_list. rewrite prog_length. pose proof (count_nonneg a b s). split.
  - intros i Hi. rewrite prog_nth by auto. split; auto. apply count_spec; lia.
  - rewrite count_spec by lia. lia.
Qed.
Lemma the_list_length a b s : Z.of_nat (length (the_list a b s)) = count_of a b s.
Proof. unfold the_list. rewrite prog_length. pose proof (count_nonneg a b s). lia. Qed.
Lemma is_range_the a b s l : s <> 0 -> is_range a b s l -> l = the_list a b s.
Proof. intros. eapply is_range_unique; eauto using the_list_range. Qed.

Lemma count_unique a b s k : s <> 0 -> 0 <= k -> ~ before s (a + s * k) b ->
  (k = 0 \/ before s (a + s * (k - 1)) b) -> k = count_of a b s.
Proof.
  intros S K N D. pose proof (count_nonneg a b s).
  rewrite count_spec in N by lia. destruct D as [->|D]; [lia|].
  destruct (Z.eq_dec k 0); [lia|]. rewrite count_spec in D by lia. lia.
Qed.

Lemma div_min width s : 0 < s -> 0 <= width -> 
  let k := width / s + Z.min 1 (width mod s) in
  width <= s * k /\ s * (k - 1) < width + (if width =? 0 then 1 else 0) /\ 0 <= k /\ (width = 0 -> k = 0) /\ (0 < width -> 0 < k /\ s * (k-1) < width).
Proof.
  intros S W k. pose proof (Z.div_mod width s ltac:(lia)). pose proof (Z.mod_pos_bound width s S).
  assert (0 <= width / s) by (apply Z.div_pos; lia).
  subst k. set (q := width / s) in *. set (r := width mod s) in *.
  destruct (width =? 0) eqn:?; repeat split; try nia.
Qed.

Lemma range_len_eq r : r_step r <> 0 -> range_len r = Ok (count_of (r_start r) (r_stop r) (r_step r)).
Proof.
  destruct r as [a b s]. cbn. intro S. unfold range_len. cbn [r_start r_stop r_step].
  destruct (Bool.eqb (0 <? s) (a <? b)) eqn:E; cbn [negb].
  2:{ apply eqb_false_iff in E. f_equal. apply count_unique; try lia.
      unfold before. destruct (0 <? s) eqn:?, (a <? b) eqn:?; try congruence; lia. }
  apply eqb_prop in E. rewrite abs_correct. destruct (s =? 1) eqn:?.
  { f_equal. apply count_unique; try lia; unfold before; replace (0 <? s) with true by lia; lia. }
  rewrite abs_correct, floordiv_ok, mod_ok by lia. cbn [bind]. f_equal.
  pose proof (div_min (Z.abs (b - a)) (Z.abs s) ltac:(lia) ltac:(lia)) as D. cbn zeta in D.
  set (k := Z.abs (b - a) / Z.abs s + Z.min 1 (Z.abs (b - a) mod Z.abs s)) in *.
  destruct D as (D1 & D2 & D3 & D4 & D5).
  apply count_unique; auto; unfold before.
  - destruct (0 <? s) eqn:?; [replace (Z.abs s) with s in * by lia|replace (Z.abs s) with (- s) in * by lia]; lia.
  - destruct (0 <? s) eqn:?.
    + right. replace (Z.abs s) with s in * by lia. lia.
    + destruct (Z.eq_dec a b); [left; apply D4; lia|right]. replace (Z.abs s) with (- s) in * by lia. lia.
Qed.

Lemma iter_loop_eq s b : s <> 0 -> forall n fuel a, n = Z.to_nat (count_of a b s) -> (n < fuel)%nat ->
  iter_loop fuel a b s = Ok (prog_list a s n).
Proof.
  intros S. induction n as [|n IH]; intros fuel a E F; (destruct fuel as [|f]; [lia|]); cbn [iter_loop];
    pose proof (count_nonneg a b s);
    pose proof (count_spec a b s 0 S ltac:(lia)) as C; unfold before in C; 
    replace (a + s * 0) with a in C by lia.
  - replace (if s <? 0 then b <? a else a <? b) with false; auto.
    destruct (s <? 0) eqn:?, (0 <? s) eqn:?; lia.
  - replace (if s <? 0 then b <? a else a <? b) with true.
    + rewrite (IH f (a + s)); [reflexivity| |lia].
      assert (count_of (a + s) b s = count_of a b s - 1); [|lia].
      symmetry. apply count_unique; try lia.
      * replace (a + s + s * (count_of a b s - 1)) with (a + s * count_of a b s) by lia.
        rewrite count_spec by lia. lia.
      * destruct (Z.eq_dec (count_of a b s) 1); [left; lia|right].
        replace (a + s + s * (count_of a b s - 1 - 1)) with (a + s * (count_of a b s - 1)) by lia.
        apply count_spec; lia.
    + destruct (s <? 0) eqn:?, (0 <? s) eqn:?; lia.
Qed.
Lemma range_iter_eq fuel r : r_step r <> 0 ->
  (Z.to_nat (count_of (r_start r) (r_stop r) (r_step r)) < fuel)%nat ->
  range_iter fuel r = Ok (the_list (r_start r) (r_stop r) (r_step r)).
Proof. intros. apply iter_loop_eq; auto. Qed.

Section Props.
  Variables (a b s : Z) (l : list Z).
  Hypothesis Hs : s <> 0.
  Hypothesis R : is_range a b s l.
  Notation r := (mkR a b s).

  Lemma l_the : l = the_list a b s. Proof. now apply is_range_the. Qed.
  Lemma l_len : Z.of_nat (length l) = count_of a b s.
  Proof. rewrite l_the. apply the_list_length. Qed.

  Lemma len_ok : range_len r = Ok (Z.of_nat (length l)).
  Proof. rewrite range_len_eq by auto. now rewrite l_len. Qed.
  Lemma bool_ok : range_bool r = Ok (match l with [] => false | _ => true end).
  Proof. unfold range_bool. rewrite len_ok. cbn [bind]. destruct l; auto. Qed.
  Lemma iter_ok fuel : (length l < fuel)%nat -> range_iter fuel r = Ok l.
  Proof.
    intro F. rewrite range_iter_eq; auto; cbn [r_start r_stop r_step].
    - now rewrite <- l_the.
    - pose proof l_len. lia.
  Qed.
  Lemma getitem_ok i : range_getitem r i = py_getitem l i.
  Proof.
    unfold range_getitem, py_getitem. rewrite len_ok. cbn [bind r_start r_step].
    replace (i + (if i <? 0 then 1 else 0) * Z.of_nat (length l))
      with (if i <? 0 then i + Z.of_nat (length l) else i) by (destruct (i <? 0); lia).
    set (j := if i <? 0 then _ else _). cbn zeta.
    destruct ((j <? 0) || (Z.of_nat (length l) <=? j)) eqn:?; auto.
    destruct R as [N _]. destruct (N (Z.to_nat j)) as [-> _]; [lia|]. f_equal. rewrite Z2Nat.id by lia. lia.
  Qed.

  Lemma in_l x : In x l <-> exists i, 0 <= i < count_of a b s /\ x = a + s * i.
  Proof.
    destruct R as [N _]. pose proof l_len. split.
    - intro H1. apply In_nth_error in H1 as [i Hi].
      assert (i < length l)%nat by (apply nth_error_Some; congruence).
      destruct (N i H0) as [E _]. exists (Z.of_nat i). split; [lia|congruence].
    - intros (i & Hi & ->). destruct (N (Z.to_nat i)) as [E _]; [lia|].
      rewrite Z2Nat.id in E by lia. eapply nth_error_In; eauto.
  Qed.

  Lemma contains_eq x : range_contains r x = Ok (py_contains l x).
  Proof.
    unfold range_contains, py_contains. cbn [r_start r_stop r_step]. rewrite mod_ok by auto. cbn [bind].
    assert (Q : forall c, (c = true <-> In x l) -> c = existsb (Z.eqb x) l).
    { intros c H. destruct (existsb (Z.eqb x) l) eqn:E.
      - apply H. apply existsb_exists in E as (y & I & Y). apply Z.eqb_eq in Y. now subst.
      - destruct c; auto. assert (existsb (Z.eqb x) l = true); [|congruence].
        apply existsb_exists. exists x. split; [now apply H|apply Z.eqb_refl]. }
    assert (W : In x l <-> exists i, 0 <= i /\ x = a + s * i /\ before s x b).
    { rewrite in_l. split; intros (i & Hi & Hx).
      - exists i. split; [lia|]. split; auto. rewrite Hx. apply count_spec; lia.
      - destruct Hx as [Hx B]. exists i. split; [|auto]. split; [auto|]. apply count_spec; auto. now rewrite <- Hx. }
    assert (M : (x - a) mod s = 0 <-> exists i, x = a + s * i).
    { split.
      - intro H. exists ((x - a) / s). pose proof (Z.div_mod (x - a) s Hs). lia.
      - intros (i & ->). replace (a + s * i - a) with (i * s) by lia. apply Z.mod_mul. auto. }
    unfold before in W. destruct (0 <? s) eqn:P; f_equal; apply Q; rewrite W, !andb_true_iff, Z.eqb_eq, M.
    - split.
      + intros [[A B] (i & E)]. exists i. split; [nia|]. lia.
      + intros (i & Hi & E & B). split; [split; nia|]. eauto.
    - split.
      + intros [[A B] (i & E)]. exists i. split; [nia|]. lia.
      + intros (i & Hi & E & B). split; [split; nia|]. eauto.
  Qed.

  Lemma index_from_prog n : forall a k x, 
    index_from (prog_list a s n) x k =
    if existsb (Z.eqb x) (prog_list a s n) then Ok (k + (x - a) / s) else Err ValueError.
  Proof.
    induction n as [|n IH]; intros c k x; cbn [prog_list index_from existsb]; auto.
    destruct (c =? x) eqn:E.
    - replace (x =? c) with true by lia. cbn [orb]. replace (x - c) with 0 by lia.
      rewrite Z.div_0_l by auto. f_equal. lia.
    - replace (x =? c) with false by lia. cbn [orb]. rewrite IH.
      destruct (existsb _ _); auto. f_equal.
      replace (x - c) with (x - (c + s) + 1 * s) by lia. rewrite Z.div_add by auto. lia.
  Qed.

  Lemma index_ok x : range_index r x = py_index l x.
  Proof.
    unfold range_index. rewrite contains_eq. cbn [bind r_start r_step].
    unfold py_index, py_contains. rewrite l_the. unfold the_list. rewrite index_from_prog.
    destruct (existsb _ _); auto. rewrite floordiv_ok by auto. f_equal.
  Qed.

  Lemma filter_prog n : forall a x, length (filter (Z.eqb x) (prog_list a s n))
    = if existsb (Z.eqb x) (prog_list a s n) then 1%nat else 0%nat.
  Proof.
    induction n as [|n IH]; intros c x; cbn [prog_list filter existsb]; auto.
    destruct (x =? c) eqn:E; cbn [orb length]; auto.
    rewrite IH. destruct (existsb (Z.eqb x) (prog_list (c + s) s n)) eqn:F; auto. exfalso.
    apply existsb_exists in F as (y & I & Y). apply Z.eqb_eq in Y, E. subst y c.
    apply In_nth_error in I as [i Hi].
    assert (i < n)%nat by (rewrite <- (prog_length n (x + s) s); apply nth_error_Some; congruence).
    rewrite prog_nth in Hi by auto. injection Hi as Hi. nia.
  Qed.
  Lemma count_ok x : range_count r x = Ok (py_count l x).
  Proof.
    unfold range_count, py_count. rewrite contains_eq. cbn [bind]. f_equal.
    unfold py_contains. rewrite l_the. unfold the_list. rewrite filter_prog. destruct (existsb _ _); auto.
  Qed.

  Lemma rev_prog n : forall a, rev (prog_list a s n) = prog_list (a + s * (Z.of_nat n - 1)) (- s) n.
  Proof.
    intro c. apply list_ext; [now rewrite rev_length, !prog_length|].
    intros i Hi. rewrite rev_length, prog_length in Hi.
    rewrite (nth_error_nth' _ 0) by now rewrite rev_length, prog_length.
    rewrite rev_nth by now rewrite prog_length. rewrite prog_length.
    rewrite (prog_nth n _ (- s) i Hi). f_equal. 
    rewrite (nth_error_nth _ _ 0 (prog_nth n c s (n - S i) ltac:(lia))). nia.
  Qed.

  Lemma reversed_ok fuel : (length l < fuel)%nat -> range_reversed_list fuel r = Ok (rev l).
  Proof.
    intro F. pose proof l_len as L. pose proof (count_nonneg a b s) as CN.
    assert (G : forall a' b' s', s' = - s -> a' = a + s * (count_of a b s - 1) -> before (- s) a b' -> ~ before (- s) (a - s) b' ->
              range_iter fuel (mkR a' b' s') = Ok (rev l)).
    { unfold before. intros a' b' s' -> -> B1 B2. rewrite range_iter_eq; cbn [r_start r_stop r_step]; [|lia|].
      - f_equal. rewrite l_the. unfold the_list. rewrite rev_prog. rewrite Z2Nat.id by auto.
        f_equal. f_equal. symmetry. apply count_unique; try lia; unfold before.
        + destruct (0 <? - s) eqn:?; nia.
        + destruct (Z.eq_dec (count_of a b s) 0); [left; auto|right]. destruct (0 <? - s) eqn:?; nia.
      - assert (count_of a b s = count_of (a + s * (count_of a b s - 1)) b' (- s)); [|lia].
        apply count_unique; try lia; unfold before.
        + destruct (0 <? - s) eqn:?; nia.
        + destruct (Z.eq_dec (count_of a b s) 0); [left; auto|right]. destruct (0 <? - s) eqn:?; nia. }
    assert (Z0 : count_of a b s = 0 -> Ok [] = Ok (rev l)).
    { intro H. destruct l; [reflexivity|cbn [length] in L; lia]. }
    unfold range_reversed_list, range_reversed. destruct (s <? 1) eqn:?.
    - destruct (a - b <=? 0) eqn:?; cbn [bind].
      + apply Z0. symmetry. apply count_unique; auto; try lia. unfold before.
        replace (0 <? s) with false by lia. lia.
      + rewrite floordiv_ok, mod_ok by lia. cbn [bind].
        pose proof (div_min (a - b) (- s) ltac:(lia) ltac:(lia)) as D. cbn zeta in D.
        set (k := (a - b) / - s + Z.min 1 ((a - b) mod - s)) in *.
        assert (K : k = count_of a b s).
        { destruct D as (D1 & D2 & D3 & D4 & D5). apply count_unique; auto; unfold before;
            replace (0 <? s) with false by lia; [lia|right; lia]. }
        unfold range_init. replace (- s =? 0) with false by lia. cbn [bind].
        destruct D as (D1 & D2 & D3 & D4 & D5).
        apply G; rewrite <- ?K; unfold before; try destruct (0 <? - s) eqn:?; lia.
    - destruct (b - a <=? 0) eqn:?; cbn [bind].
      + apply Z0. symmetry. apply count_unique; auto; try lia. unfold before.
        replace (0 <? s) with true by lia. lia.
      + rewrite floordiv_ok, mod_ok by lia. cbn [bind].
        pose proof (div_min (b - a) s ltac:(lia) ltac:(lia)) as D. cbn zeta in D.
        set (k := (b - a) / s + Z.min 1 ((b - a) mod s)) in *.
        assert (K : k = count_of a b s).
        { destruct D as (D1 & D2 & D3 & D4 & D5). apply count_unique; auto; unfold before;
            replace (0 <? s) with true by lia; [lia|right; lia]. }
        unfold range_init. replace (- s =? 0) with false by lia. cbn [bind].
        destruct D as (D1 & D2 & D3 & D4 & D5).
        apply G; rewrite <- ?K; unfold before; try destruct (0 <? - s) eqn:?; lia.
  Qed.
End Props.

Lemma zip_all_equal_eq x : forall y, length x = length y -> zip_all_equal x y = list_eqb x y.
Proof.
  induction x as [|c x IH]; intros [|d y] L; cbn in L; try discriminate; cbn; auto.
  destruct (c =? d); cbn; auto.
Qed.
Lemma list_eqb_length x : forall y, length x <> length y -> list_eqb x y = false.
Proof. induction x as [|c x IH]; intros [|d y] L; cbn in *; auto; [congruence|]. rewrite IH by lia. apply andb_false_r. Qed.

Lemma range_eq_ok fuel a b s l a' b' s' l' : s <> 0 -> s' <> 0 -> is_range a b s l -> is_range a' b' s' l' ->
  (length l < fuel)%nat -> (length l' < fuel)%nat ->
  range_eq fuel (mkR a b s) (mkR a' b' s') = Ok (list_eqb l l').
Proof.
  intros S S' R R' F F'. unfold range_eq. rewrite (len_ok a b s l), (len_ok a' b' s' l') by auto. cbn [bind].
  destruct (Z.of_nat (length l) =? Z.of_nat (length l')) eqn:E; cbn [negb].
  - rewrite (iter_ok a b s l), (iter_ok a' b' s' l') by auto. cbn [bind]. f_equal. apply zip_all_equal_eq. lia.
  - f_equal. symmetry. apply list_eqb_length. lia.
Qed.
Lemma list_eqb_eq x : forall y, list_eqb x y = true <-> x = y.
Proof.
  induction x as [|c x IH]; intros [|d y]; cbn; try (split; [discriminate|discriminate]); [tauto|].
  rewrite andb_true_iff, Z.eqb_eq, IH. split; [intros [-> ->]; auto|]. intro H. injection H as -> ->. auto.
Qed.

Lemma range_init_ok a b c :
  (forall b', b = Some b' -> c = Some 0 -> range_init a b c = Err ValueError) /\
  (forall r, range_init a b c = Ok r -> r_step r <> 0 /\
    (b = None -> r = mkR 0 a 1) /\ (forall b', b = Some b' -> r = mkR a b' (match c with None => 1 | Some c => c end))).
Proof.
  split.
  - intros b' -> ->. reflexivity.
  - intros r. unfold range_init. destruct b as [b|].
    + destruct c as [c|].
      * destruct (c =? 0) eqn:?; [discriminate|]. intro H. injection H as <-. cbn. split; [lia|].
        split; [discriminate|]. intros b' E. injection E as ->. auto.
      * intro H. injection H as <-. cbn. split; [lia|]. split; [discriminate|]. intros b' E. injection E as ->. auto.
    + intro H. injection H as <-. cbn. split; [lia|]. split; [auto|discriminate].
Qed.
