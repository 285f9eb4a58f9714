From Coq Require Import ZArith List Bool Lia ZifyBool ZifyNat.
From Verif Require Import Py Range_Spec PySeq_Spec Seq_Model Seq_Proofs ArrTuple_Model ArrTuple_Proofs LazySeq_Model LazySeq_Spec.
Import ListNotations.
Open Scope Z_scope.

Lemma upto_items a b : upto a b = items Z (fun x => x) a b. Proof. reflexivity. Qed.
Lemma upto_len a b : len (upto a b) = Z.max 0 (b - a). Proof. unfold len. rewrite upto_items. apply items_length. Qed.
Lemma upto_firstn a b k : Z.of_nat k <= Z.max 0 (b - a) -> firstn k (upto a b) = upto a (a + Z.of_nat k).
Proof. rewrite !upto_items. apply items_firstn. Qed.
Lemma upto_skipn a b k : Z.of_nat k <= Z.max 0 (b - a) -> skipn k (upto a b) = upto (a + Z.of_nat k) b.
Proof. rewrite !upto_items. apply items_skipn. Qed.
Lemma upto_nil a b : b <= a -> upto a b = [].
Proof. intro. unfold upto. now replace (Z.to_nat (b - a)) with O by lia. Qed.
Lemma upto_cons a b : a < b -> upto a b = a :: upto (a + 1) b.
Proof.
  intro H. unfold upto. replace (Z.to_nat (b - a)) with (S (Z.to_nat (b - (a + 1)))) by lia. cbn [seq map]. f_equal; [lia|].
  rewrite <- seq_shift, map_map. apply map_ext. lia.
Qed.
Lemma upto_app a b c : a <= b <= c -> upto a b ++ upto b c = upto a c.
Proof.
  intro H. rewrite <- (firstn_skipn (Z.to_nat (b - a)) (upto a c)), upto_firstn, upto_skipn by lia. do 2 f_equal; lia.
Qed.
Lemma upto_nth a b i : 0 <= i < b - a -> nth_error (upto a b) (Z.to_nat i) = Some (a + i).
Proof. intro. rewrite upto_items. now apply items_nth. Qed.

(** the shape of every reachable state *)
Definition shape (c t : Z) (s : st) : Prop := 0 <= c <= t /\ created s = upto 0 c /\ queue s = upto c t.
Lemma init_shape : shape 0 0 init. Proof. repeat split; lia. Qed.
Lemma queue_shape c t s size : shape c t s -> shape c (Z.max t size) (queue_up_to s size).
Proof.
  intros (H & C & Q). unfold queue_up_to. repeat split; cbn [created queue]; auto; try lia.
  rewrite C, Q, !upto_len. destruct (Z.le_gt_cases size t).
  - rewrite (upto_nil (_ + _)) by lia. rewrite app_nil_r. f_equal. lia.
  - replace (Z.max 0 (c - 0) + Z.max 0 (t - c)) with t by lia. rewrite upto_app by lia. f_equal. lia.
Qed.
Lemma to_upto c t k : 0 <= k <= t - c -> to_ (upto c t) k = upto c (c + k) /\ from_ (upto c t) k = upto (c + k) t.
Proof. intro H. unfold to_, from_. replace (k <? 0) with false by lia. rewrite upto_firstn, upto_skipn by lia. rewrite Z2Nat.id by lia. auto. Qed.
Lemma create_shape c t s size : shape c t s -> 0 <= size -> exists c', shape c' (Z.max t size) (create_up_to s size) /\ c <= c' /\ size <= c'.
Proof.
  intros SH Hs. unfold create_up_to. destruct SH as (H & C & Q). rewrite C, Q, !upto_len.
  assert (SH : shape c (Z.max t size) (if Z.max 0 (t - c) <? size - Z.max 0 (c - 0) then queue_up_to s size else s)).
  { destruct (_ <? _) eqn:E; [now apply queue_shape|]. replace (Z.max t size) with t by lia. repeat split; auto; lia. }
  set (s1 := if _ <? _ then _ else _) in *. clearbody s1. destruct SH as (H1 & C1 & Q1). rewrite C1, Q1.
  replace (size - Z.max 0 (c - 0)) with (size - c) by lia. destruct (Z.le_gt_cases c size).
  - exists size. destruct (to_upto c (Z.max t size) (size - c)) as [-> ->]; [lia|]. split; [|lia].
    repeat split; cbn [created queue]; [lia|lia|rewrite upto_app by lia; f_equal; lia|f_equal; lia].
  - exists (c + Z.max 0 (Z.max t size - c + (size - c))). unfold to_, from_. replace (size - c <? 0) with true by lia. rewrite upto_len.
    set (k := Z.to_nat _). assert (K : Z.of_nat k = Z.max 0 (Z.max t size - c + (size - c))) by lia.
    rewrite upto_firstn, upto_skipn by lia. split; [|lia]. repeat split; cbn [created queue]; [lia|lia|rewrite upto_app by lia; f_equal; lia|f_equal; lia].
Qed.
Lemma prefix_shape c t s m : shape c t s -> 0 <= m -> exists t', fst (prefix s m) = upto 0 m /\ shape c t' (snd (prefix s m)) /\ t' = (if m <? c then t else Z.max t m).
Proof.
  intros SH M. pose proof SH as (H & C & Q). unfold prefix. rewrite C, upto_len. replace (Z.max 0 (c - 0)) with c by lia. destruct (m <? c) eqn:E; cbn [fst snd].
  - exists t. split; [|auto]. destruct (to_upto 0 c m) as [-> _]; [lia|]. f_equal; lia.
  - exists (Z.max t m). pose proof (queue_shape c t s m SH) as SH'. split; [|split; [exact SH'|reflexivity]]. destruct SH' as (H' & C' & Q'). rewrite C', Q', upto_len.
    replace (m - Z.max 0 (c - 0)) with (m - c) by lia. destruct (to_upto c (Z.max t m) (m - c)) as [-> _]; [lia|]. rewrite upto_app by lia. f_equal; lia.
Qed.
Lemma getitem_map {A B} (f : A -> B) l i : py_getitem (map f l) i = map_res f (py_getitem l i).
Proof. unfold py_getitem. rewrite map_length. cbv zeta. destruct (_ || _); [reflexivity|]. rewrite nth_error_map. now destruct (nth_error l _). Qed.
Lemma slice_map {A B} (f : A -> B) l sl : py_slice (map f l) sl = map_res (map f) (py_slice l sl).
Proof.
  unfold py_slice. rewrite map_length. destruct (py_indices sl _) as [[[a b] s]|e]; [|reflexivity]. cbn [bind map_res]. f_equal.
  unfold pick. induction (py_range a b s) as [|i r IH]; [reflexivity|]. cbn [flat_map]. rewrite map_app, <- IH. f_equal. rewrite nth_error_map. now destruct (nth_error l _).
Qed.
(** reading below the created part does not depend on how much is created *)
Lemma getitem_prefix c n i : 0 <= i < c -> c <= n -> py_getitem (upto 0 c) i = py_getitem (upto 0 n) i.
Proof.
  intros H N. unfold py_getitem. fold (len (upto 0 c)) (len (upto 0 n)). rewrite !upto_len. cbv zeta. replace (i <? 0) with false by lia.
  replace ((_ <? 0) || (Z.max 0 (c - 0) <=? i)) with false by lia. replace ((_ <? 0) || (Z.max 0 (n - 0) <=? i)) with false by lia.
  now rewrite !upto_nth by lia.
Qed.
Lemma getitem_upto n i : 0 <= i < n -> py_getitem (upto 0 n) i = Ok i.
Proof.
  intros H. unfold py_getitem. fold (len (upto 0 n)). rewrite !upto_len. cbv zeta. replace (i <? 0) with false by lia.
  replace ((_ <? 0) || (Z.max 0 (n - 0) <=? i)) with false by lia. now rewrite !upto_nth by lia.
Qed.
Lemma slice_prefix c n a b st : 0 < b <= c -> c <= n -> match a with None => True | Some a => 0 <= a end ->
  match st with None => True | Some s => 0 <= s end ->
  py_slice (upto 0 c) (mkSl a (Some b) st) = py_slice (upto 0 n) (mkSl a (Some b) st).
Proof.
  intros B N A S. unfold py_slice. fold (len (upto 0 c)) (len (upto 0 n)). rewrite !upto_len. unfold py_indices. cbn [sl_step sl_start sl_stop].
  set (s := match st with None => 1 | Some s => s end). assert (S' : 0 <= s) by (unfold s; destruct st; lia). clearbody s. clear S st.
  destruct (s =? 0) eqn:S0; [reflexivity|]. cbn [bind]. f_equal. replace (s <? 0) with false by lia.
  assert (X : forall m, c <= m -> adjust (Z.max 0 (m - 0)) s (Z.max 0 (m - 0)) (Some b) = b) by (intros m M; unfold adjust; ifs; lia).
  rewrite !X by lia. clear X.
  set (a1 := adjust _ _ _ a). set (a2 := adjust _ _ _ a).
  assert (E : a1 = a2 \/ b <= a1 /\ b <= a2) by (unfold a1, a2, adjust; destruct a; ifs; lia).
  assert (P : 0 <= a1 /\ 0 <= a2) by (unfold a1, a2, adjust; destruct a; ifs; lia). clearbody a1 a2.
  destruct E as [->|[E1 E2]].
  - unfold pick. unfold py_range. rewrite !flat_map_concat_map, !map_map. f_equal. apply map_ext_in. intros k K. apply in_seq in K.
    assert (a2 + s * Z.of_nat k < b).
    { assert (Z.of_nat k < range_count a2 b s) by lia. unfold range_count in H. replace (0 <? s) with true in H by lia. cbn iota in H.
      assert (Z.of_nat k + 1 <= (b - a2 + s - 1) / s) by lia. pose proof (Z.mul_div_le (b - a2 + s - 1) s ltac:(lia)). nia. }
    rewrite !upto_nth by nia. reflexivity.
  - unfold py_range. assert (R : forall x, b <= x -> Z.to_nat (range_count x b s) = O).
    { intros x Hx. unfold range_count. replace (0 <? s) with true by lia. cbn iota. assert ((b - x + s - 1) / s <= 0); [|lia].
      assert ((b - x + s - 1) / s < 1); [|lia]. apply Z.div_lt_upper_bound; lia. }
    rewrite !R by assumption. reflexivity.
Qed.

Lemma in_upto a b i : In i (upto a b) <-> a <= i < b.
Proof. unfold upto. rewrite in_map_iff. split; [intros (k & <- & K); apply in_seq in K; lia|]. intro. exists (Z.to_nat (i - a)). split; [lia|]. apply in_seq. lia. Qed.
Section Fixed.
Variable v : Z -> Z.
Variable n : Z.
Hypothesis n_pos : 0 <= n.
Notation all := (map v (upto 0 n)).
Definition good (s : st) : Prop := exists c t, shape c t s /\ t <= n.
Lemma all_len : Z.of_nat (length all) = n. Proof. rewrite map_length. fold (len (upto 0 n)). rewrite upto_len. lia. Qed.
Lemma getitem_good s i : good s -> let '(r, s') := getitem v n s i in r = py_getitem all i /\ good s'.
Proof.
  intros (c & t & SH & T). unfold getitem. rewrite getitem_map. destruct ((0 <=? i) && (i <? n)) eqn:I.
  - destruct (create_shape c t s (i + 1) SH) as (c' & SH' & L1 & L2); [lia|]. pose proof SH' as (H & C & Q). split.
    + rewrite C. f_equal. apply getitem_prefix; lia.
    + exists c', (Z.max t (i + 1)). split; [exact SH'|lia].
  - destruct (create_shape c t s n SH) as (c' & SH' & L1 & L2); [lia|]. pose proof SH' as (H & C & Q). split.
    + rewrite C. do 2 f_equal. f_equal. lia.
    + exists c', (Z.max t n). split; [exact SH'|lia].
Qed.
Lemma read_good l : forall s, good s -> (forall i, In i l -> 0 <= i < n) -> let '(r, s') := read v n s l in r = Ok (map v l) /\ good s'.
Proof.
  induction l as [|i l IH]; intros s G L; cbn [read]; [auto|]. pose proof (getitem_good s i G) as X. destruct (getitem v n s i) as [r s'].
  destruct X as [-> G']. rewrite getitem_map, getitem_upto by (apply L; now left). cbn [map_res bind]. specialize (IH s' G' (fun j J => L j (or_intror J))).
  destruct (read v n s' l) as [r s'']. destruct IH as [-> G'']. auto.
Qed.
Lemma slice_suffix a : 0 <= a <= n -> py_slice (upto 0 n) (mkSl (Some a) None None) = Ok (upto a n).
Proof.
  intro H. rewrite py_slice_fwd by (cbn; lia). cbn [the_step]. f_equal.
  pose proof (slice1_eq (upto 0 n) (Some a) None None (or_introl eq_refl)) as E. cbv zeta in E. rewrite py_slice_fwd in E by (cbn; lia).
  injection E as E. rewrite E. fold (len (upto 0 n)). rewrite upto_len. unfold Str_Spec.win_start, Str_Spec.win_end. replace (a <? 0) with false by lia.
  rewrite upto_skipn by lia. rewrite upto_firstn by lia. f_equal; lia.
Qed.
Lemma slice_whole : py_slice (upto 0 n) (mkSl None None None) = Ok (upto 0 n).
Proof.
  pose proof (slice1_eq (upto 0 n) None None None (or_introl eq_refl)) as E. cbv zeta in E. rewrite E. fold (len (upto 0 n)). rewrite upto_len. unfold Str_Spec.win_start, Str_Spec.win_end.
  rewrite upto_skipn by lia. rewrite upto_firstn by lia. do 2 f_equal; lia.
Qed.
Lemma getslice_good s sl : good s -> covered n (Slice sl) -> let '(r, s') := getslice v n s sl in r = py_slice all sl /\ good s'.
Proof.
  intros G CV. destruct sl as [a b st]. unfold covered in CV. cbn [sl_start sl_stop sl_step] in CV.
  assert (FALL : let s1 := create_up_to s n in (if n <? len (created s1) then (Err RuntimeError, s1) else (map_res (map v) (py_slice (created s1) (mkSl a b st)), s1))
     = (py_slice all (mkSl a b st), s1) /\ good s1).
  { destruct G as (c & t & SH & T). destruct (create_shape c t s n SH) as (c' & SH' & L1 & L2); [lia|]. pose proof SH' as (H & C & Q). cbv zeta. split.
    - rewrite C, upto_len. replace (n <? Z.max 0 (c' - 0)) with false by lia. rewrite slice_map. replace c' with n by lia. reflexivity.
    - exists c', (Z.max t n). split; [exact SH'|lia]. }
  cbv zeta in FALL. destruct FALL as [FALL GF].
  assert (SUF : forall a, 0 <= a <= n -> let '(r, s') := read v n s (upto a n) in r = Ok (map v (upto a n)) /\ good s').
  { intros x X. apply read_good; [exact G|]. intros i I. apply in_upto in I. lia. }
  unfold getslice. cbn [sl_start sl_stop sl_step].
  assert (PRE : forall b0, b = Some b0 -> (0 <? b0) && match a with None => true | Some a => 0 <=? a end && (b0 <=? n) = true ->
     map_res (map v) (py_slice (created (create_up_to s b0)) (mkSl a b st)) = py_slice all (mkSl a b st) /\ good (create_up_to s b0)).
  { intros b0 -> B. assert (B1 : 0 < b0 <= n) by lia. assert (A1 : match a with None => True | Some a => 0 <= a end) by (destruct a; [lia|exact I]).
    destruct G as (c & t & SH & T). destruct (create_shape c t s b0 SH) as (c' & SH' & L1 & L2); [lia|]. pose proof SH' as (H & C & Q). split.
    - rewrite C, slice_map. f_equal. apply slice_prefix; [lia|lia|exact A1|]. destruct st as [st|]; [|exact I].
      destruct (Z.lt_ge_cases st 0) as [N|]; [|assumption]. exfalso. destruct (CV N) as [X|[X|(a0 & -> & X)]]; lia.
    - exists c', (Z.max t b0). split; [exact SH'|lia]. }
  destruct b as [b|].
  - assert (GEN : let '(r, s') := (if (0 <? b) && match a with None => true | Some a => 0 <=? a end && (b <=? n)
       then (map_res (map v) (py_slice (created (create_up_to s b)) (mkSl a (Some b) st)), create_up_to s b)
       else (if n <? len (created (create_up_to s n)) then (Err RuntimeError, create_up_to s n) else (map_res (map v) (py_slice (created (create_up_to s n)) (mkSl a (Some b) st)), create_up_to s n)))
       in r = py_slice all (mkSl a (Some b) st) /\ good s').
    { destruct (_ && _ && _) eqn:B; [exact (PRE b eq_refl B)|]. rewrite FALL. auto. }
    destruct a as [a|]; exact GEN.
  - destruct a as [a|], st as [st|]; try (rewrite FALL; now auto).
    + destruct ((0 <=? a) && (a <=? n)) eqn:A; [|rewrite FALL; auto]. rewrite slice_map, slice_suffix by lia. apply SUF. lia.
    + rewrite slice_map, slice_whole. apply SUF. lia.
Qed.
Lemma next_good s k : good s -> let '(r, s') := next v n s k in
  r = match nth_error all k with Some x => Ok x | None => Err StopIteration end /\ good s'.
Proof.
  intros (c & t & SH & T). unfold next. destruct (Z.of_nat k <? n) eqn:K.
  - destruct (create_shape c t s (Z.of_nat k + 1) SH) as (c' & SH' & L1 & L2); [lia|]. pose proof SH' as (H & C & Q). split.
    + rewrite C, getitem_upto by lia. rewrite nth_error_map. rewrite <- (Nat2Z.id k) at 2. rewrite upto_nth by lia. reflexivity.
    + exists c', (Z.max t (Z.of_nat k + 1)). split; [exact SH'|lia].
  - split; [|exists c, t; auto]. replace (nth_error all k) with (@None Z); [reflexivity|]. symmetry. apply nth_error_None. pose proof all_len. lia.
Qed.
Lemma zip_eq_ok m : forall a, zip_eq v (upto a (a + len m)) m = list_eqb (map v (upto a (a + len m))) m.
Proof.
  induction m as [|y m IH]; intro a.
  - rewrite upto_nil by (unfold len; cbn; lia). reflexivity.
  - assert (L : len (y :: m) = 1 + len m) by (unfold len; cbn [length]; lia). rewrite upto_cons by (unfold len in *; lia). cbn [zip_eq map list_eqb].
    rewrite L. replace (a + (1 + len m)) with (a + 1 + len m) by lia. now rewrite IH.
Qed.
Lemma list_eqb_len a : forall b, length a <> length b -> list_eqb a b = false.
Proof. induction a as [|x a IH]; intros [|y b] H; cbn in *; try congruence. rewrite IH by lia. apply andb_false_r. Qed.
Lemma eq_good s m : good s -> len m <= n -> let '(r, s') := eq_to v n s m in r = list_eqb all m /\ good s'.
Proof.
  intros (c & t & SH & T) M. unfold eq_to. destruct (prefix_shape c t s (len m) SH) as (t' & P & SH' & Ht); [unfold len; lia|].
  destruct (prefix s (len m)) as [p s']. cbn [fst snd] in *. subst p. split.
  - destruct (n =? len m) eqn:E; cbn [andb].
    + replace n with (0 + len m) by lia. change (len m) with (0 + len m) at 1. apply (zip_eq_ok m 0).
    + symmetry. apply list_eqb_len. pose proof all_len. unfold len in *. lia.
  - exists c, t'. split; [exact SH'|]. destruct (_ <? _) in Ht; lia.
Qed.
Lemma realize_good s : good s -> let '(r, s') := deep_realize v n s in r = all /\ good s'.
Proof.
  intros (c & t & SH & T). unfold deep_realize. destruct (create_shape c t s n SH) as (c' & SH' & L1 & L2); [lia|]. pose proof SH' as (H & C & Q). split.
  - rewrite C. destruct (to_upto 0 c' n) as [-> _]; [lia|]. reflexivity.
  - exists c', (Z.max t n). split; [exact SH'|lia].
Qed.
Lemma search_good x k : forall a s, good s -> 0 <= a -> a + Z.of_nat k <= n ->
  let '(r, s') := search v n s (upto a (a + Z.of_nat k)) x in r = index_from (map v (upto a (a + Z.of_nat k))) x a /\ good s'.
Proof.
  induction k as [|k IH]; intros a s G A N.
  - rewrite upto_nil by lia. cbn. auto.
  - rewrite upto_cons by lia. cbn [search map index_from]. pose proof (getitem_good s a G) as X. destruct (getitem v n s a) as [r s'].
    destruct X as [-> G']. rewrite getitem_map, getitem_upto by lia. cbn [map_res bind]. destruct (v a =? x); [auto|].
    replace (a + Z.of_nat (S k)) with (a + 1 + Z.of_nat k) by lia. apply IH; [exact G'|lia|lia].
Qed.
Lemma index_good s x a b : good s -> let '(r, s') := index v n s x a b in r = tuple_index all x a b /\ good s'.
Proof.
  intro G. unfold index, tuple_index. cbv zeta. rewrite all_len.
  assert (BB : 0 <= bound n b <= n) by (unfold bound; ifs; lia). assert (BA : 0 <= bound n a <= n) by (unfold bound; ifs; lia).
  set (a' := Z.max (if a <? 0 then a + n else a) 0). set (b' := Z.min (if b <? 0 then b + n else b) n).
  destruct (Z.le_gt_cases b' a') as [LE|GT].
  - rewrite upto_nil by exact LE. cbn [search]. replace (Z.to_nat (bound n b - bound n a)) with O; [cbn; auto|].
    unfold bound, a', b' in *. destruct (a <? 0) eqn:?, (b <? 0) eqn:?; lia.
  - assert (EA : a' = bound n a) by (unfold bound, a', b' in *; destruct (a <? 0) eqn:?, (b <? 0) eqn:?; lia).
    assert (EB : b' = bound n b) by (unfold bound, a', b' in *; destruct (a <? 0) eqn:?, (b <? 0) eqn:?; lia).
    rewrite EA, EB in *. rewrite skipn_map, firstn_map, upto_skipn, upto_firstn by lia.
    replace (0 + Z.of_nat (Z.to_nat (bound n a))) with (bound n a) by lia.
    replace (upto (bound n a) (bound n b)) with (upto (bound n a) (bound n a + Z.of_nat (Z.to_nat (bound n b - bound n a)))) by (f_equal; lia).
    apply search_good; [exact G|lia|lia].
Qed.
Lemma step_good s o : good s -> covered n o -> let '(r, s') := step v n s o in r = answer all o /\ good s'.
Proof.
  intros G CV. destruct o as [i|sl|k|m| |x a b]; cbn [step answer].
  - pose proof (getitem_good s i G) as X. destruct (getitem v n s i). now destruct X as [-> ?].
  - pose proof (getslice_good s sl G CV) as X. destruct (getslice v n s sl). now destruct X as [-> ?].
  - pose proof (next_good s k G) as X. destruct (next v n s k). now destruct X as [-> ?].
  - pose proof (eq_good s m G CV) as X. destruct (eq_to v n s m). now destruct X as [-> ?].
  - pose proof (realize_good s G) as X. destruct (deep_realize v n s). now destruct X as [-> ?].
  - pose proof (index_good s x a b G) as X. destruct (index v n s x a b). now destruct X as [-> ?].
Qed.
Lemma run_good os : forall s, good s -> Forall (covered n) os -> fst (run v n s os) = map (answer all) os.
Proof.
  induction os as [|o os IH]; intros s G F; [reflexivity|]. inversion F as [|? ? CV F']; subst. cbn [run]. pose proof (step_good s o G CV) as X.
  destruct (step v n s o) as [r s']. destruct X as [-> G']. specialize (IH s' G' F'). destruct (run v n s' os). cbn [fst map] in *. now rewrite IH.
Qed.
Lemma init_good : good init. Proof. exists 0, 0. split; [apply init_shape|lia]. Qed.
End Fixed.

(** Any history: what is handed out is a variable that exists *)
Section Ranges.
Variable v : Z -> Z.
Variable n : Z.
Hypothesis n_pos : 0 <= n.
(** [l] consists of values of variables below [c] *)
Definition vars (c : Z) (l : list Z) : Prop := forall x, In x l -> exists i, 0 <= i < c /\ x = v i.
Lemma vars_le c c' l : c <= c' -> vars c l -> vars c' l.
Proof. intros H V x X. destruct (V x X) as (i & I & ->). exists i. split; [lia|reflexivity]. Qed.
Lemma vars_map c l : (forall i, In i l -> 0 <= i < c) -> vars c (map v l).
Proof. intros H x X. apply in_map_iff in X as (i & <- & I). exists i. auto. Qed.
Lemma getitem_in {A} (l : list A) i x : py_getitem l i = Ok x -> In x l.
Proof. unfold py_getitem. cbv zeta. destruct (_ || _); [discriminate|]. destruct (nth_error l _) eqn:E; [|discriminate]. intros [= <-]. now apply nth_error_In in E. Qed.
Lemma slice_in {A} (l : list A) sl r x : py_slice l sl = Ok r -> In x r -> In x l.
Proof.
  unfold py_slice. destruct (py_indices sl _) as [[[a b] s]|]; [|discriminate]. cbn [bind]. intros [= <-] X. unfold pick in X. apply in_flat_map in X as (i & _ & X).
  destruct (nth_error l _) eqn:E; [|contradiction]. destruct X as [<-|[]]. now apply nth_error_In in E.
Qed.
Definition item_vars (c : Z) (r : res Z) : Prop := match r with Ok x => vars c [x] | Err _ => True end.
Definition items_vars (c : Z) (r : res (list Z)) : Prop := match r with Ok l => vars c l | Err _ => True end.
Definition after (c t : Z) (s : st) (P : Z -> Prop) : Prop := exists c' t', shape c' t' s /\ c <= c' /\ t <= t' /\ P c'.
Lemma item_created c i : item_vars c (map_res v (py_getitem (upto 0 c) i)).
Proof. destruct (py_getitem (upto 0 c) i) as [j|] eqn:E; cbn; [|exact I]. apply getitem_in, in_upto in E. intros x [<-|[]]. exists j. auto. Qed.
Lemma items_created c sl : items_vars c (map_res (map v) (py_slice (upto 0 c) sl)).
Proof. destruct (py_slice (upto 0 c) sl) as [l|] eqn:E; cbn; [|exact I]. apply vars_map. intros i J. apply (slice_in _ _ _ _ E), in_upto in J. exact J. Qed.
Lemma getitem_w c t s i : shape c t s -> after c t (snd (getitem v n s i)) (fun c' => item_vars c' (fst (getitem v n s i))).
Proof.
  intro SH. unfold getitem. cbn [fst snd]. set (s1 := if (0 <=? i) && (i <? n) then create_up_to s (i + 1) else create_up_to s n).
  assert (X : exists c' t', shape c' t' s1 /\ c <= c' /\ t <= t').
  { unfold s1. destruct ((0 <=? i) && (i <? n)) eqn:E.
    - destruct (create_shape c t s (i + 1) SH) as (c' & ? & ? & ?); [lia|]. exists c', (Z.max t (i + 1)). repeat split; auto; lia || apply H.
    - destruct (create_shape c t s n SH) as (c' & ? & ? & ?); [lia|]. exists c', (Z.max t n). repeat split; auto; lia || apply H. }
  clearbody s1. destruct X as (c' & t' & SH' & C & T). exists c', t'. repeat split; auto; try apply SH'. destruct SH' as (_ & -> & _). apply item_created.
Qed.
Lemma read_w l : forall c t s, shape c t s -> after c t (snd (read v n s l)) (fun c' => items_vars c' (fst (read v n s l))).
Proof.
  induction l as [|i l IH]; intros c t s SH; cbn [read].
  - exists c, t. repeat split; auto; try apply SH; try lia. intros x [].
  - destruct (getitem_w c t s i SH) as (c1 & t1 & SH1 & C1 & T1 & V). destruct (getitem v n s i) as [[x|e] s1]; cbn [fst snd] in *.
    + destruct (IH c1 t1 s1 SH1) as (c2 & t2 & SH2 & C2 & T2 & V2). destruct (read v n s1 l) as [[r|e] s2]; cbn [fst snd map_res bind] in *.
      * exists c2, t2. repeat split; try apply SH2; try lia. intros y [<-|Y]; [|now apply V2]. exact (vars_le _ _ _ C2 V x (or_introl eq_refl)).
      * exists c2, t2. repeat split; try apply SH2; try lia.
    + exists c1, t1. repeat split; try apply SH1; try lia.
Qed.
Lemma getslice_w c t s sl : shape c t s -> after c t (snd (getslice v n s sl)) (fun c' => items_vars c' (fst (getslice v n s sl))).
Proof.
  intro SH.
  assert (CR : forall size, 0 <= size -> after c t (create_up_to s size) (fun c' => items_vars c' (map_res (map v) (py_slice (created (create_up_to s size)) sl)))).
  { intros size Hs. destruct (create_shape c t s size SH Hs) as (c' & SH' & ? & ?). exists c', (Z.max t size). split; [exact SH'|]. split; [lia|]. split; [lia|].
    destruct SH' as (_ & -> & _). apply items_created. }
  assert (ERR : after c t (create_up_to s n) (fun _ => True)).
  { destruct (create_shape c t s n SH n_pos) as (c' & SH' & ? & ?). exists c', (Z.max t n). split; [exact SH'|]. repeat split; lia. }
  assert (FALL : after c t (snd (if n <? len (created (create_up_to s n)) then (Err RuntimeError, create_up_to s n) else (map_res (map v) (py_slice (created (create_up_to s n)) sl), create_up_to s n)))
     (fun c' => items_vars c' (fst (if n <? len (created (create_up_to s n)) then (@Err (list Z) RuntimeError, create_up_to s n) else (map_res (map v) (py_slice (created (create_up_to s n)) sl), create_up_to s n))))).
  { destruct (n <? _); cbn [fst snd]; [exact ERR|exact (CR n n_pos)]. }
  unfold getslice. destruct sl as [a b st]. cbn [sl_start sl_stop sl_step] in *. destruct b as [b|].
  - assert (GEN : let p := (if (0 <? b) && match a with None => true | Some a => 0 <=? a end && (b <=? n)
       then (map_res (map v) (py_slice (created (create_up_to s b)) (mkSl a (Some b) st)), create_up_to s b)
       else (if n <? len (created (create_up_to s n)) then (Err RuntimeError, create_up_to s n) else (map_res (map v) (py_slice (created (create_up_to s n)) (mkSl a (Some b) st)), create_up_to s n)))
       in after c t (snd p) (fun c' => items_vars c' (fst p))).
    { destruct (_ && _ && _) eqn:B; [|exact FALL]. cbn [fst snd]. apply CR. lia. }
    destruct a as [a|]; exact GEN.
  - destruct a as [a|], st as [st|]; try exact FALL.
    + destruct ((0 <=? a) && (a <=? n)); [now apply read_w|exact FALL].
    + now apply read_w.
Qed.
Lemma search_w x l : forall c t s, shape c t s -> after c t (snd (search v n s l x)) (fun _ => True).
Proof.
  induction l as [|i l IH]; intros c t s SH; cbn [search].
  - exists c, t. repeat split; try apply SH; lia.
  - destruct (getitem_w c t s i SH) as (c1 & t1 & SH1 & C1 & T1 & V). destruct (getitem v n s i) as [[y|e] s1]; cbn [fst snd] in *.
    + destruct (y =? x); [exists c1, t1; repeat split; try apply SH1; lia|]. destruct (IH c1 t1 s1 SH1) as (c2 & t2 & SH2 & C2 & T2 & _). exists c2, t2. repeat split; try apply SH2; lia.
    + exists c1, t1. repeat split; try apply SH1; lia.
Qed.
Lemma step_w c t s o : shape c t s -> after c t (snd (step v n s o)) (fun c' => vars c' (given o (fst (step v n s o)))).
Proof.
  intro SH. destruct o as [i|sl|k|m| |x a b]; cbn [step].
  - pose proof (getitem_w c t s i SH) as (c' & t' & X & C & T & V). destruct (getitem v n s i) as [[y|e] s']; cbn [fst snd given item_vars] in *; exists c', t'; repeat split; try apply X; auto. intros z [].
  - pose proof (getslice_w c t s sl SH) as (c' & t' & X & C & T & V). destruct (getslice v n s sl) as [[y|e] s']; cbn [fst snd given items_vars] in *; exists c', t'; repeat split; try apply X; auto. intros z [].
  - unfold next. destruct (Z.of_nat k <? n) eqn:K.
    + destruct (create_shape c t s (Z.of_nat k + 1) SH) as (c' & SH' & L1 & L2); [lia|]. cbn [fst snd given]. exists c', (Z.max t (Z.of_nat k + 1)). split; [exact SH'|]. split; [lia|]. split; [lia|].
      destruct SH' as (_ & -> & _). pose proof (item_created c' (Z.of_nat k)) as V. destruct (map_res v _); cbn in *; [exact V|intros z []].
    + cbn [fst snd given]. exists c, t. repeat split; try apply SH; try lia. intros z [].
  - unfold eq_to. destruct (prefix_shape c t s (len m) SH) as (t' & P & SH' & Ht); [unfold len; lia|]. destruct (prefix s (len m)) as [p s']. cbn [fst snd given] in *.
    exists c, t'. repeat split; try apply SH'; try lia. { destruct (_ <? _) in Ht; lia. } intros z [].
  - unfold deep_realize. destruct (create_shape c t s n SH n_pos) as (c' & SH' & L1 & L2). cbn [fst snd given]. exists c', (Z.max t n). split; [exact SH'|]. split; [lia|]. split; [lia|].
    destruct SH' as (_ & -> & _). apply vars_map. intros i J. unfold to_ in J. assert (In i (upto 0 c')); [|now apply in_upto].
    rewrite <- (firstn_skipn (Z.to_nat (if n <? 0 then len (upto 0 c') + n else n)) (upto 0 c')). apply in_or_app. now left.
  - unfold index. pose proof (search_w x (upto (Z.max (if a <? 0 then a + n else a) 0) (Z.min (if b <? 0 then b + n else b) n)) c t s SH) as (c' & t' & X & C & T & _).
    destruct (search v n s _ x) as [r s']. cbn [fst snd given] in *. exists c', t'. repeat split; try apply X; auto. intros z [].
Qed.
Lemma run_w os : forall c t s, shape c t s -> after c t (snd (run v n s os)) (fun c' => forall k o r, nth_error os k = Some o -> nth_error (fst (run v n s os)) k = Some r -> vars c' (given o r)).
Proof.
  induction os as [|o os IH]; intros c t s SH; cbn [run].
  - exists c, t. repeat split; try apply SH; try lia. intros [|k]; discriminate.
  - destruct (step_w c t s o SH) as (c1 & t1 & SH1 & C1 & T1 & V). destruct (step v n s o) as [r s1]. cbn [fst snd] in *.
    destruct (IH c1 t1 s1 SH1) as (c2 & t2 & SH2 & C2 & T2 & V2). destruct (run v n s1 os) as [rs s2]. cbn [fst snd] in *.
    exists c2, t2. repeat split; try apply SH2; try lia. intros [|k] o' r'; cbn [nth_error]; [|apply V2]. intros [= <-] [= <-]. now apply (vars_le c1).
Qed.
End Ranges.
