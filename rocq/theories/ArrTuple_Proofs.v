From Coq Require Import ZArith List Bool Lia ZifyBool ZifyNat.
From Verif Require Import Py Range_Spec PySeq_Spec Seq_Model Seq_Proofs SeqMut_Proofs SeqCmp_Spec Str_Spec ArrTuple_Model ArrTuple_Spec.
Import ListNotations.
Open Scope Z_scope.

(** Slices of step 1 *)
Lemma slice1_eq {A} (l : list A) a b st : st = None \/ st = Some 1 ->
  let n := Z.of_nat (length l) in
  py_slice l (mkSl a b st) = Ok (firstn (Z.to_nat (win_end n b - Z.min n (win_start n a))) (skipn (Z.to_nat (Z.min n (win_start n a))) l)).
Proof.
  intros ST n. assert (T : the_step (mkSl a b st) = 1) by (destruct ST as [->| ->]; reflexivity).
  rewrite py_slice_fwd by lia. f_equal. fold n. rewrite T.
  set (U := Z.min n (win_start n a)). set (B := win_end n b).
  assert (HA : 0 <= U <= n) by (unfold U, win_start, n; destruct a; ifs; lia).
  assert (HB : 0 <= B <= n) by (unfold B, win_end, n; destruct b; ifs; lia).
  destruct (Z_le_gt_dec U B) as [L|L].
  - rewrite (firstn_skipn_keep l U B 0) by lia. apply keep_ext. intros x Hx. fold n in Hx.
    unfold fwd, ppos. rewrite Z.mod_1_r. cbn [sl_start sl_stop].
    unfold U, B, win_start, win_end, adjust. cbn zeta. destruct a, b; ifs; lia.
  - replace (Z.to_nat (B - U)) with O by lia. cbn [firstn]. apply keep_none. intros x Hx. fold n in Hx.
    unfold fwd, ppos. rewrite Z.mod_1_r. cbn [sl_start sl_stop].
    unfold U, B, win_start, win_end, adjust in *. cbn zeta. destruct a, b; ifs; lia.
Qed.

Section Arr.
Variable A : Type.
Notation items := (items A).
Notation contents := (contents A).
Lemma items_length f a b : Z.of_nat (length (items f a b)) = Z.max 0 (b - a).
Proof. unfold items, ArrTuple_Model.items. rewrite map_length, seq_length. lia. Qed.
Lemma items_nth f a b i : 0 <= i < b - a -> nth_error (items f a b) (Z.to_nat i) = Some (f (a + i)).
Proof.
  intro H. unfold ArrTuple_Model.items. rewrite nth_error_map. rewrite (nth_error_nth' _ O) by (rewrite seq_length; lia).
  rewrite seq_nth by lia. cbn. do 2 f_equal. lia.
Qed.
Lemma items_skipn f a b k : (Z.of_nat k <= Z.max 0 (b - a)) -> skipn k (items f a b) = items f (a + Z.of_nat k) b.
Proof.
  intro H. unfold ArrTuple_Model.items. rewrite skipn_map.
  replace (Z.to_nat (b - a)) with (k + Z.to_nat (b - (a + Z.of_nat k)))%nat by lia.
  rewrite seq_app, skipn_app, skipn_all2 by (rewrite seq_length; lia). rewrite seq_length, Nat.sub_diag. cbn [skipn app].
  replace (0 + k)%nat with k by lia. rewrite <- (Nat.add_0_r k) at 1. generalize (Z.to_nat (b - (a + Z.of_nat k))) as m. generalize O as s.
  intros s m. revert s. induction m as [|m IH]; intro s; cbn [seq map]; [reflexivity|]. f_equal; [f_equal; lia|]. rewrite <- IH. f_equal. f_equal. lia.
Qed.
Lemma items_firstn f a b k : (Z.of_nat k <= Z.max 0 (b - a)) -> firstn k (items f a b) = items f a (a + Z.of_nat k).
Proof.
  intro H. unfold ArrTuple_Model.items. rewrite firstn_map.
  replace (Z.to_nat (b - a)) with (k + (Z.to_nat (b - a) - k))%nat by lia.
  rewrite seq_app, firstn_app, seq_length, Nat.sub_diag. cbn [firstn]. rewrite app_nil_r, firstn_all2 by (rewrite seq_length; lia).
  do 2 f_equal. lia.
Qed.
Variable t : arrtuple A.
Hypothesis len_ok : 0 <= alen A t.
Lemma contents_len : Z.of_nat (length (contents t)) = alen A t.
Proof. unfold ArrTuple_Model.contents. rewrite items_length. lia. Qed.
Lemma getitem_ok i : getitem A t i = py_getitem (contents t) i.
Proof.
  unfold getitem, flip_index, py_getitem. cbv zeta. rewrite contents_len. unfold normalize.
  destruct (i <? 0) eqn:N; destruct (0 <=? i) eqn:N2; try lia.
  - destruct ((alen A t <=? i) || (i <? - alen A t)) eqn:C.
    + replace ((i + alen A t <? 0) || (alen A t <=? i + alen A t)) with true by lia. reflexivity.
    + replace ((i + alen A t <? 0) || (alen A t <=? i + alen A t)) with false by lia.
      unfold ArrTuple_Model.contents. rewrite items_nth by lia. cbn. do 2 f_equal. lia.
  - destruct ((alen A t <=? i) || (i <? - alen A t)) eqn:C.
    + replace ((i <? 0) || (alen A t <=? i)) with true by lia. reflexivity.
    + replace ((i <? 0) || (alen A t <=? i)) with false by lia.
      unfold ArrTuple_Model.contents. rewrite items_nth by lia. reflexivity.
Qed.
Lemma getslice_ok sl : sl_step sl = None \/ sl_step sl = Some 1 -> getslice A t sl = py_slice (contents t) sl.
Proof.
  destruct sl as [a b st]. cbn [sl_step]. intro ST. rewrite (slice1_eq (contents t) a b st ST). cbv zeta. rewrite contents_len.
  set (n := alen A t) in *. set (U := Z.min n (win_start n a)). set (B := win_end n b).
  assert (HA : 0 <= U <= n) by (unfold U, win_start, n in *; destruct a; ifs; lia).
  assert (HB : 0 <= B <= n) by (unfold B, win_end, n in *; destruct b; ifs; lia).
  assert (R : firstn (Z.to_nat (B - U)) (skipn (Z.to_nat U) (contents t)) = items (arr A t) U (Z.max U B)).
  { unfold ArrTuple_Model.contents. fold n. rewrite items_skipn by lia. rewrite items_firstn by lia. f_equal; lia. }
  rewrite R. clear R. unfold getslice. cbn [sl_start sl_stop sl_step].
  assert (V : forall a' b', clip n (match a with None => 0 | Some x => normalize n x end) = a' ->
     clip n (match b with None => n | Some x => normalize n x end) = b' -> view A t a' b' = items (arr A t) U (Z.max U B)).
  { intros a' b' Ea Eb. assert (a' = U).
    { subst a'. unfold U, win_start, clip, normalize. destruct a; ifs; lia. }
    assert (b' = B).
    { subst b'. unfold B, win_end, clip, normalize. destruct b; ifs; lia. }
    subst a' b'. rewrite H, H0. unfold view. fold n. cbv zeta.
    destruct (U <=? 0) eqn:L, (n <=? B) eqn:R; cbn [andb].
    - unfold ArrTuple_Model.contents. fold n. f_equal; lia.
    - destruct (B <=? 0) eqn:?; f_equal; lia.
    - destruct (n <=? U) eqn:?; f_equal; lia.
    - destruct (B <=? U) eqn:?; f_equal; lia. }
  assert (W : let '(start, stop) := flip_slice n (mkSl a b st) in let '(start, stop) := clip_range n start stop in Ok (view A t start stop) = Ok (items (arr A t) U (Z.max U B))).
  { unfold flip_slice, clip_range. cbn [sl_start sl_stop]. f_equal. now apply V. }
  cbn in W. destruct a, b, st; try exact W.
  (* the whole *)
  unfold ArrTuple_Model.contents. fold n. f_equal. unfold U, B, win_start, win_end. f_equal; lia.
Qed.

Lemma contents_nth j : 0 <= j -> nth_error (contents t) (Z.to_nat j) = if j <? alen A t then Some (arr A t j) else None.
Proof.
  intro J. destruct (j <? alen A t) eqn:E.
  - unfold ArrTuple_Model.contents. now rewrite items_nth by lia.
  - apply nth_error_None. pose proof contents_len. lia.
Qed.
Lemma contains_ok x : smt_contains A t x <-> In x (contents t).
Proof.
  split.
  - intros (i & I0 & I1 & <-). apply nth_error_In with (n := Z.to_nat i). rewrite contents_nth by lia. now replace (i <? alen A t) with true by lia.
  - intro I. apply In_nth_error in I as (k & K). rewrite <- (Nat2Z.id k) in K. rewrite contents_nth in K by lia. destruct (_ <? _) eqn:E; [|discriminate].
    injection K as K. exists (Z.of_nat k). repeat split; [lia|lia|exact K].
Qed.
Lemma mul_ok k : mul A t k = Ok (py_repeat (contents t) k).
Proof.
  unfold mul, py_repeat. destruct (k <=? 0) eqn:E.
  - rewrite getslice_ok by (left; reflexivity). rewrite slice1_eq by (left; reflexivity). cbv zeta. rewrite contents_len.
    replace (Z.to_nat k) with O by lia. cbn [repeat concat]. unfold win_end, win_start. cbn [Z.ltb Z.compare]. rewrite Z.min_l, Z.min_r by lia. reflexivity.
  - f_equal. replace (Z.to_nat k) with (S (Z.to_nat (k - 1))) by lia. cbn [repeat concat].
    assert (G : forall m s r, fold_left (fun r _ => contents t ++ r) (seq s m) r = concat (repeat (contents t) m) ++ r).
    { induction m as [|m IH]; intros s r; [reflexivity|]. cbn [seq fold_left repeat concat]. rewrite IH, app_assoc. f_equal.
      clear. induction m as [|m IH]; cbn [repeat concat]; [now rewrite app_nil_r|]. rewrite <- app_assoc, IH. reflexivity. }
    rewrite G. clear. induction (Z.to_nat (k - 1)) as [|m IH]; cbn [repeat concat]; [now rewrite app_nil_r|]. rewrite <- app_assoc, IH. reflexivity.
Qed.
Variable eqb : A -> A -> bool.
Hypothesis eqb_eq : forall x y, eqb x y = true <-> x = y.
Lemma search_ok f x c : forall idx,
  match search A eqb f idx c x with
  | Ok i => idx <= i < idx + Z.of_nat c /\ f i = x /\ forall j, idx <= j < i -> f j <> x
  | Err e => e = ValueError /\ forall j, idx <= j < idx + Z.of_nat c -> f j <> x
  end.
Proof.
  induction c as [|c IH]; intro idx; cbn [search].
  - split; [reflexivity|]. intros. lia.
  - destruct (eqb (f idx) x) eqn:E.
    + apply eqb_eq in E. split; [lia|]. split; [exact E|]. intros. lia.
    + assert (N : f idx <> x) by (intro X; apply eqb_eq in X; congruence). specialize (IH (idx + 1)). destruct (search A eqb f (idx + 1) c x) as [i|e].
      * destruct IH as (R & V & M). split; [lia|]. split; [exact V|]. intros j J. destruct (Z.eq_dec j idx) as [->|]; [exact N|apply M; lia].
      * destruct IH as (-> & M). split; [reflexivity|]. intros j J. destruct (Z.eq_dec j idx) as [->|]; [exact N|apply M; lia].
Qed.
Lemma index_ok x a b : index_spec (contents t) x a b (index A eqb t x a b).
Proof.
  unfold index_spec, index. cbv zeta. rewrite contents_len. set (n := alen A t) in *.
  set (s := Z.max (if a <? 0 then a + n else a) 0). set (e := Z.min (if b <? 0 then b + n else b) n).
  assert (Hs : forall j, 0 <= j -> (window n a <= j <-> s <= j)) by (intros j J; unfold window, s; destruct (a <? 0) eqn:?; lia).
  pose proof (search_ok (arr A t) x (Z.to_nat (e - s)) s) as S.
  assert (He : forall j, 0 <= j -> (j < e <-> j < window n b /\ j < n)) by (intros j J; unfold window, e; destruct (b <? 0) eqn:?; lia).
  assert (S0 : 0 <= s) by (unfold s; lia).
  destruct (search A eqb (arr A t) s (Z.to_nat (e - s)) x) as [i|er].
  - destruct S as (R & V & M). assert (I0 : 0 <= i) by lia. destruct (He i I0) as [He1 _]. specialize (He1 ltac:(lia)).
    split; [split; [apply (Hs i I0); lia|lia]|]. split; [exact I0|]. rewrite contents_nth by lia. fold n. replace (i <? n) with true by lia. split; [congruence|].
    intros j J J0 E. rewrite contents_nth in E by lia. fold n in E. destruct (j <? n); [|discriminate]. injection E as E. apply (M j); [|exact E]. pose proof (Hs j J0). lia.
  - destruct S as (-> & M). split; [reflexivity|]. intros j J J0 E. rewrite contents_nth in E by lia. fold n in E. destruct (j <? n) eqn:JN; [|discriminate].
    injection E as E. apply (M j); [|exact E]. pose proof (Hs j J0). pose proof (He j J0). lia.
Qed.
Lemma eq_items_ok f other : forall idx, eq_items A eqb f idx other = true <-> items f idx (idx + Z.of_nat (length other)) = other.
Proof.
  induction other as [|y r IH]; intro idx; cbn [eq_items].
  - unfold ArrTuple_Model.items. cbn [length Z.of_nat]. rewrite Z.add_0_r, Z.sub_diag. cbn. split; reflexivity.
  - assert (E : items f idx (idx + Z.of_nat (length (y :: r))) = f idx :: items f (idx + 1) (idx + 1 + Z.of_nat (length r))).
    { unfold ArrTuple_Model.items. replace (Z.to_nat (idx + Z.of_nat (length (y :: r)) - idx)) with (S (length r)) by (cbn [length]; lia).
      replace (Z.to_nat (idx + 1 + Z.of_nat (length r) - (idx + 1))) with (length r) by lia. cbn [seq map]. f_equal; [f_equal; lia|].
      rewrite <- seq_shift, map_map. apply map_ext. intro k. f_equal. lia. }
    rewrite E. destruct (eqb (f idx) y) eqn:Q.
    + apply eqb_eq in Q. rewrite IH. split; [intros ->; now rewrite Q|]. intro X. injection X as _ X. exact X.
    + split; [discriminate|]. intro X. injection X as X _. apply eqb_eq in X. congruence.
Qed.
Lemma eq_iter_ok other : eq_iter A eqb t other = true <-> contents t = other.
Proof.
  unfold eq_iter. destruct (alen A t =? Z.of_nat (length other)) eqn:L; cbn [negb].
  - rewrite eq_items_ok. unfold ArrTuple_Model.contents. rewrite Z.add_0_l. replace (Z.of_nat (length other)) with (alen A t) by lia. reflexivity.
  - split; [discriminate|]. intro E. pose proof contents_len. rewrite E in H. lia.
Qed.
Lemma unify_items_ok f other : forall idx, unify_items A f idx other <-> eq_items A eqb f idx other = true.
Proof.
  induction other as [|y r IH]; intro idx; cbn; [tauto|]. destruct (eqb (f idx) y) eqn:E.
  - apply eqb_eq in E. rewrite IH. tauto.
  - split; [|discriminate]. intros [X _]. apply eqb_eq in X. congruence.
Qed.
Lemma unify_ok other : unify A t other <-> contents t = other.
Proof.
  rewrite <- eq_iter_ok. unfold unify, eq_iter. rewrite unify_items_ok. destruct (alen A t =? Z.of_nat (length other)) eqn:E; cbn [negb]; [|split; [intros [X _]; lia|discriminate]].
  split; [tauto|]. intro. split; [lia|assumption].
Qed.

(** Ordering *)
Variable ltb : A -> A -> bool.
Hypothesis lt_irrefl : forall x, ltb x x = false.
Lemma lexcmp_spec d a : forall b,
  match lexcmp A eqb d a b with
  | Some r => exists p x y ra rb, a = p ++ x :: ra /\ b = p ++ y :: rb /\ x <> y /\ r = d x y
  | None => (exists q, b = a ++ q) \/ (exists q, a = b ++ q)
  end.
Proof.
  induction a as [|x a IH]; intros b; cbn [lexcmp]; [left; now exists b|]. destruct b as [|y b]; [right; now exists (x :: a)|].
  destruct (eqb x y) eqn:E.
  - apply eqb_eq in E. subst y. specialize (IH b). destruct (lexcmp A eqb d a b).
    + destruct IH as (p & u & v & ra & rb & -> & -> & N & R). exists (x :: p), u, v, ra, rb. auto.
    + destruct IH as [[q ->]|[q ->]]; [left|right]; now exists q.
  - exists [], x, y, a, b. repeat split. intro X. apply eqb_eq in X. congruence.
Qed.
Lemma split_unique (p : list A) : forall p' x y x' y' ra rb ra' rb',
  p ++ x :: ra = p' ++ x' :: ra' -> p ++ y :: rb = p' ++ y' :: rb' -> x <> y -> x' <> y' -> p = p' /\ x = x' /\ y = y'.
Proof.
  induction p as [|c p IH]; intros [|c' p'] x y x' y' ra rb ra' rb' E1 E2 N N'; cbn in E1, E2.
  - injection E1 as -> _. injection E2 as -> _. auto.
  - injection E1 as -> _. injection E2 as -> _. congruence.
  - injection E1 as -> _. injection E2 as -> _. congruence.
  - injection E1 as -> E1. injection E2 as E2. destruct (IH _ _ _ _ _ _ _ _ _ E1 E2 N N') as (-> & -> & ->). auto.
Qed.
Notation lexlt := (SeqCmp_Spec.lex_lt (fun x y => ltb x y = true)).
Lemma lt_neq x y : ltb x y = true -> x <> y. Proof. intros H ->. rewrite lt_irrefl in H. discriminate. Qed.
Lemma app_cons_neq (a q : list A) x : a ++ x :: q <> a.
Proof. intro H. apply (f_equal (@length A)) in H. rewrite app_length in H. cbn in H. lia. Qed.
(** what a first difference says *)
Lemma lex_diff p x y ra rb : x <> y -> (lexlt (p ++ x :: ra) (p ++ y :: rb) <-> ltb x y = true).
Proof.
  intro N. split.
  - intros [(p' & x' & y' & r1 & r2 & E1 & E2 & L)|(z & r & E)].
    + destruct (split_unique _ _ _ _ _ _ _ _ _ _ E1 E2 N (lt_neq _ _ L)) as (_ & -> & ->). exact L.
    + exfalso. rewrite <- app_assoc in E. apply app_inv_head in E. injection E as E _. congruence.
  - intro L. left. exists p, x, y, ra, rb. auto.
Qed.
Lemma lex_prefix a q : lexlt a (a ++ q) <-> q <> [].
Proof.
  split.
  - intros [(p & x & y & r1 & r2 & E1 & E2 & L)|(z & r & E)].
    + exfalso. rewrite E1, <- app_assoc in E2. apply app_inv_head in E2. injection E2 as E2 _. subst. rewrite lt_irrefl in L. discriminate.
    + apply app_inv_head in E. subst. discriminate.
  - destruct q as [|y r]; [congruence|]. intros _. right. now exists y, r.
Qed.
Lemma lex_prefix_r b q : ~ lexlt (b ++ q) b.
Proof.
  intros [(p & x & y & r1 & r2 & E1 & E2 & L)|(z & r & E)].
  - rewrite E2, <- app_assoc in E1. apply app_inv_head in E1. injection E1 as E1 _. subst. rewrite lt_irrefl in L. discriminate.
  - rewrite <- app_assoc in E. rewrite <- (app_nil_r b) in E at 1. apply app_inv_head in E. destruct q; discriminate.
Qed.
Lemma len_nil (q : list A) : q = [] <-> Z.of_nat (length q) = 0. Proof. destruct q; cbn [length]; split; intro; try reflexivity; try discriminate; lia. Qed.
Lemma cmp_ok other : let l := contents t in
  (lt_ A eqb ltb t other = true <-> lexlt l other) /\ (le_ A eqb ltb t other = true <-> lexlt l other \/ l = other) /\
  (gt_ A eqb ltb t other = true <-> lexlt other l) /\ (ge_ A eqb ltb t other = true <-> lexlt other l \/ l = other).
Proof.
  cbv zeta. unfold lt_, le_, gt_, ge_, compare. pose proof contents_len as CL. set (l := contents t) in *.
  pose proof (lexcmp_spec ltb l other) as S1. pose proof (lexcmp_spec (fun x y => ltb y x) l other) as S2.
  assert (SAME : match lexcmp A eqb ltb l other, lexcmp A eqb (fun x y => ltb y x) l other with Some _, Some _ | None, None => True | _, _ => False end).
  { clear. generalize other. induction l as [|x l IH]; intros [|y o]; cbn; auto. destruct (eqb x y); [apply IH|exact I]. }
  destruct (lexcmp A eqb ltb l other) as [r1|], (lexcmp A eqb (fun x y => ltb y x) l other) as [r2|]; try contradiction.
  - destruct S1 as (p & x & y & ra & rb & -> & -> & N & ->). destruct S2 as (p' & x' & y' & ra' & rb' & E1 & E2 & N' & ->).
    destruct (split_unique _ _ _ _ _ _ _ _ _ _ E1 E2 N N') as (_ & <- & <-). clear E1 E2.
    assert (NE : p ++ x :: ra <> p ++ y :: rb) by (intro X; apply app_inv_head in X; congruence).
    rewrite (lex_diff p x y ra rb N), (lex_diff p y x rb ra ltac:(congruence)). tauto.
  - rewrite <- CL. destruct S1 as [[q ->]|[q E]].
    + rewrite app_length, Nat2Z.inj_add. rewrite (lex_prefix l q). pose proof (lex_prefix_r l q) as NR.
      assert (EQ : l = l ++ q <-> q = []) by (split; [intro X; rewrite <- (app_nil_r l) in X at 1; apply app_inv_head in X; congruence|intros ->; now rewrite app_nil_r]).
      rewrite EQ. clear EQ. rewrite !Z.ltb_lt, !Z.leb_le. destruct q as [|z q]; cbn [length]; intuition (try discriminate; try congruence; try lia).
    + rewrite E in *. rewrite app_length, Nat2Z.inj_add. rewrite (lex_prefix other q). pose proof (lex_prefix_r other q) as NR.
      assert (EQ : other ++ q = other <-> q = []) by (split; [intro X; rewrite <- (app_nil_r other) in X at 2; apply app_inv_head in X; congruence|intros ->; now rewrite app_nil_r]).
      rewrite EQ. clear EQ. rewrite !Z.ltb_lt, !Z.leb_le. destruct q as [|z q]; cbn [length]; intuition (try discriminate; try congruence; try lia).
Qed.
End Arr.
Lemma smt_eq_contents A t u : smt_eq A t u -> contents A t = contents A u.
Proof. intros [L E]. unfold contents, items. rewrite L. apply map_ext. intro. apply E. Qed.
