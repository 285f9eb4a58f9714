(** C167: the numeric values of characters. *)
From Coq Require Import QArith ZArith List Bool Lia Sorted Qabs.
From Verif Require Import Py CharMask_Model CharMask_Spec CharMask_Proofs FloatPrec_Model UniNum_Model UniNum_Spec.
Import ListNotations.
Open Scope Z_scope.

Section Tables.
Variable maxu : Z.
Context {V : Type}.
Lemma map_keys : forall (table : Z -> option V) l,
  map fst (flat_map (fun c => match table c with Some v => [(c, v)] | None => [] end) l) =
  filter (fun c => match table c with Some _ => true | None => false end) l.
Proof.
  intros table. induction l as [|c l IH]; [reflexivity|]. cbn [flat_map filter].
  destruct (table c); cbn [app map fst]; rewrite IH; reflexivity.
Qed.
Lemma map_in : forall (table : Z -> option V) c v, 0 <= c <= maxu -> table c = Some v -> In (c, v) (fn_map maxu table).
Proof.
  intros table c v B T. unfold fn_map. apply in_flat_map. exists c. split; [now apply codepoints_in|].
  rewrite T. left. reflexivity.
Qed.
Lemma mask_ok : forall (table : Z -> option V), exists m, exists_mask maxu table = Ok m /\
  forall c, 0 <= c <= maxu -> smt_matches m c = match table c with Some _ => true | None => false end.
Proof.
  intro table. set (has := fun c => match table c with Some _ => true | None => false end).
  assert (K : map fst (fn_map maxu table) = filter has (codepoints maxu)) by apply map_keys.
  destruct (make_mask_ok maxu (filter has (codepoints maxu))) as (m & E & _ & _ & H).
  - apply zle_filter, seq_sorted.
  - apply forall_filter, Forall_forall. intros c I. now apply codepoints_in.
  - exists m. unfold exists_mask. rewrite K. split; [exact E|]. intros c B.
    destruct (smt_matches m c) eqn:M.
    + apply smt_matches_ok, H, filter_In in M. destruct M as [_ M]. symmetry. exact M.
    + destruct (has c) eqn:P; unfold has in P; [|symmetry; exact P].
      assert (X : smt_matches m c = true); [|congruence].
      apply smt_matches_ok, H, filter_In. split; [now apply codepoints_in|exact P].
Qed.
End Tables.

(** decimal and digit: right for every string, whatever the table and whatever the solver
    takes its function to be elsewhere. *)
Theorem C167_integers : forall maxu table f s,
  interprets f (fn_map maxu table) -> (forall c, In c s -> 0 <= c <= maxu) ->
  m_integer maxu table f s = py_value table s.
Proof.
  intros maxu table f s F B. unfold m_integer, m_ord, py_value.
  destruct s as [|c [|d s]]; try reflexivity. cbn [bind].
  assert (Bc : 0 <= c <= maxu) by (apply B; left; reflexivity).
  destruct (mask_ok maxu table) as (m & E & M). rewrite E. cbn [bind]. rewrite (M c Bc).
  destruct (table c) eqn:T; [|reflexivity]. rewrite (F c z); [reflexivity|]. apply map_in; assumption.
Qed.
Print Assumptions C167_integers.
Definition arabic (c : Z) : option Z := if (1632 <=? c) && (c <=? 1641) then Some (c - 1632) else None.
Lemma arabic_interprets : forall maxu, interprets (fun c => c - 1632) (fn_map maxu arabic).
Proof.
  intros maxu k v I. unfold fn_map in I. apply in_flat_map in I as (c & _ & I).
  unfold arabic in I. destruct ((1632 <=? c) && (c <=? 1641)); [|destruct I].
  destruct I as [I|[]]. injection I as <- <-. reflexivity.
Qed.
Example C167_integers_example : forall maxu,
  interprets (fun c => c - 1632) (fn_map maxu arabic) /\
  py_value arabic [1635] = Ok 3 /\ py_value arabic [97] = Err ValueError /\ py_value arabic [1635; 1635] = Err TypeError.
Proof. intro maxu. split; [apply arabic_interprets|]. split; [reflexivity|]. split; reflexivity. Qed.

(** *** numeric *)
Lemma of_Q_comp : forall z a b, (a == b)%Q -> of_Q z a = of_Q z b.
Proof. intros z a b H. unfold of_Q. rewrite (Qred_complete _ _ H). reflexivity. Qed.
Lemma of_Q_sign : forall z w q, ~ (q == 0)%Q -> of_Q z q = of_Q w q.
Proof.
  intros z w q N. unfold of_Q. destruct (Qeq_bool (Qred q) 0) eqn:E; [|reflexivity].
  apply Qeq_bool_iff in E. rewrite Qred_correct in E. contradiction.
Qed.
Lemma one_exact : of_Q false 1 = FFin false 1.
Proof. vm_compute. reflexivity. Qed.
Lemma double_value : forall q, (fval (negb (Qle_bool 0 q)) (Qred (Qabs q)) == q)%Q.
Proof.
  intro q. unfold fval. destruct (Qle_bool 0 q) eqn:E; cbn [negb]; rewrite Qred_correct.
  - apply Qle_bool_iff in E. apply Qabs_pos, E.
  - assert (L : (q <= 0)%Q). { destruct (Qlt_le_dec q 0) as [H|H]; [apply Qlt_le_weak, H|]. apply Qle_bool_iff in H. congruence. }
    rewrite (Qabs_neg q L). ring.
Qed.
(** a whole number that is a double, divided by 1 *)
Lemma whole_div : forall n, of_Q false (inject_Z n) = as_double (inject_Z n) ->
  fp_div (of_Q false (inject_Z n)) (of_Q false (inject_Z 1)) = as_double (inject_Z n).
Proof.
  intros n H. change (inject_Z 1) with 1%Q. rewrite one_exact, H at 1. unfold as_double at 1, fp_div.
  change (Qeq_bool 1 0) with false. cbv iota. rewrite Bool.xorb_false_r.
  assert (E : (fval (negb (Qle_bool 0 (inject_Z n))) (Qred (Qabs (inject_Z n))) / fval false 1 == inject_Z n)%Q).
  { rewrite double_value. unfold fval. field. }
  rewrite (of_Q_comp _ _ _ E). destruct (Z.eq_dec n 0) as [->|N].
  - vm_compute. reflexivity.
  - rewrite (of_Q_sign _ false); [exact H|]. intro X. unfold Qeq, inject_Z in X. cbn in X. lia.
Qed.

(** the fractions of Unicode: rounding, then limit_denominator, then the division *)
Definition check_fraction (p : Z * positive) : bool :=
  let (n, d) := p in
  match of_Q false (n # d) with
  | FFin neg mag =>
      match limit_denominator (fval neg mag) with
      | Some (a, b) =>
          (a =? n) && (b =? Z.pos d) &&
          match fp_div (of_Q false (inject_Z a)) (of_Q false (inject_Z b)) with
          | FFin neg' mag' => Bool.eqb neg neg' && (Qnum mag =? Qnum mag') && Pos.eqb (Qden mag) (Qden mag')
          | _ => false
          end
      | None => false
      end
  | _ => false
  end.
Lemma fractions_ok : forallb check_fraction unicode_fractions = true.
Proof. vm_compute. reflexivity. Qed.
Lemma limit_comp : forall a b, (a == b)%Q -> limit_denominator a = limit_denominator b.
Proof. intros a b H. unfold limit_denominator. rewrite (Qred_complete _ _ H). reflexivity. Qed.
Lemma value_ok : forall v, unicode_value v -> exists a b, limit_denominator v = Some (a, b) /\
  fp_div (of_Q false (inject_Z a)) (of_Q false (inject_Z b)) = as_double v.
Proof.
  intros v [(n & -> & H)|(n & d & I & H & R)].
  - exists n, 1. split; [|apply whole_div, H].
    unfold limit_denominator. assert (X : Qred (inject_Z n) = inject_Z n).
    { unfold Qred, inject_Z. pose proof (Z.ggcd_gcd n 1) as G. pose proof (Z.ggcd_correct_divisors n 1) as D.
      destruct (Z.ggcd n 1) as [g [aa bb]]. cbn [fst] in G. rewrite Z.gcd_1_r in G. subst g. destruct D as [D1 D2].
      cbn [snd]. replace bb with 1 by lia. replace aa with n by lia. reflexivity. }
    rewrite X. reflexivity.
  - pose proof fractions_ok as F. rewrite forallb_forall in F. specialize (F _ I). unfold check_fraction in F.
    rewrite H in F. unfold as_double in F at 1. rewrite (limit_comp _ v (double_value v)) in F.
    destruct (limit_denominator v) as [[a b]|]; [|discriminate]. exists a, b. split; [reflexivity|].
    unfold as_double. apply andb_true_iff in F as [_ F].
    destruct (fp_div (of_Q false (inject_Z a)) (of_Q false (inject_Z b))) as [neg mag| |]; try discriminate.
    apply andb_true_iff in F as [F F3]. apply andb_true_iff in F as [F1 F2].
    apply Bool.eqb_prop in F1. apply Z.eqb_eq in F2. apply Pos.eqb_eq in F3. rewrite <- F1. f_equal.
    destruct (Qred (Qabs v)), mag. cbn in F2, F3. congruence.
Qed.

Section Numeric.
Variables (maxu : Z) (table : Z -> option Q) (fnum fden : Z -> Z).
Hypothesis Hnum : interprets fnum (numerators maxu table).
Hypothesis Hden : interprets fden (denominators maxu table).
Hypothesis values : forall c v, table c = Some v -> unicode_value v.
Lemma ratio_ok : forall s, (forall c, In c s -> 0 <= c <= maxu) ->
  m_ratio maxu table fnum fden s = py_value (fraction_of table) s.
Proof.
  intros s B. unfold m_ratio, m_ord, py_value. destruct s as [|c [|d s]]; try reflexivity. cbn [bind].
  assert (Bc : 0 <= c <= maxu) by (apply B; left; reflexivity).
  destruct (mask_ok maxu (fraction_of table)) as (m & E & M). rewrite E. cbn [bind]. rewrite (M c Bc).
  destruct (fraction_of table c) as [[a b]|] eqn:T; [|reflexivity].
  pose proof (map_in maxu _ c _ Bc T) as I.
  rewrite (Hnum c a); [|apply (in_map (fun p => (fst p, fst (snd p))) _ _ I)].
  rewrite (Hden c b); [|apply (in_map (fun p => (fst p, snd (snd p))) _ _ I)]. reflexivity.
Qed.
Lemma numeric_ok : forall s, (forall c, In c s -> 0 <= c <= maxu) ->
  m_numeric maxu table fnum fden s = do v <- py_value table s; Ok (as_double v).
Proof.
  intros s B. unfold m_numeric. rewrite (ratio_ok s B). unfold py_value.
  destruct s as [|c [|d s]]; try reflexivity. unfold fraction_of.
  destruct (table c) as [v|] eqn:T; [|reflexivity].
  destruct (value_ok v (values c v T)) as (a & b & L & D). rewrite L. cbn [bind fst snd]. rewrite D. reflexivity.
Qed.
End Numeric.

(** numeric, when floats are doubles: right for every character, though the table went
    through fractions. *)
Theorem C167_numeric_partial : forall maxu table fnum fden s,
  interprets fnum (numerators maxu table) -> interprets fden (denominators maxu table) ->
  (forall c v, table c = Some v -> unicode_value v) -> (forall c, In c s -> 0 <= c <= maxu) ->
  m_numeric maxu table fnum fden s = do v <- py_value table s; Ok (as_double v).
Proof. intros. apply numeric_ok; assumption. Qed.
Print Assumptions C167_numeric_partial.

(** one third as a double *)
Definition third : Q := match of_Q false (1 # 3) with FFin _ m => m | _ => 0%Q end.
(** a table with 5 (53) and one third (8531) *)
Definition small (c : Z) : option Q :=
  if c =? 53 then Some (inject_Z 5) else if c =? 8531 then Some third else None.
Lemma small_values : forall c v, small c = Some v -> unicode_value v.
Proof.
  intros c v. unfold small. destruct (c =? 53).
  - intro E. injection E as <-. left. exists 5. split; [reflexivity|]. vm_compute. reflexivity.
  - destruct (c =? 8531); [|discriminate]. intro E. injection E as <-. right. exists 1, 3%positive.
    split; [right; right; left; reflexivity|]. split; vm_compute; reflexivity.
Qed.
Definition small_num (c : Z) : Z := if c =? 53 then 5 else 1.
Definition small_den (c : Z) : Z := if c =? 53 then 1 else 3.
Lemma small_interprets : forall maxu,
  interprets small_num (numerators maxu small) /\ interprets small_den (denominators maxu small).
Proof.
  assert (A : fraction_of small 53 = Some (5, 1)) by (vm_compute; reflexivity).
  assert (B : fraction_of small 8531 = Some (1, 3)) by (vm_compute; reflexivity).
  assert (X : forall maxu c p, In (c, p) (fn_map maxu (fraction_of small)) -> (c = 53 /\ p = (5, 1)) \/ (c = 8531 /\ p = (1, 3))).
  { intros maxu c p I. unfold fn_map in I. apply in_flat_map in I as (d & _ & I).
    destruct (fraction_of small d) as [q|] eqn:E; [|destruct I]. destruct I as [I|[]]. injection I as <- <-.
    destruct (Z.eq_dec d 53) as [->|N]; [left; split; congruence|].
    destruct (Z.eq_dec d 8531) as [->|M]; [right; split; congruence|].
    unfold fraction_of, small in E. apply Z.eqb_neq in N, M. rewrite N, M in E. discriminate. }
  intro maxu. split; intros k v I; apply in_map_iff in I as ([c p] & E & I); cbn [fst snd] in E; injection E as <- <-;
    destruct (X _ _ _ I) as [[-> ->]|[-> ->]]; reflexivity.
Qed.
Example C167_numeric_example : forall maxu, 8531 <= maxu ->
  m_numeric maxu small small_num small_den [8531] = Ok (FFin false third) /\
  m_numeric maxu small small_num small_den [97] = Err ValueError.
Proof.
  intros maxu B. destruct (small_interprets maxu) as [N D].
  split; (rewrite (C167_numeric_partial maxu small _ _ _ N D small_values);
          [vm_compute; reflexivity|intros c [<-|[]]; lia]).
Qed.

(** Refuted: when floats are reals, the value of the character for one third is not the
    number that Python gives. *)
Theorem C167_real_refuted : forall maxu, 8531 <= maxu -> exists table fnum fden s q v,
  interprets fnum (numerators maxu table) /\ interprets fden (denominators maxu table) /\
  (forall c v, table c = Some v -> unicode_value v) /\
  m_numeric_real maxu table fnum fden s = Ok q /\ py_value table s = Ok v /\ ~ (q == v)%Q.
Proof.
  intros maxu M. exists small, small_num, small_den, [8531], (1 / 3)%Q, third.
  destruct (small_interprets maxu) as [N D]. split; [exact N|]. split; [exact D|]. split; [exact small_values|].
  split; [|split; [reflexivity|intro X; apply Qeq_bool_iff in X; vm_compute in X; discriminate]].
  unfold m_numeric_real. rewrite (ratio_ok maxu small _ _ N D) by (intros c [<-|[]]; lia).
  vm_compute. reflexivity.
Qed.
Print Assumptions C167_real_refuted.

(** Without a default a call is its function's; refuted with one: always a TypeError, though
    Python gives the default, or the value. *)
Theorem C167_call : forall maxu table f s,
  interprets f (fn_map maxu table) -> (forall c, In c s -> 0 <= c <= maxu) ->
  m_call (D := Z) (m_integer maxu table f) s None = py_call table s None.
Proof.
  intros maxu table f s F B. unfold m_call. rewrite (C167_integers _ _ _ _ F B). unfold py_value, py_call.
  destruct s as [|c [|d s]]; try reflexivity. destruct (table c); reflexivity.
Qed.
Print Assumptions C167_call.
Theorem C167_default_refuted : forall maxu, exists table f s (d : Z),
  interprets f (fn_map maxu table) /\
  m_call (m_integer maxu table f) s (Some d) = Err TypeError /\
  py_call table s (Some d) = Ok (inr d) /\ py_call table [1635] (Some d) = Ok (inl 3).
Proof.
  intro maxu. exists arabic, (fun c => c - 1632), [97], (-1).
  split; [apply arabic_interprets|]. split; [reflexivity|]. split; reflexivity.
Qed.
Print Assumptions C167_default_refuted.
