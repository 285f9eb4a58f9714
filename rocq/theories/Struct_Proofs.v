From Coq Require Import ZArith List Bool Lia ZifyBool ZifyNat.
From Verif Require Import Py PySeq_Spec Seq_Model Seq_Proofs SeqMut_Proofs Str_Model Str_Spec Str_Proofs Str_Proofs2 Codec_Proofs2 IntOps_Model IntOps_Spec IntOps_Proofs Struct_Model Struct_Spec.
Import ListNotations.
Open Scope Z_scope.

Lemma byteorder_ok p : byteorder p <> OtherOrder. Proof. destruct p; discriminate. Qed.
Lemma explicit_order p : explicit p -> byteorder p = py_order p. Proof. destruct p; cbn; tauto. Qed.
Lemma slen_repeat (x : Z) n : slen (repeat x n) = Z.of_nat n. Proof. unfold slen. now rewrite repeat_length. Qed.

Section Real.
Variable real_size : prefix -> code -> Z.
Variable real_pack : prefix -> item -> value -> res (list Z).
Variable real_unpack : prefix -> item -> list Z -> res value.
Notation item_size := (item_size real_size).
Notation total_size := (total_size real_size).
Notation pack_one := (pack_one real_size real_pack).
Notation pack_loop := (pack_loop real_size real_pack).
Notation m_pack := (m_pack real_size real_pack).
Notation unpack_one := (unpack_one real_unpack).
Notation unpack_loop := (unpack_loop real_size real_unpack).
Notation m_unpack := (m_unpack real_size real_unpack).

(** *** Sizes *)
Lemma simple_size p i : simple i -> item_size p i = code_size (fst i).
Proof. destruct i as [k n]. intros [E H]. cbn in E. subst n. destruct k; cbn in *; try tauto; lia. Qed.
Lemma code_size_pos i : simple i -> 0 < code_size (fst i).
Proof. destruct i as [k n]. intros [_ H]. destruct k; cbn in *; try tauto; lia. Qed.
Lemma simple_total p is : Forall simple is -> total_size p is = py_size is.
Proof.
  induction 1 as [|i is H _ IH]; [reflexivity|]. unfold total_size, py_size in *. cbn [fold_right].
  rewrite IH. f_equal. now apply simple_size.
Qed.
Lemma py_size_nonneg is : Forall simple is -> 0 <= py_size is.
Proof. induction 1 as [|i is H _ IH]; [cbn; lia|]. pose proof (code_size_pos i H). unfold py_size in *. cbn [fold_right]. lia. Qed.
Lemma py_size_cons i is : py_size (i :: is) = code_size (fst i) + py_size is. Proof. reflexivity. Qed.

(** *** Packing *)
Lemma arg_count_pad n is : arg_count ((Pad, n) :: is) = arg_count is. Proof. reflexivity. Qed.
Lemma arg_count_cons i is : fst i <> Pad -> arg_count (i :: is) = 1 + arg_count is.
Proof. intro N. unfold arg_count. cbn [filter]. destruct (fst i); try congruence; cbn [map]; rewrite slen_cons; lia. Qed.
Lemma arg_count_nonneg is : 0 <= arg_count is. Proof. apply slen_nonneg. Qed.
Lemma writes_count o is vs b : writes o is vs b -> Z.of_nat (length vs) = arg_count is.
Proof.
  induction 1; cbn [length]; [reflexivity|rewrite arg_count_pad; assumption|..];
    rewrite arg_count_cons by discriminate; lia.
Qed.
Lemma writes_size o is vs b : writes o is vs b -> slen b = py_size is.
Proof. induction 1; rewrite ?py_size_cons, ?slen_app, ?slen_cons; cbn [fst code_size]; try reflexivity; lia. Qed.

Lemma writes_cons o i is v vs b : fst i <> Pad ->
  writes o (i :: is) (v :: vs) b <-> exists b1 b2, b = b1 ++ b2 /\ writes o [i] [v] b1 /\ writes o is vs b2.
Proof.
  intro N. split.
  - intro W. inversion W; subst; cbn in N; try congruence;
    match goal with
    | H : writes o is vs ?r |- context [?c :: ?r] => exists [c], r; repeat split; auto; constructor; constructor
    | _ => idtac
    end.
    + exists l, b0. repeat split; auto. generalize (w_int o (slen l) signed l [] [] []). rewrite app_nil_r. intro K. apply K; auto. constructor.
    + exists l, b0. repeat split; auto. generalize (w_int_bool o (slen l) signed t l [] [] []). rewrite app_nil_r. intro K. apply K; auto. constructor.
  - intros (b1 & b2 & -> & W1 & W2).
    inversion W1; subst; cbn in N; try congruence;
    match goal with H : writes o [] [] ?x |- _ => inversion H; subst end; cbn [app]; try (constructor; assumption);
    rewrite app_nil_r; constructor; auto.
Qed.
Lemma pack_one_ok p i v : simple i -> fst i <> Pad -> typed i v ->
  (exists b, pack_one p i v = Ok b /\ writes (byteorder p) [i] [v] b /\ forall b', writes (byteorder p) [i] [v] b' -> b' = b) \/
  (pack_one p i v = Err StructError /\ forall b, ~ writes (byteorder p) [i] [v] b).
Proof.
  destruct i as [k c]. intros [E S] N T. cbn in E. subst c.
  destruct k as [| | |size signed| | |]; cbn in S, N, T; try tauto; try congruence.
  - destruct v as [| |l|]; try tauto. unfold pack_one. cbn [fst].
    destruct (slen l =? 1) eqn:L; cbn [negb].
    + left. destruct l as [|x [|y l]]; [discriminate| |rewrite !slen_cons in L; pose proof (slen_nonneg l); lia].
      exists [x]. split; [reflexivity|]. split; [constructor; constructor|].
      intros b' W. inversion W; subst. match goal with H : writes _ [] [] _ |- _ => inversion H end. reflexivity.
    + right. split; [reflexivity|]. intros b W. inversion W; subst. discriminate.
  - destruct v as [|t| |]; try tauto. left. exists [if t then 1 else 0].
    split; [|split; [constructor; constructor|]].
    + unfold pack_one, val_to_bytes. cbn [fst]. destruct p, t; reflexivity.
    + intros b' W. inversion W; subst. match goal with H : writes _ [] [] _ |- _ => inversion H end. reflexivity.
  - assert (V : forall n, (exists l, m_to_bytes n size (byteorder p) signed = Ok l /\ Forall is_byte l /\ slen l = size
                 /\ py_int_of_bytes (byteorder p) signed l = n
                 /\ forall l', Forall is_byte l' -> slen l' = size -> py_int_of_bytes (byteorder p) signed l' = n -> l' = l) \/
               (m_to_bytes n size (byteorder p) signed = Err OverflowError /\
                forall l, Forall is_byte l -> slen l = size -> py_int_of_bytes (byteorder p) signed l <> n)).
    { intro n. pose proof (to_bytes_correct n size (byteorder p) signed ltac:(lia) (byteorder_ok p) ltac:(lia)) as H.
      unfold is_to_bytes in H. replace (size <? 0) with false in H by lia.
      replace (match byteorder p with OtherOrder => true | _ => false end) with false in H by (destruct p; reflexivity).
      cbn [orb] in H. destruct H as [(l & A & B & C & D)|H]; [left|right; exact H].
      exists l. repeat split; auto. intros l' B' C' D'.
      pose proof (bytes_roundtrip_back l' (byteorder p) signed B' (byteorder_ok p)) as R.
      rewrite from_bytes_correct in R by auto using byteorder_ok. cbn [bind] in R.
      rewrite D' in R. unfold slen in C'. rewrite C' in R. rewrite A in R.
      assert (signed = true -> l' <> []) by (intros _ ->; cbn in C'; lia). specialize (R H). congruence. }
    unfold pack_one, val_to_bytes. cbn [fst]. change (item_size p (Int size signed, 1)) with (size * 1).
    replace (size * 1) with size by lia.
    assert (X : exists n, match v with VInt n0 => m_to_bytes n0 size (byteorder p) signed | VBool b => m_to_bytes (if b then 1 else 0) size (byteorder p) signed | _ => Err AttributeError end = m_to_bytes n size (byteorder p) signed
      /\ forall b, writes (byteorder p) [(Int size signed, 1)] [v] b <->
          (Forall is_byte b /\ slen b = size /\ py_int_of_bytes (byteorder p) signed b = n)).
    { destruct v as [n|t| |]; try tauto; [exists n|exists (if t then 1 else 0)]; (split; [reflexivity|]);
      (intro b; split;
        [intro W; inversion W; subst; match goal with H : writes _ [] [] _ |- _ => inversion H end; rewrite app_nil_r; auto
        |intros (A & B & C)]).
      - rewrite <- C. generalize (w_int (byteorder p) size signed b [] [] []). rewrite app_nil_r. intro K. apply K; auto. constructor.
      - generalize (w_int_bool (byteorder p) size signed t b [] [] []). rewrite app_nil_r. intro K. apply K; auto. constructor. }
    destruct X as (n & -> & W). destruct (V n) as [(l & -> & A & B & C & U)|(-> & A)].
    + left. exists l. split; [reflexivity|]. split; [apply W; auto|]. intros b' W'. apply W in W' as (A' & B' & C'). auto.
    + right. split; [reflexivity|]. intros b W'. apply W in W' as (A' & B' & C'). exact (A b A' B' C').
Qed.
Lemma pack_loop_ok p is : Forall simple is -> forall vs, Z.of_nat (length vs) = arg_count is -> typed_all is vs ->
  packs (byteorder p) is vs (pack_loop p is vs).
Proof.
  induction 1 as [|[k c] is Hi His IH]; intros vs L T.
  - destruct vs; [|discriminate]. left. exists []. split; [reflexivity|constructor].
  - destruct (match k with Pad => true | _ => false end) eqn:K.
    + destruct k; try discriminate. destruct Hi as [E _]. cbn in E. subst c.
      rewrite arg_count_pad in L. destruct (IH vs L T) as [(b & E & W)|(E & W)].
      * left. exists (0 :: b). cbn [pack_loop]. rewrite E. split; [reflexivity|now constructor].
      * right. cbn [pack_loop]. rewrite E. split; [reflexivity|]. intros b W'. inversion W'; subst. exact (W _ H0).
    + assert (N : fst (k, c) <> Pad) by (intro E; cbn in E; subst k; discriminate).
      rewrite arg_count_cons in L by exact N. destruct vs as [|v vs]; [cbn [length] in L; pose proof (arg_count_nonneg is); lia|].
      assert (T' : typed (k, c) v /\ typed_all is vs) by (destruct k; try discriminate; exact T).
      destruct T' as [T1 T2]. assert (L' : Z.of_nat (length vs) = arg_count is) by (cbn [length] in L; lia).
      assert (E : pack_loop p ((k, c) :: is) (v :: vs) =
                  (do b <- pack_one p (k, c) v; do rest <- pack_loop p is vs; Ok (b ++ rest)))
        by (destruct k; try discriminate; reflexivity).
      rewrite E. clear E. unfold packs. setoid_rewrite (writes_cons _ (k, c) is v vs _ N).
      destruct (pack_one_ok p (k, c) v Hi N T1) as [(b & -> & W & U)|(-> & W)]; cbn [bind].
      * destruct (IH vs L' T2) as [(b2 & -> & W2)|(-> & W2)]; cbn [bind].
        -- left. exists (b ++ b2). split; [reflexivity|]. exists b, b2. auto.
        -- right. split; [reflexivity|]. intros b0 (b1 & b3 & -> & _ & W3). exact (W2 _ W3).
      * right. split; [reflexivity|]. intros b0 (b1 & b3 & -> & W3 & _). exact (W _ W3).
Qed.
Lemma pack_ok p is vs : Forall simple is -> typed_all is vs -> packs (byteorder p) is vs (m_pack p is vs).
Proof.
  intros S T. unfold m_pack. destruct (Z.of_nat (length vs) =? arg_count is) eqn:E; cbn [negb].
  - apply pack_loop_ok; auto. lia.
  - right. split; [reflexivity|]. intros b W. apply writes_count in W. lia.
Qed.

(** *** Unpacking *)
Lemma bytes_app l m : Forall is_byte (l ++ m) -> Forall is_byte l /\ Forall is_byte m.
Proof. apply Forall_app. Qed.
Lemma unpack_loop_ok p is : Forall simple is -> forall pre b post, Forall is_byte b -> slen b = py_size is ->
  exists vs, unpack_loop p is (pre ++ b ++ post) (slen pre) = Ok vs /\ reads (byteorder p) is b vs.
Proof.
  induction 1 as [|i is Hi His IH]; intros pre b post B L.
  - apply slen_0 in L. subst b. exists []. split; [reflexivity|constructor].
  - rewrite py_size_cons in L. pose proof (code_size_pos i Hi) as P. pose proof (py_size_nonneg is His) as Q.
    set (b1 := firstn (Z.to_nat (code_size (fst i))) b). set (b2 := skipn (Z.to_nat (code_size (fst i))) b).
    assert (Eb : b = b1 ++ b2) by (symmetry; apply firstn_skipn).
    assert (L1 : slen b1 = code_size (fst i)) by (unfold slen, b1 in *; rewrite firstn_length; lia).
    clearbody b1 b2. subst b. rewrite slen_app in L. apply bytes_app in B as [B1 B2].
    cbn [unpack_loop]. rewrite simple_size by auto. rewrite <- L1.
    replace (sslice (pre ++ (b1 ++ b2) ++ post) (Some (slen pre)) (Some (slen pre + slen b1))) with b1.
    2:{ pose proof (slen_nonneg pre). pose proof (slen_nonneg b1). pose proof (slen_nonneg b2). pose proof (slen_nonneg post).
        rewrite sslice_mid by (rewrite ?slen_app; lia).
        replace (slen pre + slen b1 - slen pre) with (slen b1) by lia. unfold slen. rewrite !Nat2Z.id.
        rewrite skipn_app, skipn_all, Nat.sub_diag, app_nil_l. cbn [skipn].
        rewrite <- app_assoc, firstn_app, Nat.sub_diag, firstn_all. cbn [firstn]. now rewrite app_nil_r. }
    destruct (IH (pre ++ b1) b2 post B2 ltac:(lia)) as (vs & E & R).
    rewrite slen_app, <- app_assoc in E. rewrite <- app_assoc. rewrite E. clear E IH.
    destruct i as [k c]. destruct Hi as [Ec Hk]. cbn in Ec. subst c. cbn [fst] in *.
    assert (ONE : code_size k = 1 -> exists x, b1 = [x]).
    { intro O. rewrite O in L1. destruct b1 as [|x [|y r]]; [discriminate|eauto|].
      rewrite !slen_cons in L1. pose proof (slen_nonneg r). lia. }
    destruct k as [| | |size signed| | |]; cbn in Hk; try tauto.
    + destruct (ONE eq_refl) as (x & ->). eexists. split; [reflexivity|]. cbn [app]. now constructor.
    + destruct (ONE eq_refl) as (x & ->). eexists. split; [reflexivity|]. cbn [app]. now constructor.
    + destruct (ONE eq_refl) as (x & ->). eexists. split; [reflexivity|]. cbn [app]. now constructor.
    + unfold unpack_one. cbn [fst]. rewrite from_bytes_correct by auto using byteorder_ok. cbn [bind].
      eexists. split; [reflexivity|]. cbn [app]. now constructor.
Qed.
Lemma unpack_prefix p is b post : Forall simple is -> Forall is_byte b -> slen b = py_size is ->
  exists vs, m_unpack p is (b ++ post) = Ok vs /\ reads (byteorder p) is b vs.
Proof.
  intros S B L. unfold m_unpack. rewrite simple_total by auto. rewrite slen_app. pose proof (slen_nonneg post).
  replace (slen b + slen post <? py_size is) with false by lia. cbn iota.
  exact (unpack_loop_ok p is S [] b post B L).
Qed.
Lemma unpack_short p is buf : Forall simple is -> slen buf < py_size is -> m_unpack p is buf = Err StructError.
Proof. intros S L. unfold m_unpack. rewrite simple_total by auto. now replace (_ <? _) with true by lia. Qed.
Lemma unpack_ok p is buf : Forall simple is -> Forall is_byte buf -> slen buf <= py_size is ->
  unpacks (byteorder p) is buf (m_unpack p is buf).
Proof.
  intros S B L. unfold unpacks. destruct (slen buf =? py_size is) eqn:E.
  - destruct (unpack_prefix p is buf [] S B ltac:(lia)) as (vs & H & R). rewrite app_nil_r in H. eauto.
  - apply unpack_short; auto. lia.
Qed.
(** What is read has one meaning. *)
Lemma app_split {A} (l : list A) : forall m x y, length l = length m -> l ++ x = m ++ y -> l = m /\ x = y.
Proof.
  induction l as [|a l IH]; intros [|b m] x y H E; cbn in *; try discriminate; auto.
  injection E as -> E. destruct (IH m x y ltac:(lia) E) as [-> ->]. auto.
Qed.
Lemma reads_det o is : forall b vs vs', reads o is b vs -> reads o is b vs' -> vs = vs'.
Proof.
  induction is as [|i is IH]; intros b vs vs' R R'; inversion R; subst; inversion R'; subst; try reflexivity;
  try match goal with
  | E : ?l ++ ?x = ?m ++ ?y |- _ => destruct (app_split l m x y) as [? ?]; [unfold slen in *; lia|exact E|subst]
  end; f_equal; eauto.
Qed.
Lemma reads_size o is b vs : reads o is b vs -> slen b = py_size is.
Proof. induction 1; rewrite ?py_size_cons, ?slen_app, ?slen_cons; cbn [fst code_size]; try reflexivity; lia. Qed.

(** *** Round trip *)
Lemma writes_reads o is vs b : writes o is vs b -> typed_all is vs -> reads o is b (as_read is vs).
Proof.
  induction 1; cbn [typed_all as_read]; intro T; try (constructor; tauto).
  - destruct T as [_ T]. replace (VBool t) with (VBool (negb ((if t then 1 else 0) =? 0))) by (destruct t; reflexivity).
    constructor. auto.
  - destruct T as [T _]. contradiction.
  - cbn [value_int]. rewrite <- H1. apply r_int; tauto.
Qed.
Lemma writes_bytes o is vs b : writes o is vs b -> typed_all is vs -> Forall is_byte b.
Proof.
  induction 1; cbn [typed_all]; intro T.
  - constructor.
  - constructor; [unfold is_byte; lia|auto].
  - destruct T as [T1 T2]. cbn in T1. constructor; [now inversion T1|auto].
  - constructor; [destruct t; unfold is_byte; lia|tauto].
  - destruct T as [T _]. contradiction.
  - apply Forall_app; tauto.
  - apply Forall_app; tauto.
Qed.
Lemma roundtrip_ok p is vs b : Forall simple is -> typed_all is vs -> m_pack p is vs = Ok b ->
  m_unpack p is b = Ok (as_read is vs).
Proof.
  intros S T E. destruct (pack_ok p is vs S T) as [(b' & E' & W)|(E' & _)]; [|congruence].
  assert (b' = b) as -> by congruence.
  destruct (unpack_prefix p is b [] S (writes_bytes _ _ _ _ W T) (writes_size _ _ _ _ W)) as (vs' & H & R).
  rewrite app_nil_r in H. rewrite H. f_equal. eapply reads_det; [exact R|]. now apply writes_reads.
Qed.

(** *** unpack_from, pack_into, iter_unpack *)
Notation m_unpack_from := (m_unpack_from real_size real_unpack).
Notation m_pack_into := (m_pack_into real_size real_pack).
Notation m_iter_unpack := (m_iter_unpack real_size real_unpack).
Lemma sslice_from s i : 0 <= i -> sslice s (Some i) None = skipn (Z.to_nat i) s.
Proof.
  intro. rewrite sslice_eq. unfold win_start, win_end. replace (i <? 0) with false by lia. cbn iota.
  destruct (Z.le_gt_cases i (slen s)).
  - rewrite Z.min_r by lia. apply firstn_all2. rewrite skipn_length. unfold slen. lia.
  - rewrite Z.min_l by lia. rewrite Z.sub_diag. symmetry. apply skipn_all2. unfold slen in *. lia.
Qed.
Lemma sslice_from_neg s i : - slen s <= i < 0 -> sslice s (Some i) None = skipn (Z.to_nat (i + slen s)) s.
Proof.
  intro. rewrite sslice_eq. unfold win_start, win_end. replace (i <? 0) with true by lia. cbn iota.
  replace (Z.min _ _) with (i + slen s) by lia. apply firstn_all2. rewrite skipn_length. unfold slen in *. lia.
Qed.
Lemma Forall_firstn_ {A} (P : A -> Prop) n l : Forall P l -> Forall P (firstn n l).
Proof. intro H. rewrite <- (firstn_skipn n l) in H. now apply Forall_app in H. Qed.
Lemma Forall_skipn_ {A} (P : A -> Prop) n l : Forall P l -> Forall P (skipn n l).
Proof. intro H. rewrite <- (firstn_skipn n l) in H. now apply Forall_app in H. Qed.
Lemma unpack_from_ok p is buf off : Forall simple is -> Forall is_byte buf -> - slen buf <= off ->
  (off <= slen buf \/ 0 < py_size is) ->
  unpacks_from (byteorder p) is buf off (m_unpack_from p is buf off).
Proof.
  intros S B L K. unfold unpacks_from, m_unpack_from. cbn zeta. set (off' := if off <? 0 then _ else _).
  assert (0 <= off' /\ (off' <= slen buf \/ 0 < py_size is)) as [P Q] by (unfold off'; ifs; lia).
  replace (sslice buf (Some off) None) with (skipn (Z.to_nat off') buf).
  2:{ unfold off'. destruct (off <? 0) eqn:E; symmetry; [apply sslice_from_neg; lia|apply sslice_from; lia]. }
  clearbody off'. replace (0 <=? off') with true by lia. cbn [andb]. pose proof (py_size_nonneg is S).
  destruct (off' + py_size is <=? slen buf) eqn:E.
  - set (t := skipn (Z.to_nat off') buf). pose proof (unpack_prefix p is (firstn (Z.to_nat (py_size is)) t) (skipn (Z.to_nat (py_size is)) t) S) as U.
    rewrite firstn_skipn in U. apply U.
    + apply Forall_firstn_, Forall_skipn_, B.
    + unfold t, slen in *. rewrite firstn_length, skipn_length. lia.
  - apply unpack_short; auto. unfold slen in *. rewrite skipn_length. lia.
Qed.
Lemma pack_into_ok p is buf off vs : Forall simple is -> typed_all is vs ->
  (0 <= off /\ off + py_size is <= slen buf \/ - slen buf <= off /\ off + py_size is < 0) ->
  packs_into (byteorder p) is buf off vs (m_pack_into p is buf off vs).
Proof.
  intros S T K. unfold packs_into, m_pack_into. cbn zeta. set (off' := if off <? 0 then _ else _).
  pose proof (py_size_nonneg is S). assert (0 <= off' /\ off' + py_size is <= slen buf) by (unfold off'; ifs; lia).
  replace ((0 <=? off') && (off' + py_size is <=? slen buf)) with true by lia. cbn iota.
  destruct (pack_ok p is vs S T) as [(b & -> & W)|(-> & W)]; cbn [bind]; [left|right; auto].
  exists b. split; [|exact W]. rewrite py_setslice1 by reflexivity. pose proof (writes_size _ _ _ _ W) as L.
  assert (E : a_start (Z.of_nat (length buf)) (mkSl (Some off) (Some (off + slen b)) None) = off'
    /\ a_stop (Z.of_nat (length buf)) (mkSl (Some off) (Some (off + slen b)) None) = off' + py_size is).
  { unfold a_start, a_stop, the_step. cbn. unfold slen in *. unfold off' in *. destruct (off <? 0) eqn:O; rewrite ?L; split; ifs; lia. }
  destruct E as [-> ->]. rewrite Z.max_r by lia. reflexivity.
Qed.
Lemma iter_loop_ok p is : Forall simple is -> 0 < py_size is -> forall buf, Forall is_byte buf ->
  forall fuel n pre rest, buf = pre ++ rest -> slen rest = Z.of_nat n * py_size is -> (n <= fuel)%nat ->
  exists l, iter_loop real_size real_unpack fuel p is (py_size is) buf (slen pre) = Ok l /\ records (byteorder p) is rest l.
Proof.
  intros S P buf B. induction fuel as [|fuel IH]; intros n pre rest E L F.
  - assert (n = 0%nat) as -> by lia. assert (slen rest = 0) by lia. apply slen_0 in H. subst rest.
    rewrite app_nil_r in E. subst buf. exists []. split; [|constructor]. cbn [iter_loop].
    now replace (slen pre + py_size is <=? slen pre) with false by lia.
  - destruct n as [|n].
    + assert (slen rest = 0) by lia. apply slen_0 in H. subst rest.
      rewrite app_nil_r in E. subst buf. exists []. split; [|constructor]. cbn [iter_loop].
      now replace (slen pre + py_size is <=? slen pre) with false by lia.
    + set (b := firstn (Z.to_nat (py_size is)) rest). set (r := skipn (Z.to_nat (py_size is)) rest).
      assert (Er : rest = b ++ r) by (symmetry; apply firstn_skipn).
      assert (Lb : slen b = py_size is) by (unfold slen, b in *; rewrite firstn_length; lia).
      clearbody b r. subst rest. rewrite slen_app in L. cbn [iter_loop].
      assert (slen buf = slen pre + slen b + slen r) by (rewrite E, !slen_app; lia).
      pose proof (slen_nonneg r). pose proof (slen_nonneg pre).
      replace (slen pre + py_size is <=? slen buf) with true by lia. cbn iota.
      assert (Hs : sslice buf (Some (slen pre)) (Some (slen pre + py_size is)) = b).
      { rewrite sslice_mid by lia. replace (slen pre + py_size is - slen pre) with (slen b) by lia.
        unfold slen. rewrite !Nat2Z.id, E. rewrite skipn_app, skipn_all, Nat.sub_diag, app_nil_l. cbn [skipn].
        rewrite firstn_app, Nat.sub_diag, firstn_all. cbn [firstn]. apply app_nil_r. }
      rewrite Hs. assert (Bb : Forall is_byte b) by (rewrite E in B; apply Forall_app in B as [_ B]; now apply Forall_app in B).
      destruct (unpack_prefix p is b [] S Bb Lb) as (vs & U & R). rewrite app_nil_r in U. rewrite U. cbn [bind].
      destruct (IH n (pre ++ b) r) as (l & El & Rl); [now rewrite <- app_assoc|lia|lia|].
      rewrite slen_app, Lb in El. rewrite El. cbn [bind]. exists (vs :: l). split; [reflexivity|now constructor].
Qed.
Lemma iter_unpack_ok p is buf : Forall simple is -> Forall is_byte buf -> 0 < py_size is -> slen buf mod py_size is = 0 ->
  iter_unpacks (byteorder p) is buf (m_iter_unpack (S (length buf)) p is buf).
Proof.
  intros S B P M. unfold iter_unpacks, m_iter_unpack. rewrite simple_total by auto.
  replace ((py_size is =? 0) || negb (slen buf mod py_size is =? 0)) with false by lia. cbn iota.
  pose proof (Z.div_mod (slen buf) (py_size is) ltac:(lia)) as D. pose proof (slen_nonneg buf).
  assert (0 <= slen buf / py_size is) by (apply Z.div_pos; lia).
  apply (iter_loop_ok p is S P buf B (Datatypes.S (length buf)) (Z.to_nat (slen buf / py_size is)) [] buf); auto.
  - rewrite Z2Nat.id by lia. lia.
  - assert (slen buf / py_size is <= slen buf) by (apply Z.div_le_upper_bound; nia). unfold slen in *. lia.
Qed.
End Real.
