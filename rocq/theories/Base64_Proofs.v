(** Proofs about Base64_Model against Base64_Spec. *)
From Coq Require Import ZArith List Bool Lia ZifyBool ZifyNat.
From Verif Require Import Py Str_Model Str_Spec Seq_Proofs Str_Proofs Str_Proofs2 Base64_Model Base64_Spec.
Import ListNotations.
Open Scope Z_scope.
Ltac Zify.zify_post_hook ::= Z.div_mod_to_equations.

(** *** Regrouping bits *)
Lemma emit_lt f o acc b : b < o -> emit f o acc b = ([], acc, b).
Proof. intro H. destruct f; cbn [emit]; [reflexivity|]. now replace (o <=? b) with false by lia. Qed.
Lemma emit_eq f o acc : 0 < o -> emit (S f) o acc o = ([acc], 0, 0).
Proof.
  intro H. cbn [emit]. rewrite Z.leb_refl, Z.sub_diag. cbn [Z.eqb]. now rewrite emit_lt by lia.
Qed.
Lemma emit_gt f o acc b : o < b -> emit (S f) o acc b =
  let '(l, a, b') := emit f o (acc mod 2 ^ (b - o)) (b - o) in (acc / 2 ^ (b - o) :: l, a, b').
Proof. intro H. cbn [emit]. replace (o <=? b) with true by lia. now replace (b - o =? 0) with false by lia. Qed.

Fixpoint enc6 (l : list Z) : list Z :=
  match l with
  | [] => []
  | [x] => [x / 4; x mod 4 * 16]
  | [x; y] => [x / 4; x mod 4 * 16 + y / 16; y mod 16 * 4]
  | x :: y :: z :: r => [x / 4; x mod 4 * 16 + y / 16; y mod 16 * 4 + z / 64; z mod 64] ++ enc6 r
  end.
Fixpoint dec8 (l : list Z) : list Z :=
  match l with
  | a :: b :: c :: d :: r => [a * 4 + b / 16; b mod 16 * 16 + c / 4; c mod 4 * 64 + d] ++ dec8 r
  | [a; b; c] => [a * 4 + b / 16; b mod 16 * 16 + c / 4]
  | [a; b] => [a * 4 + b / 16]
  | _ => []
  end.
Lemma list_ind3 (P : list Z -> Prop) : P [] -> (forall x, P [x]) -> (forall x y, P [x; y]) ->
  (forall x y z r, P r -> P (x :: y :: z :: r)) -> forall l, P l.
Proof.
  intros H0 H1 H2 H3. fix F 1. intros [|x [|y [|z r]]]; [exact H0|exact (H1 x)|exact (H2 x y)|exact (H3 x y z r (F r))].
Qed.
Lemma list_ind4 (P : list Z -> Prop) : P [] -> (forall x, P [x]) -> (forall x y, P [x; y]) -> (forall x y z, P [x; y; z]) ->
  (forall x y z w r, P r -> P (x :: y :: z :: w :: r)) -> forall l, P l.
Proof.
  intros H0 H1 H2 H3 H4. fix F 1. intros [|x [|y [|z [|w r]]]]; [exact H0|exact (H1 x)|exact (H2 x y)|exact (H3 x y z)|exact (H4 x y z w r (F r))].
Qed.
Definition sextet (v : Z) : Prop := 0 <= v < 64.

Ltac bits := change (2 ^ 8) with 256 in *; change (2 ^ 6) with 64 in *; change (2 ^ 4) with 16 in *; change (2 ^ 2) with 4 in *; change (2 ^ 0) with 1 in *.
Lemma chunk86_1 x r : octet x -> bit_chunk 8 6 (x :: r) 0 0 = x / 4 :: bit_chunk 8 6 r (x mod 4) 2.
Proof.
  intro H. cbn [bit_chunk]. change (Z.to_nat (0 + 8)) with (S 7). change (0 + 8) with 8. rewrite emit_gt by lia.
  change (8 - 6) with 2. rewrite emit_lt by lia. bits. cbn [app]. do 2 f_equal.
Qed.
Lemma chunk86_2 a y r : octet y -> bit_chunk 8 6 (y :: r) a 2 = a * 16 + y / 16 :: bit_chunk 8 6 r (y mod 16) 4.
Proof.
  intro H. cbn [bit_chunk]. change (Z.to_nat (2 + 8)) with (S 9). change (2 + 8) with 10. rewrite emit_gt by lia.
  change (10 - 6) with 4. rewrite emit_lt by lia. bits. cbn [app]. unfold octet in H. f_equal; [lia|]. f_equal. lia.
Qed.
Lemma chunk86_3 a z r : octet z -> bit_chunk 8 6 (z :: r) a 4 = a * 4 + z / 64 :: z mod 64 :: bit_chunk 8 6 r 0 0.
Proof.
  intro H. cbn [bit_chunk]. change (Z.to_nat (4 + 8)) with (S 11). change (4 + 8) with 12. rewrite emit_gt by lia.
  change (12 - 6) with 6. change 11%nat with (S 10). rewrite emit_eq by lia. bits. cbn [app]. unfold octet in H. f_equal; [lia|]. f_equal. lia.
Qed.
Lemma chunk86 l : Forall octet l -> bit_chunk_iter l 8 6 = enc6 l.
Proof.
  unfold bit_chunk_iter. induction l as [|x|x y|x y z r IH] using list_ind3; intro B; cbn [enc6].
  - reflexivity.
  - rewrite chunk86_1 by exact (Forall_inv B). reflexivity.
  - inversion B as [|? ? H1 B']; subst. inversion B' as [|? ? H2 _]; subst. rewrite chunk86_1, chunk86_2 by auto. reflexivity.
  - inversion B as [|? ? H1 B']; subst. inversion B' as [|? ? H2 B'']; subst. inversion B'' as [|? ? H3 B''']; subst.
    rewrite chunk86_1, chunk86_2, chunk86_3 by auto. now rewrite IH.
Qed.
Lemma chunk68_1 a r : bit_chunk 6 8 (a :: r) 0 0 = bit_chunk 6 8 r a 6.
Proof. cbn [bit_chunk]. change (0 + 6) with 6. rewrite emit_lt by lia. reflexivity. Qed.
Lemma chunk68_2 a b r : sextet b -> bit_chunk 6 8 (b :: r) a 6 = a * 4 + b / 16 :: bit_chunk 6 8 r (b mod 16) 4.
Proof.
  intro H. cbn [bit_chunk]. change (Z.to_nat (6 + 6)) with (S 11). change (6 + 6) with 12. rewrite emit_gt by lia.
  change (12 - 8) with 4. rewrite emit_lt by lia. bits. cbn [app]. unfold sextet in H. f_equal; [lia|]. f_equal. lia.
Qed.
Lemma chunk68_3 a c r : sextet c -> bit_chunk 6 8 (c :: r) a 4 = a * 16 + c / 4 :: bit_chunk 6 8 r (c mod 4) 2.
Proof.
  intro H. cbn [bit_chunk]. change (Z.to_nat (4 + 6)) with (S 9). change (4 + 6) with 10. rewrite emit_gt by lia.
  change (10 - 8) with 2. rewrite emit_lt by lia. bits. cbn [app]. unfold sextet in H. f_equal; [lia|]. f_equal. lia.
Qed.
Lemma chunk68_4 a d r : bit_chunk 6 8 (d :: r) a 2 = a * 64 + d :: bit_chunk 6 8 r 0 0.
Proof.
  cbn [bit_chunk]. change (Z.to_nat (2 + 6)) with (S 7). change (2 + 6) with 8. rewrite emit_eq by lia. reflexivity.
Qed.
(** what the decoder outputs after dropping the incomplete last octet *)
Lemma chunk68 l : Forall sextet l ->
  (if negb (slen l mod 4 =? 0) then sslice (bit_chunk_iter l 6 8) None (Some (-1)) else bit_chunk_iter l 6 8) = dec8 l.
Proof.
  intro B. unfold bit_chunk_iter.
  assert (K : bit_chunk 6 8 l 0 0 = dec8 l ++ (if negb (slen l mod 4 =? 0) then [last (bit_chunk 6 8 l 0 0) 0] else [])).
  { induction l as [|a|a b|a b c|a b c d r IH] using list_ind4; cbn [dec8].
    - reflexivity.
    - rewrite chunk68_1. reflexivity.
    - inversion B as [|? ? H1 B']; subst. inversion B' as [|? ? H2 _]; subst. rewrite chunk68_1, chunk68_2 by auto. reflexivity.
    - inversion B as [|? ? H1 B']; subst. inversion B' as [|? ? H2 B'']; subst. inversion B'' as [|? ? H3 _]; subst.
      rewrite chunk68_1, chunk68_2, chunk68_3 by auto. reflexivity.
    - inversion B as [|? ? H1 B']; subst. inversion B' as [|? ? H2 B'']; subst. inversion B'' as [|? ? H3 B3]; subst. inversion B3 as [|? ? H4 B4]; subst.
      specialize (IH B4). rewrite chunk68_1, chunk68_2, chunk68_3, chunk68_4 by auto.
      replace (slen (a :: b :: c :: d :: r) mod 4) with (slen r mod 4) by (rewrite !slen_cons; lia).
      cbn [app]. do 3 f_equal. rewrite IH at 1. f_equal.
      destruct (negb _) eqn:E; [|reflexivity]. f_equal. rewrite IH. rewrite app_comm_cons, app_comm_cons, app_comm_cons.
      now rewrite !last_last. }
  rewrite K at 1. destruct (negb _) eqn:E.
  - change (-1) with (- slen [last (bit_chunk 6 8 l 0 0) 0]). now apply sslice_drop_end.
  - rewrite K. now rewrite app_nil_r.
Qed.
Lemma dec_enc l : Forall octet l -> dec8 (enc6 l) = l.
Proof.
  unfold octet. induction l as [|x|x y|x y z r IH] using list_ind3; intro B; cbn [enc6 dec8 app]; auto.
  - inversion B as [|? ? H1 _]; subst. f_equal. lia.
  - inversion B as [|? ? H1 B']; subst. inversion B' as [|? ? H2 _]; subst. f_equal; [lia|]. f_equal; lia.
  - inversion B as [|? ? H1 B']; subst. inversion B' as [|? ? H2 B'']; subst. inversion B'' as [|? ? H3 B3]; subst.
    do 3 (f_equal; [lia|]). auto.
Qed.
Lemma enc6_sextet l : Forall octet l -> Forall sextet (enc6 l).
Proof.
  unfold octet, sextet. induction l as [|x|x y|x y z r IH] using list_ind3; intro B; cbn [enc6 app]; auto.
  - inversion B as [|? ? H1 _]; subst. repeat constructor; lia.
  - inversion B as [|? ? H1 B']; subst. inversion B' as [|? ? H2 _]; subst. repeat constructor; lia.
  - inversion B as [|? ? H1 B']; subst. inversion B' as [|? ? H2 B'']; subst. inversion B'' as [|? ? H3 B3]; subst.
    repeat (constructor; [lia|]). auto.
Qed.
Lemma enc6_len l : slen (enc6 l) mod 4 = match slen l mod 3 with 0 => 0 | 1 => 2 | _ => 3 end.
Proof.
  induction l as [|x|x y|x y z r IH] using list_ind3; try reflexivity.
  replace (slen (x :: y :: z :: r) mod 3) with (slen r mod 3) by (rewrite !slen_cons; lia).
  cbn [enc6]. rewrite <- IH. rewrite slen_app. cbn [length]. unfold slen at 1. cbn [length]. lia.
Qed.

(** *** Range tables *)
Lemma lookup_cons lo hi m r ch : lookup (((lo, hi), m) :: r) ch = if (lo <=? ch) && (ch <=? hi) then Some (ch - lo + m) else lookup r ch.
Proof.
  cbn [lookup]. destruct (_ && _); [|reflexivity]. f_equal.
  destruct (lo =? 0) eqn:A, (m =? 0) eqn:B; cbn [negb]; lia.
Qed.
Lemma encode_lookup v : sextet v -> lookup encode_base64_map v = Some (b64_char v).
Proof.
  intro H. unfold sextet in H. change encode_base64_map with [((0, 25), 65); ((26, 51), 97); ((52, 61), 48); ((62, 62), 43); ((63, 63), 47)].
  rewrite !lookup_cons. unfold b64_char. cbn [lookup]. ifs; try lia; f_equal; lia.
Qed.
Lemma decode_lookup c : lookup decode_base64_map c = b64_value c.
Proof.
  unfold decode_base64_map. rewrite !lookup_cons. unfold b64_value. cbn [lookup].
  ifs; try lia; try reflexivity; f_equal; lia.
Qed.
Lemma value_char v : sextet v -> b64_value (b64_char v) = Some v.
Proof. unfold sextet, b64_value, b64_char. intro H. ifs; try lia; f_equal; lia. Qed.
Lemma value_sextet c v : b64_value c = Some v -> sextet v.
Proof. unfold b64_value, sextet. intro H. repeat match goal with H : (if ?c then _ else _) = _ |- _ => destruct c eqn:? end; try discriminate; injection H as <-; lia. Qed.

(** *** Custom alphabets *)
Section Alphabet.
Variable a : list Z.
Lemma run_end_spec fuel start v : start <= v < 64 -> (forall j, start <= j <= v -> at_ a j = at_ a start + (j - start)) ->
  let e := run_end fuel a start v in
  v <= e < 64 /\ forall j, start <= j <= e -> at_ a j = at_ a start + (j - start).
Proof.
  revert v; induction fuel as [|fuel IH]; intros v H J; cbn [run_end]; [split; [lia|auto]|].
  destruct (_ && _) eqn:E; [|split; [lia|auto]].
  destruct (IH (v + 1)) as [K1 K2]; [lia| |split; [lia|auto]].
  intros j Hj. destruct (Z.eq_dec j (v + 1)) as [->|]; [lia|apply J; lia].
Qed.
(** entries: consecutive runs *)
Definition runs (v : Z) (t : table) : Prop :=
  Forall (fun '((s, e), m) => 0 <= s <= e /\ e < v /\ m = at_ a s /\ forall j, s <= j <= e -> at_ a j = m + (j - s)) t
  /\ forall i, 0 <= i < v -> exists s e m, In ((s, e), m) t /\ s <= i <= e.
Lemma table_set_new t k v : (forall k' v', In (k', v') t -> k' <> k) -> table_set t k v = t ++ [(k, v)].
Proof.
  induction t as [|[k' v'] t IH]; intro H; cbn [table_set]; [reflexivity|].
  replace ((fst k =? fst k') && (snd k =? snd k')) with false.
  - cbn [app]. f_equal. apply IH. intros; eapply H; right; eauto.
  - specialize (H k' v' (or_introl eq_refl)). destruct k, k'. cbn [fst snd] in *.
    destruct (z =? z1) eqn:E1; destruct (z0 =? z2) eqn:E2; try reflexivity. exfalso. apply H. f_equal; lia.
Qed.
Lemma alphabet_ranges_spec fuel : forall v t, 0 <= v -> 64 - v <= Z.of_nat fuel -> v <= 64 -> runs v t -> runs 64 (alphabet_ranges fuel a v t).
Proof.
  induction fuel as [|fuel IH]; intros v t H0 L H1 R; cbn [alphabet_ranges].
  - replace 64 with v by lia. exact R.
  - destruct (v <? 64) eqn:E; [|replace 64 with v by lia; exact R].
    destruct (run_end_spec 64 v v) as [K1 K2]; [lia|intros j Hj; replace j with v by lia; lia|].
    set (e := run_end 64 a v v) in *. cbn zeta.
    assert (T : table_set t (v, e) (at_ a v) = t ++ [((v, e), at_ a v)]).
    { apply table_set_new. intros k' v' I ->. destruct R as [R _]. rewrite Forall_forall in R. specialize (R _ I). cbn in R. lia. }
    rewrite T. apply IH; [lia|lia|lia|]. destruct R as [R1 R2]. split.
    + apply Forall_app. split.
      * eapply Forall_impl; [|exact R1]. intros [[s e'] m] (A1 & A2 & A3 & A4). repeat split; auto; lia.
      * constructor; [|constructor]. split; [lia|]. split; [lia|]. split; [reflexivity|]. intros j Hj. apply K2. lia.
    + intros i Hi. destruct (Z.lt_ge_cases i v).
      * destruct (R2 i) as (s & e' & m & I & B); [lia|]. exists s, e', m. split; auto. apply in_or_app. auto.
      * exists v, e, (at_ a v). split; [apply in_or_app; right; left; reflexivity|lia].
Qed.
Lemma runs_lookup t i : runs 64 t -> 0 <= i < 64 -> lookup t i = Some (at_ a i).
Proof.
  intros [R1 R2] Hi. destruct (R2 i Hi) as (s & e & m & I & B). clear R2.
  induction t as [|[[s' e'] m'] t IH]; [easy|]. rewrite lookup_cons.
  destruct (_ && _) eqn:E.
  - apply Forall_inv in R1. destruct R1 as (A1 & A2 & A3 & A4). f_equal. rewrite A4 by lia. lia.
  - destruct I as [[= -> -> ->]|I]; [lia|]. apply IH; auto. exact (Forall_inv_tail R1).
Qed.
(** the reversed table *)
Definition sound (t : table) : Prop :=
  Forall (fun '((lo, hi), m) => forall ch, lo <= ch <= hi -> 0 <= ch - lo + m < 64 /\ at_ a (ch - lo + m) = ch) t.
Lemma table_set_sound t lo hi m : sound t -> (forall ch, lo <= ch <= hi -> 0 <= ch - lo + m < 64 /\ at_ a (ch - lo + m) = ch) ->
  sound (table_set t (lo, hi) m).
Proof.
  intros S H. induction S as [|[[lo' hi'] m'] t H' S IH]; cbn [table_set]; [repeat constructor; apply H; auto|].
  destruct (_ && _) eqn:E; cbn [fst snd] in E.
  - constructor; auto. replace lo' with lo by lia. replace hi' with hi by lia. exact H.
  - constructor; auto.
Qed.
Lemma table_set_covers t k m lo hi : (exists v, In ((lo, hi), v) t) \/ k = (lo, hi) -> exists v, In ((lo, hi), v) (table_set t k m).
Proof.
  intro H. induction t as [|[[lo' hi'] m'] t IH]; cbn [table_set].
  - destruct H as [[v []]| ->]. exists m. left. reflexivity.
  - destruct k as [k1 k2]. destruct (_ && _) eqn:E; cbn [fst snd] in E.
    + destruct H as [[v [I|I]]|H].
      * injection I as -> -> ->. exists m. left. reflexivity.
      * exists v. right. exact I.
      * injection H as -> ->. exists m. left. do 2 f_equal; lia.
    + destruct H as [[v [I|I]]|H].
      * exists v. left. exact I.
      * destruct IH as [v' I']; [left; eauto|]. exists v'. right. exact I'.
      * destruct IH as [v' I']; [right; auto|]. exists v'. right. exact I'.
Qed.
Lemma reverse_sound t v : runs v t -> v <= 64 -> sound (reverse_map t).
Proof.
  intros [R _] V. unfold reverse_map. assert (S : sound []) by constructor. revert S. generalize (@nil ((Z * Z) * Z)).
  induction R as [|[[s e] m] t (A1 & A2 & A3 & A4) R IH]; intros acc S; cbn [fold_left]; [exact S|].
  apply IH. apply table_set_sound; auto. intros ch Hch. split; [lia|]. rewrite A4 by lia. lia.
Qed.
Lemma reverse_covers t s e m : In ((s, e), m) t -> exists v, In ((m, m + e - s), v) (reverse_map t).
Proof.
  unfold reverse_map. intro I.
  assert (K : forall acc : table, (exists v, In ((m, m + e - s), v) acc) \/ In ((s, e), m) t -> exists v, In ((m, m + e - s), v)
      (fold_left (fun ret '((minval, maxval), target) => table_set ret (target, target + maxval - minval) minval) t acc)).
  { clear I. induction t as [|[[s' e'] m'] t IH]; intros acc H; cbn [fold_left].
    - destruct H as [H|[]]. exact H.
    - apply IH. destruct H as [H|[H|H]]; [left|left|right; exact H].
      + apply table_set_covers. auto.
      + injection H as -> -> ->. apply table_set_covers. auto. }
  apply K. auto.
Qed.
Lemma reverse_lookup t i : runs 64 t -> NoDup a -> length a = 64%nat -> 0 <= i < 64 -> lookup (reverse_map t) (at_ a i) = Some i.
Proof.
  intros R N L Hi. pose proof (reverse_sound t 64 R ltac:(lia)) as S.
  destruct R as [R1 R2]. destruct (R2 i Hi) as (s & e & m & I & B).
  rewrite Forall_forall in R1. destruct (R1 _ I) as (A1 & A2 & A3 & A4).
  destruct (reverse_covers t s e m I) as [v C].
  assert (M : m <= at_ a i <= m + e - s) by (rewrite A4 by lia; lia).
  clear I R1 R2. induction S as [|[[lo hi] m'] r H S IH]; [easy|]. rewrite lookup_cons.
  destruct (_ && _) eqn:E.
  - destruct (H (at_ a i) ltac:(lia)) as [H1 H2]. f_equal. unfold at_ in *.
    apply (proj1 (NoDup_nth a 0) N) in H2; lia.
  - destruct C as [[= -> -> ->]|C]; [lia|]. auto.
Qed.
Lemma reverse_lookup_none t c : runs 64 t -> length a = 64%nat -> ~ In c a -> lookup (reverse_map t) c = None.
Proof.
  intros R L N. pose proof (reverse_sound t 64 R ltac:(lia)) as S. clear R.
  induction S as [|[[lo hi] m'] r H S IH]; [reflexivity|]. rewrite lookup_cons. destruct (_ && _) eqn:E; auto.
  exfalso. destruct (H c ltac:(lia)) as [H1 H2]. apply N. rewrite <- H2. apply nth_In. lia.
Qed.
End Alphabet.

(** *** Remapping *)
Lemma remap_all t m f l rest out : (forall v, In v l -> lookup t v = Some (f v)) ->
  remap t m (l ++ rest) out 0 = remap t m rest (out ++ map f l) 0.
Proof.
  revert out; induction l as [|v l IH]; intros out H; cbn [map app]; [now rewrite app_nil_r|].
  cbn [remap]. rewrite H by (left; reflexivity). cbn [Z.eqb negb].
  rewrite IH by (intros; apply H; right; auto). now rewrite <- app_assoc.
Qed.
Lemma remap_pads t m k out p : lookup t 61 = None -> remap t m (repeat 61 k) out p = Ok (out, p + Z.of_nat k).
Proof.
  intro H. revert p; induction k as [|k IH]; intro p; [cbn; now rewrite Z.add_0_r|].
  cbn [repeat remap]. rewrite H. change (61 =? 61) with true. cbn iota. rewrite IH. do 2 f_equal. lia.
Qed.
Lemma remap_newlines t l : lookup t 10 = None -> forall out p,
  remap t false l out p = remap t false (filter (fun c => negb (c =? 10)) l) out p.
Proof.
  intro N. induction l as [|c l IH]; intros out p; [reflexivity|]. cbn [filter].
  destruct (c =? 10) eqn:E.
  - apply Z.eqb_eq in E. subst c. cbn [negb]. rewrite <- IH. cbn [remap]. now rewrite N.
  - cbn [negb remap]. destruct (lookup t c); [destruct (negb (p =? 0)); auto|]. destruct (c =? 61); auto.
Qed.

(** what encoding gives *)
Definition enc_table (a : list Z) (t : table) : Prop := forall v, sextet v -> lookup t v = Some (at_ a v).
Lemma std_char v : sextet v -> at_ std_alphabet v = b64_char v.
Proof.
  unfold sextet. intro H.
  assert (K : forallb (fun n => at_ std_alphabet (Z.of_nat n) =? b64_char (Z.of_nat n)) (seq 0 64) = true) by reflexivity.
  rewrite forallb_forall in K. specialize (K (Z.to_nat v)). rewrite Z2Nat.id in K by lia. apply Z.eqb_eq, K, in_seq. lia.
Qed.
Lemma table_of a : length a = 64%nat -> exists t,
  (if is_std a then Ok encode_base64_map else encode_map_from_alphabet a) = Ok t /\ enc_table a t.
Proof.
  intro L. unfold is_std. destruct (list_eq_dec _ _ _) as [->|N].
  - exists encode_base64_map. split; [reflexivity|]. intros v Hv. rewrite std_char by auto. now apply encode_lookup.
  - unfold encode_map_from_alphabet, slen. rewrite L. cbn [negb Z.of_nat Z.eqb Pos.of_succ_nat Pos.succ Pos.eqb].
    exists (alphabet_ranges 64 a 0 []). split; [reflexivity|]. intros v Hv. apply runs_lookup; auto.
    apply alphabet_ranges_spec; [lia|cbn; lia|lia|]. split; [constructor|]. intros i Hi. lia.
Qed.
Lemma dec_table_of a : length a = 64%nat -> NoDup a -> exists t,
  (if is_std a then Ok decode_base64_map else map_res reverse_map (encode_map_from_alphabet a)) = Ok t
  /\ (forall v, sextet v -> lookup t (at_ a v) = Some v) /\ (forall c, ~ In c a -> lookup t c = None).
Proof.
  intros L N. unfold is_std. destruct (list_eq_dec _ _ _) as [->|Hn].
  - exists decode_base64_map. split; [reflexivity|]. split.
    + intros v Hv. rewrite std_char, decode_lookup by auto. now apply value_char.
    + intros c Hc. rewrite decode_lookup. destruct (b64_value c) as [v|] eqn:E; [|reflexivity]. exfalso. apply Hc.
      pose proof (value_sextet c v E) as S. replace c with (at_ std_alphabet v).
      * apply nth_In. unfold sextet in S. rewrite L. lia.
      * rewrite std_char by auto. unfold b64_value in E. unfold b64_char.
        repeat match goal with H : (if ?c then _ else _) = _ |- _ => destruct c eqn:? end; try discriminate; injection E as <-; ifs; lia.
  - unfold encode_map_from_alphabet, slen. rewrite L. cbn [negb Z.of_nat Z.eqb Pos.of_succ_nat Pos.succ Pos.eqb map_res].
    assert (R : runs a 64 (alphabet_ranges 64 a 0 [])).
    { apply alphabet_ranges_spec; [lia|cbn; lia|lia|]. split; [constructor|]. intros i Hi. lia. }
    eexists. split; [reflexivity|]. split.
    + intros v Hv. now apply (reverse_lookup a).
    + intros c Hc. now apply (reverse_lookup_none a).
Qed.
Definition n_pads (r : Z) : nat := match r with 0 => O | 1 => 2%nat | _ => 1%nat end.
Lemma b64_encode_eq ch padded l : b64_encode ch padded l =
  map ch (enc6 l) ++ if padded then repeat 61 (n_pads (slen l mod 3)) else [].
Proof.
  induction l as [|x|x y|x y z r IH] using list_ind3; cbn [b64_encode enc6 map]; try (destruct padded; reflexivity).
  replace (slen (x :: y :: z :: r) mod 3) with (slen r mod 3) by (rewrite !slen_cons; lia).
  rewrite IH. rewrite map_app. cbn [map]. now rewrite app_assoc.
Qed.
Definition unwrapped (a : list Z) (padded : bool) (data : list Z) : list Z := b64_encode (at_ a) padded data.
Lemma b2a_eq data newline wrapcol padded a : length a = 64%nat -> Forall octet data ->
  m_b2a_base64 data newline wrapcol padded a =
  Ok ((if negb (wrapcol =? 0) && negb (slen (unwrapped a padded data) =? 0)
       then wrap_loop (if wrapcol <? 4 then 4 else wrapcol / 4 * 4) 0 (unwrapped a padded data)
       else unwrapped a padded data) ++ if newline then [10] else []).
Proof.
  intros L B. unfold m_b2a_base64. destruct (table_of a L) as (t & -> & T). cbn [bind].
  rewrite chunk86 by auto. pose proof (enc6_sextet data B) as S.
  pose proof (remap_all t false (at_ a) (enc6 data) [] []) as R. rewrite app_nil_r in R. rewrite R.
  2: { intros v I. apply T. rewrite Forall_forall in S. auto. }
  cbn [remap bind fst app].
  assert (E : (if padded then
        let spillover := slen (map (at_ a) (enc6 data)) mod 4 in
        if 0 <? spillover then map (at_ a) (enc6 data) ++ repeat 61 (Z.to_nat (4 - spillover)) else map (at_ a) (enc6 data)
      else map (at_ a) (enc6 data)) = unwrapped a padded data).
  { unfold unwrapped. rewrite b64_encode_eq. destruct padded; [|now rewrite app_nil_r]. cbn zeta.
    assert (SL : slen (map (at_ a) (enc6 data)) = slen (enc6 data)) by (unfold slen; now rewrite map_length).
    rewrite SL, enc6_len. destruct (slen data mod 3) as [|[p|p|]|p] eqn:E; try (exfalso; lia); try reflexivity.
    now rewrite app_nil_r. }
  cbn zeta in E |- *. rewrite E. destruct newline; [reflexivity|]. now rewrite app_nil_r.
Qed.
