(** Proofs about Json_Model: reading follows the grammar of Json_Spec, writing produces it. *)
From Coq Require Import ZArith List Bool Lia ZifyBool ZifyNat.
From Verif Require Import Py Json_Model Json_Spec.
Import ListNotations.
Open Scope Z_scope.

Ltac hyp_if H := match type of H with context [if ?b then _ else _] => destruct b eqn:? end.

(** * Whitespace *)
Lemma is_ws_iff : forall c, is_ws c = true <-> (c = 32 \/ c = 9 \/ c = 10 \/ c = 13).
Proof. intro c. unfold is_ws. lia. Qed.
Lemma w_blank : forall b s, blank b -> w (b ++ s) = w s.
Proof. induction 1 as [|c b C _ IH]; [reflexivity|]. cbn [app w]. apply is_ws_iff in C. now rewrite C. Qed.
Lemma w_stop : forall c s, is_ws c = false -> w (c :: s) = c :: s.
Proof. intros c s H. cbn [w]. now rewrite H. Qed.
Lemma w_split : forall s, exists b, blank b /\ s = b ++ w s.
Proof.
  induction s as [|c s [b [B E]]]; [exists []; now split; [constructor|]|]. cbn [w]. destruct (is_ws c) eqn:C.
  - exists (c :: b). split; [constructor; [now apply is_ws_iff|assumption]|]. now rewrite E at 1.
  - exists []. now split; [constructor|].
Qed.
Lemma w_head : forall s c r, w s = c :: r -> is_ws c = false.
Proof. induction s as [|a s IH]; cbn [w]; intros c r H; [discriminate|]. destruct (is_ws a) eqn:A; [eauto|]. now inversion H; subst. Qed.
Lemma w_w : forall s, w (w s) = w s.
Proof. intro s. destruct (w s) eqn:E; [reflexivity|]. apply w_stop. eapply w_head, E. Qed.
Lemma skip_some_w : forall s, skip_some s = w s.
Proof.
  intros [|c [|d r]]; cbn [skip_some w]; [reflexivity| |]; destruct (is_ws c); try reflexivity.
Qed.
Lemma ws_step : forall s, match s with c :: r => if is_ws c then w r else s | [] => [] end = w s.
Proof. intros [|c r]; reflexivity. Qed.
Lemma blank_app : forall a b, blank a -> blank b -> blank (a ++ b).
Proof. intros. now apply Forall_app. Qed.

(** * [after] *)
Lemma after_app : forall p s, after p (p ++ s) = Some s.
Proof. induction p as [|a p IH]; intro s; [reflexivity|]. cbn [after app]. now rewrite Z.eqb_refl. Qed.
Lemma after_split : forall p s r, after p s = Some r -> s = p ++ r.
Proof.
  induction p as [|a p IH]; intros s r H; cbn [after] in H; [now inversion H|]. destruct s as [|b s]; [discriminate|].
  destruct (a =? b) eqn:E; [|discriminate]. apply IH in H. subst. cbn [app]. f_equal. lia.
Qed.
Lemma after_head : forall p s a b, a <> b -> after (a :: p) (b :: s) = None.
Proof. intros p s a b H. cbn [after]. destruct (a =? b) eqn:E; [lia|reflexivity]. Qed.

(** * Numbers *)
Lemma digit_iff : forall c, is_digit c = true <-> decimal_digit c.
Proof. intro c. unfold is_digit, decimal_digit. lia. Qed.
Definition starts_digit (s : str) : bool := match s with c :: _ => is_digit c | [] => false end.
Lemma digits_app : forall ds s, Forall decimal_digit ds -> starts_digit s = false -> digits (ds ++ s) = (ds, s).
Proof.
  intros ds s H N. induction H as [|c ds C _ IH]; cbn [app].
  - destruct s as [|c s]; [reflexivity|]. cbn [starts_digit] in N. cbn [digits]. now rewrite N.
  - cbn [digits]. apply digit_iff in C. rewrite C, IH. reflexivity.
Qed.
Lemma digits_split : forall s ds r, digits s = (ds, r) -> s = ds ++ r /\ Forall decimal_digit ds.
Proof.
  induction s as [|c s IH]; intros ds r H; cbn [digits] in H; [inversion H; now split; [|constructor]|].
  destruct (is_digit c) eqn:C.
  - destruct (digits s) as [a b] eqn:D. inversion H; subst. destruct (IH a r eq_refl) as [-> A]. split; [reflexivity|].
    constructor; [now apply digit_iff|assumption].
  - inversion H; subst. now split; [|constructor].
Qed.

(** what may come after a value *)
Definition follow (s : str) : Prop := match s with [] => True | c :: _ => is_ws c = true \/ c = 44 \/ c = 93 \/ c = 125 end.
Lemma follow_not_digit : forall s, follow s -> starts_digit s = false.
Proof. intros [|c s]; [reflexivity|]. cbn. unfold is_ws, is_digit. lia. Qed.
Lemma follow_frac : forall s, follow s -> match_frac s = ([], s).
Proof. intros [|c s] H; [reflexivity|]. cbn in H. cbn [match_frac]. unfold is_ws in H. destruct (c =? 46) eqn:E; [lia|reflexivity]. Qed.
Lemma follow_exp : forall s, follow s -> match_exp s = ([], s).
Proof.
  intros [|c s] H; [reflexivity|]. cbn in H. cbn [match_exp]. unfold is_ws in H. destruct ((c =? 101) || (c =? 69)) eqn:E; [lia|reflexivity].
Qed.

Lemma exp_app : forall e s, e = [] \/ exp_part e -> follow s -> match_exp (e ++ s) = (e, s).
Proof.
  intros e s [->|H] N; [now apply follow_exp|]. destruct H as (x & sign & c & r & -> & X & G & D).
  cbn [app match_exp]. replace ((x =? 101) || (x =? 69)) with true by lia. rewrite <- app_assoc.
  pose proof (digits_app (c :: r) s D (follow_not_digit s N)) as DD.
  assert (C : decimal_digit c) by now inversion D.
  destruct G as [->|[->| ->]]; cbn [app].
  - unfold decimal_digit in C. replace ((c =? 45) || (c =? 43)) with false by lia. cbn [app] in DD. now rewrite DD.
  - cbn [Z.eqb Pos.eqb orb]. cbn [app] in DD. now rewrite DD.
  - cbn [Z.eqb Pos.eqb orb]. cbn [app] in DD. now rewrite DD.
Qed.
Definition not_digit_start := starts_digit.
Lemma exp_not_digit : forall e s, e = [] \/ exp_part e -> follow s -> starts_digit (e ++ s) = false.
Proof.
  intros e s [->|H] N; [now apply follow_not_digit|]. destruct H as (x & sign & c & r & -> & X & _). cbn. unfold is_digit. lia.
Qed.
Lemma frac_app : forall f e s, f = [] \/ frac_part f -> e = [] \/ exp_part e -> follow s -> match_frac (f ++ e ++ s) = (f, e ++ s).
Proof.
  intros f e s [->|H] E N.
  - cbn [app]. destruct E as [->|(x & sign & c & r & -> & X & _)]; [now apply follow_frac|]. cbn [app match_frac].
    destruct (x =? 46) eqn:?; [lia|reflexivity].
  - destruct H as (c & r & -> & D). cbn [app match_frac]. change (46 =? 46) with true. cbn match.
    pose proof (digits_app (c :: r) (e ++ s) D (exp_not_digit e s E N)) as DD. cbn [app] in DD. now rewrite DD.
Qed.
Lemma integer_app : forall i s, int_part i -> starts_digit s = false -> match_integer (i ++ s) = Some (i, s).
Proof.
  intros i s (sign & ds & -> & G & D) N. unfold match_integer.
  assert (X : exists c r, ds = c :: r /\ 48 <= c <= 57) by (destruct D as [->|(c & r & -> & C & _)]; [exists 48, []|exists c, r]; split; try reflexivity; lia).
  destruct X as (c0 & r0 & E0 & C0).
  assert (Y : match (sign ++ ds) ++ s with c :: r => if c =? 45 then ([c], r) else ([], (sign ++ ds) ++ s) | [] => ([], []) end = (sign, ds ++ s)).
  { destruct G as [->| ->]; cbn [app]; [|reflexivity]. rewrite E0. cbn [app]. destruct (c0 =? 45) eqn:?; [lia|reflexivity]. }
  rewrite Y. destruct D as [->|(c & r & -> & C & R)].
  - reflexivity.
  - cbn [app]. destruct (c =? 48) eqn:?; [lia|]. replace ((49 <=? c) && (c <=? 57)) with true by lia.
    rewrite (digits_app r s R N). reflexivity.
Qed.
Lemma frac_not_digit : forall f e s, f = [] \/ frac_part f -> e = [] \/ exp_part e -> follow s -> starts_digit (f ++ e ++ s) = false.
Proof. intros f e s [->|(c & r & -> & _)] E N; [exact (exp_not_digit e s E N)|reflexivity]. Qed.
Lemma number_app : forall i f e s, int_part i -> f = [] \/ frac_part f -> e = [] \/ exp_part e -> follow s ->
  match_number (i ++ f ++ e ++ s) = Some (i, f, e, s).
Proof.
  intros i f e s I Hf He N. unfold match_number. rewrite (integer_app i _ I) by now apply frac_not_digit.
  rewrite frac_app, exp_app by assumption. reflexivity.
Qed.
Lemma integer_split : forall s i r, match_integer s = Some (i, r) -> s = i ++ r /\ int_part i.
Proof.
  intros s i r H. unfold match_integer in H.
  assert (X : exists sign t, (sign = [] \/ sign = [45]) /\ s = sign ++ t /\
    match s with c :: r => if c =? 45 then ([c], r) else ([], s) | [] => ([], []) end = (sign, t)).
  { destruct s as [|c s]; [exists [], []; auto|]. destruct (c =? 45) eqn:E.
    - exists [45], s. assert (c = 45) as -> by lia. auto.
    - exists [], (c :: s). auto. }
  destruct X as (sign & t & G & -> & E). rewrite E in H. destruct t as [|c t]; [discriminate|].
  destruct (c =? 48) eqn:C0.
  - inversion H; subst. assert (c = 48) as -> by lia. split; [now rewrite <- app_assoc|]. exists sign, [48]. auto.
  - destruct ((49 <=? c) && (c <=? 57)) eqn:C1; [|discriminate]. destruct (digits t) as [ds q] eqn:D. inversion H; subst.
    destruct (digits_split _ _ _ D) as [-> DD]. split; [now rewrite <- app_assoc|]. exists sign, (c :: ds). split; [reflexivity|]. split; [assumption|].
    right. exists c, ds. split; [reflexivity|]. split; [lia|assumption].
Qed.
Lemma frac_split : forall s f r, match_frac s = (f, r) -> s = f ++ r /\ (f = [] \/ frac_part f).
Proof.
  intros [|c s] f r H; cbn [match_frac] in H; [inversion H; auto|]. destruct (c =? 46) eqn:C; [|inversion H; auto].
  destruct (digits s) as [ds q] eqn:D. destruct (digits_split _ _ _ D) as [-> DD]. destruct ds as [|d ds]; inversion H; subst; [auto|].
  split; [reflexivity|]. right. exists d, ds. assert (c = 46) as -> by lia. auto.
Qed.
Lemma exp_split : forall s e r, match_exp s = (e, r) -> s = e ++ r /\ (e = [] \/ exp_part e).
Proof.
  intros [|c s] e r H; cbn [match_exp] in H; [inversion H; auto|]. destruct ((c =? 101) || (c =? 69)) eqn:C; [|inversion H; auto].
  assert (X : exists sign t, (sign = [] \/ sign = [43] \/ sign = [45]) /\ s = sign ++ t /\
    match s with d :: r' => if (d =? 45) || (d =? 43) then ([d], r') else ([], s) | [] => ([], []) end = (sign, t)).
  { destruct s as [|d s]; [exists [], []; auto|]. destruct ((d =? 45) || (d =? 43)) eqn:E.
    - exists [d], s. split; [|auto]. destruct (d =? 43) eqn:?; [right; left|right; right]; f_equal; lia.
    - exists [], (d :: s). auto. }
  destruct X as (sign & t & G & -> & E). rewrite E in H. destruct (digits t) as [ds q] eqn:D. destruct (digits_split _ _ _ D) as [-> DD].
  destruct ds as [|d ds]; inversion H; subst; [auto|]. split; [cbn [app]; now rewrite <- app_assoc|]. right.
  exists c, sign, d, ds. split; [reflexivity|]. split; [lia|]. auto.
Qed.
Lemma number_split : forall s i f e r, match_number s = Some (i, f, e, r) ->
  s = i ++ f ++ e ++ r /\ int_part i /\ (f = [] \/ frac_part f) /\ (e = [] \/ exp_part e).
Proof.
  intros s i f e r H. unfold match_number in H. destruct (match_integer s) as [[i' s1]|] eqn:I; [|discriminate].
  destruct (match_frac s1) as [f' s2] eqn:Fr. destruct (match_exp s2) as [e' s3] eqn:Ex. inversion H; subst.
  apply integer_split in I. apply frac_split in Fr. apply exp_split in Ex. destruct I as [-> I], Fr as [-> Fr], Ex as [-> Ex]. auto.
Qed.
Lemma int_head : forall i, int_part i -> exists c r, i = c :: r /\ (c = 45 \/ 48 <= c <= 57).
Proof.
  intros i (sign & ds & -> & G & D). destruct G as [->| ->]; [|exists 45, ds; auto].
  destruct D as [->|(c & r & -> & C & _)]; [exists 48, []; split; [reflexivity|lia]|exists c, r; split; [reflexivity|lia]].
Qed.

(** * Strings *)
Lemma chunk_split : forall s a t r, stringchunk s = Some (a, t, r) ->
  s = a ++ t :: r /\ Forall (fun c => c <> 34 /\ c <> 92 /\ ~ (0 <= c < 32)) a /\ (t = 34 \/ t = 92 \/ 0 <= t < 32).
Proof.
  induction s as [|c s IH]; intros a t r H; cbn [stringchunk] in H; [discriminate|].
  destruct ((c =? 34) || (c =? 92) || ((0 <=? c) && (c <=? 31))) eqn:C.
  - inversion H; subst. split; [reflexivity|]. split; [constructor|]. lia.
  - destruct (stringchunk s) as [[[a' t'] r']|]; [|discriminate]. inversion H; subst. destruct (IH a' t r eq_refl) as (-> & A & T).
    split; [reflexivity|]. split; [|assumption]. constructor; [lia|assumption].
Qed.
Lemma chunk_app : forall a t r, Forall (fun c => c <> 34 /\ c <> 92 /\ ~ (0 <= c < 32)) a -> (t = 34 \/ t = 92 \/ 0 <= t < 32) ->
  stringchunk (a ++ t :: r) = Some (a, t, r).
Proof.
  intros a t r H T. induction H as [|c a C _ IH]; cbn [app stringchunk].
  - replace ((t =? 34) || (t =? 92) || ((0 <=? t) && (t <=? 31))) with true by lia. reflexivity.
  - replace ((c =? 34) || (c =? 92) || ((0 <=? c) && (c <=? 31))) with false by lia. now rewrite IH.
Qed.
Lemma short_iff : forall e c, backslash e = Some c <-> In (e, c) short_escapes.
Proof.
  intros e c. unfold backslash, short_escapes. cbn [In]. split.
  - intro H. repeat (hyp_if H; [inversion H; subst c; match goal with E : (e =? ?k) = true |- _ => apply Z.eqb_eq in E; subst e end; tauto|]). discriminate.
  - intro H. repeat (destruct H as [H|H]; [inversion H; subst; reflexivity|]). contradiction.
Qed.
Lemma lor_joined : forall a b, 0 <= a < 1024 -> 0 <= b < 1024 -> Z.lor (Z.shiftl a 10) b = a * 1024 + b.
Proof.
  intros a b A B. rewrite Z.shiftl_mul_pow2 by lia. change (2 ^ 10) with 1024.
  assert (L : Z.land (a * 1024) b = 0).
  { change 1024 with (2 ^ 10). rewrite <- Z.shiftl_mul_pow2 by lia. apply Z.bits_inj'. intros n Hn. rewrite Z.land_spec, Z.bits_0.
    destruct (Z_lt_dec n 10) as [L|G]; [rewrite Z.shiftl_spec_low by lia; reflexivity|].
    assert (T : Z.testbit b n = false).
    { destruct (Z.eq_dec b 0) as [->|Nb]; [apply Z.bits_0|]. apply Z.bits_above_log2; [lia|].
      assert (Z.log2 b < 10); [apply Z.log2_lt_pow2; [lia|]; change (2 ^ 10) with 1024; lia|lia]. }
    rewrite T. apply andb_false_r. }
  rewrite Z.add_nocarry_lxor by assumption. symmetry. now apply Z.lxor_lor.
Qed.

Section Hex.
Variable int16 : str -> res Z.
(** the four characters the code accepts after a backslash and u *)
Definition loose (h : str) (n : Z) : Prop :=
  exists a b c d, h = [a; b; c; d] /\ b <> 120 /\ b <> 88 /\ int16 h = Ok n /\ 0 <= n <= 1114111.
Lemma loose_length : forall h n, loose h n -> exists a b c d, h = [a; b; c; d].
Proof. intros h n (a & b & c & d & -> & _). eauto 6. Qed.
Lemma loose_fun : forall h n m, loose h n -> loose h m -> n = m.
Proof. intros h n m (a & b & c & d & E & _ & _ & I & _) (a' & b' & c' & d' & E' & _ & _ & I' & _). congruence. Qed.
Lemma decode_loose : forall h n r, loose h n -> decode_uXXXX int16 (h ++ r) = JOk (n, r).
Proof.
  intros h n r (a & b & c & d & -> & B1 & B2 & I & _). cbn [app decode_uXXXX]. replace ((b =? 120) || (b =? 88)) with false by lia. now rewrite I.
Qed.
Lemma decode_only : forall s n r, decode_uXXXX int16 s = JOk (n, r) -> 0 <= n <= 1114111 -> exists h, s = h ++ r /\ loose h n.
Proof.
  intros s n r H N. unfold decode_uXXXX in H. destruct s as [|a [|b [|c [|d s]]]]; try discriminate.
  destruct ((b =? 120) || (b =? 88)) eqn:B; [discriminate|]. destruct (int16 [a; b; c; d]) as [m|e] eqn:I; [|destruct e; discriminate].
  inversion H; subst. exists [a; b; c; d]. split; [reflexivity|]. exists a, b, c, d. split; [reflexivity|]. split; [lia|]. split; [lia|]. auto.
Qed.

Notation scanstr := (scanstring int16).
Notation lchars := (chars loose).
Lemma chars_plain_app : forall hex strict a t v, Forall (fun c => c <> 34 /\ c <> 92 /\ ~ (0 <= c < 32)) a ->
  chars hex strict t v -> chars hex strict (a ++ t) (a ++ v).
Proof. intros hex strict a t v H C. induction H as [|c a A _ IH]; [assumption|]. cbn [app]. apply chars_plain; try tauto. Qed.

(** accepted strings are strings *)
Lemma scanstring_sound : forall fuel strict s acc v r, scanstr fuel strict s acc = JOk (v, r) ->
  exists t u, s = t ++ 34 :: r /\ v = acc ++ u /\ lchars strict t u.
Proof.
  induction fuel as [|fuel IH]; intros strict s acc v r H; cbn [scanstring] in H; [discriminate|].
  destruct (stringchunk s) as [[[a t] s1]|] eqn:Ch; [|discriminate]. apply chunk_split in Ch. destruct Ch as (-> & A & T).
  destruct (t =? 34) eqn:T1.
  - inversion H; subst. exists a, a. assert (t = 34) as -> by lia. split; [reflexivity|]. split; [reflexivity|].
    rewrite <- (app_nil_r a). apply chars_plain_app; [assumption|constructor].
  - destruct (negb (t =? 92)) eqn:T2.
    + destruct strict; [discriminate|]. apply IH in H. destruct H as (t1 & u & -> & -> & C). exists (a ++ t :: t1), (a ++ t :: u).
      split; [now rewrite <- app_assoc|]. split; [now rewrite <- !app_assoc|]. apply chars_plain_app; [assumption|].
      apply chars_plain; auto; lia.
    + destruct s1 as [|esc s2]; [discriminate|]. assert (t = 92) as -> by lia. destruct (negb (esc =? 117)) eqn:E1.
      * destruct (backslash esc) as [c|] eqn:B; [|discriminate]. apply IH in H. destruct H as (t1 & u & -> & -> & C).
        exists (a ++ 92 :: esc :: t1), (a ++ c :: u). split; [now rewrite <- app_assoc|]. split; [now rewrite <- !app_assoc|].
        apply chars_plain_app; [assumption|]. apply chars_short; [now apply short_iff|assumption].
      * assert (esc = 117) as -> by lia. destruct (decode_uXXXX int16 s2) as [[uni s3]| | | |] eqn:D; try discriminate. cbn [jbind] in H.
        assert (Fin : forall n q, jbind (of_res (chr n)) (fun c => scanstr fuel strict q ((acc ++ a) ++ [c])) = JOk (v, r) ->
          0 <= n <= 1114111 /\ exists t u, q = t ++ 34 :: r /\ v = (acc ++ a) ++ n :: u /\ lchars strict t u).
        { intros n q K. unfold chr in K. destruct ((0 <=? n) && (n <=? 1114111)) eqn:R; [|discriminate]. cbn [of_res jbind] in K. apply IH in K.
          destruct K as (t1 & u & E & -> & C). split; [lia|]. exists t1, u. split; [assumption|]. split; [now rewrite <- !app_assoc|assumption]. }
        assert (Alone : ~ (high uni /\ exists h2 n2 q, s3 = 92 :: 117 :: h2 ++ q /\ loose h2 n2 /\ low n2) ->
          jbind (of_res (chr uni)) (fun c => scanstr fuel strict s3 ((acc ++ a) ++ [c])) = JOk (v, r) ->
          exists t u, a ++ 92 :: 117 :: s2 = t ++ 34 :: r /\ v = acc ++ u /\ lchars strict t u).
        { intros NP K. apply Fin in K. destruct K as (R & t1 & u & -> & -> & C). destruct (decode_only _ _ _ D R) as (h & -> & L).
          exists (a ++ 92 :: 117 :: h ++ t1), (a ++ uni :: u). split; [rewrite <- !app_assoc; cbn [app]; now rewrite <- !app_assoc|].
          split; [now rewrite <- !app_assoc|]. apply chars_plain_app; [assumption|]. apply chars_u; [assumption| |assumption].
          intros [Hh (h2 & n2 & q & E & L2 & Lo)]. apply NP. split; [assumption|]. exists h2, n2, (q ++ 34 :: r). split; [|auto].
          rewrite E. cbn [app]. now rewrite <- app_assoc. }
        destruct ((55296 <=? uni) && (uni <=? 56319)) eqn:Hi.
        -- destruct (after [92; 117] s3) as [s4|] eqn:Af.
           ++ apply after_split in Af. subst s3. destruct (decode_uXXXX int16 s4) as [[uni2 s5]| | | |] eqn:D2; try discriminate. cbn [jbind] in H.
              destruct ((56320 <=? uni2) && (uni2 <=? 57343)) eqn:Lo.
              ** cbn [jbind] in H. apply Fin in H. destruct H as (R & t1 & u & -> & -> & C).
                 destruct (decode_only _ _ _ D2 ltac:(lia)) as (h2 & -> & L2). destruct (decode_only _ _ _ D ltac:(lia)) as (h1 & -> & L1).
                 rewrite lor_joined by lia. exists (a ++ 92 :: 117 :: h1 ++ 92 :: 117 :: h2 ++ t1), (a ++ joined uni uni2 :: u).
                 split; [rewrite <- !app_assoc; cbn [app]; rewrite <- !app_assoc; cbn [app]; now rewrite <- !app_assoc|].
                 split; [rewrite <- !app_assoc; unfold joined; do 3 f_equal; lia|].
                 apply chars_plain_app; [assumption|]. apply chars_pair; unfold high, low; try assumption; lia.
              ** apply Alone; [|exact H]. intros [_ (h2 & n2 & q & E & L2 & Lo2)]. cbn [app] in E. inversion E; subst s4.
                 rewrite (decode_loose h2 n2 q L2) in D2. inversion D2; subst. unfold low in Lo2. lia.
           ++ apply Alone; [|exact H]. intros [_ (h2 & n2 & q & E & _)]. rewrite E in Af. discriminate.
        -- cbn [jbind] in H. apply Alone; [|exact H]. intros [Hh _]. unfold high in Hh. lia.
Qed.

(** every string is accepted, with its value *)
Lemma scanstring_complete : forall strict t u, lchars strict t u -> forall fuel r acc, (length t < fuel)%nat ->
  scanstr fuel strict (t ++ 34 :: r) acc = JOk (acc ++ u, r).
Proof.
  (* a run of plain characters may be moved to the chunks already read *)
  assert (Run : forall strict fuel c s acc, c <> 34 -> c <> 92 -> ~ (0 <= c < 32) -> scanstr (S fuel) strict (c :: s) acc = scanstr (S fuel) strict s (acc ++ [c])).
  { intros strict fuel c s acc A B C. cbn [scanstring stringchunk]. replace ((c =? 34) || (c =? 92) || ((0 <=? c) && (c <=? 31))) with false by lia.
    destruct (stringchunk s) as [[[a t] q]|]; [|reflexivity]. now rewrite <- !app_assoc. }
  assert (Esc : forall strict fuel s acc, scanstr (S fuel) strict (92 :: s) acc =
    match s with
    | [] => JBad
    | esc :: s' =>
      if negb (esc =? 117) then match backslash esc with Some c => scanstr fuel strict s' (acc ++ [c]) | None => JBad end
      else jbind (decode_uXXXX int16 s') (fun '(uni, s) =>
           jbind (match (55296 <=? uni) && (uni <=? 56319), after [92; 117] s with
                  | true, Some s2 => jbind (decode_uXXXX int16 s2) (fun '(uni2, s3) =>
                      if (56320 <=? uni2) && (uni2 <=? 57343)
                      then JOk (65536 + Z.lor (Z.shiftl (uni - 55296) 10) (uni2 - 56320), s3)
                      else JOk (uni, s))
                  | _, _ => JOk (uni, s)
                  end) (fun '(uni, s) =>
           jbind (of_res (chr uni)) (fun c => scanstr fuel strict s (acc ++ [c]))))
    end).
  { intros strict fuel s acc. cbn [scanstring stringchunk]. change ((92 =? 34) || (92 =? 92) || ((0 <=? 92) && (92 <=? 31))) with true. cbn match.
    change (92 =? 34) with false. change (negb (92 =? 92)) with false. cbn match. rewrite app_nil_r. reflexivity. }
  induction 1 as [|c t u A B St C IH|e c t u E C IH|h n t u L NP C IH|h1 n1 h2 n2 t u L1 H1 L2 H2 C IH]; intros fuel r acc Fu.
  - destruct fuel; [cbn in Fu; lia|]. cbn [app scanstring stringchunk]. reflexivity.
  - cbn [length] in Fu. destruct fuel; [lia|]. cbn [app]. destruct (Z_lt_dec c 0) as [N|N]; [|destruct (Z_lt_dec c 32) as [M|M]].
    + rewrite Run by lia. rewrite IH by lia. now rewrite <- app_assoc.
    + cbn [scanstring stringchunk]. replace ((c =? 34) || (c =? 92) || ((0 <=? c) && (c <=? 31))) with true by lia.
      destruct (c =? 34) eqn:?; [lia|]. destruct (c =? 92) eqn:?; [lia|]. cbn [negb]. destruct strict; [specialize (St ltac:(lia)); discriminate|]. rewrite app_nil_r.
      rewrite IH by lia. now rewrite <- app_assoc.
    + rewrite Run by lia. rewrite IH by lia. now rewrite <- app_assoc.
  - cbn [length] in Fu. destruct fuel; [lia|]. cbn [app]. rewrite Esc. assert (e <> 117) by (intro; subst; cbn in E; repeat (destruct E as [E|E]; [discriminate|]); contradiction).
    destruct (e =? 117) eqn:?; [lia|]. cbn [negb]. apply short_iff in E. rewrite E. rewrite IH by lia. now rewrite <- app_assoc.
  - cbn [length] in Fu. rewrite app_length in Fu. destruct fuel; [lia|]. cbn [app]. rewrite Esc. change (negb (117 =? 117)) with false. cbn match.
    rewrite <- app_assoc, (decode_loose h n _ L). cbn [jbind].
    assert (X : (match (55296 <=? n) && (n <=? 56319), after [92; 117] (t ++ 34 :: r) with
                  | true, Some s2 => jbind (decode_uXXXX int16 s2) (fun '(uni2, s3) =>
                      if (56320 <=? uni2) && (uni2 <=? 57343)
                      then JOk (65536 + Z.lor (Z.shiftl (n - 55296) 10) (uni2 - 56320), s3)
                      else JOk (n, t ++ 34 :: r))
                  | _, _ => JOk (n, t ++ 34 :: r)
                  end) = JOk (n, t ++ 34 :: r)).
    { destruct ((55296 <=? n) && (n <=? 56319)) eqn:Hi; [|reflexivity]. destruct (after [92; 117] (t ++ 34 :: r)) as [s2|] eqn:Af; [|reflexivity].
      apply after_split in Af. assert (Hh : high n) by (unfold high; lia).
      inversion C as [E1 E2|c t1 v1 A1 A2 A3 C1 E1 E2|e c t1 v1 E C1 E1 E2|h' n' t1 v1 L' NP' C1 E1 E2|h1 n1 h2 n2 t1 v1 L1 H1 L2 H2 C1 E1 E2]; subst t; cbn [app] in Af.
      - discriminate.
      - inversion Af. congruence.
      - inversion Af; subst e. cbn in E. repeat (destruct E as [E|E]; [discriminate|]). contradiction.
      - inversion Af as [Af']. rewrite <- app_assoc, (decode_loose h' n' _ L'). cbn [jbind]. destruct ((56320 <=? n') && (n' <=? 57343)) eqn:Lo; [|reflexivity].
        exfalso. apply NP. split; [assumption|]. exists h', n', t1. split; [reflexivity|]. split; [assumption|]. unfold low. lia.
      - inversion Af as [Af']. rewrite <- app_assoc, (decode_loose h1 n1 _ L1). cbn [jbind]. unfold high in H1.
        destruct ((56320 <=? n1) && (n1 <=? 57343)) eqn:Lo; [lia|reflexivity]. }
    rewrite X. cbn [jbind]. destruct L as (a & b & c & d & _ & _ & _ & _ & R). unfold chr. replace ((0 <=? n) && (n <=? 1114111)) with true by lia.
    cbn [of_res jbind]. rewrite IH by lia. now rewrite <- app_assoc.
  - cbn [length] in Fu. rewrite app_length in Fu. cbn [length] in Fu. rewrite app_length in Fu. destruct fuel; [lia|]. cbn [app]. rewrite Esc. change (negb (117 =? 117)) with false. cbn match.
    rewrite <- app_assoc, (decode_loose h1 n1 _ L1). cbn [jbind]. unfold high, low in *. replace ((55296 <=? n1) && (n1 <=? 56319)) with true by lia.
    cbn [app]. change (92 :: 117 :: (h2 ++ t) ++ 34 :: r) with ([92; 117] ++ (h2 ++ t) ++ 34 :: r). rewrite after_app.
    rewrite <- app_assoc, (decode_loose h2 n2 _ L2). cbn [jbind]. replace ((56320 <=? n2) && (n2 <=? 57343)) with true by lia.
    cbn [jbind]. rewrite lor_joined by lia. unfold chr. set (j := 65536 + _). replace ((0 <=? j) && (j <=? 1114111)) with true by (subst j; lia).
    cbn [of_res jbind]. rewrite IH by lia. rewrite <- app_assoc. do 3 f_equal. cbn [app]. f_equal. unfold joined, j. lia.
Qed.
Lemma parse_string_iff : forall strict s v r, parse_string int16 strict s = JOk (v, r) <-> exists t, s = t ++ 34 :: r /\ lchars strict t v.
Proof.
  intros strict s v r. unfold parse_string. split.
  - intro H. apply scanstring_sound in H. destruct H as (t & u & -> & -> & C). eauto.
  - intros (t & -> & C). rewrite (scanstring_complete strict t v C); [reflexivity|]. rewrite app_length. cbn. lia.
Qed.
End Hex.
