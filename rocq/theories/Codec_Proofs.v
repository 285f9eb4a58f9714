(** Proofs about the codecs (Codec_Model) against Codec_Spec. *)
From Coq Require Import ZArith List Bool Lia ZifyBool ZifyNat.
From Verif Require Import Py Str_Model Str_Spec Seq_Proofs Str_Proofs Codec_Model Codec_Spec.
Import ListNotations.
Open Scope Z_scope.
Ltac Zify.zify_post_hook ::= Z.div_mod_to_equations.

Lemma land7 x : Z.land x 7 = x mod 8. Proof. change 7 with (Z.ones 3). now rewrite Z.land_ones. Qed.
Lemma land15 x : Z.land x 15 = x mod 16. Proof. change 15 with (Z.ones 4). now rewrite Z.land_ones. Qed.
Lemma land31 x : Z.land x 31 = x mod 32. Proof. change 31 with (Z.ones 5). now rewrite Z.land_ones. Qed.
Lemma land63 x : Z.land x 63 = x mod 64. Proof. change 63 with (Z.ones 6). now rewrite Z.land_ones. Qed.
Ltac masks := rewrite ?land7, ?land15, ?land31, ?land63, ?Z.shiftr_div_pow2 by lia;
  change (2 ^ 6) with 64; change (2 ^ 12) with 4096; change (2 ^ 18) with 262144.

Lemma encode_codepoint_u8 c : code_point c -> encode_codepoint c = u8 c.
Proof.
  unfold code_point, encode_codepoint, u8. intro H. masks.
  ifs; try lia; repeat (f_equal; try lia).
Qed.
Lemma encode_all s : Forall code_point s -> flat_map encode_codepoint s = utf8 s.
Proof.
  induction 1 as [|c s H _ IH]; [reflexivity|]. cbn [flat_map utf8]. unfold utf8 in *. cbn [flat_map].
  now rewrite encode_codepoint_u8, IH.
Qed.

(** *** The decoder looks only at what remains *)
Lemma byte_at_app p r i : 0 <= i -> byte_at (p ++ r) (slen p + i) = byte_at r i.
Proof.
  intro H. unfold byte_at, slen. rewrite app_nth2 by lia. f_equal. lia.
Qed.
Lemma continuation_app p r n i cp : 0 <= i -> continuation (p ++ r) n (slen p + i) cp = continuation r n i cp.
Proof.
  revert i cp; induction n as [|n IH]; intros i cp H; [reflexivity|]. cbn [continuation].
  rewrite byte_at_app by lia. destruct (_ && _); [|reflexivity].
  replace (slen p + i + 1) with (slen p + (i + 1)) by lia. apply IH. lia.
Qed.
Lemma chunk_shift p r : utf8_decode_chunk (p ++ r) (slen p) =
  let '(o, i, e) := utf8_decode_chunk r 0 in (o, slen p + i, e).
Proof.
  unfold utf8_decode_chunk.
  replace (byte_at (p ++ r) (slen p)) with (byte_at r 0)
    by (rewrite <- (byte_at_app p r 0) by lia; f_equal; lia).
  set (b := byte_at r 0). rewrite slen_app.
  assert (K : forall d cp lo hi, 1 <= d ->
    (if slen p + slen r <? slen p + d then ([], slen p, Some UnexpectedEnd)
     else match continuation (p ++ r) (Z.to_nat (slen p + d - (slen p + 1))) (slen p + 1) cp with
          | Some cp => if (lo <=? cp) && (cp <=? hi) then ([cp], slen p + d, None) else ([], slen p, Some MidChunk)
          | None => ([], slen p, Some MidChunk) end) =
    (let '(o, i, e) :=
       if slen r <? d then ([], 0, Some UnexpectedEnd)
       else match continuation r (Z.to_nat (d - 1)) 1 cp with
          | Some cp => if (lo <=? cp) && (cp <=? hi) then ([cp], d, None) else ([], 0, Some MidChunk)
          | None => ([], 0, Some MidChunk) end in (o, slen p + i, e) : chunk)).
  { intros d cp lo hi Hd. rewrite continuation_app by lia.
    replace (slen p + d - (slen p + 1)) with (d - 1) by lia.
    replace (slen p + slen r <? slen p + d) with (slen r <? d) by lia.
    destruct (slen r <? d); [repeat f_equal; lia|].
    destruct (continuation _ _ _ _) as [c|]; [|repeat f_equal; lia].
    destruct (_ && _); repeat f_equal; lia. }
  rewrite <- !Z.add_assoc. cbn zeta.
  destruct (192 <=? b); [destruct (224 <=? b); [destruct (240 <=? b); [destruct (247 <? b)|destruct (239 <? b)]|destruct (223 <? b)]|];
    cbn iota beta; try (apply K; lia); now rewrite Z.add_0_r.
Qed.

(** *** One character *)
Lemma at0 x r : byte_at (x :: r) 0 = x. Proof. reflexivity. Qed.
Lemma at1 x y r : byte_at (x :: y :: r) 1 = y. Proof. reflexivity. Qed.
Lemma at2 x y z r : byte_at (x :: y :: z :: r) 2 = z. Proof. reflexivity. Qed.
Lemma at3 x y z w r : byte_at (x :: y :: z :: w :: r) 3 = w. Proof. reflexivity. Qed.
Definition contb (x : Z) : bool := (128 <=? x) && (x <=? 191).
(** the chunk decoder by the length its lead byte announces *)
Definition lead_len (x : Z) : option (nat * Z * Z * Z) :=
  if x <? 192 then Some (O, x, 0, 0x7F)
  else if x <? 224 then Some (1%nat, x - 192, 0x80, 0x7FF)
  else if x <? 240 then Some (2%nat, x - 224, 0x800, 0xFFFF)
  else if x <? 248 then Some (3%nat, x - 240, 0x10000, 0x10FFFF)
  else None.
Definition chunk0 (x : Z) (r : str) : chunk :=
  match lead_len x with
  | None => ([], 0, Some MidChunk)
  | Some (n, cp, lo, hi) =>
      if slen r <? Z.of_nat n then ([], 0, Some UnexpectedEnd)
      else match continuation (x :: r) n 1 cp with
           | None => ([], 0, Some MidChunk)
           | Some cp => if (lo <=? cp) && (cp <=? hi) then ([cp], 1 + Z.of_nat n, None) else ([], 0, Some MidChunk)
           end
  end.
Lemma chunk0_eq x r : utf8_decode_chunk (x :: r) 0 = chunk0 x r.
Proof.
  unfold utf8_decode_chunk, chunk0, lead_len. rewrite at0, slen_cons. masks. cbn zeta.
  assert (T : forall a b, (a + 1 <? b + 1) = (a <? b)) by (clear; intros; lia).
  destruct (192 <=? x) eqn:A; [destruct (224 <=? x) eqn:B; [destruct (240 <=? x) eqn:C; [destruct (247 <? x) eqn:D|destruct (239 <? x) eqn:D]|destruct (223 <? x) eqn:D]|];
    try (exfalso; clear T; lia).
  - replace (x <? 192) with false by (clear T; lia). replace (x <? 224) with false by (clear T; lia).
    replace (x <? 240) with false by (clear T; lia). now replace (x <? 248) with false by (clear T; lia).
  - replace (x <? 192) with false by (clear T; lia). replace (x <? 224) with false by (clear T; lia).
    replace (x <? 240) with false by (clear T; lia). replace (x <? 248) with true by (clear T; lia).
    replace (x mod 8) with (x - 240) by (clear T; lia). cbn iota beta.
    change (0 + 1 + 1 + 1 + 1) with (3 + 1). rewrite T. reflexivity.
  - replace (x <? 192) with false by (clear T; lia). replace (x <? 224) with false by (clear T; lia).
    replace (x <? 240) with true by (clear T; lia).
    replace (x mod 16) with (x - 224) by (clear T; lia). cbn iota beta.
    change (0 + 1 + 1 + 1) with (2 + 1). rewrite T. reflexivity.
  - replace (x <? 192) with false by (clear T; lia). replace (x <? 224) with true by (clear T; lia).
    replace (x mod 32) with (x - 192) by (clear T; lia). cbn iota beta.
    change (0 + 1 + 1) with (1 + 1). rewrite T. reflexivity.
  - replace (x <? 192) with true by (clear T; lia). cbn iota beta. rewrite T. reflexivity.
Qed.
Lemma slen_ge3 x y z (r : str) : (slen (x :: y :: z :: r) <? 3) = false.
Proof. rewrite !slen_cons. pose proof (slen_nonneg r). lia. Qed.
Lemma slen_ge2 x y (r : str) : (slen (x :: y :: r) <? 2) = false.
Proof. rewrite !slen_cons. pose proof (slen_nonneg r). lia. Qed.
Lemma slen_ge1 x (r : str) : (slen (x :: r) <? 1) = false.
Proof. rewrite !slen_cons. pose proof (slen_nonneg r). lia. Qed.
Lemma slen_ge0 (r : str) : (slen r <? 0) = false.
Proof. pose proof (slen_nonneg r). lia. Qed.

(** characters decode to themselves *)
Lemma chunk_u8 c q : code_point c -> utf8_decode_chunk (u8 c ++ q) 0 = ([c], slen (u8 c), None).
Proof.
  unfold code_point. intro H. unfold u8.
  destruct (c <? 0x80) eqn:A; [|destruct (c <? 0x800) eqn:B; [|destruct (c <? 0x10000) eqn:C]];
    cbn [app]; rewrite chunk0_eq; unfold chunk0.
  - replace (lead_len c) with (Some (O, c, 0, 0x7F)) by (unfold lead_len; replace (c <? 192) with true by lia; reflexivity).
    cbn [continuation Z.of_nat]. rewrite slen_ge0. now replace ((0 <=? c) && (c <=? 0x7F)) with true by lia.
  - replace (lead_len (0xC0 + c / 64)) with (Some (1%nat, c / 64, 0x80, 0x7FF))
      by (unfold lead_len; ifs; try lia; do 4 f_equal; lia).
    change (Z.of_nat 1) with 1. rewrite slen_ge1. cbn [continuation]. rewrite at1.
    replace (_ && _) with true by lia. cbn iota.
    replace (c / 64 * 64 + _) with c by lia. now replace ((0x80 <=? c) && (c <=? 0x7FF)) with true by lia.
  - replace (lead_len (0xE0 + c / 4096)) with (Some (2%nat, c / 4096, 0x800, 0xFFFF))
      by (unfold lead_len; ifs; try lia; do 4 f_equal; lia).
    change (Z.of_nat 2) with 2. rewrite slen_ge2. cbn [continuation]. change (1 + 1) with 2. rewrite at1, at2.
    replace (_ && _) with true by lia. cbn iota.
    replace (_ && _) with true by lia. cbn iota.
    replace ((c / 4096 * 64 + _) * 64 + _) with c by lia. now replace ((0x800 <=? c) && (c <=? 0xFFFF)) with true by lia.
  - replace (lead_len (0xF0 + c / 262144)) with (Some (3%nat, c / 262144, 0x10000, 0x10FFFF))
      by (unfold lead_len; ifs; try lia; do 4 f_equal; lia).
    change (Z.of_nat 3) with 3. rewrite slen_ge3. cbn [continuation]. change (1 + 1) with 2. change (2 + 1) with 3. rewrite at1, at2, at3.
    replace (_ && _) with true by lia. cbn iota.
    replace (_ && _) with true by lia. cbn iota.
    replace (_ && _) with true by lia. cbn iota.
    replace (((c / 262144 * 64 + _) * 64 + _) * 64 + _) with c by lia. now replace ((0x10000 <=? c) && (c <=? 0x10FFFF)) with true by lia.
Qed.

Lemma chunk_err x r o i e : chunk0 x r = (o, i, Some e) -> o = [] /\ i = 0.
Proof.
  unfold chunk0. destruct (lead_len x) as [[[[n cp] lo] hi]|]; [|now intros [= <- <- _]].
  destruct (_ <? _); [now intros [= <- <- _]|]. destruct (continuation _ _ _ _); [|now intros [= <- <- _]].
  destruct (_ && _); [discriminate|now intros [= <- <- _]].
Qed.
Lemma chunk_ok x r o i : 0 <= x -> chunk0 x r = (o, i, None) ->
  exists c q, code_point c /\ o = [c] /\ x :: r = u8 c ++ q /\ i = slen (u8 c).
Proof.
  intros Hx. unfold chunk0, lead_len.
  destruct (x <? 192) eqn:A; [|destruct (x <? 224) eqn:B; [|destruct (x <? 240) eqn:C; [|destruct (x <? 248) eqn:D; [|discriminate]]]];
    cbn iota beta; cbn [Z.of_nat Pos.of_succ_nat Pos.succ].
  - cbn [continuation]. destruct (slen r <? 0); [discriminate|]. destruct (_ && _) eqn:E; [|discriminate].
    intros [= <- <-]. exists x, r. unfold code_point, u8. replace (x <? 0x80) with true by lia. repeat split; try lia; reflexivity.
  - destruct r as [|y r]; [discriminate|]. rewrite slen_ge1. cbn [continuation]. rewrite at1.
    destruct ((128 <=? y) && (y <=? 191)) eqn:E; [|discriminate]. destruct ((0x80 <=? _ + _) && _) eqn:F; [|discriminate].
    intros [= <- <-]. set (c := (x - 192) * 64 + (y - 128)) in *. exists c, r. unfold code_point, u8.
    replace (c <? 0x80) with false by lia. replace (c <? 0x800) with true by lia.
    repeat split; try lia. cbn [app]. repeat (f_equal; try lia).
  - destruct r as [|y [|z r]]; try discriminate. rewrite slen_ge2. cbn [continuation]. change (1 + 1) with 2. rewrite at1, at2.
    destruct ((128 <=? y) && (y <=? 191)) eqn:E; [|discriminate]. destruct ((128 <=? z) && (z <=? 191)) eqn:E'; [|discriminate]. destruct ((0x800 <=? _) && _) eqn:F; [|discriminate].
    intros [= <- <-]. set (c := ((x - 224) * 64 + (y - 128)) * 64 + (z - 128)) in *. exists c, r. unfold code_point, u8.
    replace (c <? 0x80) with false by lia. replace (c <? 0x800) with false by lia. replace (c <? 0x10000) with true by lia.
    repeat split; try lia. cbn [app]. repeat (f_equal; try lia).
  - destruct r as [|y [|z [|w r]]]; try discriminate. rewrite slen_ge3. cbn [continuation]. change (1 + 1) with 2. change (2 + 1) with 3. rewrite at1, at2, at3.
    destruct ((128 <=? y) && (y <=? 191)) eqn:E; [|discriminate]. destruct ((128 <=? z) && (z <=? 191)) eqn:E'; [|discriminate].
    destruct ((128 <=? w) && (w <=? 191)) eqn:E''; [|discriminate]. destruct ((0x10000 <=? _) && _) eqn:F; [|discriminate].
    intros [= <- <-]. set (c := (((x - 240) * 64 + (y - 128)) * 64 + (z - 128)) * 64 + (w - 128)) in *. exists c, r. unfold code_point, u8.
    replace (c <? 0x80) with false by lia. replace (c <? 0x800) with false by lia. replace (c <? 0x10000) with false by lia.
    repeat split; try lia. cbn [app]. repeat (f_equal; try lia).
Qed.
Lemma u8_nonempty c : u8 c <> [].
Proof. unfold u8. ifs; discriminate. Qed.

(** What stands at the front of nonempty bytes: a character, or none *)
Lemma chunk_cases r : r <> [] -> Forall byte_value r ->
  (exists c q, code_point c /\ r = u8 c ++ q /\ utf8_decode_chunk r 0 = ([c], slen (u8 c), None))
  \/ (exists e, utf8_decode_chunk r 0 = ([], 0, Some e) /\ forall c q, code_point c -> r <> u8 c ++ q).
Proof.
  intros N B. destruct r as [|x r]; [easy|]. apply Forall_inv in B. rewrite chunk0_eq.
  destruct (chunk0 x r) as [[o i] [e|]] eqn:E.
  - right. destruct (chunk_err _ _ _ _ _ E) as [-> ->]. exists e. split; [reflexivity|].
    intros c q Hc K. rewrite <- chunk0_eq, K, chunk_u8 in E by auto. discriminate.
  - left. destruct (chunk_ok x r o i) as (c & q & H1 & -> & H2 & ->); auto. { destruct B. lia. }
    exists c, q. auto.
Qed.
Lemma u8_unique c q c' q' : code_point c -> code_point c' -> u8 c ++ q = u8 c' ++ q' -> c = c' /\ q = q'.
Proof.
  intros H H' E. pose proof (chunk_u8 c q H) as K. rewrite E, (chunk_u8 c' q' H') in K.
  injection K as K _. subst c'. now apply app_inv_head in E.
Qed.

(** *** The driver *)
Section Loop.
Variable dec : str -> Z -> chunk.
Lemma decode_end m fuel b parts i : slen b <= i -> decode_loop dec m fuel b parts i = COk parts i.
Proof. intro H. destruct fuel; cbn [decode_loop]; now replace (i <? slen b) with false by lia. Qed.
Lemma decode_step m fuel b parts i : i < slen b ->
  decode_loop dec m (S fuel) b parts i =
        let '(out, idx, err) := dec b i in
        match err with
        | None => decode_loop dec m fuel b (parts ++ out) idx
        | Some _ =>
            match m with
            | Strict => CErr idx (idx + 1)
            | Ignore => decode_loop dec m fuel b (parts ++ out) (idx + 1)
            | Replace => decode_loop dec m fuel b ((parts ++ out) ++ [0xFFFD]) (idx + 1)
            | Other h =>
                match h b idx (idx + 1) with
                | None => CErr idx (idx + 1)
                | Some (replacement, idx) => decode_loop dec m fuel b ((parts ++ out) ++ replacement) idx
                end
            end
        end.
Proof. intro H. cbn [decode_loop]. now replace (i <? slen b) with true by lia. Qed.
End Loop.

Lemma slen_cons_lt p x (r : str) : slen p < slen (p ++ x :: r).
Proof. rewrite slen_app, slen_cons. pose proof (slen_nonneg r). lia. Qed.
Lemma slen_snoc p x : slen (p ++ [x]) = slen p + 1.
Proof. rewrite slen_app. reflexivity. Qed.
Lemma app_shift (p u q : str) : p ++ u ++ q = (p ++ u) ++ q. Proof. apply app_assoc. Qed.

Lemma strict_loop fuel : forall p r parts, (length r <= fuel)%nat -> Forall byte_value r ->
  match decode_loop utf8_decode_chunk Strict fuel (p ++ r) parts (slen p) with
  | COk out i => exists s, out = parts ++ s /\ encodes code_point r s /\ i = slen (p ++ r)
  | CErr a b => b = a + 1 /\ fails_at code_point r (a - slen p)
  | CFuel => False
  end.
Proof.
  induction fuel as [|fuel IH]; intros p r parts L B.
  - destruct r as [|x r]; [|cbn in L; lia]. rewrite decode_end by (rewrite app_nil_r; lia).
    exists []. rewrite !app_nil_r. repeat split. constructor.
  - destruct r as [|x r].
    { rewrite decode_end by (rewrite app_nil_r; lia). exists []. rewrite !app_nil_r. repeat split. constructor. }
    rewrite decode_step by apply slen_cons_lt. rewrite chunk_shift.
    destruct (chunk_cases (x :: r)) as [(c & q & Hc & E & K)|(e & K & Hn)]; [discriminate|auto| |]; rewrite K; clear K.
    + cbn beta iota. rewrite E. rewrite <- slen_app, app_shift.
      specialize (IH (p ++ u8 c) q (parts ++ [c])). rewrite E in L, B. apply Forall_app in B. destruct B as [_ B].
      assert (L' : (length q <= fuel)%nat).
      { rewrite app_length in L. pose proof (u8_nonempty c). destruct (u8 c); [easy|]. cbn [length] in L. lia. }
      specialize (IH L' B). destruct (decode_loop _ _ _ _ _ _) as [out i|a b|].
      * destruct IH as (s & -> & [H1 ->] & ->). exists (c :: s). rewrite <- app_assoc. split; [reflexivity|].
        split; [|reflexivity]. split; [now constructor|]. reflexivity.
      * destruct IH as (-> & s & r' & H1 & -> & H2 & H3 & H4). split; auto.
        exists (c :: s), r'. split; [now constructor|]. unfold utf8 in *. cbn [flat_map]. rewrite <- app_assoc. split; [reflexivity|].
        rewrite app_length. rewrite slen_app in H2. unfold slen in *. split; [lia|auto].
      * auto.
    + cbn beta iota. split; [reflexivity|]. exists [], (x :: r). split; [constructor|]. split; [reflexivity|].
      split; [cbn; lia|]. split; [discriminate|auto].
Qed.
Lemma decode_strict b : Forall byte_value b ->
  match m_decode utf8_decode_chunk Strict b with
  | COk s i => encodes code_point b s /\ i = slen b
  | CErr a e => e = a + 1 /\ fails_at code_point b a
  | CFuel => False
  end.
Proof.
  intro B. unfold m_decode. pose proof (strict_loop (length b) [] b [] (le_n _) B) as H. cbn [app] in H.
  change (slen []) with 0 in H. destruct (decode_loop _ _ _ _ _ _) as [o i|a e|]; auto.
  - destruct H as (s & -> & H). auto.
  - rewrite Z.sub_0_r in H. auto.
Qed.

(** *** Errors ignored or replaced *)
Inductive code_dec (rep : str) : str -> str -> Prop :=
| cd_end : code_dec rep [] []
| cd_char c q s : code_point c -> code_dec rep q s -> code_dec rep (u8 c ++ q) (c :: s)
| cd_bad x q s : (forall c q', code_point c -> x :: q <> u8 c ++ q') -> code_dec rep q s -> code_dec rep (x :: q) (rep ++ s).
Lemma lenient_loop m rep : (m = Ignore /\ rep = []) \/ (m = Replace /\ rep = [0xFFFD]) ->
  forall fuel p r parts, (length r <= fuel)%nat -> Forall byte_value r ->
  exists s, decode_loop utf8_decode_chunk m fuel (p ++ r) parts (slen p) = COk (parts ++ s) (slen (p ++ r)) /\ code_dec rep r s.
Proof.
  intros M. induction fuel as [|fuel IH]; intros p r parts L B.
  - destruct r as [|x r]; [|cbn in L; lia]. rewrite decode_end by (rewrite app_nil_r; lia).
    exists []. rewrite !app_nil_r. repeat split. constructor.
  - destruct r as [|x r].
    { rewrite decode_end by (rewrite app_nil_r; lia). exists []. rewrite !app_nil_r. repeat split. constructor. }
    rewrite decode_step by apply slen_cons_lt. rewrite chunk_shift.
    destruct (chunk_cases (x :: r)) as [(c & q & Hc & E & K)|(e & K & Hn)]; [discriminate|auto| |]; rewrite K; clear K; cbn beta iota.
    + rewrite E, <- slen_app, app_shift.
      rewrite E in L, B. apply Forall_app in B. destruct B as [_ B].
      assert (L' : (length q <= fuel)%nat).
      { rewrite app_length in L. pose proof (u8_nonempty c). destruct (u8 c); [easy|]. cbn [length] in L. lia. }
      destruct (IH (p ++ u8 c) q (parts ++ [c]) L' B) as (s & -> & Hs).
      exists (c :: s). rewrite <- !app_assoc. split; [reflexivity|now constructor].
    + rewrite Z.add_0_r, app_nil_r, <- (slen_snoc p x).
      replace (p ++ x :: r) with ((p ++ [x]) ++ r) by now rewrite <- app_assoc.
      apply Forall_inv_tail in B. cbn [length] in L.
      destruct M as [[-> ->]|[-> ->]].
      * destruct (IH (p ++ [x]) r parts ltac:(lia) B) as (s & -> & Hs). exists s. split; [reflexivity|]. now apply (cd_bad [] x r s).
      * destruct (IH (p ++ [x]) r (parts ++ [0xFFFD]) ltac:(lia) B) as (s & -> & Hs). exists ([0xFFFD] ++ s).
        rewrite <- app_assoc. split; [reflexivity|]. now apply cd_bad.
Qed.
Lemma lenient m rep b : (m = Ignore /\ rep = []) \/ (m = Replace /\ rep = [0xFFFD]) -> Forall byte_value b ->
  exists s, m_decode utf8_decode_chunk m b = COk s (slen b) /\ code_dec rep b s.
Proof. intros M B. exact (lenient_loop m rep M (length b) [] b [] (le_n _) B). Qed.
Lemma code_dec_char rep c q t : code_point c -> code_dec rep (u8 c ++ q) t -> exists s, t = c :: s /\ code_dec rep q s.
Proof.
  intros Hc H. inversion H as [E|c' q' s Hc' H' E|x q' s Hn H' E]; subst.
  - destruct (u8 c) eqn:K; [|discriminate]. now apply u8_nonempty in K.
  - destruct (u8_unique c' q' c q Hc' Hc E) as [-> ->]. eauto.
  - exfalso. eapply Hn; [exact Hc|]. exact E.
Qed.
Lemma code_dec_bad rep x q t : (forall c q', code_point c -> x :: q <> u8 c ++ q') -> code_dec rep (x :: q) t ->
  exists s, t = rep ++ s /\ code_dec rep q s.
Proof.
  intros Hn H. inversion H as [E|c' q' s Hc' H' E|x' q' s Hn' H' E]; subst; eauto.
  exfalso. eapply Hn; [exact Hc'|]. symmetry. exact E.
Qed.

(** *** The table-driven reading *)
Lemma cont_not_lead x q c q' : contb x = true -> code_point c -> x :: q <> u8 c ++ q'.
Proof.
  unfold contb, code_point, u8. intros H Hc K. apply (f_equal (fun l => hd 0 l)) in K. revert K. ifs; cbn [app hd]; lia.
Qed.
Lemma next_char b c k : Forall byte_value b -> next b = Some (Char c k) -> scalar c /\ b = u8 c ++ skipn k b.
Proof.
  intros B. destruct b as [|x r]; [discriminate|]. apply Forall_inv in B. unfold byte_value in B. unfold next, follow, scalar, code_point, surrogate.
  destruct (x <? 0x80) eqn:A.
  { cbn [matched length Nat.eqb firstn fold_left]. destruct r; cbn [matched length Nat.eqb firstn fold_left lead_bits]; intros [= <- <-];
    (split; [lia|]); unfold u8; replace (x <? 0x80) with true by lia; reflexivity. }
  destruct (x <? 0xC2) eqn:A0; [discriminate|].
  assert (D1 : forall cc y r', lead_bits 1 x = x - 0xC0 -> 0xC2 <= x < 0xE0 -> 0x80 <= y <= 0xBF -> cc = (x - 0xC0) * 64 + (y - 0x80) ->
     (0 <= cc <= 0x10FFFF /\ ~ 0xD800 <= cc <= 0xDFFF) /\ x :: y :: r' = u8 cc ++ r').
  { intros cc y r' _ H1 H2 H3. split; [lia|]. unfold u8. replace (cc <? 0x80) with false by lia. replace (cc <? 0x800) with true by lia.
    cbn [app]. repeat (f_equal; try lia). }
  assert (D2 : forall cc y z r', 0xE0 <= x < 0xF0 -> 0x80 <= y <= 0xBF -> 0x80 <= z <= 0xBF ->
     (x = 0xE0 -> 0xA0 <= y) -> (x = 0xED -> y <= 0x9F) -> cc = ((x - 0xE0) * 64 + (y - 0x80)) * 64 + (z - 0x80) ->
     (0 <= cc <= 0x10FFFF /\ ~ 0xD800 <= cc <= 0xDFFF) /\ x :: y :: z :: r' = u8 cc ++ r').
  { intros cc y z r' H1 H2 H3 H4 H5 H6. split; [lia|]. unfold u8. replace (cc <? 0x80) with false by lia. replace (cc <? 0x800) with false by lia.
    replace (cc <? 0x10000) with true by lia. cbn [app]. repeat (f_equal; try lia). }
  assert (D3 : forall cc y z w r', 0xF0 <= x <= 0xF4 -> 0x80 <= y <= 0xBF -> 0x80 <= z <= 0xBF -> 0x80 <= w <= 0xBF ->
     (x = 0xF0 -> 0x90 <= y) -> (x = 0xF4 -> y <= 0x8F) -> cc = (((x - 0xF0) * 64 + (y - 0x80)) * 64 + (z - 0x80)) * 64 + (w - 0x80) ->
     (0 <= cc <= 0x10FFFF /\ ~ 0xD800 <= cc <= 0xDFFF) /\ x :: y :: z :: w :: r' = u8 cc ++ r').
  { intros cc y z w r' H1 H2 H3 H4 H5 H6 H7. split; [lia|]. unfold u8. replace (cc <? 0x80) with false by lia. replace (cc <? 0x800) with false by lia.
    replace (cc <? 0x10000) with false by lia. cbn [app]. repeat (f_equal; try lia). }
  assert (T : forall lo hi y, (lo <=? y) && (y <=? hi) = true -> lo <= y <= hi) by (clear; intros; lia).
  destruct (x <? 0xE0) eqn:A1; [|destruct (x =? 0xE0) eqn:A2; [|destruct (x =? 0xED) eqn:A3; [|destruct (x <? 0xF0) eqn:A4;
    [|destruct (x =? 0xF0) eqn:A5; [|destruct (x <? 0xF4) eqn:A6; [|destruct (x =? 0xF4) eqn:A7; [|discriminate]]]]]]].
  all: destruct r as [|y r]; [discriminate|]; cbn [matched].
  all: match goal with |- context [if (?a <=? ?v) && (?v <=? ?b) then _ else _] => destruct ((a <=? v) && (v <=? b)) eqn:Y; [apply T in Y|discriminate] end.
  1: cbn; intros [= <- <-]; apply D1; try lia; reflexivity.
  all: destruct r as [|z r]; [discriminate|]; cbn [matched].
  all: match goal with |- context [if (?a <=? ?v) && (?v <=? ?b) then _ else _] => destruct ((a <=? v) && (v <=? b)) eqn:Z'; [apply T in Z'|discriminate] end.
  1-3: cbn; intros [= <- <-]; apply D2; lia.
  all: destruct r as [|w r]; [discriminate|]; cbn [matched].
  all: match goal with |- context [if (?a <=? ?v) && (?v <=? ?b) then _ else _] => destruct ((a <=? v) && (v <=? b)) eqn:W; [apply T in W|discriminate] end.
  all: cbn; intros [= <- <-]; apply D3; lia.
Qed.

Lemma next_u8 c q : scalar c -> next (u8 c ++ q) = Some (Char c (length (u8 c))).
Proof.
  unfold scalar, code_point, surrogate. intros [H H']. unfold u8.
  destruct (c <? 0x80) eqn:A; [|destruct (c <? 0x800) eqn:B; [|destruct (c <? 0x10000) eqn:C]]; cbn [app]; unfold next, follow.
  - rewrite A. destruct q; reflexivity.
  - set (x := 0xC0 + c / 64). set (y := 0x80 + c mod 64).
    replace (x <? 0x80) with false by lia. replace (x <? 0xC2) with false by lia. replace (x <? 0xE0) with true by lia.
    cbn [matched]. replace ((0x80 <=? y) && (y <=? 0xBF)) with true by lia. cbn iota.
    destruct q; cbn [matched length Nat.eqb firstn fold_left lead_bits]; do 3 f_equal; lia.
  - set (x := 0xE0 + c / 4096). set (y := 0x80 + c / 64 mod 64). set (z := 0x80 + c mod 64).
    replace (x <? 0x80) with false by lia. replace (x <? 0xC2) with false by lia. replace (x <? 0xE0) with false by lia.
    destruct (x =? 0xE0) eqn:X1; [|destruct (x =? 0xED) eqn:X2; [|replace (x <? 0xF0) with true by lia]];
    (cbn [matched];
    match goal with |- context [if (?a <=? y) && (y <=? ?b) then _ else _] => replace ((a <=? y) && (y <=? b)) with true by lia end;
    replace ((0x80 <=? z) && (z <=? 0xBF)) with true by lia; cbn iota;
    destruct q; cbn [matched length Nat.eqb firstn fold_left lead_bits]; do 3 f_equal; lia).
  - set (x := 0xF0 + c / 262144). set (y := 0x80 + c / 4096 mod 64). set (z := 0x80 + c / 64 mod 64). set (w := 0x80 + c mod 64).
    replace (x <? 0x80) with false by lia. replace (x <? 0xC2) with false by lia. replace (x <? 0xE0) with false by lia.
    replace (x =? 0xE0) with false by lia. replace (x =? 0xED) with false by lia. replace (x <? 0xF0) with false by lia.
    destruct (x =? 0xF0) eqn:X1; [|destruct (x <? 0xF4) eqn:X2; [|replace (x =? 0xF4) with true by lia]];
    (cbn [matched];
    match goal with |- context [if (?a <=? y) && (y <=? ?b) then _ else _] => replace ((a <=? y) && (y <=? b)) with true by lia end;
    replace ((0x80 <=? z) && (z <=? 0xBF)) with true by lia;
    replace ((0x80 <=? w) && (w <=? 0xBF)) with true by lia; cbn iota;
    destruct q; cbn [matched length Nat.eqb firstn fold_left lead_bits]; do 3 f_equal; lia).
Qed.
Lemma next_surrogate c q : surrogate c ->
  next (u8 c ++ q) = Some (Bad 1) /\ exists y z, u8 c = [0xED; y; z] /\ contb y = true /\ contb z = true /\ 0xA0 <= y.
Proof.
  unfold surrogate. intros H. unfold u8.
  replace (c <? 0x80) with false by lia. replace (c <? 0x800) with false by lia. replace (c <? 0x10000) with true by lia.
  replace (0xE0 + c / 4096) with 0xED by lia. split.
  - unfold next. cbn [app follow]. cbn -[Z.add Z.div Z.modulo Z.leb].
    match goal with |- context [if ?a then _ else _] => replace a with false by lia end. reflexivity.
  - eexists _, _. split; [reflexivity|]. unfold contb. lia.
Qed.
Lemma matched_cont rs r : Forall (fun p => 0x80 <= fst p /\ snd p <= 0xBF) rs ->
  exists ys r', r = ys ++ r' /\ length ys = matched rs r /\ Forall (fun y => contb y = true) ys.
Proof.
  revert r; induction rs as [|[lo hi] rs IH]; intros r F.
  { exists [], r. destruct r; repeat split; constructor. }
  destruct r as [|x r]; [exists [], []; repeat split; constructor|]. cbn [matched].
  destruct (_ && _) eqn:E.
  - destruct (IH r (Forall_inv_tail F)) as (ys & r' & -> & L & H). exists (x :: ys), r'. cbn [length].
    split; [reflexivity|]. split; [congruence|]. constructor; auto. apply Forall_inv in F. cbn in F. unfold contb. lia.
  - exists [], (x :: r). repeat split. constructor.
Qed.
Lemma follow_ranges x rs : follow x = Some rs -> Forall (fun p => 0x80 <= fst p /\ snd p <= 0xBF) rs.
Proof.
  unfold follow. intro H.
  repeat match goal with H : (if ?c then _ else _) = _ |- _ => destruct c end; try discriminate; injection H as <-;
  repeat constructor; discriminate.
Qed.
Lemma next_bad b k : Forall byte_value b -> next b = Some (Bad k) ->
  exists x ys r, b = x :: ys ++ r /\ k = S (length ys) /\ Forall (fun y => contb y = true) ys
  /\ ((forall c q, code_point c -> b <> u8 c ++ q) \/ (ys = [] /\ exists c q, surrogate c /\ b = u8 c ++ q)).
Proof.
  intros B N. destruct b as [|x r0]; [discriminate|].
  assert (K : exists ys r, x :: r0 = x :: ys ++ r /\ k = S (length ys) /\ Forall (fun y => contb y = true) ys).
  { unfold next in N. destruct (follow x) as [rs|] eqn:F.
    - destruct (matched_cont rs r0 (follow_ranges _ _ F)) as (ys & r & -> & L & H).
      destruct (_ =? _)%nat; [discriminate|]. injection N as <-. exists ys, r. rewrite L. auto.
    - injection N as <-. exists [], r0. auto. }
  destruct K as (ys & r & E & -> & Hys). exists x, ys, r. split; [exact E|]. split; [reflexivity|]. split; [exact Hys|].
  destruct (chunk_cases (x :: r0)) as [(c & q & Hc & K & _)|(e & _ & K)]; [discriminate|auto| |auto].
  right. destruct (Bool.bool_dec (surrogateb c) true) as [S|S].
  - assert (S' : surrogate c) by (unfold surrogate, surrogateb in *; lia).
    destruct (next_surrogate c q S') as [N' _]. rewrite <- K, N in N'. injection N' as N'.
    split; [destruct ys; [reflexivity|discriminate]|]. eauto.
  - assert (S' : scalar c) by (unfold scalar, surrogate, surrogateb in *; split; auto; lia).
    pose proof (next_u8 c q S') as N'. rewrite <- K, N in N'. discriminate.
Qed.

(** the decoder resynchronises byte by byte over continuation bytes *)
Lemma code_dec_conts rep ys r t : Forall (fun y => contb y = true) ys -> code_dec rep (ys ++ r) t ->
  exists s, t = concat (repeat rep (length ys)) ++ s /\ code_dec rep r s.
Proof.
  revert t; induction ys as [|y ys IH]; intros t F H; [exists t; auto|].
  apply code_dec_bad in H; [|intros c q Hc; apply cont_not_lead; auto; exact (Forall_inv F)].
  destruct H as (s & -> & H). destruct (IH s (Forall_inv_tail F) H) as (s' & -> & H').
  exists s'. cbn [length repeat concat]. rewrite <- app_assoc. auto.
Qed.
Lemma concat_nil_repeat n : concat (repeat (@nil Z) n) = [].
Proof. induction n; auto. Qed.
Lemma skipn_eq {A} (l r : list A) x : skipn (S (length l)) (x :: l ++ r) = r.
Proof. cbn [skipn]. rewrite skipn_app, skipn_all, Nat.sub_diag. reflexivity. Qed.

Lemma ignore_rel r s : decoding py_ignore r s -> Forall byte_value r -> forall t, code_dec [] r t ->
  filter (fun c => negb (surrogateb c)) t = s.
Proof.
  induction 1 as [|b c k s N _ IH|b k s N _ IH]; intros B t D.
  - inversion D as [|c q s' Hc H' E|]; subst; [reflexivity|].
    destruct (u8 c) eqn:K; [|discriminate]. now apply u8_nonempty in K.
  - destruct (next_char b c k B N) as [[Hc S] E]. rewrite E in D.
    apply code_dec_char in D; auto. destruct D as (s' & -> & D). cbn [filter].
    replace (surrogateb c) with false by (unfold surrogate, surrogateb in *; lia). cbn [negb]. f_equal.
    apply IH; auto. rewrite E in B. now apply Forall_app in B.
  - destruct (next_bad b k B N) as (x & ys & r & -> & -> & F & C).
    rewrite skipn_eq in IH. assert (B' : Forall byte_value r).
    { apply Forall_inv_tail in B. now apply Forall_app in B. }
    destruct C as [C|(-> & c & q & S & E)].
    + apply code_dec_bad in D; auto. destruct D as (s' & -> & D). apply code_dec_conts in D; auto.
      destruct D as (s'' & -> & D). rewrite concat_nil_repeat. cbn [app py_ignore]. auto.
    + cbn [app] in *. rewrite E in D. apply code_dec_char in D; [|unfold code_point, surrogate in *; lia].
      destruct D as (s' & -> & D). cbn [filter]. replace (surrogateb c) with true by (unfold surrogate, surrogateb in *; lia). cbn [negb].
      destruct (next_surrogate c q S) as [_ (y & z & K & Hy & Hz & _)]. rewrite K in E. injection E as -> ->.
      cbn [py_ignore app]. apply IH; auto.
      apply (cd_bad [] y (z :: q) s'); [intros; now apply cont_not_lead|]. apply (cd_bad [] z q s'); [intros; now apply cont_not_lead|]. exact D.
Qed.

(** No encoded surrogate: no 0xED followed by 0xA0 or more *)
Definition no_surrogates (b : list Z) : Prop := forall p y q, b = p ++ 0xED :: y :: q -> y < 0xA0.
Lemma no_surrogates_tail p b : no_surrogates (p ++ b) -> no_surrogates b.
Proof. intros H p' y q ->. apply (H (p ++ p') y q). now rewrite <- app_assoc. Qed.
Definition byte_wise (k : nat) : list Z := repeat 0xFFFD k.
Lemma replace_rel r s : decoding byte_wise r s -> Forall byte_value r -> no_surrogates r -> code_dec [0xFFFD] r s.
Proof.
  induction 1 as [|b c k s N _ IH|b k s N _ IH]; intros B NS.
  - constructor.
  - destruct (next_char b c k B N) as [[Hc S] E]. rewrite E. constructor; auto. apply IH.
    + rewrite E in B. now apply Forall_app in B.
    + rewrite E in NS. now apply no_surrogates_tail in NS.
  - destruct (next_bad b k B N) as (x & ys & r & -> & -> & F & C).
    rewrite skipn_eq in IH. assert (B' : Forall byte_value r).
    { apply Forall_inv_tail in B. now apply Forall_app in B. }
    assert (NS' : no_surrogates r).
    { change (x :: ys ++ r) with ((x :: ys) ++ r) in NS. now apply no_surrogates_tail in NS. }
    destruct C as [C|(-> & c & q & S & E)].
    + unfold byte_wise. cbn [repeat]. change (0xFFFD :: ?a) with ([0xFFFD] ++ a). rewrite <- app_assoc.
      apply cd_bad; auto. clear - F IH B' NS'. induction F as [|y ys Hy F IHF]; [cbn; auto|].
      cbn [length repeat app]. change (0xFFFD :: ?a) with ([0xFFFD] ++ a).
      apply cd_bad; [intros; now apply cont_not_lead|auto].
    + exfalso. destruct (next_surrogate c q S) as [_ (y & z & K & _ & _ & Hy)]. rewrite K in E.
      specialize (NS [] y (z :: q)). cbn [app] in *. specialize (NS E). lia.
Qed.
Lemma code_dec_unique rep r s t : code_dec rep r s -> code_dec rep r t -> s = t.
Proof.
  intros H; revert t; induction H as [|c q s Hc H IH|x q s Hn H IH]; intros t D.
  - inversion D as [|c q s' Hc H' E|]; subst; [reflexivity|].
    destruct (u8 c) eqn:K; [|discriminate]. now apply u8_nonempty in K.
  - apply code_dec_char in D; auto. destruct D as (s' & -> & D). f_equal. auto.
  - apply code_dec_bad in D; auto. destruct D as (s' & -> & D). f_equal. auto.
Qed.
Lemma next_some b : b <> [] -> exists f, next b = Some f.
Proof.
  destruct b as [|x r]; [easy|]. intros _. unfold next. destruct (follow x); eauto. destruct (_ =? _)%nat; eauto.
Qed.
Lemma decoding_total rep b : exists s, decoding rep b s.
Proof.
  induction b as [b IH] using (well_founded_induction (Wf_nat.well_founded_ltof _ (@length Z))). unfold Wf_nat.ltof in IH.
  destruct b as [|x r]; [exists []; constructor|].
  destruct (next_some (x :: r)) as [[c k|k] N]; [discriminate| |].
  - assert (L : (length (skipn k (x :: r)) < length (x :: r))%nat).
    { assert (exists j, k = S j) as (j & ->).
      { unfold next in N. destruct (follow x); [|discriminate]. destruct (_ =? _)%nat; [|discriminate]. injection N as _ <-. eauto. }
      cbn [skipn length]. rewrite skipn_length. lia. }
    destruct (IH _ L) as [s H]. exists (c :: s). eapply d_char; eauto.
  - assert (L : (length (skipn k (x :: r)) < length (x :: r))%nat).
    { assert (exists j, k = S j) as (j & ->).
      { unfold next in N. destruct (follow x); [|injection N as <-; eauto]. destruct (_ =? _)%nat; [discriminate|]. injection N as <-. eauto. }
      cbn [skipn length]. rewrite skipn_length. lia. }
    destruct (IH _ L) as [s H]. exists (rep k ++ s). eapply d_bad; eauto.
Qed.
