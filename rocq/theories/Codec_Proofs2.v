(** Proofs about the codecs, continued: ASCII, Latin-1, encoding, incremental decoding. *)
From Coq Require Import ZArith List Bool Lia ZifyBool ZifyNat.
From Verif Require Import Py Str_Model Str_Spec Seq_Proofs Str_Proofs Codec_Model Codec_Spec Codec_Proofs.
Import ListNotations.
Open Scope Z_scope.

Lemma sslice_0 s : sslice s (Some 0) None = s.
Proof. exact (sslice_app_r [] s). Qed.

(** *** UTF-8 encoding *)
Lemma utf8_encode h s : Forall code_point s -> m_encode utf8_encode_chunk h s = COk (utf8 s) (slen s).
Proof.
  intro H. unfold m_encode. destruct s as [|c s]; [reflexivity|]. cbn [length encode_loop].
  replace (0 <? slen (c :: s)) with true by (rewrite slen_cons; pose proof (slen_nonneg s); lia).
  unfold utf8_encode_chunk. rewrite sslice_0, encode_all by auto. cbn [app].
  set (e := utf8 (c :: s)). set (t := c :: s). destruct (length s); cbn [encode_loop]; now rewrite Z.ltb_irrefl.
Qed.
Lemma utf8_byte c : code_point c -> Forall byte_value (u8 c).
Proof.
  unfold code_point, byte_value, u8. intro H. ifs; repeat constructor; lia.
Qed.
Lemma utf8_bytes s : Forall code_point s -> Forall byte_value (utf8 s).
Proof.
  induction 1 as [|c s H _ IH]; [constructor|]. unfold utf8 in *. cbn [flat_map]. apply Forall_app. split; auto. now apply utf8_byte.
Qed.
Lemma utf8_inj s t : Forall code_point s -> Forall code_point t -> utf8 s = utf8 t -> s = t.
Proof.
  intros H; revert t; induction H as [|c s Hc H IH]; intros t F E.
  - destruct t as [|d t]; [reflexivity|]. unfold utf8 in E. cbn [flat_map] in E. symmetry in E. apply app_eq_nil in E. destruct E as [E _].
    now apply u8_nonempty in E.
  - destruct t as [|d t].
    + unfold utf8 in E. cbn [flat_map] in E. apply app_eq_nil in E. destruct E as [E _]. now apply u8_nonempty in E.
    + unfold utf8 in E. cbn [flat_map] in E. apply u8_unique in E; auto; [|exact (Forall_inv F)]. destruct E as [-> E].
      f_equal. apply IH; auto. exact (Forall_inv_tail F).
Qed.
Lemma encodes_not_fails (ok : Z -> Prop) b s p : (forall c, ok c -> code_point c) -> encodes ok b s -> ~ fails_at ok b p.
Proof.
  intros O [F ->] (s1 & r & F1 & E & _ & N & C). revert s F E; induction s1 as [|c s1 IH]; intros s F E.
  - cbn in E. subst r. destruct s as [|c s]; [now apply N|]. unfold utf8 in C. cbn [flat_map] in C.
    eapply C; [exact (Forall_inv F)|reflexivity].
  - destruct s as [|d s]; unfold utf8 in E; cbn [flat_map] in E.
    + rewrite <- app_assoc in E. symmetry in E. apply app_eq_nil in E. destruct E as [E _]. now apply u8_nonempty in E.
    + rewrite <- app_assoc in E. apply u8_unique in E; [|apply O; exact (Forall_inv F)|apply O; exact (Forall_inv F1)].
      destruct E as [_ E]. apply (IH (Forall_inv_tail F1) s (Forall_inv_tail F) E).
Qed.
Lemma utf8_decode_valid s : Forall code_point s -> m_decode utf8_decode_chunk Strict (utf8 s) = COk s (slen (utf8 s)).
Proof.
  intro H. pose proof (decode_strict (utf8 s) (utf8_bytes s H)) as K.
  destruct (m_decode _ _ _) as [t i|a e|]; [| |easy].
  - destruct K as ([F E] & ->). f_equal. symmetry. now apply utf8_inj.
  - destruct K as (_ & K). exfalso. eapply encodes_not_fails; [|split; [exact H|reflexivity]|exact K]. auto.
Qed.

(** *** ASCII and Latin-1 *)
Lemma scan_spec limit s i :
  (Forall (fun c => c < limit) s /\ scan limit s i = (s, i + slen s, None))
  \/ exists s1 c s2, s = s1 ++ c :: s2 /\ Forall (fun c => c < limit) s1 /\ limit <= c
     /\ scan limit s i = (s1, i + slen s1, Some MidChunk).
Proof.
  revert i; induction s as [|c s IH]; intro i.
  - left. split; [constructor|]. cbn. now rewrite Z.add_0_r.
  - cbn [scan]. destruct (limit <=? c) eqn:E.
    + right. exists [], c, s. split; [reflexivity|]. split; [constructor|]. split; [lia|]. now rewrite Z.add_0_r.
    + destruct (IH (i + 1)) as [[F ->]|(s1 & d & s2 & -> & F & L & ->)].
      * left. split; [constructor; auto; lia|]. do 2 f_equal. rewrite slen_cons. lia.
      * right. exists (c :: s1), d, s2. split; [reflexivity|]. split; [constructor; auto; lia|]. split; auto.
        do 2 f_equal. rewrite slen_cons. lia.
Qed.
Lemma per_char_below limit rep s : Forall (fun c => c < limit) s -> per_char limit rep s = s.
Proof.
  induction 1 as [|c s H _ IH]; [reflexivity|]. unfold per_char in *. cbn [flat_map]. rewrite IH.
  now replace (c <? limit) with true by lia.
Qed.
Lemma per_char_app limit rep s t : per_char limit rep (s ++ t) = per_char limit rep s ++ per_char limit rep t.
Proof. unfold per_char. now rewrite flat_map_app. Qed.
Lemma per_char_over limit rep c t : limit <= c -> per_char limit rep (c :: t) = rep c ++ per_char limit rep t.
Proof. intro H. unfold per_char. cbn [flat_map]. now replace (c <? limit) with false by lia. Qed.

(** an error handler that answers for the one character it is shown *)
Definition answers (rep : Z -> str) (h : handler) : Prop :=
  forall s1 c s2, h (s1 ++ c :: s2) (slen s1) (slen s1 + 1) = Some (rep c, slen s1 + 1).
Definition scanner (limit : Z) (s : str) (start : Z) : chunk := scan limit (sslice s (Some start) None) start.

Lemma encode_end enc h fuel b parts i : slen b <= i -> encode_loop enc h fuel b parts i = COk parts i.
Proof. intro H. destruct fuel; cbn [encode_loop]; now replace (i <? slen b) with false by lia. Qed.
Lemma encode_scan limit rep h fuel : answers rep h -> forall p r parts, (length r <= fuel)%nat ->
  encode_loop (scanner limit) h fuel (p ++ r) parts (slen p) = COk (parts ++ per_char limit rep r) (slen (p ++ r)).
Proof.
  intro A. induction fuel as [|fuel IH]; intros p r parts L.
  - destruct r; [|cbn in L; lia]. rewrite encode_end by (rewrite app_nil_r; lia). now rewrite !app_nil_r.
  - destruct r as [|x r].
    { rewrite encode_end by (rewrite app_nil_r; lia). now rewrite !app_nil_r. }
    cbn [encode_loop]. pose proof (slen_cons_lt p x r). replace (slen p <? slen (p ++ x :: r)) with true by lia.
    unfold scanner at 1. rewrite sslice_app_r.
    destruct (scan_spec limit (x :: r) (slen p)) as [[F ->]|(s1 & c & s2 & E & F & C & ->)].
    + rewrite <- slen_app. rewrite encode_end by lia. now rewrite per_char_below.
    + rewrite E, <- slen_app, app_assoc, (A (p ++ s1) c s2).
      replace ((p ++ s1) ++ c :: s2) with ((p ++ s1 ++ [c]) ++ s2) by now rewrite <- !app_assoc.
      replace (slen (p ++ s1) + 1) with (slen (p ++ s1 ++ [c])) by (rewrite !slen_app; cbn; lia).
      rewrite IH. 2: { rewrite E, app_length in L. cbn [length] in L. lia. }
      f_equal. rewrite per_char_app, per_char_over, (per_char_below limit rep s1) by auto. now rewrite <- !app_assoc.
Qed.
Lemma encode_scan_strict limit s :
  match m_encode (scanner limit) (fun _ _ _ => None) s with
  | COk out i => out = s /\ i = slen s /\ Forall (fun c => c < limit) s
  | CErr a b => b = a + 1 /\ first_over limit s a
  | CFuel => False
  end.
Proof.
  unfold m_encode. destruct s as [|x r]; [cbn; auto|]. cbn [length encode_loop]. pose proof (slen_cons_lt [] x r). cbn [app] in *.
  change (slen []) with 0 in *. replace (0 <? slen (x :: r)) with true by lia. unfold scanner at 1. rewrite sslice_0.
  destruct (scan_spec limit (x :: r) 0) as [[F ->]|(s1 & c & s2 & E & F & C & ->)].
  - rewrite encode_end by lia. auto.
  - split; [reflexivity|]. exists s1, c, s2. auto.
Qed.
Lemma decode_scan limit m rep h fuel :
  (m = Ignore /\ rep = fun _ => []) \/ (m = Replace /\ rep = fun _ => [0xFFFD]) \/ (m = Other h /\ answers rep h) ->
  forall p r parts, (length r <= fuel)%nat ->
  decode_loop (scanner limit) m fuel (p ++ r) parts (slen p) = COk (parts ++ per_char limit rep r) (slen (p ++ r)).
Proof.
  intro A. induction fuel as [|fuel IH]; intros p r parts L.
  - destruct r; [|cbn in L; lia]. rewrite decode_end by (rewrite app_nil_r; lia). now rewrite !app_nil_r.
  - destruct r as [|x r].
    { rewrite decode_end by (rewrite app_nil_r; lia). now rewrite !app_nil_r. }
    rewrite decode_step by apply slen_cons_lt.
    unfold scanner at 1. rewrite sslice_app_r.
    destruct (scan_spec limit (x :: r) (slen p)) as [[F ->]|(s1 & c & s2 & E & F & C & ->)].
    + rewrite <- slen_app. rewrite decode_end by lia. now rewrite per_char_below.
    + assert (L' : (length s2 <= fuel)%nat) by (rewrite E, app_length in L; cbn [length] in L; lia).
      rewrite E, <- slen_app. rewrite (per_char_app limit rep s1), per_char_over, (per_char_below limit rep s1) by auto.
      assert (P1 : slen (p ++ s1) + 1 = slen (p ++ s1 ++ [c])) by (rewrite !slen_app; cbn; lia).
      assert (P2 : p ++ s1 ++ c :: s2 = (p ++ s1 ++ [c]) ++ s2) by now rewrite <- !app_assoc.
      destruct A as [[-> ->]|[[-> ->]|[-> A]]].
      * rewrite P1, P2, IH by auto. now rewrite <- !app_assoc.
      * rewrite P1, P2, IH by auto. now rewrite <- !app_assoc.
      * replace (h (p ++ s1 ++ c :: s2)) with (h ((p ++ s1) ++ c :: s2)) by now rewrite <- app_assoc.
        rewrite A, P1, P2, IH by auto. now rewrite <- !app_assoc.
Qed.
Lemma decode_scan_strict limit s :
  match m_decode (scanner limit) Strict s with
  | COk out i => out = s /\ i = slen s /\ Forall (fun c => c < limit) s
  | CErr a b => b = a + 1 /\ first_over limit s a
  | CFuel => False
  end.
Proof.
  unfold m_decode. destruct s as [|x r]; [cbn; auto|]. cbn [length]. pose proof (slen_cons_lt [] x r). cbn [app] in *.
  change (slen []) with 0 in *. rewrite decode_step by lia. unfold scanner at 1. rewrite sslice_0.
  destruct (scan_spec limit (x :: r) 0) as [[F ->]|(s1 & c & s2 & E & F & C & ->)].
  - rewrite decode_end by lia. auto.
  - split; [reflexivity|]. exists s1, c, s2. auto.
Qed.
Lemma latin1_decode m b : m_decode latin1_decode_chunk m b = COk b (slen b).
Proof.
  unfold m_decode. destruct b as [|x r]; [reflexivity|]. cbn [length].
  rewrite decode_step by exact (slen_cons_lt [] x r). unfold latin1_decode_chunk at 1. rewrite sslice_0.
  now rewrite decode_end by lia.
Qed.

(** *** Incremental decoding *)
(** several calls of decode(input) (not final) in a row *)
Fixpoint feed (h : handler) (kept : str) (inputs : list str) : res (str * str) :=
  match inputs with
  | [] => Ok ([], kept)
  | x :: r => do ok <- m_incremental_decode utf8_decode_chunk_checked h kept x false;
              do rest <- feed h (snd ok) r;
              Ok (fst ok ++ fst rest, snd rest)
  end.
Lemma incremental_step h kept x : Forall byte_value (kept ++ x) -> kept ++ x <> [] ->
  exists out kept', m_incremental_decode utf8_decode_chunk_checked h kept x false = Ok (out, kept')
  /\ Forall code_point out /\ kept ++ x = utf8 out ++ kept'.
Proof.
  intros B N. unfold m_incremental_decode, utf8_decode_chunk_checked.
  replace (slen (kept ++ x) <=? 0) with false.
  2: { destruct (kept ++ x) as [|y r]; [easy|]. rewrite slen_cons. pose proof (slen_nonneg r). lia. }
  cbn [bind]. destruct (chunk_cases _ N B) as [(c & q & Hc & E & ->)|(e & -> & _)].
  - exists [c], q. rewrite E, sslice_app_r. split; [reflexivity|]. split; [auto|]. unfold utf8. cbn [flat_map]. now rewrite app_nil_r.
  - exists [], (kept ++ x). rewrite sslice_0. split; [destruct e; reflexivity|]. split; [constructor|reflexivity].
Qed.
Lemma feed_correct h inputs : forall kept out kept', Forall byte_value (kept ++ concat inputs) ->
  feed h kept inputs = Ok (out, kept') -> Forall code_point out /\ kept ++ concat inputs = utf8 out ++ kept'.
Proof.
  induction inputs as [|x r IH]; intros kept out kept' B H; cbn [feed concat] in *.
  - injection H as <- <-. rewrite app_nil_r. split; [constructor|reflexivity].
  - rewrite app_assoc in B |- *. destruct (list_eq_dec Z.eq_dec (kept ++ x) []) as [E|N].
    { unfold m_incremental_decode, utf8_decode_chunk_checked in H. rewrite E in H. discriminate. }
    destruct (incremental_step h kept x) as (o & k & E1 & F & E2); auto. { now apply Forall_app in B. }
    rewrite E1 in H. cbn [bind fst snd] in H. destruct (feed h k r) as [[o' k']|] eqn:E3; [|discriminate].
    injection H as <- <-. rewrite E2, <- app_assoc in B |- *. apply Forall_app in B. destruct B as [_ B].
    destruct (IH k o' k' B E3) as [F' E]. split; [now apply Forall_app|].
    rewrite E. unfold utf8. rewrite flat_map_app. cbn [fst]. now rewrite <- app_assoc.
Qed.

(** *** Without encoded surrogates the decoder is the standard one *)
Lemma no_surrogates_scalar s r : no_surrogates (utf8 s ++ r) -> Forall code_point s -> Forall scalar s.
Proof.
  intros N F. induction F as [|c s Hc F IH]; [constructor|]. unfold utf8 in N. cbn [flat_map] in N. rewrite <- app_assoc in N.
  constructor; [|apply IH; now apply no_surrogates_tail in N].
  split; auto. intro S. destruct (next_surrogate c [] S) as [_ (y & z & K & _ & _ & Hy)]. rewrite K in N.
  specialize (N [] y (z :: flat_map u8 s ++ r) eq_refl). lia.
Qed.
Lemma decode_standard b : Forall byte_value b -> no_surrogates b ->
  match m_decode utf8_decode_chunk Strict b with
  | COk s i => encodes scalar b s /\ i = slen b
  | CErr a e => e = a + 1 /\ fails_at scalar b a
  | CFuel => False
  end.
Proof.
  intros B N. pose proof (decode_strict b B) as K. destruct (m_decode _ _ _) as [s i|a e|]; auto.
  - destruct K as ([F ->] & ->). split; [|reflexivity]. split; [|reflexivity].
    apply (no_surrogates_scalar s []); [now rewrite app_nil_r|auto].
  - destruct K as (-> & s & r & F & E & P & R & C). split; [reflexivity|]. exists s, r.
    split; [apply (no_surrogates_scalar s r); [now rewrite <- E|auto]|]. repeat (split; auto).
    intros c q [Hc _]. now apply C.
Qed.
Lemma ignore_correct b s : Forall byte_value b -> decoding py_ignore b s ->
  exists t, m_decode utf8_decode_chunk Ignore b = COk t (slen b) /\ filter (fun c => negb (surrogateb c)) t = s.
Proof.
  intros B D. destruct (lenient Ignore [] b (or_introl (conj eq_refl eq_refl)) B) as (t & E & C).
  exists t. split; [exact E|]. now apply (ignore_rel b s D B).
Qed.
Lemma replace_correct b s : Forall byte_value b -> no_surrogates b -> decoding byte_wise b s ->
  m_decode utf8_decode_chunk Replace b = COk s (slen b).
Proof.
  intros B N D. destruct (lenient Replace [0xFFFD] b (or_intror (conj eq_refl eq_refl)) B) as (t & E & C).
  rewrite E. f_equal. eapply code_dec_unique; [exact C|]. now apply replace_rel.
Qed.
Lemma ignore_standard b s : Forall byte_value b -> no_surrogates b -> decoding py_ignore b s ->
  m_decode utf8_decode_chunk Ignore b = COk s (slen b).
Proof.
  intros B N D. destruct (lenient Ignore [] b (or_introl (conj eq_refl eq_refl)) B) as (t & E & C). rewrite E. f_equal.
  rewrite <- (ignore_rel b s D B t C). clear - C N. induction C as [|c q s Hc C IH|x q s Hn C IH]; [reflexivity| |].
  - cbn [filter]. destruct (surrogateb c) eqn:S.
    + exfalso. assert (S' : surrogate c) by (unfold surrogate, surrogateb in *; lia).
      destruct (next_surrogate c [] S') as [_ (y & z & K & _ & _ & Hy)]. rewrite K in N. specialize (N [] y (z :: q) eq_refl). lia.
    + cbn [negb]. f_equal. apply IH. now apply no_surrogates_tail in N.
  - cbn [app]. apply IH. exact (no_surrogates_tail [x] q N).
Qed.
