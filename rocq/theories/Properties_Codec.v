(** C29, C50, C51: character encodings. *)
From Coq Require Import ZArith List Bool Lia.
From Verif Require Import Py Str_Model Codec_Model Codec_Spec Codec_Proofs Codec_Proofs2.
Import ListNotations.
Open Scope Z_scope.
Definition strict_handler : handler := fun _ _ _ => None.

(** *** C29: UTF-8 *)
(** The full property has "otherwise UnicodeEncodeError at the first surrogate"; the
    code encodes surrogates as if they were characters (refuted below). *)
Theorem C29_encode_partial h s : Forall scalar s -> m_encode utf8_encode_chunk h s = COk (utf8 s) (slen s).
Proof. intro H. apply utf8_encode. eapply Forall_impl; [|exact H]. now intros c [K _]. Qed.
Example C29_encode_witness : Forall scalar [0x41; 0xE9; 0x20AC; 0x1F600]
  /\ utf8 [0x41; 0xE9; 0x20AC; 0x1F600] = [0x41; 0xC3; 0xA9; 0xE2; 0x82; 0xAC; 0xF0; 0x9F; 0x98; 0x80].
Proof. split; [|reflexivity]. repeat constructor; try (unfold code_point, surrogate; lia). Qed.
Print Assumptions C29_encode_partial.
Theorem C29_encode_refuted : exists s b n, Forall code_point s /\ ~ Forall scalar s
  /\ m_encode utf8_encode_chunk strict_handler s = COk b n.
Proof.
  exists [0xD800], [0xED; 0xA0; 0x80], 1. split; [repeat constructor; unfold code_point; lia|].
  split; [|reflexivity]. intro H. apply Forall_inv in H. destruct H as [_ H]. apply H. unfold surrogate. lia.
Qed.
Print Assumptions C29_encode_refuted.

Theorem C29_roundtrip h s : Forall code_point s -> exists b,
  m_encode utf8_encode_chunk h s = COk b (slen s) /\ Forall byte_value b
  /\ m_decode utf8_decode_chunk Strict b = COk s (slen b).
Proof.
  intro H. exists (utf8 s). split; [exact (utf8_encode h s H)|]. split; [exact (utf8_bytes s H)|exact (utf8_decode_valid s H)].
Qed.
Example C29_roundtrip_witness : Forall code_point [0; 0x7FF; 0x800; 0xFFFF; 0x10FFFF].
Proof. repeat constructor; unfold code_point; lia. Qed.
Print Assumptions C29_roundtrip.

(** Strict decoding: without encoded surrogates in the input it accepts exactly the
    UTF-8 encodings and otherwise fails where the first ill-formed sequence starts.  For
    all input, valid UTF-8 is accepted with the right result, and what is accepted is
    the encoding of the result. Missing: rejecting encoded surrogates (refuted). *)
Theorem C29_decode_partial b : Forall byte_value b ->
  (forall s, encodes scalar b s -> m_decode utf8_decode_chunk Strict b = COk s (slen b))
  /\ match m_decode utf8_decode_chunk Strict b with
     | COk s i => encodes code_point b s /\ i = slen b
     | CErr a e => e = a + 1 /\ fails_at code_point b a
     | CFuel => False
     end
  /\ (no_surrogates b ->
      match m_decode utf8_decode_chunk Strict b with
      | COk s i => encodes scalar b s /\ i = slen b
      | CErr a e => e = a + 1 /\ fails_at scalar b a
      | CFuel => False
      end).
Proof.
  intro B. split; [|exact (conj (decode_strict b B) (decode_standard b B))].
  intros s [F ->]. apply utf8_decode_valid. eapply Forall_impl; [|exact F]. now intros c [K _].
Qed.
Example C29_decode_witness :
  m_decode utf8_decode_chunk Strict [0x61; 0xE2; 0x82; 0xAC; 0xC3] = CErr 4 5
  /\ m_decode utf8_decode_chunk Strict [0xC0; 0x80] = CErr 0 1
  /\ m_decode utf8_decode_chunk Strict [0xF4; 0x90; 0x80; 0x80] = CErr 0 1
  /\ no_surrogates [0x61; 0xE2; 0x82; 0xAC; 0xC3].
Proof.
  repeat (split; [reflexivity|]). intros p y q H. exfalso.
  assert (In 0xED [0x61; 0xE2; 0x82; 0xAC; 0xC3]) as I by (rewrite H; apply in_or_app; right; left; reflexivity).
  cbn in I. intuition discriminate.
Qed.
Print Assumptions C29_decode_partial.
Theorem C29_decode_refuted : exists b s, Forall byte_value b /\ m_decode utf8_decode_chunk Strict b = COk s (slen b)
  /\ forall s', ~ encodes scalar b s'.
Proof.
  exists [0xED; 0xA0; 0x80], [0xD800]. split; [repeat constructor; unfold byte_value; lia|]. split; [reflexivity|].
  intros s' [F E]. assert (utf8 [0xD800] = utf8 s') as E' by exact E. apply utf8_inj in E'.
  - subst s'. apply Forall_inv in F. destruct F as [_ H]. apply H. unfold surrogate. lia.
  - repeat constructor; unfold code_point; lia.
  - eapply Forall_impl; [|exact F]. now intros c [K _].
Qed.
Print Assumptions C29_decode_refuted.

(** errors="ignore": the standard result, up to encoded surrogates that should be dropped *)
Theorem C29_ignore_partial b s : Forall byte_value b -> decoding py_ignore b s ->
  (no_surrogates b -> m_decode utf8_decode_chunk Ignore b = COk s (slen b))
  /\ exists t, m_decode utf8_decode_chunk Ignore b = COk t (slen b) /\ filter (fun c => negb (surrogateb c)) t = s.
Proof. intros B D. exact (conj (fun N => ignore_standard b s B N D) (ignore_correct b s B D)). Qed.
Example C29_ignore_witness : exists s, decoding py_ignore [0x61; 0xE2; 0x82; 0x62; 0xFF] s
  /\ m_decode utf8_decode_chunk Ignore [0x61; 0xE2; 0x82; 0x62; 0xFF] = COk [0x61; 0x62] 5.
Proof.
  destruct (decoding_total py_ignore [0x61; 0xE2; 0x82; 0x62; 0xFF]) as [s H]. exists s. split; [exact H|reflexivity].
Qed.
Print Assumptions C29_ignore_partial.
Theorem C29_ignore_refuted : exists b s t, Forall byte_value b /\ decoding py_ignore b s
  /\ m_decode utf8_decode_chunk Ignore b = COk t (slen b) /\ t <> s.
Proof.
  exists [0xED; 0xA0; 0x80], [], [0xD800]. split; [repeat constructor; unfold byte_value; lia|].
  split; [|split; [reflexivity|discriminate]].
  apply (d_bad py_ignore _ 1 []); [reflexivity|]. cbn [skipn]. apply (d_bad py_ignore _ 1 []); [reflexivity|].
  cbn [skipn]. apply (d_bad py_ignore _ 1 []); [reflexivity|]. constructor.
Qed.
Print Assumptions C29_ignore_refuted.
(** errors="replace": the code puts one U+FFFD per byte of an ill-formed sequence,
    Python one per sequence.  They agree when ill-formed sequences are single bytes. *)
Theorem C29_replace_partial b s : Forall byte_value b -> no_surrogates b ->
  decoding (fun k => repeat 0xFFFD k) b s -> m_decode utf8_decode_chunk Replace b = COk s (slen b).
Proof. exact (replace_correct b s). Qed.
Example C29_replace_witness : m_decode utf8_decode_chunk Replace [0x61; 0xFF; 0x62] = COk [0x61; 0xFFFD; 0x62] 3
  /\ decoding py_replace [0x61; 0xFF; 0x62] [0x61; 0xFFFD; 0x62].
Proof.
  split; [reflexivity|]. eapply d_char; [reflexivity|]. cbn [skipn]. apply (d_bad py_replace _ 1 [0x62]); [reflexivity|].
  cbn [skipn]. eapply d_char; [reflexivity|]. constructor.
Qed.
Print Assumptions C29_replace_partial.
Theorem C29_replace_refuted : exists b s t, Forall byte_value b /\ no_surrogates b /\ decoding py_replace b s
  /\ m_decode utf8_decode_chunk Replace b = COk t (slen b) /\ t <> s.
Proof.
  exists [0xE2; 0x82], [0xFFFD], [0xFFFD; 0xFFFD]. split; [repeat constructor; unfold byte_value; lia|].
  split; [|split; [|split; [reflexivity|discriminate]]].
  - intros p y q H. exfalso.
    assert (In 0xED [0xE2; 0x82]) as I by (rewrite H; apply in_or_app; right; left; reflexivity). cbn in I. intuition discriminate.
  - apply (d_bad py_replace _ 2 []); [reflexivity|]. constructor.
Qed.
Print Assumptions C29_replace_refuted.
(** The decode error ends one byte after its start, whatever the ill-formed sequence's length *)
Theorem C29_error_end_refuted : exists b k, Forall byte_value b /\ next b = Some (Bad k)
  /\ m_decode utf8_decode_chunk Strict b <> CErr 0 (Z.of_nat k).
Proof. exists [0xE2; 0x82], 2%nat. split; [repeat constructor; unfold byte_value; lia|]. split; [reflexivity|]. vm_compute. discriminate. Qed.
Print Assumptions C29_error_end_refuted.

(** *** C50: incremental decoding *)
(** Full property: the outputs of successive calls followed by a final call are what one
    decode of the whole input gives.  Proved: nothing is lost or made up: the encoded
    outputs followed by the kept bytes are the input.  Missing: each call decodes at most
    one character, and a final call leaves bytes undecoded (refuted). *)
Theorem C50_incremental_partial h inputs out kept : Forall byte_value (concat inputs) ->
  feed h [] inputs = Ok (out, kept) -> Forall code_point out /\ concat inputs = utf8 out ++ kept.
Proof. exact (feed_correct h inputs [] out kept). Qed.
Example C50_incremental_witness : feed strict_handler [] [[0xE2]; [0x82]; [0xAC; 0x41]; [0x42]] = Ok ([0x20AC; 0x41], [0x42]).
Proof. reflexivity. Qed.
Print Assumptions C50_incremental_partial.
Theorem C50_incremental_refuted : exists b out kept, Forall byte_value b
  /\ m_incremental_decode utf8_decode_chunk_checked strict_handler [] b true = Ok (out, kept)
  /\ m_decode utf8_decode_chunk Strict b = COk (out ++ kept) (slen b) /\ kept <> [].
Proof. exists [0x61; 0x62], [0x61], [0x62]. split; [repeat constructor; unfold byte_value; lia|]. split; [reflexivity|]. split; [reflexivity|discriminate]. Qed.
Print Assumptions C50_incremental_refuted.
(** A truncated sequence at the end of the input goes unreported, and decoding nothing fails *)
Theorem C50_incremental_final_refuted :
  (exists b kept, fails_at scalar b 0 /\ m_incremental_decode utf8_decode_chunk_checked strict_handler [] b true = Ok ([], kept))
  /\ m_incremental_decode utf8_decode_chunk_checked strict_handler [] [] true = Err IndexError.
Proof.
  split; [|reflexivity]. exists [0xE2], [0xE2]. split; [|reflexivity].
  exists [], [0xE2]. repeat (split; [solve [constructor | reflexivity | discriminate]|]).
  intros c q [Hc _] E. pose proof (chunk_u8 c q Hc) as K. rewrite <- E in K. discriminate.
Qed.
Print Assumptions C50_incremental_final_refuted.

(** *** C51: ASCII and Latin-1 *)
(** Strict: every character below the limit is one byte; otherwise the error is at the
    first character that is not. *)
Theorem C51_strict s :
  (match m_encode ascii_encode_chunk strict_handler s with
   | COk out i => out = s /\ i = slen s /\ Forall (fun c => c < 128) s
   | CErr a b => b = a + 1 /\ first_over 128 s a | CFuel => False end)
  /\ (match m_decode ascii_decode_chunk Strict s with
   | COk out i => out = s /\ i = slen s /\ Forall (fun c => c < 128) s
   | CErr a b => b = a + 1 /\ first_over 128 s a | CFuel => False end)
  /\ (match m_encode latin1_encode_chunk strict_handler s with
   | COk out i => out = s /\ i = slen s /\ Forall (fun c => c < 256) s
   | CErr a b => b = a + 1 /\ first_over 256 s a | CFuel => False end)
  /\ forall m, m_decode latin1_decode_chunk m s = COk s (slen s).
Proof. exact (conj (encode_scan_strict 128 s) (conj (decode_scan_strict 128 s) (conj (encode_scan_strict 256 s) (fun m => latin1_decode m s)))). Qed.
Example C51_strict_witness : m_encode ascii_encode_chunk strict_handler [65; 127; 128; 300] = CErr 2 3
  /\ m_encode latin1_encode_chunk strict_handler [65; 127; 128; 300] = CErr 3 4.
Proof. now vm_compute. Qed.
Print Assumptions C51_strict.
(** Other handlers: characters below the limit are kept, each other one is answered by the
    handler.  [answers rep h]: the handler's answer for the character it is shown is
    [rep], and it resumes after it, as "ignore", "replace", "backslashreplace" and
    "xmlcharrefreplace" do. *)
Theorem C51_handlers rep h s : answers rep h ->
  m_encode ascii_encode_chunk h s = COk (per_char 128 rep s) (slen s)
  /\ m_encode latin1_encode_chunk h s = COk (per_char 256 rep s) (slen s)
  /\ m_decode ascii_decode_chunk (Other h) s = COk (per_char 128 rep s) (slen s)
  /\ m_decode ascii_decode_chunk Ignore s = COk (per_char 128 (fun _ => []) s) (slen s)
  /\ m_decode ascii_decode_chunk Replace s = COk (per_char 128 (fun _ => [0xFFFD]) s) (slen s).
Proof.
  intro A. split; [exact (encode_scan 128 rep h (length s) A [] s [] (le_n _))|].
  split; [exact (encode_scan 256 rep h (length s) A [] s [] (le_n _))|].
  split; [exact (decode_scan 128 (Other h) rep h (length s) (or_intror (or_intror (conj eq_refl A))) [] s [] (le_n _))|].
  split; [exact (decode_scan 128 Ignore _ h (length s) (or_introl (conj eq_refl eq_refl)) [] s [] (le_n _))|].
  exact (decode_scan 128 Replace _ h (length s) (or_intror (or_introl (conj eq_refl eq_refl))) [] s [] (le_n _)).
Qed.
Example C51_handlers_witness : answers (fun _ => [63]) (fun _ _ e => Some ([63], e))
  /\ m_encode ascii_encode_chunk (fun _ _ e => Some ([63], e)) [200; 65; 300; 301] = COk [63; 65; 63; 63] 4.
Proof. split; [intros s1 c s2; reflexivity|reflexivity]. Qed.
Print Assumptions C51_handlers.
