(** C30: base 64. *)
From Coq Require Import ZArith List Bool Lia.
From Verif Require Import Py Str_Model Str_Spec Base64_Model Base64_Spec Base64_Proofs Base64_Proofs2.
Import ListNotations.
Open Scope Z_scope.

(** Encoding is RFC 4648's, with any alphabet of 64 characters, padded or not, with or
    without the final newline. *)
Theorem C30_encode data newline padded a : length a = 64%nat -> Forall octet data ->
  m_b2a_base64 data newline 0 padded a
  = Ok (b64_encode (fun v => nth (Z.to_nat v) a 0) padded data ++ if newline then [10] else []).
Proof. exact (b2a_eq data newline 0 padded a). Qed.
(** An alphabet of another length is refused. *)
Theorem C30_alphabet_length data newline wrapcol padded strict a : length a <> 64%nat ->
  m_b2a_base64 data newline wrapcol padded a = Err ValueError /\ m_a2b_base64 data strict padded a = Err ValueError.
Proof.
  intros H. assert (E : is_std a = false).
  { unfold is_std. destruct (list_eq_dec Z.eq_dec a std_alphabet) as [->|]; [|reflexivity]. exfalso. apply H. reflexivity. }
  assert (M : encode_map_from_alphabet a = Err ValueError).
  { unfold encode_map_from_alphabet, slen. destruct (Z.eqb_spec (Z.of_nat (length a)) 64); [lia | reflexivity]. }
  unfold m_b2a_base64, m_a2b_base64. rewrite E, M. auto.
Qed.
Print Assumptions C30_alphabet_length.
Example C30_alphabet_length_witness : length (tl std_alphabet) <> 64%nat. Proof. discriminate. Qed.
Theorem C30_encode_standard data newline : Forall octet data ->
  m_b2a_base64 data newline 0 true std_alphabet = Ok (b64_encode b64_char true data ++ if newline then [10] else []).
Proof.
  intro B. rewrite b2a_eq by auto. cbn [negb Z.eqb andb]. unfold unwrapped. rewrite !b64_encode_eq. do 3 f_equal.
  apply map_ext_in. intros v I. apply std_char. pose proof (enc6_sextet data B) as S. rewrite Forall_forall in S. auto.
Qed.
Example C30_encode_witness : m_b2a_base64 [72; 105; 33; 255] true 0 true std_alphabet = Ok [83; 71; 107; 104; 47; 119; 61; 61; 10].
Proof. reflexivity. Qed.
Print Assumptions C30_encode.
Print Assumptions C30_encode_standard.
(** wrapcol: the same characters in lines of the largest multiple of four not over
    wrapcol (at least four) *)
Theorem C30_wrap data newline wrapcol padded a : length a = 64%nat -> Forall octet data -> data <> [] -> 0 < wrapcol ->
  exists ls, lines_of (Z.max 4 (wrapcol - wrapcol mod 4)) ls
  /\ concat ls = b64_encode (fun v => nth (Z.to_nat v) a 0) padded data
  /\ m_b2a_base64 data newline wrapcol padded a = Ok (join [10] ls ++ if newline then [10] else []).
Proof.
  intros L B N W.
  assert (U : unwrapped a padded data <> []).
  { unfold unwrapped. destruct data as [|x [|y [|z r]]]; [easy| | |]; destruct padded; discriminate. }
  assert (E : (if wrapcol <? 4 then 4 else wrapcol / 4 * 4) = Z.max 4 (wrapcol - wrapcol mod 4)).
  { pose proof (Z.div_mod wrapcol 4). pose proof (Z.mod_pos_bound wrapcol 4).
    destruct (wrapcol <? 4) eqn:E; [apply Z.ltb_lt in E|apply Z.ltb_ge in E]; [lia|].
    assert (1 <= wrapcol / 4) by (apply Z.div_le_lower_bound; lia). lia. }
  destruct (wrap_lines (Z.max 4 (wrapcol - wrapcol mod 4)) ltac:(lia) (unwrapped a padded data) 0 U (Zmod_0_l _) (Z.le_refl _)) as (ls & H1 & H2 & H3).
  exists ls. split; [exact H1|]. split; [exact H2|].
  rewrite b2a_eq by auto. rewrite E, H3. replace (negb (wrapcol =? 0)) with true by (symmetry; apply negb_true_iff, Z.eqb_neq; lia).
  replace (negb (slen (unwrapped a padded data) =? 0)) with true; [reflexivity|].
  symmetry. apply negb_true_iff, Z.eqb_neq. intro Z0. apply U. unfold slen in Z0. destruct (unwrapped a padded data); [reflexivity|cbn in Z0; lia].
Qed.
Example C30_wrap_witness : m_b2a_base64 [1; 2; 3; 4; 5; 6] false 7 true std_alphabet = Ok [65; 81; 73; 68; 10; 66; 65; 85; 71].
Proof. reflexivity. Qed.
Print Assumptions C30_wrap.
(** Round trip, for every alphabet of distinct characters without the pad and newline
    characters (the standard one included), any wrapping and newline; in strict mode too
    when there are no newlines. *)
Theorem C30_roundtrip data newline wrapcol padded a :
  length a = 64%nat -> NoDup a -> ~ In 61 a -> ~ In 10 a -> Forall octet data ->
  exists e, m_b2a_base64 data newline wrapcol padded a = Ok e /\ m_a2b_base64 e false padded a = Ok data
  /\ (newline = false -> wrapcol = 0 -> m_a2b_base64 e true padded a = Ok data).
Proof. exact (roundtrip data newline wrapcol padded a). Qed.
Example C30_roundtrip_witness : length std_alphabet = 64%nat /\ NoDup std_alphabet /\ ~ In 61 std_alphabet /\ ~ In 10 std_alphabet
  /\ NoDup (rev std_alphabet).
Proof.
  assert (N : NoDup std_alphabet).
  { unfold std_alphabet. repeat (constructor; [cbn; intuition discriminate|]). constructor. }
  split; [reflexivity|]. split; [exact N|].
  split; [cbn; intuition discriminate|]. split; [cbn; intuition discriminate|]. now apply NoDup_rev.
Qed.
Print Assumptions C30_roundtrip.
(** Decoding any bytes, non-strict: binascii's result or error, when no base 64 character
    follows a pad character (other characters may stand anywhere).  Missing: data after
    padding, which binascii ignores and the code rejects (refuted). *)
Theorem C30_decode_partial l :
  (forall p q, l = p ++ 61 :: q -> forall c, In c q -> b64_value c = None) ->
  m_a2b_base64 l false true std_alphabet = to_res (py_a2b false l).
Proof.
  intro H. assert (K : exists D P, l = D ++ P /\ (forall c, In c D -> c <> 61) /\ (forall c, In c P -> is_data c = false)).
  { clear - H. induction l as [|c l IH]; [exists [], []; repeat split; easy|].
    destruct (Z.eq_dec c 61) as [->|N].
    - exists [], (61 :: l). split; [reflexivity|]. split; [easy|]. intros c [<-|I]; [reflexivity|].
      unfold is_data. now rewrite (H [] l eq_refl c I).
    - destruct IH as (D & P & -> & HD & HP).
      + intros p q E. apply (H (c :: p) q). now rewrite E.
      + exists (c :: D), P. split; [reflexivity|]. split; [|auto]. intros d [<-|I]; auto. }
  destruct K as (D & P & -> & HD & HP). now apply decode_lenient.
Qed.
Example C30_decode_witness : m_a2b_base64 [89; 33; 81; 61; 33; 61; 61] false true std_alphabet = Ok [97]
  /\ m_a2b_base64 [89; 87; 73] false true std_alphabet = Err BinasciiError.
Proof. now vm_compute. Qed.
Print Assumptions C30_decode_partial.
Theorem C30_decode_refuted : exists l, m_a2b_base64 l false true std_alphabet <> to_res (py_a2b false l).
Proof. exists [89; 81; 61; 61; 89; 81; 61; 61]. vm_compute. discriminate. Qed.
Print Assumptions C30_decode_refuted.
(** Strict: binascii's result or error for everything that does not start with a pad
    character.  Missing: leading padding with nothing else must be an error (refuted). *)
Theorem C30_decode_strict_partial l : hd 0 l <> 61 ->
  m_a2b_base64 l true true std_alphabet = to_res (py_a2b true l).
Proof. exact (decode_strict64 l). Qed.
Example C30_decode_strict_witness : m_a2b_base64 [89; 81; 61; 61] true true std_alphabet = Ok [97]
  /\ m_a2b_base64 [89; 81; 61; 61; 61] true true std_alphabet = Err BinasciiError
  /\ m_a2b_base64 [89; 33; 81; 61; 61] true true std_alphabet = Err BinasciiError.
Proof. now vm_compute. Qed.
Print Assumptions C30_decode_strict_partial.
Theorem C30_decode_strict_refuted : exists l, m_a2b_base64 l true true std_alphabet <> to_res (py_a2b true l).
Proof. exists [61]. vm_compute. discriminate. Qed.
Print Assumptions C30_decode_strict_refuted.
