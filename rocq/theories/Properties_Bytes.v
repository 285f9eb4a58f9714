(** C28, C48, C49: bytes and bytearray. *)
From Coq Require Import ZArith List Bool Lia.
From Verif Require Import Py PySeq_Spec Seq_Model Seq_Spec Str_Model Str_Spec Str_Proofs Str_Proofs3 Bytes_Model Bytes_Spec Bytes_Proofs.
Import ListNotations.
Open Scope Z_scope.

(** *** C28 *)
Theorem C28_hex s : Forall byte s -> m_hex s = py_hex s.
Proof. exact (hex_correct s). Qed.
Example C28_hex_witness : Forall byte [0; 26; 255] /\ m_hex [0; 26; 255] = [48; 48; 49; 97; 102; 102].
Proof. split; [repeat constructor; discriminate|reflexivity]. Qed.
Print Assumptions C28_hex.
Theorem C28_fromhex s :
  match m_fromhex s with
  | Ok l => hexparse s l /\ forall l', hexparse s l' -> l' = l
  | Err e => e = ValueError /\ forall l, ~ hexparse s l
  end.
Proof. exact (fromhex_correct s). Qed.
Example C28_fromhex_witness :
  m_fromhex [32; 49; 70; 10; 97; 48] = Ok [31; 160] /\ m_fromhex [49; 32; 70] = Err ValueError.
Proof. now vm_compute. Qed.
Print Assumptions C28_fromhex.
Theorem C28_roundtrip s : Forall byte s ->
  m_fromhex (m_hex s) = Ok s /\ forall sep k, ascii_space sep -> m_fromhex (m_hex_sep s sep k) = Ok s.
Proof. intro B. exact (conj (fromhex_hex s B) (fun sep k => fromhex_hex_sep s sep k B)). Qed.
Example C28_roundtrip_witness : Forall byte [1; 2; 3; 4; 5] /\ ascii_space 32
  /\ m_hex_sep [1; 2; 3] 32 2 = [48; 49; 32; 48; 50; 48; 51].
Proof. split; [repeat constructor; discriminate|]. split; [cbn; tauto|reflexivity]. Qed.
Print Assumptions C28_roundtrip.
(** The full property has no condition on [k]. For a positive group size the code counts
    groups from the wrong offset unless twice the length is a multiple of it. *)
Theorem C28_hex_sep_partial s sep k : Forall byte s -> k <= 0 \/ (2 * len s) mod k = 0 ->
  m_hex_sep s sep k = py_hex_sep s sep k.
Proof. exact (hex_sep_correct s sep k). Qed.
Example C28_hex_sep_witness : m_hex_sep [1; 2; 3] 45 2 = py_hex_sep [1; 2; 3] 45 2
  /\ m_hex_sep [1; 2; 3] 45 (-2) = [48; 49; 48; 50; 45; 48; 51].
Proof. now vm_compute. Qed.
Print Assumptions C28_hex_sep_partial.
Theorem C28_hex_sep_refuted : exists s sep k, Forall byte s /\ m_hex_sep s sep k <> py_hex_sep s sep k.
Proof. exists [0; 1; 2; 3; 4], 45, 3. split; [repeat constructor; discriminate|]. vm_compute. discriminate. Qed.
Print Assumptions C28_hex_sep_refuted.

(** *** C48 *)
Theorem C48_case s :
  m_blower s = map py_lower s /\ m_bupper s = map py_upper s /\ m_bswapcase s = map py_swap s
  /\ (Forall byte s -> Forall byte (m_blower s) /\ Forall byte (m_bupper s) /\ Forall byte (m_bswapcase s)).
Proof. destruct (case_correct s) as (A & B & C). exact (conj A (conj B (conj C (case_bytes s)))). Qed.
Example C48_case_witness : m_bswapcase [64; 65; 90; 91; 96; 97; 122; 123; 223] = [64; 97; 122; 91; 96; 65; 90; 123; 223].
Proof. reflexivity. Qed.
Print Assumptions C48_case.
(** strip with a set of bytes, or ASCII whitespace by default *)
Theorem C48_strip chars s :
  let f := is_stripped chars in
  (forall c, f c = true <-> match chars with None => ascii_space c | Some l => In c l end)
  /\ is_lstrip f s (m_lstrip f s)
  /\ (exists r, m_rstrip f s = Ok r /\ is_rstrip f s r) /\ (exists r, m_strip f s = Ok r /\ is_strip f s r).
Proof.
  cbn zeta. split.
  - intro c. destruct chars as [l|]; cbn; [|apply ascii_space_iff]. rewrite existsb_exists. split.
    + intros (x & I & E). apply Z.eqb_eq in E. now subst.
    + intro I. exists c. split; auto. apply Z.eqb_refl.
  - exact (conj (lstrip_correct _ s) (conj (rstrip_correct _ s) (strip_correct _ s))).
Qed.
Example C48_strip_witness : m_strip (is_stripped None) [9; 97; 32; 13] = Ok [97] /\ m_lstrip (is_stripped (Some [97; 98])) [98; 97; 99] = [99].
Proof. now vm_compute. Qed.
Print Assumptions C48_strip.

(** *** C49 *)
(** Every history of operations on a bytearray gives CPython's answers and keeps its
    items bytes. [bop_ok] says that bytes-like arguments hold bytes. *)
Theorem C49_history s ops : wf s -> Forall byte (contents s) -> Forall bop_ok ops ->
  fst (m_brun s ops) = fst (ba_run (contents s) (map fst ops))
  /\ contents (snd (m_brun s ops)) = snd (ba_run (contents s) (map fst ops))
  /\ Forall byte (contents (snd (m_brun s ops))).
Proof. intros W B F. destruct (brun_correct ops s W B F) as (E & _ & C & R). auto. Qed.
Example C49_history_witness :
  let s := PRaw false [1; 2; 3] in
  let ops := [(OAppend 255, false); (OAppend 256, false); (OExtend (PRaw false [4; -1]), false);
              (OSetSlice (mkSl (Some 0) (Some 1) None) (PRaw true [9; 9]), true); (OSet (-1) 0, false); (OIter, false)] in
  wf s /\ Forall byte (contents s) /\ Forall bop_ok ops /\
  fst (m_brun s ops) = [ONone; ORaise ValueError; ORaise ValueError; ONone; ONone; OItems [9; 9; 2; 3; 0]].
Proof.
  split; [exact I|]. split; [repeat constructor; discriminate|]. split; [|reflexivity].
  repeat (apply Forall_cons; [split; [exact I|try discriminate]|]); [|apply Forall_nil]. intros _. repeat constructor; discriminate.
Qed.
Print Assumptions C49_history.
(** Building one from a list of ints is not checked (CPython raises ValueError). *)
Theorem C49_constructor_partial source : Forall byte source ->
  m_bytearray source = py_bytes source /\ m_bytes source = py_bytes source.
Proof.
  intro B. unfold py_bytes. change (fun x : Z => (0 <=? x) && (x <=? 255)) with byteb. rewrite (proj2 (forallb_byte source) B). auto.
Qed.
Example C49_constructor_witness : Forall byte [7; 255] /\ m_bytearray [7; 255] = Ok [7; 255].
Proof. split; [repeat constructor; discriminate|reflexivity]. Qed.
Print Assumptions C49_constructor_partial.
Theorem C49_constructor_refuted : exists source,
  m_bytearray source <> py_bytes source /\ m_bytes source <> py_bytes source.
Proof. exists [300]. split; discriminate. Qed.
Print Assumptions C49_constructor_refuted.
