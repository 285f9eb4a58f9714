(** C31: struct.  The parameters stand for the real struct module's treatment of the codes
    the code delegates to it; the theorems hold whatever they do. *)
From Coq Require Import ZArith List Bool Lia.
From Verif Require Import Py PySeq_Spec Str_Model IntOps_Model IntOps_Spec Struct_Model Struct_Spec Struct_Proofs Struct_Proofs2.
Import ListNotations.
Open Scope Z_scope.

(** *** Formats.  Missing: empty formats, leading whitespace, and form feeds and other
    separators that C whitespace and str.strip() do not share (refuted below). *)
Theorem C31_format_partial : forall s, Forall plain s -> match s with [] => False | c :: _ => ~ c_space c end ->
  (exists p l, m_parse s = Ok (p, l) /\ py_format s p l) \/
  (m_parse s = Err StructError /\ forall p l, ~ py_format s p l).
Proof. exact parse_ok. Qed.
(** The integer, character, bool and padding codes of any format are the items the
    theorems below speak of. *)
Theorem C31_format_simple : forall s l, format s l ->
  Forall (fun i => match fst i with SizeT _ | Counted _ | Rest _ _ => True | _ => simple i end) l.
Proof. exact format_simple. Qed.
(** "<2h 3s?" *)
Example C31_format_ex : m_parse [60; 50; 104; 32; 51; 115; 63] =
  Ok (LittleP, [(Int 2 true, 1); (Int 2 true, 1); (Counted 115, 3); (Bool, 1)]).
Proof. vm_compute. reflexivity. Qed.
(** struct.pack("") is b""; "h\fh" is two shorts; " <h" is an error. *)
Theorem C31_format_refuted :
  (m_parse [] = Err StructError /\ py_format [] Native []) /\
  (m_parse [104; 12; 104] = Err StructError /\ py_format [104; 12; 104] Native [(Int 2 true, 1); (Int 2 true, 1)]) /\
  (m_parse [32; 60; 104] = Ok (LittleP, [(Int 2 true, 1)]) /\ forall l, ~ py_format [32; 60; 104] LittleP l).
Proof.
  repeat split.
  - apply (format_one 104 (Int 2 true)); [reflexivity|]. apply format_space; [unfold c_space; lia|].
    apply (format_one 104 (Int 2 true)); [reflexivity|constructor].
  - intros l [H _]. discriminate.
Qed.

Section Real.
Variable real_size : prefix -> code -> Z.
Variable real_pack : prefix -> item -> value -> res (list Z).
Variable real_unpack : prefix -> item -> list Z -> res value.
Notation m_pack := (m_pack real_size real_pack).
Notation m_unpack := (m_unpack real_size real_unpack).
Notation m_unpack_from := (m_unpack_from real_size real_unpack).
Notation m_pack_into := (m_pack_into real_size real_pack).
Notation m_iter_unpack := (m_iter_unpack real_size real_unpack).

(** *** Packing.  Missing: native prefixes, numbers given for '?', and arguments of
    other types. *)
Theorem C31_pack_partial : forall p is vs, explicit p -> Forall simple is -> typed_all is vs ->
  packs (py_order p) is vs (m_pack p is vs).
Proof. intros p is vs E. rewrite <- explicit_order by exact E. intros. apply pack_ok; assumption. Qed.
(** *** Unpacking.  Missing: native prefixes and buffers that are too long. *)
Theorem C31_unpack_partial : forall p is buf, explicit p -> Forall simple is -> Forall is_byte buf ->
  slen buf <= py_size is -> unpacks (py_order p) is buf (m_unpack p is buf).
Proof. intros p is buf E. rewrite <- explicit_order by exact E. intros. apply unpack_ok; assumption. Qed.
(** Unpacking what was packed gives the arguments back, whatever the prefix; a bool
    packed as an integer comes back as the integer. *)
Theorem C31_roundtrip : forall p is vs b, Forall simple is -> typed_all is vs -> m_pack p is vs = Ok b ->
  m_unpack p is b = Ok (as_read is vs).
Proof. intros; now apply (roundtrip_ok _ real_pack). Qed.
(** *** Missing: native prefixes; offsets below minus the length. *)
Theorem C31_unpack_from_partial : forall p is buf off, explicit p -> Forall simple is -> Forall is_byte buf ->
  - slen buf <= off -> (off <= slen buf \/ 0 < py_size is) ->
  unpacks_from (py_order p) is buf off (m_unpack_from p is buf off).
Proof. intros p is buf off E. rewrite <- explicit_order by exact E. intros. apply unpack_from_ok; assumption. Qed.
(** *** Missing: native prefixes; places that do not hold the packed bytes. *)
Theorem C31_pack_into_partial : forall p is buf off vs, explicit p -> Forall simple is -> typed_all is vs ->
  (0 <= off /\ off + py_size is <= slen buf \/ - slen buf <= off /\ off + py_size is < 0) ->
  packs_into (py_order p) is buf off vs (m_pack_into p is buf off vs).
Proof. intros p is buf off vs E. rewrite <- explicit_order by exact E. intros. apply pack_into_ok; assumption. Qed.
(** *** Missing: native prefixes; buffers that are not whole records; empty records. *)
Theorem C31_iter_unpack_partial : forall p is buf, explicit p -> Forall simple is -> Forall is_byte buf ->
  0 < py_size is -> slen buf mod py_size is = 0 ->
  iter_unpacks (py_order p) is buf (m_iter_unpack (S (length buf)) p is buf).
Proof. intros p is buf E. rewrite <- explicit_order by exact E. intros. apply iter_unpack_ok; assumption. Qed.

Example C31_ex : let is := [(Int 2 true, 1); (Pad, 1); (Char, 1); (Bool, 1); (Int 4 false, 1)] in
  explicit LittleP /\ Forall simple is /\ typed_all is [VInt (-2); VBytes [65]; VBool true; VInt 258] /\
  m_pack LittleP is [VInt (-2); VBytes [65]; VBool true; VInt 258] = Ok [254; 255; 0; 65; 1; 2; 1; 0; 0] /\
  m_pack BigP is [VInt (-2); VBytes [65]; VBool true; VInt 258] = Ok [255; 254; 0; 65; 1; 0; 0; 1; 2] /\
  m_pack BigP is [VInt 32768; VBytes [65]; VBool true; VInt 258] = Err StructError /\
  m_unpack LittleP is [254; 255; 0; 65; 7; 2; 1; 0; 0] = Ok [VInt (-2); VBytes [65]; VBool true; VInt 258] /\
  m_unpack_from BigP [(Int 2 true, 1)] [9; 1; 2; 3] (-3) = Ok [VInt 258] /\
  m_pack_into BigP [(Int 2 true, 1)] [9; 9; 9; 9] 1 [VInt 258] = Ok [9; 1; 2; 9] /\
  m_iter_unpack 5 BigP [(Int 2 true, 1)] [0; 1; 0; 2] = Ok [[VInt 1]; [VInt 2]].
Proof.
  cbn zeta. split; [exact I|]. split; [repeat constructor; cbn; lia|].
  split; [cbn; repeat split; repeat constructor; lia|]. vm_compute. repeat split.
Qed.

(** struct.pack("h", 1) is b"\x01\x00"; the code takes '@' and '=' for big-endian. *)
Theorem C31_native_order_refuted : exists p is vs, Forall simple is /\ typed_all is vs /\
  ~ packs (py_order p) is vs (m_pack p is vs).
Proof.
  exists NativeStd, [(Int 2 true, 1)], [VInt 1]. split; [repeat constructor; cbn; lia|]. split; [cbn; auto|].
  intros [(b & E & W)|(E & _)]; [|discriminate]. vm_compute in E. injection E as <-.
  apply (writes_reads _ _ _ _) in W; [|cbn; auto].
  assert (R : reads Little [(Int 2 true, 1)] [0; 1] [VInt 256]).
  { exact (r_int Little 2 true [0; 1] [] [] [] eq_refl (r_nil _)). }
  pose proof (reads_det _ _ _ _ _ W R) as H. discriminate.
Qed.
(** struct.pack("<?", 5) is b"\x01"; and 256 for '?' raises OverflowError. *)
Theorem C31_bool_refuted : exists is vs,
  (exists b, writes Little is vs b) /\ m_pack LittleP is vs = Err OverflowError /\
  exists vs', m_pack LittleP is vs' = Ok [5] /\ writes Little is vs' [1].
Proof.
  exists [(Bool, 1)], [VInt 256]. split; [exists [1]; exact (w_truth Little 256 [] [] [] (w_nil _))|].
  split; [reflexivity|]. exists [VInt 5]. split; [reflexivity|exact (w_truth Little 5 [] [] [] (w_nil _))].
Qed.
(** struct.unpack("<h", b"\x01\x00\x00") raises struct.error. *)
Theorem C31_unpack_refuted : exists is buf, Forall is_byte buf /\ ~ unpacks Little is buf (m_unpack LittleP is buf).
Proof.
  exists [(Int 2 true, 1)], [1; 0; 0]. split; [repeat constructor; unfold is_byte; lia|]. vm_compute. discriminate.
Qed.
(** struct.unpack_from("<B", b"ab", -3) raises struct.error. *)
Theorem C31_unpack_from_refuted : exists is buf off, ~ unpacks_from Little is buf off (m_unpack_from LittleP is buf off).
Proof. exists [(Int 1 false, 1)], [97; 98], (-3). vm_compute. discriminate. Qed.
(** struct.pack_into("<h", bytearray(1), 0, 5) raises struct.error; here the buffer grows. *)
Theorem C31_pack_into_refuted : exists is buf off vs,
  m_pack_into LittleP is buf off vs = Ok [5; 0] /\ ~ packs_into Little is buf off vs (m_pack_into LittleP is buf off vs).
Proof. exists [(Int 2 true, 1)], [0], 0, [VInt 5]. split; [reflexivity|]. vm_compute. discriminate. Qed.
(** struct.iter_unpack("<h", b"\x01\x00\x02") raises struct.error. *)
Theorem C31_iter_unpack_refuted : exists is buf, forall fuel, (5 <= fuel)%nat ->
  ~ iter_unpacks Little is buf (m_iter_unpack fuel LittleP is buf).
Proof.
  exists [(Int 2 true, 1)], [1; 0; 2]. intros fuel H. destruct fuel as [|[|f]]; [lia|lia|]. cbn. discriminate.
Qed.
(** struct.iter_unpack("<0h", b"") raises struct.error; the code never stops. *)
Theorem C31_iter_empty_refuted : exists is buf, py_size is = 0 /\ forall fuel, m_iter_unpack fuel LittleP is buf = Err OutOfFuel.
Proof. exists [], []. split; [reflexivity|]. induction fuel as [|f IH]; [reflexivity|]. unfold m_iter_unpack in *. cbn in *. now rewrite IH. Qed.
End Real.

Print Assumptions C31_format_partial.
Print Assumptions C31_format_simple.
Print Assumptions C31_format_refuted.
Print Assumptions C31_pack_partial.
Print Assumptions C31_unpack_partial.
Print Assumptions C31_roundtrip.
Print Assumptions C31_unpack_from_partial.
Print Assumptions C31_pack_into_partial.
Print Assumptions C31_iter_unpack_partial.
Print Assumptions C31_native_order_refuted.
Print Assumptions C31_bool_refuted.
Print Assumptions C31_unpack_refuted.
Print Assumptions C31_unpack_from_refuted.
Print Assumptions C31_pack_into_refuted.
Print Assumptions C31_iter_unpack_refuted.
Print Assumptions C31_iter_empty_refuted.
