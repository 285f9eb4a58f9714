(** Properties C20-C24: integers, byte conversion, bounded ints, ranges. *)
From Coq Require Import ZArith List Bool Lia.
From Verif Require Import Py IntOps_Model IntOps_Spec IntOps_Proofs Range_Model Range_Spec Range_Proofs.
Import ListNotations.
Open Scope Z_scope.

(** *** C20 *)
Theorem C20_divmod : forall x y,
  (y = 0 -> m_floordiv x y = Err ZeroDivisionError /\ m_mod x y = Err ZeroDivisionError
            /\ m_divmod x y = Err ZeroDivisionError) /\
  (y <> 0 -> exists q r, m_floordiv x y = Ok q /\ m_mod x y = Ok r /\ m_divmod x y = Ok (q, r)
                         /\ is_divmod x y q r).
Proof. exact divmod_correct. Qed.
(** The specification determines the result. *)
Theorem C20_divmod_unique : forall x y q r q' r',
  is_divmod x y q r -> is_divmod x y q' r' -> q = q' /\ r = r'.
Proof. exact divmod_unique. Qed.
Example C20_divmod_ex : m_divmod (-7) 3 = Ok (-3, 2) /\ m_divmod 7 (-3) = Ok (-3, -2)
  /\ m_divmod (-7) (-3) = Ok (2, -1) /\ m_divmod 6 (-3) = Ok (-2, 0).
Proof. vm_compute. auto. Qed.

(** Shifts and bitwise operations against Coq's two's complement operations. *)
Theorem C20_lshift : forall a b,
  m_lshift a b = if b <? 0 then Err ValueError else Ok (Z.shiftl a b).
Proof. exact lshift_correct. Qed.
Theorem C20_rshift : forall a b,
  m_rshift a b = if b <? 0 then Err ValueError else Ok (Z.shiftr a b).
Proof. exact rshift_correct. Qed.
Theorem C20_and : forall a b, m_and a b = Z.land a b.
Proof. exact and_correct. Qed.
Theorem C20_invert : forall a, m_invert a = Z.lnot a.
Proof. exact invert_correct. Qed.
Theorem C20_abs : forall a, m_abs a = Z.abs a.
Proof. exact abs_correct. Qed.
Example C20_bits_ex : m_and (-3) 7 = 5 /\ m_and (-3) 6 = 4 /\ m_and 1000 255 = 232
  /\ m_rshift (-5) 1 = Ok (-3) /\ m_lshift 3 (-1) = Err ValueError.
Proof. vm_compute. auto. Qed.

Theorem C20_bit_count : forall fuel n, Z.abs n < 2 ^ (Z.of_nat fuel - 1) -> (0 < fuel)%nat ->
  m_bit_count fuel n = Ok (popcount n).
Proof. exact bit_count_correct. Qed.
Theorem C20_bit_length : forall fuel n, Z.abs n < 256 ^ Z.of_nat fuel -> (0 < fuel)%nat ->
  exists k, m_bit_length fuel n = Ok k /\ is_bit_length n k.
Proof. exact bit_length_correct. Qed.
Example C20_bit_ex : m_bit_count 20 (-1000) = Ok 6 /\ m_bit_length 4 (-1000) = Ok 10.
Proof. vm_compute. auto. Qed.

Theorem C20_round : forall n,
  (m_round n None = n) /\
  (forall nd, 0 <= nd -> m_round n (Some nd) = n) /\
  (forall d, 0 < d -> is_round n d (m_round n (Some (- d)))).
Proof. exact round_correct. Qed.
Theorem C20_round_unique : forall n d r r', 0 < d -> is_round n d r -> is_round n d r' -> r = r'.
Proof. exact round_unique. Qed.
Example C20_round_ex : m_round 25 (Some (-1)) = 20 /\ m_round 35 (Some (-1)) = 40
  /\ m_round (-151) (Some (-2)) = -200 /\ m_round (-150) (Some (-2)) = -200 /\ m_round (-250) (Some (-2)) = -200.
Proof. vm_compute. repeat split; reflexivity. Qed.

Theorem C20_str : forall fuel n, Z.abs n < 10 ^ Z.of_nat fuel ->
  exists l, m_repr fuel n = Ok l /\ is_decimal n l.
Proof. exact repr_correct. Qed.
Theorem C20_symbolic_str : forall fuel n, Z.abs n < 10 ^ Z.of_nat fuel -> (0 < fuel)%nat ->
  exists l, m_symbolic_repr fuel n = Ok l /\ is_decimal n l.
Proof. exact symbolic_repr_correct. Qed.
Theorem C20_str_unique : forall n l l', is_numeral n l -> is_numeral n l' -> l = l'.
Proof. exact numeral_unique. Qed.
Example C20_str_ex : m_repr 5 (-1203) = Ok [45; 49; 50; 48; 51] /\ m_repr 5 0 = Ok [48].
Proof. vm_compute. auto. Qed.

(** *** C21: for a non-negative exponent, or base 0, pow is Python's, whatever z3's
    power is for the other arguments. *)
Theorem C21_pow_partial : forall z3pow : Z -> Z -> Z,
  (forall x y, 0 <= y -> z3pow x y = x ^ y) ->
  forall x y, 0 <= y \/ x = 0 -> m_pow z3pow x y = py_pow x y.
Proof. exact pow_correct. Qed.
(** A non-zero base with a negative exponent must give a float; it gives an int. *)
Theorem C21_pow_refuted : forall z3pow : Z -> Z -> Z,
  exists x y, m_pow z3pow x y <> py_pow x y.
Proof. exact (fun p => ex_intro _ 2 (ex_intro _ (-1) (pow_negative_wrong p 2 (-1) ltac:(discriminate) eq_refl))). Qed.
Theorem C21_pow_wrong_domain : forall z3pow x y, x <> 0 -> y < 0 -> m_pow z3pow x y <> py_pow x y.
Proof. exact pow_negative_wrong. Qed.
Example C21_ex : m_pow Z.pow 3 4 = Ok (NInt 81) /\ m_pow Z.pow 0 (-2) = Err ZeroDivisionError.
Proof. vm_compute. auto. Qed.

(** *** C22.  Missing from the full property (see the refutations below): signed with
    length 0, negative lengths, and byte orders other than "big"/"little". *)
Theorem C22_to_bytes_partial : forall n len o signed,
  0 <= len -> o <> OtherOrder -> (signed = true -> 0 < len) ->
  is_to_bytes n len o signed (m_to_bytes n len o signed).
Proof. exact to_bytes_correct. Qed.
Theorem C22_from_bytes : forall l o signed, Forall is_byte l -> o <> OtherOrder ->
  m_from_bytes l o signed = Ok (py_int_of_bytes o signed l).
Proof. exact from_bytes_correct. Qed.
Theorem C22_roundtrip : forall n len o signed l,
  0 <= len -> o <> OtherOrder -> (signed = true -> 0 < len) ->
  m_to_bytes n len o signed = Ok l -> m_from_bytes l o signed = Ok n.
Proof. exact bytes_roundtrip. Qed.
Theorem C22_roundtrip_back : forall l o signed, Forall is_byte l -> o <> OtherOrder ->
  (signed = true -> l <> []) ->
  (do n <- m_from_bytes l o signed; m_to_bytes n (Z.of_nat (length l)) o signed) = Ok l.
Proof. exact bytes_roundtrip_back. Qed.
Example C22_ex : m_to_bytes (-2) 3 Big true = Ok [255; 255; 254] /\ m_to_bytes 256 1 Big false = Err OverflowError
  /\ m_from_bytes [255; 255; 254] Big true = Ok (-2) /\ m_to_bytes 258 3 Little false = Ok [2; 1; 0].
Proof. vm_compute. auto. Qed.

(** (0).to_bytes(0, "big", signed=True) is b"" in Python. *)
Theorem C22_signed_zero_length_refuted :
  exists n len o signed, ~ is_to_bytes n len o signed (m_to_bytes n len o signed).
Proof.
  exists 0, 0, Big, true. cbn. intros [(l & E & _)|[_ N]]; [discriminate|].
  apply (N []); [constructor|reflexivity|reflexivity].
Qed.
(** (0).to_bytes(-1, "big") must raise ValueError; it returns b"". *)
Theorem C22_negative_length_refuted :
  exists n len o, len < 0 /\ ~ is_to_bytes n len o false (m_to_bytes n len o false).
Proof. exists 0, (-1), Big. split; [reflexivity|]. cbn. discriminate. Qed.
(** (1).to_bytes(2, "middle") must raise ValueError; it is taken as "little". *)
Theorem C22_byteorder_refuted :
  exists n len signed, ~ is_to_bytes n len OtherOrder signed (m_to_bytes n len OtherOrder signed).
Proof. exists 1, 2, false. vm_compute. discriminate. Qed.

(** *** C23: any history of comparisons and negations is answered as by the value,
    the recorded bounds always hold, and no constraint the object adds to the path
    excludes the value. *)
Theorem C23_bounded_int : forall v mn mx l, in_bounds v mn mx ->
  fst (bint_run (bint_init v mn mx) l) = int_run v l /\
  let b := snd (bint_run (bint_init v mn mx) l) in
  in_bounds (b_val b) (b_min b) (b_max b) /\ Forall (bound_holds (b_val b)) (b_added b).
Proof. exact bint_correct. Qed.
Example C23_ex : in_bounds 5 (Some 0) (Some 10) /\
  bint_run (bint_init 5 (Some 0) (Some 10)) [OpLt 11; OpLt 7; OpGt 6; OpNeg; OpGt (-6)]
  = ([true; true; false; true], mkB (-5) (Some (-5)) (Some 0) [AtLeast (-5); AtLeast (-6); AtMost 0]).
Proof. split; [split; intros m E; injection E as <-; lia|]. vm_compute. reflexivity. Qed.

(** *** C24 *)
Theorem C24_init : forall a b c,
  (forall b', b = Some b' -> c = Some 0 -> range_init a b c = Err ValueError) /\
  (forall r, range_init a b c = Ok r -> r_step r <> 0 /\
    (b = None -> r = mkR 0 a 1) /\
    (forall b', b = Some b' -> r = mkR a b' (match c with None => 1 | Some c => c end))).
Proof. exact range_init_ok. Qed.
Theorem C24_range_unique : forall a b s l l', s <> 0 -> is_range a b s l -> is_range a b s l' -> l = l'.
Proof. exact is_range_unique. Qed.
Theorem C24_range_exists : forall a b s, s <> 0 -> exists l, is_range a b s l.
Proof. exact (fun a b s H => ex_intro _ _ (the_list_range a b s H)). Qed.
Theorem C24_len : forall a b s l, s <> 0 -> is_range a b s l ->
  range_len (mkR a b s) = Ok (Z.of_nat (length l)).
Proof. exact len_ok. Qed.
Theorem C24_bool : forall a b s l, s <> 0 -> is_range a b s l ->
  range_bool (mkR a b s) = Ok (match l with [] => false | _ => true end).
Proof. exact bool_ok. Qed.
Theorem C24_iter : forall a b s l, s <> 0 -> is_range a b s l ->
  forall fuel, (length l < fuel)%nat -> range_iter fuel (mkR a b s) = Ok l.
Proof. exact iter_ok. Qed.
Theorem C24_reversed : forall a b s l, s <> 0 -> is_range a b s l ->
  forall fuel, (length l < fuel)%nat -> range_reversed_list fuel (mkR a b s) = Ok (rev l).
Proof. exact reversed_ok. Qed.
Theorem C24_getitem : forall a b s l, s <> 0 -> is_range a b s l ->
  forall i, range_getitem (mkR a b s) i = py_getitem l i.
Proof. exact getitem_ok. Qed.
Theorem C24_contains : forall a b s l, s <> 0 -> is_range a b s l ->
  forall x, range_contains (mkR a b s) x = Ok (py_contains l x).
Proof. exact contains_eq. Qed.
Theorem C24_index : forall a b s l, s <> 0 -> is_range a b s l ->
  forall x, range_index (mkR a b s) x = py_index l x.
Proof. exact index_ok. Qed.
Theorem C24_count : forall a b s l, s <> 0 -> is_range a b s l ->
  forall x, range_count (mkR a b s) x = Ok (py_count l x).
Proof. exact count_ok. Qed.
Theorem C24_eq : forall fuel a b s l a' b' s' l', s <> 0 -> s' <> 0 ->
  is_range a b s l -> is_range a' b' s' l' -> (length l < fuel)%nat -> (length l' < fuel)%nat ->
  range_eq fuel (mkR a b s) (mkR a' b' s') = Ok (list_eqb l l').
Proof. exact range_eq_ok. Qed.
Theorem C24_list_eqb : forall x y, list_eqb x y = true <-> x = y.
Proof. exact list_eqb_eq. Qed.
Example C24_ex : is_range 10 0 (-3) [10; 7; 4; 1] /\ range_getitem (mkR 10 0 (-3)) (-1) = Ok 1
  /\ range_eq 9 (mkR 0 3 2) (mkR 0 4 2) = Ok true /\ range_reversed_list 9 (mkR 10 0 (-3)) = Ok [1; 4; 7; 10].
Proof.
  split; [|vm_compute; auto]. split; [|vm_compute; discriminate].
  intros i H. cbn in H. do 4 (destruct i; [cbn; split; reflexivity|]). lia.
Qed.

Print Assumptions C20_divmod.
Print Assumptions C20_divmod_unique.
Print Assumptions C20_lshift.
Print Assumptions C20_rshift.
Print Assumptions C20_and.
Print Assumptions C20_invert.
Print Assumptions C20_abs.
Print Assumptions C20_bit_count.
Print Assumptions C20_bit_length.
Print Assumptions C20_round.
Print Assumptions C20_round_unique.
Print Assumptions C20_str.
Print Assumptions C20_symbolic_str.
Print Assumptions C20_str_unique.
Print Assumptions C21_pow_partial.
Print Assumptions C21_pow_refuted.
Print Assumptions C21_pow_wrong_domain.
Print Assumptions C22_to_bytes_partial.
Print Assumptions C22_from_bytes.
Print Assumptions C22_roundtrip.
Print Assumptions C22_roundtrip_back.
Print Assumptions C22_signed_zero_length_refuted.
Print Assumptions C22_negative_length_refuted.
Print Assumptions C22_byteorder_refuted.
Print Assumptions C23_bounded_int.
Print Assumptions C24_init.
Print Assumptions C24_range_unique.
Print Assumptions C24_range_exists.
Print Assumptions C24_len.
Print Assumptions C24_bool.
Print Assumptions C24_iter.
Print Assumptions C24_reversed.
Print Assumptions C24_getitem.
Print Assumptions C24_contains.
Print Assumptions C24_index.
Print Assumptions C24_count.
Print Assumptions C24_eq.
