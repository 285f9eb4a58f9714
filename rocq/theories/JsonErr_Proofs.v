(** Proofs about Json_Model: what json.loads raises, and that int(..., 16) reads hexadecimal digits. *)
From Coq Require Import ZArith List Bool Lia ZifyBool ZifyNat.
From Verif Require Import Py Parse_Spec Json_Model Json_Spec Json_Proofs JsonRead_Proofs JsonWrite_Proofs JsonMore_Proofs.
Import ListNotations.
Open Scope Z_scope.

(** * int(h, 16) of four hexadecimal digits *)
Lemma hex_char : forall uspace udecimal c x, hex_value c x ->
  to_ascii uspace udecimal c = c /\ c_space c = false /\ digit_value c = x /\ 0 <= x < 16 /\ c <> 95 /\ c <> 43 /\ c <> 45 /\ lower c <> 120 /\ lower c <> 0.
Proof.
  intros us ud c x H. unfold to_ascii, c_space, digit_value, lower, hex_value in *.
  destruct (c <? 127) eqn:?; [|lia]. split; [reflexivity|]. split; [lia|].
  destruct ((48 <=? c) && (c <=? 57)) eqn:?; [destruct ((65 <=? c) && (c <=? 90)) eqn:?; lia|].
  destruct ((97 <=? c) && (c <=? 122)) eqn:?; [destruct ((65 <=? c) && (c <=? 90)) eqn:?; lia|].
  destruct ((65 <=? c) && (c <=? 90)) eqn:?; lia.
Qed.
Lemma int16_hex : forall uspace udecimal md h n, hex4 h n -> py_int uspace udecimal md h 16 = Ok n.
Proof.
  intros us ud md h n (a & b & c & d & x & y & z & t & -> & X & Y & Z & T & ->).
  destruct (hex_char us ud a x X) as (A1 & A2 & A3 & A4 & A5 & A6 & A7 & A8 & A9). destruct (hex_char us ud b y Y) as (B1 & B2 & B3 & B4 & B5 & B6 & B7 & B8 & B9).
  destruct (hex_char us ud c z Z) as (C1 & C2 & C3 & C4 & C5 & _). destruct (hex_char us ud d t T) as (D1 & D2 & D3 & D4 & D5 & _).
  unfold py_int. change (negb (16 =? 0) && ((16 <? 2) || (36 <? 16))) with false. cbn match. cbn [map]. rewrite A1, B1, C1, D1. cbn [skip_space]. rewrite A2.
  destruct (a =? 43) eqn:?; [lia|]. destruct (a =? 45) eqn:?; [lia|].
  assert (Pr : prefixed 16 [a; b; c; d] = (16, [a; b; c; d], false)).
  { unfold prefixed. change (16 =? 0) with false. change (16 =? 16) with true. change (16 =? 8) with false. change (16 =? 2) with false. cbn match. cbn [andb orb].
    destruct (a =? 48); [|reflexivity]. destruct (lower b =? 120) eqn:?; [lia|]. reflexivity. }
  rewrite Pr. 
  assert (Dg : forall e v q val cnt ad, digit_value e = v -> 0 <= v < 16 -> e <> 95 -> Parse_Spec.digits 16 (e :: q) val cnt ad = Parse_Spec.digits 16 q (val * 16 + v) (cnt + 1) true).
  { intros e v q val cnt ad E V N. cbn [Parse_Spec.digits]. destruct (e =? 95) eqn:?; [lia|]. rewrite E. destruct (v <? 16) eqn:?; [reflexivity|lia]. }
  rewrite (Dg a x), (Dg b y), (Dg c z), (Dg d t) by assumption. cbn [Parse_Spec.digits skip_space]. change (limited 16) with false. cbn [andb]. f_equal. lia.
Qed.

(** * Running out of fuel *)
Section Fuel.
Variable int16 : str -> res Z.
Lemma decode_shorter : forall s n r, decode_uXXXX int16 s = JOk (n, r) -> (length r < length s)%nat.
Proof.
  intros s n r H. unfold decode_uXXXX in H. destruct s as [|a [|b [|c [|d s]]]]; try discriminate. destruct ((b =? 120) || (b =? 88)); [discriminate|].
  destruct (int16 [a; b; c; d]) as [m|e]; [|destruct e; discriminate]. inversion H; subst. cbn. lia.
Qed.
Lemma decode_no_fuel : forall s, decode_uXXXX int16 s <> JFuel /\ decode_uXXXX int16 s <> JStop.
Proof.
  intros s. unfold decode_uXXXX. destruct s as [|a [|b [|c [|d s]]]]; try (split; discriminate). destruct ((b =? 120) || (b =? 88)); [split; discriminate|].
  destruct (int16 [a; b; c; d]) as [m|e]; [split; discriminate|destruct e; split; discriminate].
Qed.
Lemma scanstring_no_fuel : forall fuel strict s acc, (length s < fuel)%nat -> scanstring int16 fuel strict s acc <> JFuel /\ scanstring int16 fuel strict s acc <> JStop.
Proof.
  induction fuel as [|fuel IH]; intros strict s acc L; [lia|]. cbn [scanstring]. destruct (stringchunk s) as [[[a t] s1]|] eqn:Ch; [|split; discriminate].
  apply chunk_split in Ch. destruct Ch as (-> & _). rewrite app_length in L. cbn [length] in L.
  destruct (t =? 34); [split; discriminate|]. destruct (negb (t =? 92)); [destruct strict; [split; discriminate|]; apply IH; lia|].
  destruct s1 as [|e s2]; [split; discriminate|]. cbn [length] in L. destruct (negb (e =? 117)).
  - destruct (backslash e); [apply IH; lia|split; discriminate].
  - pose proof (decode_no_fuel s2) as D. destruct (decode_uXXXX int16 s2) as [[n q]| | | |] eqn:Dq; cbn [jbind]; try (split; discriminate); try tauto.
    apply decode_shorter in Dq.
    assert (Fin : forall n q, (length q < fuel)%nat -> jbind (of_res (chr n)) (fun c => scanstring int16 fuel strict q ((acc ++ a) ++ [c])) <> JFuel /\
      jbind (of_res (chr n)) (fun c => scanstring int16 fuel strict q ((acc ++ a) ++ [c])) <> JStop).
    { intros n' q' Lq. unfold chr. destruct ((0 <=? n') && (n' <=? 1114111)); cbn [of_res jbind]; [|split; discriminate]. apply IH. lia. }
    destruct ((55296 <=? n) && (n <=? 56319)); [|cbn [jbind]; apply Fin; lia]. destruct (after [92; 117] q) as [q2|] eqn:Af; [|cbn [jbind]; apply Fin; lia].
    apply after_split in Af. subst q. rewrite app_length in Dq. cbn [length] in Dq.
    pose proof (decode_no_fuel q2) as D2. destruct (decode_uXXXX int16 q2) as [[n2 q3]| | | |] eqn:Dq2; cbn [jbind]; try (split; discriminate); try tauto.
    apply decode_shorter in Dq2. destruct ((56320 <=? n2) && (n2 <=? 57343)); cbn [jbind]; apply Fin; [lia|rewrite app_length; cbn; lia].
Qed.
Lemma parse_string_no_fuel : forall strict s, parse_string int16 strict s <> JFuel /\ parse_string int16 strict s <> JStop.
Proof. intros. unfold parse_string. apply scanstring_no_fuel. lia. Qed.
End Fuel.

Section Errors.
Variable F : Type.
Variables nan inf neginf : F.
Variable parse_float : str -> res F.
Variable parse_int : str -> res Z.
Variable int16 : str -> res Z.
Variable strict : bool.
Notation scan := (scan_once F nan inf neginf parse_float parse_int int16).
Notation arr := (array_loop F nan inf neginf parse_float parse_int int16).
Notation obj := (object_loop F nan inf neginf parse_float parse_int int16).

(** scanning a value that is not a string, an object or an array *)
Definition scan_word (s : str) : jres (val F * str) :=
  match after [110; 117; 108; 108] s with
  | Some s => JOk (JNull, s)
  | None => match after [116; 114; 117; 101] s with
  | Some s => JOk (JBool true, s)
  | None => match after [102; 97; 108; 115; 101] s with
  | Some s => JOk (JBool false, s)
  | None => match match_number s with
  | Some (integer, [], [], s) => jbind (of_res (parse_int integer)) (fun z => JOk (JInt z, s))
  | Some (integer, frac, exp, s) => jbind (of_res (parse_float (integer ++ frac ++ exp))) (fun f => JOk (JFloat f, s))
  | None => match after [78; 97; 78] s with
  | Some s => JOk (JFloat nan, s)
  | None => match after [73; 110; 102; 105; 110; 105; 116; 121] s with
  | Some s => JOk (JFloat inf, s)
  | None => match after [45; 73; 110; 102; 105; 110; 105; 116; 121] s with
  | Some s => JOk (JFloat neginf, s)
  | None => JStop
  end end end end end end end.
Lemma scan_cases : forall n s, scan (S n) strict s = JStop \/
  (exists r, s = 34 :: r /\ scan (S n) strict s = jbind (parse_string int16 strict r) (fun '(t, s) => JOk (JStr t, s))) \/
  (exists r, s = 123 :: r) \/ (exists r, s = 91 :: r) \/ scan (S n) strict s = scan_word s.
Proof.
  intros n s. destruct s as [|c s]; [left; reflexivity|]. destruct (c =? 34) eqn:C1.
  - right; left. exists s. assert (c = 34) as -> by lia. split; reflexivity.
  - destruct (c =? 123) eqn:C2; [right; right; left; exists s; f_equal; lia|]. destruct (c =? 91) eqn:C3; [right; right; right; left; exists s; f_equal; lia|].
    right; right; right; right. cbn [scan_once]. rewrite C1, C2, C3. reflexivity.
Qed.
Definition number_error (e : exc) : Prop := exists t, (int_part t /\ parse_int t = Err e) \/ (real_number t /\ parse_float t = Err e).
Lemma word_results : forall s, scan_word s <> JFuel /\ scan_word s <> JBad /\ forall e, scan_word s = JErr e -> number_error e.
Proof.
  intro s. unfold scan_word.
  destruct (after [110; 117; 108; 108] s); [split; [|split]; discriminate|]. destruct (after [116; 114; 117; 101] s); [split; [|split]; discriminate|].
  destruct (after [102; 97; 108; 115; 101] s); [split; [|split]; discriminate|].
  destruct (match_number s) as [[[[i f] e] q]|] eqn:M.
  - apply number_split in M. destruct M as (_ & I & Fr & Ex).
    assert (X : (f = [] /\ e = []) \/ (f <> [] \/ e <> [])) by (destruct f; [destruct e; [auto|right; right; discriminate]|right; left; discriminate]).
    destruct X as [[-> ->]|N].
    + destruct (parse_int i) as [z|x] eqn:P; cbn [of_res jbind]; (split; [discriminate|]; split; [discriminate|]); intros e' H; [discriminate|].
      inversion H; subst. exists i. auto.
    + assert (Y : match f with [] => match e with [] => jbind (of_res (parse_int i)) (fun z => JOk (JInt z, q)) | _ :: _ => jbind (of_res (parse_float (i ++ f ++ e))) (fun f => JOk (JFloat f, q)) end
                  | _ :: _ => jbind (of_res (parse_float (i ++ f ++ e))) (fun f => JOk (JFloat f, q)) end = jbind (of_res (parse_float (i ++ f ++ e))) (fun f => @JOk (val F * str) (JFloat f, q))).
      { destruct f; [destruct e; [exfalso; destruct N as [N|N]; now apply N|]|]; reflexivity. }
      destruct f as [|f0 f]; [destruct e as [|e0 e]; [exfalso; destruct N as [N|N]; now apply N|]|].
      * destruct (parse_float (i ++ [] ++ e0 :: e)) as [z|x] eqn:P; cbn [of_res jbind]; (split; [discriminate|]; split; [discriminate|]); intros e' H; [discriminate|].
        inversion H; subst. exists (i ++ [] ++ e0 :: e). right. split; [|assumption]. exists i, [], (e0 :: e). auto 6.
      * destruct (parse_float (i ++ (f0 :: f) ++ e)) as [z|x] eqn:P; cbn [of_res jbind]; (split; [discriminate|]; split; [discriminate|]); intros e' H; [discriminate|].
        inversion H; subst. exists (i ++ (f0 :: f) ++ e). right. split; [|assumption]. exists i, (f0 :: f), e. auto 6.
  - destruct (after [78; 97; 78] s); [split; [|split]; discriminate|]. destruct (after [73; 110; 102; 105; 110; 105; 116; 121] s); [split; [|split]; discriminate|].
    destruct (after [45; 73; 110; 102; 105; 110; 105; 116; 121] s); split; [|split| |split]; discriminate.
Qed.
Lemma w_shorter : forall s, (length (w s) <= length s)%nat.
Proof. intro s. destruct (w_split s) as (b & _ & E). rewrite E at 2. rewrite app_length. lia. Qed.
Lemma scan_shorter : forall n s v r, scan n strict s = JOk (v, r) -> (length r < length s)%nat.
Proof.
  intros n s v r H. apply read_sound in H. destruct H as (t & -> & V). destruct (value_head _ _ _ _ _ _ _ _ _ _ V) as (c & q & -> & _). rewrite app_length. cbn. lia.
Qed.
Lemma string_shorter : forall s v r, parse_string int16 strict s = JOk (v, r) -> (length r < length s)%nat.
Proof. intros s v r H. apply parse_string_iff in H. destruct H as (t & -> & _). rewrite app_length. cbn. lia. Qed.
Lemma no_fuel : forall n,
  (forall s, (2 * length s < n)%nat -> scan n strict s <> JFuel) /\
  (forall s ps, (2 * length s + 1 < n)%nat -> obj n strict s ps <> JFuel) /\
  (forall s vs, (2 * length s + 1 < n)%nat -> arr n strict s vs <> JFuel).
Proof.
  induction n as [|n (IHs & IHo & IHa)]; [split; [|split]; intros; lia|]. split; [|split].
  - intros s L. destruct (scan_cases n s) as [E|[(r & -> & E)|[(r & ->)|[(r & ->)|E]]]].
    + rewrite E. discriminate.
    + rewrite E. pose proof (parse_string_no_fuel int16 strict r) as [P _]. destruct (parse_string int16 strict r) as [[t q]| | | |]; cbn; try discriminate. congruence.
    + rewrite scan_obj. cbn [length] in L. pose proof (w_shorter r). destruct (w r) as [|c q]; [discriminate|]. cbn [length] in *. destruct (c =? 125); [discriminate|].
      destruct (negb (c =? 34)); [discriminate|]. apply IHo. lia.
    + rewrite scan_arr. cbn [length] in L. pose proof (w_shorter r) as W. destruct (w r) as [|c q]; [apply IHa; cbn; lia|]. destruct (c =? 93); [discriminate|]. apply IHa. lia.
    + rewrite E. apply word_results.
  - intros s ps L. rewrite obj_eq. pose proof (parse_string_no_fuel int16 strict s) as [P _]. destruct (parse_string int16 strict s) as [[k s1]| | | |] eqn:Ps; cbn [jbind]; try discriminate; try congruence.
    apply string_shorter in Ps. pose proof (w_shorter s1). destruct (w s1) as [|c s2]; [discriminate|]. cbn [length] in *. destruct (negb (c =? 58)); [discriminate|].
    pose proof (w_shorter s2). specialize (IHs (w s2) ltac:(lia)). destruct (scan n strict (w s2)) as [[v s3]| | | |] eqn:Sc; cbn [expecting_value jbind]; try discriminate; try congruence.
    apply scan_shorter in Sc. pose proof (w_shorter s3). destruct (w s3) as [|d s4]; [discriminate|]. cbn [length] in *. destruct (d =? 125); [discriminate|].
    destruct (negb (d =? 44)); [discriminate|]. pose proof (w_shorter s4). destruct (w s4) as [|e s5]; [discriminate|]. cbn [length] in *. destruct (negb (e =? 34)); [discriminate|].
    apply IHo. lia.
  - intros s vs L. rewrite arr_eq. specialize (IHs s ltac:(lia)). destruct (scan n strict s) as [[v s3]| | | |] eqn:Sc; cbn [expecting_value jbind]; try discriminate; try congruence.
    apply scan_shorter in Sc. pose proof (w_shorter s3). destruct (w s3) as [|d s4]; [discriminate|]. cbn [length] in *. destruct (d =? 93); [discriminate|].
    destruct (negb (d =? 44)); [discriminate|]. pose proof (w_shorter s4). apply IHa. lia.
Qed.
Lemma loads_total : forall s, loads F nan inf neginf parse_float parse_int int16 strict s <> JFuel /\ loads F nan inf neginf parse_float parse_int int16 strict s <> JStop.
Proof.
  assert (D : forall s, decode F nan inf neginf parse_float parse_int int16 strict s <> JFuel /\ decode F nan inf neginf parse_float parse_int int16 strict s <> JStop).
  { intro s. unfold decode. pose proof (w_shorter s). pose proof (proj1 (no_fuel (2 * length s + 2)) (w s) ltac:(lia)) as N.
    destruct (scan (2 * length s + 2) strict (w s)) as [[v q]| | | |]; cbn [expecting_value jbind]; try (split; discriminate); [destruct (w q); split; discriminate|congruence]. }
  intro s. unfold loads. destruct s as [|c s]; [apply D|]. destruct (c =? 65279); [split; discriminate|apply D].
Qed.

(** * With proper escapes, only the conversion of numbers raises anything else *)
Hypothesis reads_hex : forall h n, hex4 h n -> int16 h = Ok n.
Lemma proper_suffix : forall a b, proper (a ++ b) -> proper b.
Proof. intros a b P x y E. apply (P (a ++ x) y). now rewrite E, app_assoc. Qed.
Lemma proper_w : forall s, proper s -> proper (w s).
Proof. intros s P. destruct (w_split s) as (b & _ & E). rewrite E in P. eapply proper_suffix, P. Qed.
Lemma scanstring_err : forall fuel s acc e, proper s -> scanstring int16 fuel strict s acc <> JErr e.
Proof.
  induction fuel as [|fuel IH]; intros s acc e P; [discriminate|]. cbn [scanstring]. destruct (stringchunk s) as [[[a t] s1]|] eqn:Ch; [|discriminate].
  apply chunk_split in Ch. destruct Ch as (-> & _). apply proper_suffix in P.
  destruct (t =? 34); [discriminate|]. destruct (negb (t =? 92)) eqn:T; [destruct strict; [discriminate|]; apply IH; now apply (proper_suffix [t]) in P|].
  destruct s1 as [|x s2]; [discriminate|]. assert (t = 92) as -> by lia. destruct (negb (x =? 117)) eqn:X.
  - destruct (backslash x); [|discriminate]. apply IH. now apply (proper_suffix [92; x]) in P.
  - assert (x = 117) as -> by lia. destruct (P [] s2 eq_refl) as (h & n & r & -> & H). apply (proper_suffix (92 :: 117 :: h)) in P. pose proof (hex4_range h n H) as R.
    rewrite (decode_loose int16 h n r (hex4_loose int16 reads_hex h n H)). cbn [jbind].
    assert (Fin : forall n q, 0 <= n <= 1114111 -> proper q -> jbind (of_res (chr n)) (fun c => scanstring int16 fuel strict q ((acc ++ a) ++ [c])) <> JErr e).
    { intros n' q' Rn Pq. unfold chr. replace ((0 <=? n') && (n' <=? 1114111)) with true by lia. cbn [of_res jbind]. now apply IH. }
    destruct ((55296 <=? n) && (n <=? 56319)) eqn:Hi; [|cbn [jbind]; apply Fin; [lia|assumption]]. destruct (after [92; 117] r) as [q2|] eqn:Af; [|cbn [jbind]; apply Fin; [lia|assumption]].
    apply after_split in Af. subst r. destruct (P [] q2 eq_refl) as (h2 & n2 & r2 & -> & H2). pose proof (hex4_range h2 n2 H2) as R2.
    rewrite (decode_loose int16 h2 n2 r2 (hex4_loose int16 reads_hex h2 n2 H2)). cbn [jbind].
    destruct ((56320 <=? n2) && (n2 <=? 57343)) eqn:Lo; cbn [jbind]; apply Fin; try assumption; try lia; [rewrite lor_joined by lia; lia|].
    now apply (proper_suffix (92 :: 117 :: h2)) in P.
Qed.
Lemma string_rest : forall s v r, proper s -> parse_string int16 strict s = JOk (v, r) -> proper r.
Proof. intros s v r P H. apply parse_string_iff in H. destruct H as (t & -> & _). apply (proper_suffix (t ++ [34])). now rewrite <- app_assoc. Qed.
Lemma scan_rest : forall n s v r, proper s -> scan n strict s = JOk (v, r) -> proper r.
Proof. intros n s v r P H. apply read_sound in H. destruct H as (t & -> & _). eapply proper_suffix, P. Qed.
Lemma proper_tail : forall c s, proper (c :: s) -> proper s.
Proof. intros c s P. now apply (proper_suffix [c]) in P. Qed.
Lemma errors_are_numbers : forall n,
  (forall s e, proper s -> scan n strict s = JErr e -> number_error e) /\
  (forall s ps e, proper s -> obj n strict s ps = JErr e -> number_error e) /\
  (forall s vs e, proper s -> arr n strict s vs = JErr e -> number_error e).
Proof.
  induction n as [|n (IHs & IHo & IHa)]; [split; [|split]; intros; discriminate|]. split; [|split].
  - intros s e P H. destruct (scan_cases n s) as [E|[(r & -> & E)|[(r & ->)|[(r & ->)|E]]]].
    + rewrite E in H. discriminate.
    + rewrite E in H. pose proof (scanstring_err (S (length r)) r [] e (proper_tail _ _ P)) as X. unfold parse_string in H.
      destruct (scanstring int16 (S (length r)) strict r []) as [[t q]| | | |]; cbn in H; try discriminate. congruence.
    + rewrite scan_obj in H. apply proper_tail, proper_w in P. destruct (w r) as [|c q]; [discriminate|]. destruct (c =? 125); [discriminate|].
      destruct (negb (c =? 34)); [discriminate|]. eapply IHo; [|exact H]. now apply proper_tail in P.
    + rewrite scan_arr in H. apply proper_tail, proper_w in P. destruct (w r) as [|c q]; [eapply IHa; eauto|]. destruct (c =? 93); [discriminate|]. eapply IHa; eauto.
    + rewrite E in H. now apply (proj2 (proj2 (word_results s))).
  - intros s ps e P H. rewrite obj_eq in H. pose proof (scanstring_err (S (length s)) s [] e P) as X. fold (parse_string int16 strict s) in X.
    destruct (parse_string int16 strict s) as [[k s1]| | | |] eqn:Ps; cbn [jbind] in H; try discriminate; try congruence.
    pose proof (proper_w _ (string_rest _ _ _ P Ps)) as P1. destruct (w s1) as [|c s2]; [discriminate|]. destruct (negb (c =? 58)); [discriminate|].
    pose proof (proper_w _ (proper_tail _ _ P1)) as P2. destruct (scan n strict (w s2)) as [[v s3]| | | |] eqn:Sc; cbn [expecting_value jbind] in H; try discriminate; [|inversion H; subst; eapply IHs; eauto].
    pose proof (proper_w _ (scan_rest _ _ _ _ P2 Sc)) as P3. destruct (w s3) as [|d s4]; [discriminate|]. destruct (d =? 125); [discriminate|].
    destruct (negb (d =? 44)); [discriminate|]. pose proof (proper_w _ (proper_tail _ _ P3)) as P4. destruct (w s4) as [|x s5]; [discriminate|]. destruct (negb (x =? 34)); [discriminate|].
    eapply IHo; [|exact H]. now apply proper_tail in P4.
  - intros s vs e P H. rewrite arr_eq in H. destruct (scan n strict s) as [[v s3]| | | |] eqn:Sc; cbn [expecting_value jbind] in H; try discriminate; [|inversion H; subst; eapply IHs; eauto].
    pose proof (proper_w _ (scan_rest _ _ _ _ P Sc)) as P3. destruct (w s3) as [|d s4]; [discriminate|]. destruct (d =? 93); [discriminate|].
    destruct (negb (d =? 44)); [discriminate|]. eapply IHa; [|exact H]. apply proper_w. now apply proper_tail in P3.
Qed.
Lemma loads_err : forall s e, proper s -> loads F nan inf neginf parse_float parse_int int16 strict s = JErr e -> number_error e.
Proof.
  assert (D : forall s e, proper s -> decode F nan inf neginf parse_float parse_int int16 strict s = JErr e -> number_error e).
  { intros s e P H. unfold decode in H. pose proof (proper_w s P) as Pw. destruct (scan (2 * length s + 2) strict (w s)) as [[v q]| | | |] eqn:Sc; cbn [expecting_value jbind] in H; try discriminate;
      [destruct (w q); discriminate|]. inversion H; subst. eapply (proj1 (errors_are_numbers _)); eauto. }
  intros s e P H. unfold loads in H. destruct s as [|c s]; [eapply D; eauto|]. destruct (c =? 65279); [discriminate|eapply D; eauto].
Qed.
End Errors.
