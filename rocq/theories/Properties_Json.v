(** C79: json.dumps writes JSON that json.loads reads back.  C80: json.loads accepts exactly the
    JSON texts.  C81: json.loads of bytes finds the encoding.
    [feq], [float_repr], [int_repr], [parse_float], [parse_int] are Python's float equality, repr
    and conversions; [uspace], [udecimal], [max_digits] parametrize int(str, base). *)
From Coq Require Import ZArith List Bool Lia ZifyBool ZifyNat.
From Verif Require Import Py Parse_Spec Json_Model Json_Spec Json_Proofs JsonRead_Proofs JsonWrite_Proofs JsonMore_Proofs JsonErr_Proofs Json_Example Json_Layout.
Import ListNotations.
Open Scope Z_scope.

(** repr and conversions of numbers are inverse, and repr writes JSON numbers; all NaNs are one *)
Definition numbers_ok {F} (feq : F -> F -> bool) (nan inf neginf : F) (float_repr : F -> str) (int_repr : Z -> str)
    (parse_float : str -> res F) (parse_int : str -> res Z) : Prop :=
  (forall z, int_part (int_repr z) /\ parse_int (int_repr z) = Ok z) /\
  (forall f, finite F feq inf neginf f -> real_number (float_repr f) /\ parse_float (float_repr f) = Ok f) /\
  (forall f, feq f f = false -> f = nan) /\ (forall f, feq f inf = true -> f = inf) /\ (forall f, feq f neginf = true -> f = neginf).
(** the separators are a comma and a colon with blanks around them, the indentation is blank *)
Definition layout_ok (o : options) : Prop :=
  (exists a b, item_separator o = a ++ [44] ++ b /\ blank a /\ blank b) /\
  (exists a b, key_separator o = a ++ [58] ++ b /\ blank a /\ blank b) /\
  (forall i, indent o = Some i -> blank i).
(** the values that can be written: of the JSON types, floats finite unless allow_nan, and with
    ensure_ascii no surrogates next to each other *)
Definition can_write {F} (feq : F -> F -> bool) (inf neginf : F) (o : options) (v : pyv F) : Prop :=
  all F (fun s => ensure_ascii o = true -> code_points s /\ unpaired s) (fun f => allow_nan o = true \/ finite F feq inf neginf f) (skipkeys o) v.

(** the separators used by default are a good layout, with or without an indentation *)
Theorem json_default_layout : forall skip ascii nan_ok i, (forall t, i = Some t -> blank t) ->
  layout_ok {| skipkeys := skip; ensure_ascii := ascii; allow_nan := nan_ok; indent := i;
               item_separator := fst (separators_of None i); key_separator := snd (separators_of None i) |}.
Proof.
  intros skip asc nan_ok i H. assert (B32 : blank [32]) by (constructor; [auto|constructor]). assert (B0 : blank []) by constructor. split; [|split].
  - destruct i as [t|]; cbn; [exists [], []|exists [], [32]]; auto.
  - destruct i as [t|]; cbn; exists [], [32]; auto.
  - exact H.
Qed.

(** what is written is a JSON text for the value (without NaN and infinities if allow_nan is false) *)
Theorem json_dumps_writes_json : forall F feq nan inf neginf float_repr int_repr parse_float parse_int o v,
  numbers_ok feq nan inf neginf float_repr int_repr parse_float parse_int -> layout_ok o -> can_write feq inf neginf o v ->
  exists s, dumps F feq inf neginf float_repr int_repr o v = Ok s /\
    json_text F nan inf neginf parse_float parse_int hex4 true (allow_nan o) s (read_back F (float_text F feq inf neginf float_repr) int_repr v) /\
    (ensure_ascii o = true -> Forall (fun c => 0 <= c < 128) s).
Proof.
  intros F feq nan inf neginf float_repr int_repr parse_float parse_int o v (N1 & N2 & N3 & N4 & N5) ((i1 & i2 & E1 & B1 & B2) & (k1 & k2 & E2 & B3 & B4) & B5) W.
  apply (dumps_ok F feq nan inf neginf float_repr int_repr parse_float parse_int N1 N2 N3 N4 N5 o i1 i2 k1 k2 E1 E2 ltac:(auto) B5 v W).
Qed.

(** reading back what was written gives the value, with lists for tuples and strings for keys *)
Theorem json_round_trip : forall F feq nan inf neginf float_repr int_repr parse_float parse_int uspace udecimal max_digits o v,
  numbers_ok feq nan inf neginf float_repr int_repr parse_float parse_int -> layout_ok o -> can_write feq inf neginf o v ->
  exists s, dumps F feq inf neginf float_repr int_repr o v = Ok s /\
    loads F nan inf neginf parse_float parse_int (fun h => py_int uspace udecimal max_digits h 16) true s =
      JOk (read_back F (float_text F feq inf neginf float_repr) int_repr v).
Proof.
  intros F feq nan inf neginf float_repr int_repr parse_float parse_int us ud md o v N L W.
  destruct (json_dumps_writes_json F feq nan inf neginf float_repr int_repr parse_float parse_int o v N L W) as (s & E & T & _). exists s. split; [exact E|].
  apply loads_iff. eapply text_mono; [| | |exact I|exact T].
  - intros _. reflexivity.
  - intros; exact I.
  - intros t u _ C. apply chars_hex4_loose; [|exact C]. intros; now apply int16_hex.
Qed.

(** dicts with text keys, all different, come back as they were *)
Theorem json_round_trip_dict : forall (V : Type) (l : list (str * V)), NoDup (map fst l) -> as_dict (length l) l = l.
Proof.
  intros V. induction l as [|[k v] l IH]; intro N; [reflexivity|]. inversion N as [|x xs NI N']; subst. cbn [length as_dict].
  assert (L : last_of k v l = v /\ drop_key k l = l).
  { clear IH N N'. revert v. induction l as [|[k' v'] l IHl]; intro v; [auto|]. cbn [map fst] in NI. cbn [last_of drop_key].
    destruct (same k' k) eqn:S1; [apply same_iff in S1; subst; exfalso; apply NI; now left|]. destruct (IHl (fun X => NI (or_intror X)) v) as [A B].
    split; [exact A|now rewrite B]. }
  destruct L as [-> ->]. now rewrite IH.
Qed.

(** nothing else is written: any other value raises TypeError or ValueError *)
Theorem json_dumps_refuses : forall F feq inf neginf float_repr int_repr o v,
  ~ all F (fun _ => True) (fun f => allow_nan o = true \/ finite F feq inf neginf f) (skipkeys o) v ->
  dumps F feq inf neginf float_repr int_repr o v = Err TypeError \/ dumps F feq inf neginf float_repr int_repr o v = Err ValueError.
Proof.
  intros F feq inf neginf float_repr int_repr o v N. destruct (dumps F feq inf neginf float_repr int_repr o v) as [s|e] eqn:E.
  - exfalso. apply N. exact (dumps_only F feq inf neginf float_repr int_repr o v s E).
  - destruct (dumps_errors F feq inf neginf float_repr int_repr o v e E) as [->| ->]; auto.
Qed.
(** the text written is laid out as documented: one item or entry per line if there is an indentation *)
Theorem json_dumps_layout : forall F feq inf neginf float_repr int_repr o v,
  (forall z, code_points (int_repr z)) -> (forall f, code_points (float_repr f)) ->
  all F code_points (fun f => allow_nan o = true \/ finite F feq inf neginf f) (skipkeys o) v ->
  dumps F feq inf neginf float_repr int_repr o v =
    Ok (layout F (float_text F feq inf neginf float_repr) int_repr (ensure_ascii o) (indent o) (item_separator o) (key_separator o) 0 v).
Proof. intros. now apply dumps_text. Qed.
Theorem json_separators : forall i, separators_of None None = ([44; 32], [58; 32]) /\ separators_of None (Some i) = ([44], [58; 32]) /\
  forall s j, separators_of (Some s) j = s.
Proof. intros. auto. Qed.
Print Assumptions json_dumps_layout.
Print Assumptions json_separators.
Print Assumptions json_default_layout.
Print Assumptions json_dumps_writes_json.
Print Assumptions json_round_trip.
Print Assumptions json_round_trip_dict.
Print Assumptions json_dumps_refuses.

(** ["é\n", (-12, 3.0, NaN), {1: null, "1": true, None: []}] with an indentation *)
Definition sample : pyv whole :=
  PList [PStr [233; 10; 128512]; PTuple [PInt (-12); PFloat (Num 3); PFloat NaN]; PDict [(KInt 1, PNone); (KStr [49], PBool true); (KNone, PList [])]].
Definition sample_options : options :=
  {| skipkeys := false; ensure_ascii := true; allow_nan := true; indent := Some [32; 32]; item_separator := [44]; key_separator := [58; 32] |}.
Example numbers_sample : numbers_ok weq NaN Inf NegInf wrepr decimal read_whole read_int.
Proof. split; [apply decimal_ints|]. split; [apply whole_floats|]. split; [apply whole_nans|]. split; [apply whole_infs|apply whole_neginfs]. Qed.
Example layout_sample : layout_ok sample_options.
Proof.
  assert (B : forall s, forallb is_ws s = true -> blank s).
  { intros s H. rewrite forallb_forall in H. apply Forall_forall. intros c C. apply is_ws_iff. now apply H. }
  split; [exists [], []|split; [exists [], [32]|]].
  - split; [reflexivity|]. split; apply B; reflexivity.
  - split; [reflexivity|]. split; apply B; reflexivity.
  - intros i E. inversion E. apply B. reflexivity.
Qed.
Example sample_writable : can_write weq Inf NegInf sample_options sample.
Proof.
  assert (U1 : unpaired [49]) by (intros [|? [|? ?]] ? ? ? E; discriminate E).
  assert (U2 : unpaired [233; 10; 128512]).
  { intros [|a1 [|a2 [|a3 a]]] c d b E; inversion E; subst; unfold high, low; try lia. destruct a; discriminate. }
  unfold can_write, sample. apply all_list. constructor; [|constructor; [|constructor; [|constructor]]].
  - apply all_str. intros _. split; [|exact U2]. repeat (constructor; [lia|]). constructor.
  - apply all_tuple. constructor; [apply all_int|]. constructor; [apply all_float; left; reflexivity|]. constructor; [apply all_float; left; reflexivity|constructor].
  - apply all_dict. constructor; [right; split; [apply key_int|apply all_none]|]. constructor; [right; split; [apply key_str|apply all_bool]|].
    + intros _. split; [|exact U1]. repeat (constructor; [lia|]). constructor.
    + constructor; [right; split; [apply key_none|apply all_list; constructor]|constructor].
Qed.
Example sample_read_back : read_back whole (float_text whole weq Inf NegInf wrepr) decimal sample =
  JList [JStr [233; 10; 128512]; JList [JInt (-12); JFloat (Num 3); JFloat NaN]; JDict [([49], JBool true); ([110; 117; 108; 108], JList [])]].
Proof. reflexivity. Qed.
(** ["\u007f", {1: [2]}] on six lines *)
Example layout_text : dumps whole weq Inf NegInf wrepr decimal sample_options (PList [PStr [127]; PDict [(KInt 1, PList [PInt 2])]]) =
  Ok ([91; 10; 32; 32] ++ [34; 92; 117; 48; 48; 55; 102; 34; 44; 10; 32; 32] ++ [123; 10; 32; 32; 32; 32] ++ [34; 49; 34; 58; 32; 91; 10; 32; 32; 32; 32; 32; 32] ++ [50; 10; 32; 32; 32; 32] ++ [93; 10; 32; 32] ++ [125; 10] ++ [93]).
Proof. vm_compute. reflexivity. Qed.
(** with ensure_ascii, a high and a low surrogate in a row are read back as one character (as in CPython) *)
Example paired_surrogates_join : exists s, dumps whole weq Inf NegInf wrepr decimal sample_options (PStr [0xD83D; 0xDE00]) = Ok s /\
  loads whole NaN Inf NegInf read_whole read_int (fun h => py_int (fun _ => false) (fun _ => None) None h 16) true s = JOk (JStr [0x1F600]).
Proof. eexists. split; [reflexivity|]. vm_compute. reflexivity. Qed.
Example other_types_refused : ~ all whole (fun _ => True) (fun f => allow_nan sample_options = true \/ finite whole weq Inf NegInf f) (skipkeys sample_options) (PList [POther]).
Proof. intro H. inversion H as [| | | | |l A| |]; subst. inversion A as [|x xs B]; subst. inversion B. Qed.

(** * C80 *)
(** every JSON text is read, as its value *)
Theorem json_loads_reads_json : forall F nan inf neginf parse_float parse_int uspace udecimal max_digits strict s v,
  json_text F nan inf neginf parse_float parse_int hex4 strict true s v ->
  loads F nan inf neginf parse_float parse_int (fun h => py_int uspace udecimal max_digits h 16) strict s = JOk v.
Proof.
  intros F nan inf neginf parse_float parse_int us ud md strict s v T. apply loads_iff. eapply text_mono; [| | |exact I|exact T].
  - intro; assumption.
  - intros; exact I.
  - intros t u _ C. apply chars_hex4_loose; [|exact C]. intros; now apply int16_hex.
Qed.
(** FULL: whatever is read is a JSON text with that value:
      forall s v, loads ... strict s = JOk v -> json_text ... hex4 strict true s v.
    Proved for texts whose \u escapes have four hexadecimal digits; without that it is false
    (below).  In general the texts read are those of the grammar in which the four characters after
    \u are any that int(..., 16) accepts, the second not being x or X. *)
Theorem json_loads_only_json_partial : forall F nan inf neginf parse_float parse_int uspace udecimal max_digits strict s v,
  (forall a b, s = a ++ 92 :: 117 :: b -> exists h n r, b = h ++ r /\ hex4 h n) ->
  loads F nan inf neginf parse_float parse_int (fun h => py_int uspace udecimal max_digits h 16) strict s = JOk v ->
  json_text F nan inf neginf parse_float parse_int hex4 strict true s v.
Proof.
  intros F nan inf neginf parse_float parse_int us ud md strict s v P H. apply loads_iff in H. eapply (text_mono F nan inf neginf parse_float parse_int); [| | | |exact H].
  - intro; assumption.
  - exact proper_part_part.
  - intros t u O C. eapply chars_loose_hex4; [|exact O|exact C]. intros; now apply int16_hex.
  - exists [], []. rewrite app_nil_r. exact P.
Qed.
Theorem json_loads_exactly : forall F nan inf neginf parse_float parse_int int16 strict s v,
  loads F nan inf neginf parse_float parse_int int16 strict s = JOk v <->
  json_text F nan inf neginf parse_float parse_int
    (fun h n => exists a b c d, h = [a; b; c; d] /\ b <> 120 /\ b <> 88 /\ int16 h = Ok n /\ 0 <= n <= 0x10FFFF) strict true s v.
Proof. intros. apply loads_iff. Qed.
(** a text is not two values *)
Theorem json_text_unambiguous : forall F nan inf neginf parse_float parse_int strict s v v',
  json_text F nan inf neginf parse_float parse_int hex4 strict true s v -> json_text F nan inf neginf parse_float parse_int hex4 strict true s v' -> v = v'.
Proof.
  intros F nan inf neginf parse_float parse_int strict s v v' A B.
  apply (json_loads_reads_json _ _ _ _ _ _ (fun _ => false) (fun _ => None) None) in A. apply (json_loads_reads_json _ _ _ _ _ _ (fun _ => false) (fun _ => None) None) in B. congruence.
Qed.
(** other texts raise JSONDecodeError, or what int or float raise for a number in them *)
Theorem json_loads_raises_partial : forall F nan inf neginf parse_float parse_int uspace udecimal max_digits strict s,
  (forall a b, s = a ++ 92 :: 117 :: b -> exists h n r, b = h ++ r /\ hex4 h n) ->
  ~ (exists v, json_text F nan inf neginf parse_float parse_int hex4 strict true s v) ->
  let r := loads F nan inf neginf parse_float parse_int (fun h => py_int uspace udecimal max_digits h 16) strict s in
  r = JBad \/ exists e t, r = JErr e /\ ((int_part t /\ parse_int t = Err e) \/ (real_number t /\ parse_float t = Err e)).
Proof.
  intros F nan inf neginf parse_float parse_int us ud md strict s P N r. subst r.
  pose proof (loads_total F nan inf neginf parse_float parse_int (fun h => py_int us ud md h 16) strict s) as [T1 T2].
  pose proof (loads_err F nan inf neginf parse_float parse_int (fun h => py_int us ud md h 16) strict (int16_hex us ud md) s) as Er.
  pose proof (json_loads_only_json_partial F nan inf neginf parse_float parse_int us ud md strict s) as So.
  destruct (loads F nan inf neginf parse_float parse_int (fun h => py_int us ud md h 16) strict s) as [v| | |e|]; try congruence.
  - exfalso. apply N. exists v. now apply So.
  - now left.
  - right. destruct (Er e P eq_refl) as (t & X). eauto.
Qed.
(** the text "\u1_23" is not JSON, and is read as a string; "\u-123" raises a ValueError that is
    not a JSONDecodeError *)
Theorem json_loads_escape_refuted :
  let ld := loads whole NaN Inf NegInf read_whole read_int (fun h => py_int (fun _ => false) (fun _ => None) None h 16) true in
  (exists s v, ld s = JOk v /\ forall v', ~ json_text whole NaN Inf NegInf read_whole read_int hex4 true true s v') /\
  (exists s, ld s = JErr ValueError).
Proof.
  intro ld. split.
  - exists [34; 92; 117; 49; 95; 50; 51; 34], (JStr [291]). split; [vm_compute; reflexivity|]. intros v' T.
    (* accepted by no decoder that only takes hexadecimal digits *)
    pose proof (proj2 (loads_iff whole NaN Inf NegInf read_whole read_int (fun h => if existsb (Z.eqb 95) h then Err ValueError else py_int (fun _ => false) (fun _ => None) None h 16) true
      [34; 92; 117; 49; 95; 50; 51; 34] v')) as L.
    assert (X : loads whole NaN Inf NegInf read_whole read_int (fun h => if existsb (Z.eqb 95) h then Err ValueError else py_int (fun _ => false) (fun _ => None) None h 16) true
      [34; 92; 117; 49; 95; 50; 51; 34] = JBad) by (vm_compute; reflexivity).
    rewrite X in L. assert (Y : @JBad (val whole) = JOk v'); [|discriminate Y]. apply L. clear L X. refine (text_mono _ _ _ _ _ _ _ _ _ _ _ _ (fun _ => True) _ _ _ _ I T).
    + intro; assumption.
    + intros; exact I.
    + intros t u _ C. eapply chars_hex4_loose; [|exact C]. intros h n H. pose proof (int16_hex (fun _ => false) (fun _ => None) None h n H) as K.
      destruct (existsb (Z.eqb 95) h) eqn:E; [|exact K]. exfalso. apply existsb_exists in E. destruct E as (x & I1 & E). apply Z.eqb_eq in E. subst x.
      destruct H as (a & b & c & d & x & y & z & q & -> & H1 & H2 & H3 & H4 & _). unfold hex_value in *. cbn in I1. lia.
  - exists [34; 92; 117; 45; 49; 50; 51; 34]. vm_compute. reflexivity.
Qed.
Print Assumptions json_loads_reads_json.
Print Assumptions json_loads_only_json_partial.
Print Assumptions json_loads_exactly.
Print Assumptions json_text_unambiguous.
Print Assumptions json_loads_raises_partial.
Print Assumptions json_loads_escape_refuted.

(** [ {"a" : -1e5} , "é" ] *)
Example text_sample : loads whole NaN Inf NegInf (fun _ => Ok (Num 7)) read_int (fun h => py_int (fun _ => false) (fun _ => None) None h 16) true
  [32; 91; 32; 123; 34; 97; 34; 32; 58; 45; 49; 101; 53; 125; 32; 44; 10; 34; 92; 117; 48; 48; 101; 57; 34; 93] =
  JOk (JList [JDict [([97], JFloat (Num 7))]; JStr [233]]).
Proof. vm_compute. reflexivity. Qed.
Example rejected_sample : forall v, ~ json_text whole NaN Inf NegInf read_whole read_int hex4 true true [91; 49; 44; 93] v.
Proof.
  intros v T. apply (json_loads_reads_json _ _ _ _ _ _ (fun _ => false) (fun _ => None) None) in T. vm_compute in T. discriminate.
Qed.

(** * C81 *)
(** in each encoding, with or without a byte order mark, the bytes of a JSON text are recognized;
    [decode_bytes] is bytes.decode *)
Theorem json_bytes_encoding : forall F nan inf neginf parse_float parse_int hex constants s v,
  json_text F nan inf neginf parse_float parse_int hex true constants s v -> code_points s ->
  (forall e, detect_encoding (text_bytes e s) = e) /\
  (forall wide, detect_encoding (text_bytes_big_mark wide s) = if wide then utf_32 else utf_16).
Proof.
  intros F nan inf neginf parse_float parse_int hex constants s v T C. split; [|intro wide; apply detect_big_mark].
  intro e. apply detect_ok. eapply text_start; eassumption.
Qed.
Theorem json_loads_bytes : forall F nan inf neginf parse_float parse_int uspace udecimal max_digits decode_bytes e s v,
  json_text F nan inf neginf parse_float parse_int hex4 true true s v -> code_points s ->
  decode_bytes e (text_bytes e s) = Ok s ->
  loads_bytes F nan inf neginf parse_float parse_int (fun h => py_int uspace udecimal max_digits h 16) decode_bytes true (text_bytes e s) = JOk v.
Proof.
  intros F nan inf neginf parse_float parse_int us ud md decode_bytes e s v T C D. unfold loads_bytes.
  rewrite (proj1 (json_bytes_encoding _ _ _ _ _ _ _ _ s v T C) e), D. cbn [of_res jbind].
  pose proof (json_loads_reads_json F nan inf neginf parse_float parse_int us ud md true s v T) as L.
  unfold loads in L. destruct s as [|c s]; [exact L|]. destruct (c =? 65279); [discriminate|exact L].
Qed.
Theorem json_loads_bytes_big_mark : forall F nan inf neginf parse_float parse_int uspace udecimal max_digits decode_bytes (wide : bool) s v,
  json_text F nan inf neginf parse_float parse_int hex4 true true s v -> code_points s ->
  decode_bytes (if wide then utf_32 else utf_16) (text_bytes_big_mark wide s) = Ok s ->
  loads_bytes F nan inf neginf parse_float parse_int (fun h => py_int uspace udecimal max_digits h 16) decode_bytes true (text_bytes_big_mark wide s) = JOk v.
Proof.
  intros F nan inf neginf parse_float parse_int us ud md decode_bytes wide s v T C D. unfold loads_bytes.
  rewrite (proj2 (json_bytes_encoding _ _ _ _ _ _ _ _ s v T C) wide), D. cbn [of_res jbind].
  pose proof (json_loads_reads_json F nan inf neginf parse_float parse_int us ud md true s v T) as L.
  unfold loads in L. destruct s as [|c s]; [exact L|]. destruct (c =? 65279); [discriminate|exact L].
Qed.
Print Assumptions json_bytes_encoding.
Print Assumptions json_loads_bytes_big_mark.
Print Assumptions json_loads_bytes.
(** "ä" in UTF-16, big-endian, without a mark *)
Example bytes_sample : json_text whole NaN Inf NegInf read_whole read_int hex4 true true [34; 228; 34] (JStr [228]) /\ code_points [34; 228; 34] /\
  text_bytes utf_16_be [34; 228; 34] = [0; 34; 0; 228; 0; 34].
Proof.
  split; [|split; [|reflexivity]].
  - exists [], [34; 228; 34], []. split; [reflexivity|]. split; [constructor|]. split; [|constructor].
    apply (value_string whole NaN Inf NegInf read_whole read_int hex4 true true [228] [228]). apply chars_plain; [lia|lia|lia|constructor].
  - repeat (constructor; [lia|]). constructor.
Qed.
