(** Proofs about Json_Model: json.dumps writes texts of the grammar; proper escapes. *)
From Coq Require Import ZArith List Bool Lia ZifyBool ZifyNat.
From Verif Require Import Py Json_Model Json_Spec Json_Proofs JsonRead_Proofs.
Import ListNotations.
Open Scope Z_scope.

(** * Hexadecimal digits *)
Lemma hex_value_fun : forall c x y, hex_value c x -> hex_value c y -> x = y.
Proof. unfold hex_value. intros. lia. Qed.
Lemma hex4_fun : forall h n m, hex4 h n -> hex4 h m -> n = m.
Proof.
  intros h n m (a & b & c & d & x & y & z & t & -> & X & Y & Z & T & ->) (a' & b' & c' & d' & x' & y' & z' & t' & E & X' & Y' & Z' & T' & ->).
  inversion E; subst. f_equal; [f_equal; [f_equal|]|]; try f_equal; eapply hex_value_fun; eassumption.
Qed.
Lemma hexdigit_value : forall d, 0 <= d < 16 -> hex_value (hexdigit d) d.
Proof. intros d D. unfold hex_value, hexdigit. destruct (d <? 10) eqn:E; lia. Qed.
Lemma fmt_hex : forall n, 0 <= n < 65536 -> hex4 (fmt04x n) n.
Proof.
  intros n N. unfold fmt04x.
  exists (hexdigit (n / 4096 mod 16)), (hexdigit (n / 256 mod 16)), (hexdigit (n / 16 mod 16)), (hexdigit (n mod 16)),
    (n / 4096 mod 16), (n / 256 mod 16), (n / 16 mod 16), (n mod 16).
  split; [reflexivity|]. do 4 (split; [apply hexdigit_value, Z.mod_pos_bound; reflexivity|]).
  assert (Z.div n 4096 mod 16 = n / 4096) by (apply Z.mod_small; split; [apply Z.div_pos; lia|apply Z.div_lt_upper_bound; lia]).
  pose proof (Z.div_mod n 16 ltac:(lia)). pose proof (Z.div_mod (n / 16) 16 ltac:(lia)). pose proof (Z.div_mod (n / 256) 16 ltac:(lia)).
  rewrite Z.div_div in * by lia. change (16 * 16) with 256 in *. change (256 * 16) with 4096 in *. lia.
Qed.
Lemma hex4_range : forall h n, hex4 h n -> 0 <= n < 65536.
Proof. intros h n (a & b & c & d & x & y & z & t & -> & X & Y & Z & T & ->). unfold hex_value in *. lia. Qed.

Definition ascii (s : str) : Prop := Forall (fun c => 0 <= c < 128) s.
Lemma hexdigit_ascii : forall d, 0 <= d < 16 -> 0 <= hexdigit d < 128.
Proof. intros d D. unfold hexdigit. destruct (d <? 10); lia. Qed.
Lemma fmt_ascii : forall n, ascii (fmt04x n).
Proof. intro n. unfold fmt04x, ascii. repeat apply Forall_cons; try apply hexdigit_ascii; try (apply Z.mod_pos_bound; reflexivity). constructor. Qed.

(** * Strings *)
Lemma lor_surrogate : forall k x, k = 54 \/ k = 55 -> 0 <= x < 1024 -> Z.lor (k * 1024) x = k * 1024 + x.
Proof. intros k x K X. rewrite <- lor_joined by lia. rewrite Z.shiftl_mul_pow2 by lia. reflexivity. Qed.
Lemma land_1023 : forall x, Z.land x 1023 = x mod 1024.
Proof. intro x. change 1023 with (Z.ones 10). now rewrite Z.land_ones by lia. Qed.
Definition hi_of (c : Z) : Z := Z.lor 55296 (Z.land (Z.shiftr (c - 65536) 10) 1023).
Definition lo_of (c : Z) : Z := Z.lor 56320 (Z.land (c - 65536) 1023).
Lemma pair_ok : forall c, 65536 <= c <= 1114111 -> high (hi_of c) /\ low (lo_of c) /\ joined (hi_of c) (lo_of c) = c.
Proof.
  intros c C. unfold hi_of, lo_of. rewrite !land_1023, Z.shiftr_div_pow2 by lia. change (2 ^ 10) with 1024.
  rewrite (Z.mod_small ((c - 65536) / 1024)) by (split; [apply Z.div_pos; lia|apply Z.div_lt_upper_bound; lia]).
  assert (A : 0 <= (c - 65536) / 1024 < 1024) by (split; [apply Z.div_pos; lia|apply Z.div_lt_upper_bound; lia]).
  pose proof (Z.mod_pos_bound (c - 65536) 1024 ltac:(lia)) as B.
  change 55296 with (54 * 1024). change 56320 with (55 * 1024). rewrite !lor_surrogate by lia. unfold high, low, joined.
  pose proof (Z.div_mod (c - 65536) 1024 ltac:(lia)). lia.
Qed.

(** how a character is written: as it is, with a short escape, as one \u escape or as two *)
Inductive written (c : Z) : str -> Prop :=
| written_plain : c <> 34 -> c <> 92 -> ~ (0 <= c < 32) -> written c [c]
| written_short : forall e, In (e, c) short_escapes -> written c [92; e]
| written_u : 0 <= c < 65536 -> written c ([92; 117] ++ fmt04x c)
| written_pair : 65536 <= c <= 1114111 -> written c ([92; 117] ++ fmt04x (hi_of c) ++ [92; 117] ++ fmt04x (lo_of c)).
Lemma escape_written : forall c r, escape_dct c = Some r -> written c r.
Proof.
  intros c r H. unfold escape_dct in H.
  repeat (hyp_if H; [inversion H; subst r; try (match goal with E : (c =? ?k) = true |- _ => apply Z.eqb_eq in E; subst c end; apply written_short; cbn; tauto)|]);
    [apply written_u; lia|discriminate].
Qed.
Lemma ascii_written : forall c, 0 <= c <= 1114111 -> written c (if escape_ascii c then replace_ascii c else [c]).
Proof.
  intros c C. unfold escape_ascii. destruct ((c =? 92) || (c =? 34) || negb ((32 <=? c) && (c <=? 126))) eqn:E; [|apply written_plain; lia].
  unfold replace_ascii. destruct (escape_dct c) as [r|] eqn:D; [now apply escape_written|].
  destruct (c <? 65536) eqn:L; [apply written_u; lia|]. change (written c ([92; 117] ++ fmt04x (hi_of c) ++ [92; 117] ++ fmt04x (lo_of c))). apply written_pair. lia.
Qed.
Lemma raw_written : forall c, written c (if escape c then replace c else [c]) /\ (65536 <= c <= 1114111 -> (if escape c then replace c else [c]) = [c])
   /\ (high c -> (if escape c then replace c else [c]) = [c]).
Proof.
  intro c. unfold escape. destruct (((0 <=? c) && (c <=? 31)) || (c =? 92) || (c =? 34)) eqn:E.
  - split; [|unfold high; split; intro; lia]. unfold replace. destruct (escape_dct c) as [r|] eqn:D; [now apply escape_written|].
    exfalso. unfold escape_dct in D. repeat (hyp_if D; [discriminate|]). lia.
  - split; [apply written_plain; lia|]. split; intro; reflexivity.
Qed.
Lemma written_starts : forall c r t h n q, written c r -> r ++ t = 92 :: 117 :: h ++ q -> hex4 h n ->
  low n -> low c.
Proof.
  intros c r t h n q W E H L. assert (Len : forall h' x, hex4 h' x -> length h' = 4%nat) by (intros h' x (a & b & d & e & _ & _ & _ & _ & -> & _); reflexivity).
  assert (App : forall h1 h2 x y (r1 r2 : str), hex4 h1 x -> hex4 h2 y -> h1 ++ r1 = h2 ++ r2 -> h1 = h2).
  { intros h1 h2 x y r1 r2 (a & b & d & e & _ & _ & _ & _ & -> & _) (a' & b' & d' & e' & _ & _ & _ & _ & -> & _) Q. now inversion Q. }
  destruct W as [A B D|e I|R|R].
  - cbn in E. inversion E. congruence.
  - cbn in E. inversion E; subst e. cbn in I. repeat (destruct I as [I|I]; [discriminate|]). contradiction.
  - cbn [app] in E. inversion E as [E']. pose proof (fmt_hex c R) as X. 
    assert (h = fmt04x c) by (symmetry; eapply App; [exact X|exact H|exact E']). subst h. now rewrite (hex4_fun _ _ _ X H).
  - cbn [app] in E. pose proof (pair_ok c R) as (Hi & _ & _). unfold high in Hi. pose proof (fmt_hex (hi_of c) ltac:(lia)) as X. inversion E as [E'].
    exfalso. assert (h = fmt04x (hi_of c)). { symmetry. eapply App; [exact X|exact H|]. exact E'. }
    subst h. pose proof (hex4_fun _ _ _ X H). subst n. unfold low in L. lia.
Qed.
Lemma string_chars : forall rep s, (forall c, In c s -> written c (rep c)) ->
  (unpaired s \/ forall c, high c -> rep c = [c]) -> chars hex4 true (concat (map rep s)) s.
Proof.
  intros rep s. induction s as [|c s IH]; intros W U; cbn [map concat]; [constructor|].
  assert (Cs : chars hex4 true (concat (map rep s)) s).
  { apply IH; [intros; apply W; now right|]. destruct U as [U|U]; [left|now right]. intros a x y b E. apply (U (c :: a) x y b). now rewrite E. }
  pose proof (W c (or_introl eq_refl)) as Wc. remember (rep c) as r eqn:Er. destruct Wc as [A B D|e I|R|R].
  - cbn [app]. apply chars_plain; try assumption. intro; exfalso; tauto.
  - cbn [app]. now apply chars_short.
  - rewrite <- app_assoc. cbn [app]. apply chars_u; [now apply fmt_hex| |assumption].
    intros [Hi (h2 & n2 & q & E & H2 & L)]. destruct U as [U|U]; [|rewrite U in Er by assumption; discriminate].
    destruct s as [|d s]; [discriminate|]. cbn [map concat] in E.
    apply (U [] c d s eq_refl). split; [assumption|]. eapply written_starts; [apply W; right; now left|exact E|exact H2|exact L].
  - destruct (pair_ok c R) as (Hi & Lo & J). repeat (rewrite <- ?app_assoc; cbn [app]).
    assert (P : chars hex4 true (92 :: 117 :: fmt04x (hi_of c) ++ 92 :: 117 :: fmt04x (lo_of c) ++ concat (map rep s)) (joined (hi_of c) (lo_of c) :: s)).
    { apply chars_pair; try assumption; apply fmt_hex; unfold high, low in *; lia. }
    rewrite J in P. exact P.
Qed.
Lemma written_ascii : forall c r, written c r -> (r = [c] -> 0 <= c < 128) -> ascii r.
Proof.
  intros c r [A B D|e I|R|R] P; unfold ascii.
  - constructor; [now apply P|constructor].
  - constructor; [lia|]. constructor; [|constructor]. cbn in I. repeat (destruct I as [I|I]; [inversion I; lia|]). contradiction.
  - apply Forall_app. split; [|apply fmt_ascii]. repeat (constructor; [lia|]). constructor.
  - repeat (apply Forall_app; split); try apply fmt_ascii; repeat (constructor; [lia|]); constructor.
Qed.

Lemma encode_ascii_ok : forall s, code_points s -> unpaired s ->
  exists t, encode_basestring_ascii s = 34 :: t ++ [34] /\ chars hex4 true t s /\ ascii t.
Proof.
  intros s C U. unfold encode_basestring_ascii. exists (sub escape_ascii replace_ascii s). split; [reflexivity|]. unfold sub.
  assert (W : forall c, In c s -> written c (if escape_ascii c then replace_ascii c else [c])).
  { intros c I. apply ascii_written. unfold code_points in C. rewrite Forall_forall in C. apply C, I. }
  split; [apply string_chars; [exact W|now left]|]. clear U C. induction s as [|c s IH]; cbn [map concat]; [constructor|].
  apply Forall_app. split; [|apply IH; intros; apply W; now right].
  eapply written_ascii; [apply W; now left|]. intro E. destruct (escape_ascii c) eqn:X; [|unfold escape_ascii in X; lia].
  exfalso. unfold replace_ascii in E. destruct (escape_dct c) as [r|] eqn:D.
  - unfold escape_dct in D. subst r. repeat (hyp_if D; [discriminate|]). discriminate.
  - destruct (c <? 65536); discriminate.
Qed.
Lemma encode_raw_ok : forall s, exists t, encode_basestring s = 34 :: t ++ [34] /\ chars hex4 true t s.
Proof.
  intro s. exists (sub escape replace s). split; [reflexivity|]. unfold sub. apply string_chars; [intros c _; apply raw_written|].
  right. intros c H. now apply raw_written.
Qed.

(** * Every value is written as a text for what is read back *)
Section Write.
Variable F : Type.
Variable feq : F -> F -> bool.
Variables nan inf neginf : F.
Variable float_repr : F -> str.
Variable int_repr : Z -> str.
Variable parse_float : str -> res F.
Variable parse_int : str -> res Z.
Hypothesis ints : forall z, int_part (int_repr z) /\ parse_int (int_repr z) = Ok z.
Hypothesis floats : forall f, finite F feq inf neginf f -> real_number (float_repr f) /\ parse_float (float_repr f) = Ok f.
Hypothesis nans : forall f, feq f f = false -> f = nan.
Hypothesis infs : forall f, feq f inf = true -> f = inf.
Hypothesis neginfs : forall f, feq f neginf = true -> f = neginf.
Variable o : options.
Definition writable (s : str) : Prop := ensure_ascii o = true -> code_points s /\ unpaired s.
Definition float_ok (f : F) : Prop := allow_nan o = true \/ finite F feq inf neginf f.
Variables i1 i2 k1 k2 : str.
Hypothesis isep : item_separator o = i1 ++ [44] ++ i2.
Hypothesis ksep : key_separator o = k1 ++ [58] ++ k2.
Hypothesis blanks : blank i1 /\ blank i2 /\ blank k1 /\ blank k2.
Hypothesis indents : forall i, indent o = Some i -> blank i.

Notation val_ := (value F nan inf neginf parse_float parse_int hex4 true (allow_nan o)).
Notation els := (elements F nan inf neginf parse_float parse_int hex4 true (allow_nan o)).
Notation mems := (members F nan inf neginf parse_float parse_int hex4 true (allow_nan o)).
Notation ftext := (float_text F feq inf neginf float_repr).
Notation back := (read_back F ftext int_repr).
Notation ktext := (key_text F ftext int_repr).
Notation enc_ := (iterencode F feq inf neginf float_repr int_repr o).

Lemma blank_ascii : forall b, blank b -> ascii b.
Proof. intros b B. eapply Forall_impl; [|exact B]. cbn. intros a A. lia. Qed.
Lemma digits_ascii : forall ds, Forall decimal_digit ds -> ascii ds.
Proof. intros b B. eapply Forall_impl; [|exact B]. unfold decimal_digit. intros a A. lia. Qed.
Lemma int_ascii : forall t, int_part t -> ascii t.
Proof.
  intros t (sign & ds & -> & G & D). apply Forall_app. split; [destruct G as [->| ->]; repeat (constructor; [lia|]); constructor|].
  destruct D as [->|(c & r & -> & C & R)]; constructor; try lia; [constructor|]. now apply digits_ascii.
Qed.
Lemma real_ascii : forall t, real_number t -> ascii t.
Proof.
  intros t (i & f & e & -> & I & Fr & Ex & _). apply Forall_app. split; [now apply int_ascii|]. apply Forall_app. split.
  - destruct Fr as [->|(c & r & -> & D)]; [constructor|]. constructor; [lia|]. now apply digits_ascii.
  - destruct Ex as [->|(x & sign & c & r & -> & X & G & D)]; [constructor|]. constructor; [lia|]. apply Forall_app. split; [|now apply digits_ascii].
    destruct G as [->|[->| ->]]; repeat (constructor; [lia|]); constructor.
Qed.
Lemma ascii_writable : forall s, ascii s -> writable s.
Proof.
  intros s A _. split; [eapply Forall_impl; [|exact A]; cbn; intros; lia|]. intros a c d b -> [H _]. apply Forall_app in A. destruct A as [_ A].
  inversion A. unfold high in H. lia.
Qed.
Definition asc (s : str) : Prop := ensure_ascii o = true -> ascii s.
Lemma asc_app : forall a b, asc a -> asc b -> asc (a ++ b).
Proof. intros a b A B E. apply Forall_app; split; [exact (A E)|exact (B E)]. Qed.
Lemma asc_of : forall a, ascii a -> asc a.
Proof. intros a A _. exact A. Qed.

Lemma encoder_ok : forall s, writable s -> exists t, encoder o s = 34 :: t ++ [34] /\ chars hex4 true t s /\ asc (encoder o s).
Proof.
  intros s W. unfold encoder, writable, asc in *. destruct (ensure_ascii o) eqn:E.
  - destruct (W eq_refl) as [C U]. destruct (encode_ascii_ok s C U) as (t & T & Ch & A). exists t. split; [assumption|]. split; [assumption|]. intros _. rewrite T.
    constructor; [lia|]. apply Forall_app. split; [exact A|]. repeat (constructor; [lia|]). constructor.
  - destruct (encode_raw_ok s) as (t & T & Ch). exists t. split; [assumption|]. split; [assumption|]. intro; discriminate.
Qed.
Lemma floatstr_ok : forall f, float_ok f -> floatstr F feq inf neginf float_repr o f = Ok (ftext f) /\ val_ (ftext f) (JFloat f) /\ ascii (ftext f).
Proof.
  intros f H. unfold floatstr, float_text, float_ok, finite in *. destruct (feq f f) eqn:E1; cbn [negb].
  - destruct (feq f inf) eqn:E2.
    + destruct H as [H|(_ & H & _)]; [|discriminate]. rewrite H. rewrite (infs f E2). split; [reflexivity|]. split; [now constructor|]. repeat (constructor; [lia|]). constructor.
    + destruct (feq f neginf) eqn:E3.
      * destruct H as [H|(_ & _ & H)]; [|discriminate]. rewrite H. rewrite (neginfs f E3). split; [reflexivity|]. split; [now constructor|]. repeat (constructor; [lia|]). constructor.
      * destruct (floats f) as [R P]; [unfold finite; auto|]. split; [reflexivity|]. split; [now apply value_real|]. now apply real_ascii.
  - destruct H as [H|(H & _)]; [|discriminate]. rewrite H. rewrite (nans f E1). split; [reflexivity|]. split; [now constructor|]. repeat (constructor; [lia|]). constructor.
Qed.
Lemma keystr_ok : forall k, all_key F writable float_ok (skipkeys o) k -> exists s, keystr F feq inf neginf float_repr int_repr o k = Ok (Some s) /\ ktext k = Some s /\ writable s.
Proof.
  intros k K. destruct K as [s W|f W|b| |z].
  - exists s. auto.
  - destruct (floatstr_ok f W) as (E & _ & A). exists (ftext f). cbn [keystr]. rewrite E. split; [reflexivity|]. split; [reflexivity|]. now apply ascii_writable.
  - destruct b; eexists; (split; [reflexivity|]; split; [reflexivity|]); apply ascii_writable; repeat (constructor; [lia|]); constructor.
  - eexists; (split; [reflexivity|]; split; [reflexivity|]); apply ascii_writable; repeat (constructor; [lia|]); constructor.
  - eexists; (split; [reflexivity|]; split; [reflexivity|]). apply ascii_writable, int_ascii, ints.
Qed.
Lemma newline_blank : forall i n, blank i -> blank (newline i n).
Proof. intros i n B. constructor; [auto|]. induction n as [|n IH]; [constructor|]. cbn. now apply blank_app. Qed.

(** the loops of _iterencode_list and _iterencode_dict *)
Definition list_items (sep : str) (level : nat) :=
  fix items (l : list (pyv F)) (first : bool) : res str :=
    match l with
    | [] => Ok []
    | v :: l => do e <- enc_ v level; do r <- items l false; Ok ((if first then [] else sep) ++ e ++ r)
    end.
Definition dict_items (sep : str) (level : nat) :=
  fix items (l : list (key F * pyv F)) (first : bool) : res str :=
    match l with
    | [] => Ok []
    | (k, v) :: l =>
        do k <- keystr F feq inf neginf float_repr int_repr o k;
        match k with
        | None => items l first
        | Some k => do e <- enc_ v level; do r <- items l false;
                    Ok ((if first then [] else sep) ++ encoder o k ++ key_separator o ++ e ++ r)
        end
    end.
Definition entries := fix entries (l : list (key F * pyv F)) : list (str * val F) :=
  match l with [] => [] | (k, v) :: l => match ktext k with Some s => (s, back v) :: entries l | None => entries l end end.
Definition deeper (level : nat) : nat := match indent o with Some _ => S level | None => level end.
Definition nl_at (level : nat) : str := match indent o with Some i => newline i level | None => [] end.
Lemma nl_blank : forall n, blank (nl_at n).
Proof. intro n. unfold nl_at. destruct (indent o) as [i|] eqn:E; [apply newline_blank, indents; reflexivity|constructor]. Qed.
Lemma list_eq : forall l level, l <> [] ->
  enc_ (PList l) level = (do body <- list_items (item_separator o ++ nl_at (deeper level)) (deeper level) l true;
                          Ok ([91] ++ nl_at (deeper level) ++ body ++ nl_at level ++ [93])).
Proof. intros [|v l] level N; [congruence|]. reflexivity. Qed.
Lemma tuple_eq : forall l level, enc_ (PTuple l) level = enc_ (PList l) level.
Proof. intros [|v l] level; reflexivity. Qed.
Lemma dict_eq : forall l level, l <> [] ->
  enc_ (PDict l) level = (do body <- dict_items (item_separator o ++ nl_at (deeper level)) (deeper level) l true;
                          Ok ([123] ++ nl_at (deeper level) ++ body ++ nl_at level ++ [125])).
Proof. intros [|v l] level N; [congruence|]. reflexivity. Qed.
Lemma back_dict : forall l, back (PDict l) = JDict (as_dict (length (entries l)) (entries l)).
Proof. reflexivity. Qed.

Definition written_ok (v : pyv F) : Prop := forall level, exists s, enc_ v level = Ok s /\ val_ s (back v) /\ asc s.
Lemma sep_parts : forall level, exists s2, item_separator o ++ nl_at level = i1 ++ 44 :: s2 /\ blank s2.
Proof. intro level. exists (i2 ++ nl_at level). split; [rewrite isep; now rewrite <- !app_assoc|]. apply blank_app; [tauto|apply nl_blank]. Qed.
Lemma list_items_ok : forall lv level l v, Forall written_ok (v :: l) -> forall first,
  exists body, list_items (item_separator o ++ nl_at lv) level (v :: l) first = Ok ((if first then [] else item_separator o ++ nl_at lv) ++ body) /\
    asc body /\ forall pre post, blank pre -> blank post -> els (pre ++ body ++ post) (map back (v :: l)).
Proof.
  intros lv level l. induction l as [|v' l IH]; intros v W first; inversion W as [|? ? Wv Wl]; subst; destruct (Wv level) as (e & E & V & A).
  - exists e. cbn [list_items]. rewrite E. cbn [bind]. split; [now rewrite app_nil_r|]. split; [assumption|]. intros pre post B1 B2. now constructor.
  - destruct (IH v' Wl false) as (body & Eb & Ab & Vb). exists (e ++ (item_separator o ++ nl_at lv) ++ body).
    split; [change (list_items (item_separator o ++ nl_at lv) level (v :: v' :: l) first) with
      (do e <- enc_ v level; do r <- list_items (item_separator o ++ nl_at lv) level (v' :: l) false; Ok ((if first then [] else item_separator o ++ nl_at lv) ++ e ++ r));
      rewrite E; cbn [bind]; rewrite Eb; reflexivity|].
    destruct (sep_parts lv) as (s2 & S2 & B2). destruct blanks as (I1 & _). rewrite S2. split.
    + apply asc_app; [assumption|]. apply asc_app; [|assumption]. apply asc_app; [now apply asc_of, blank_ascii|]. apply asc_of. constructor; [lia|]. now apply blank_ascii.
    + intros pre post P1 P2. pose proof (elements_more F nan inf neginf parse_float parse_int hex4 true (allow_nan o) pre e i1 (back v) (s2 ++ body ++ post) (map back (v' :: l)) P1 V I1
        (Vb s2 post B2 P2)) as X. cbn [map] in *. replace (pre ++ (e ++ (i1 ++ 44 :: s2) ++ body) ++ post) with (pre ++ e ++ i1 ++ 44 :: s2 ++ body ++ post); [exact X|]. app_eq.
Qed.
Lemma dict_items_ok : forall lv level l,
  Forall (fun p => (fst p = KOther /\ skipkeys o = true) \/ (all_key F writable float_ok (skipkeys o) (fst p) /\ written_ok (snd p))) l -> forall first,
  (entries l = [] /\ dict_items (item_separator o ++ nl_at lv) level l first = Ok []) \/
  exists body, dict_items (item_separator o ++ nl_at lv) level l first = Ok ((if first then [] else item_separator o ++ nl_at lv) ++ body) /\
    asc body /\ forall pre post, blank pre -> blank post -> mems (pre ++ body ++ post) (entries l).
Proof.
  intros lv level l W. induction W as [|[k v] l Wp Wl IH]; intro first; [left; auto|]. cbn [fst snd] in Wp.
  assert (Step : dict_items (item_separator o ++ nl_at lv) level ((k, v) :: l) first =
    (do k <- keystr F feq inf neginf float_repr int_repr o k;
        match k with
        | None => dict_items (item_separator o ++ nl_at lv) level l first
        | Some k => do e <- enc_ v level; do r <- dict_items (item_separator o ++ nl_at lv) level l false;
                    Ok ((if first then [] else item_separator o ++ nl_at lv) ++ encoder o k ++ key_separator o ++ e ++ r)
        end)) by reflexivity.
  rewrite Step. clear Step. destruct Wp as [[-> Sk]|[Wk Wv]].
  - cbn [keystr]. rewrite Sk. cbn [bind]. change (entries ((KOther, v) :: l)) with (entries l). apply IH.
  - destruct (keystr_ok k Wk) as (ks & K1 & K2 & K3). rewrite K1. cbn [bind]. destruct (Wv level) as (e & E & V & A). rewrite E. cbn [bind].
    assert (En : entries ((k, v) :: l) = (ks, back v) :: entries l) by (cbn [entries]; now rewrite K2). rewrite En.
    destruct (encoder_ok ks K3) as (kt & Ek & Ck & Ak). destruct blanks as (I1 & I2 & B1 & B2). right.
    assert (Ask : asc (key_separator o)).
    { rewrite ksep. apply asc_app; [now apply asc_of, blank_ascii|]. apply asc_of. constructor; [lia|]. now apply blank_ascii. }
    destruct (IH false) as [[En0 D]|(body & D & Ab & M)]; rewrite D; cbn [bind].
    + exists (encoder o ks ++ key_separator o ++ e). split; [now rewrite app_nil_r|]. split; [repeat apply asc_app; assumption|].
      intros pre post P1 P2. rewrite En0, Ek, ksep.
      replace (pre ++ ((34 :: kt ++ [34]) ++ (k1 ++ [58] ++ k2) ++ e) ++ post) with (pre ++ 34 :: kt ++ 34 :: k1 ++ 58 :: k2 ++ e ++ post) by app_eq.
      apply members_one; assumption.
    + exists (encoder o ks ++ key_separator o ++ e ++ (item_separator o ++ nl_at lv) ++ body). split; [reflexivity|].
      destruct (sep_parts lv) as (s2 & S2 & Bs2). rewrite S2. split.
      * repeat apply asc_app; try assumption; [now apply asc_of, blank_ascii|]. apply asc_of. constructor; [lia|]. now apply blank_ascii.
      * intros pre post P1 P2. rewrite Ek, ksep.
        replace (pre ++ ((34 :: kt ++ [34]) ++ (k1 ++ [58] ++ k2) ++ e ++ (i1 ++ 44 :: s2) ++ body) ++ post)
          with (pre ++ 34 :: kt ++ 34 :: k1 ++ 58 :: k2 ++ e ++ i1 ++ 44 :: s2 ++ body ++ post) by app_eq.
        apply members_more; try assumption. now apply M.
Qed.

Lemma iterencode_ok : forall v, all F writable float_ok (skipkeys o) v -> written_ok v.
Proof.
  assert (Lists : forall l, Forall written_ok l -> written_ok (PList l)).
  { intros l W level. destruct l as [|v l].
    - exists [91; 93]. split; [reflexivity|]. split; [apply (value_empty_array F nan inf neginf parse_float parse_int hex4 true (allow_nan o) []); constructor|].
      apply asc_of. repeat (constructor; [lia|]). constructor.
    - rewrite list_eq by discriminate. destruct (list_items_ok (deeper level) (deeper level) l v W true) as (body & E & A & V). rewrite E. cbn [bind app].
      eexists. split; [reflexivity|]. split.
      + change (back (PList (v :: l))) with (JList (map back (v :: l))).
        replace (91 :: nl_at (deeper level) ++ body ++ nl_at level ++ [93]) with (91 :: (nl_at (deeper level) ++ body ++ nl_at level) ++ [93]) by app_eq.
        apply value_array. apply V; apply nl_blank.
      + change (asc ([91] ++ nl_at (deeper level) ++ body ++ nl_at level ++ [93])).
        repeat apply asc_app; try assumption; apply asc_of; try apply blank_ascii, nl_blank; repeat (constructor; [lia|]); constructor. }
  assert (Dicts : forall l, Forall (fun p => (fst p = KOther /\ skipkeys o = true) \/ (all_key F writable float_ok (skipkeys o) (fst p) /\ written_ok (snd p))) l -> written_ok (PDict l)).
  { intros l W level. destruct l as [|p l].
    - exists [123; 125]. split; [reflexivity|]. split; [apply (value_empty_object F nan inf neginf parse_float parse_int hex4 true (allow_nan o) []); constructor|].
      apply asc_of. repeat (constructor; [lia|]). constructor.
    - rewrite dict_eq by discriminate. rewrite back_dict. destruct (dict_items_ok (deeper level) (deeper level) (p :: l) W true) as [[En E]|(body & E & A & V)]; rewrite E; cbn [bind app].
      + rewrite En. eexists. split; [reflexivity|]. cbn [length as_dict]. split.
        * replace (nl_at (deeper level) ++ nl_at level ++ [125]) with ((nl_at (deeper level) ++ nl_at level) ++ [125]) by app_eq.
          apply value_empty_object. apply blank_app; apply nl_blank.
        * change (asc ([123] ++ nl_at (deeper level) ++ nl_at level ++ [125])).
          repeat apply asc_app; try assumption; apply asc_of; try apply blank_ascii, nl_blank; repeat (constructor; [lia|]); constructor.
      + eexists. split; [reflexivity|]. split.
        * replace (123 :: nl_at (deeper level) ++ body ++ nl_at level ++ [125]) with (123 :: (nl_at (deeper level) ++ body ++ nl_at level) ++ [125]) by app_eq.
          apply value_object. apply V; apply nl_blank.
        * change (asc ([123] ++ nl_at (deeper level) ++ body ++ nl_at level ++ [125])).
          repeat apply asc_app; try assumption; apply asc_of; try apply blank_ascii, nl_blank; repeat (constructor; [lia|]); constructor. }
  fix IH 2. intros v A. destruct A as [|b|z|f Wf|s Ws|l Wl|l Wl|l Wl].
  - intro level. eexists. split; [reflexivity|]. split; [constructor|]. apply asc_of. repeat (constructor; [lia|]). constructor.
  - intro level. destruct b; eexists; (split; [reflexivity|]; split; [constructor|]); apply asc_of; repeat (constructor; [lia|]); constructor.
  - intro level. destruct (ints z) as [I P]. exists (int_repr z). split; [reflexivity|]. split; [now apply value_int|]. now apply asc_of, int_ascii.
  - intro level. destruct (floatstr_ok f Wf) as (E & V & As). exists (ftext f). split; [exact E|]. split; [exact V|]. now apply asc_of.
  - intro level. destruct (encoder_ok s Ws) as (t & T & C & As). exists (encoder o s). split; [reflexivity|]. split; [|exact As]. rewrite T. now apply value_string.
  - apply Lists. clear Lists Dicts. induction Wl as [|v l A _ IHl]; constructor; [apply IH; exact A|exact IHl].
  - intro level. rewrite tuple_eq. revert level. change (written_ok (PList l)). apply Lists. clear Lists Dicts. induction Wl as [|v l A _ IHl]; constructor; [apply IH; exact A|exact IHl].
  - apply Dicts. clear Lists Dicts. induction Wl as [|[k v] l A _ IHl]; constructor; [|exact IHl]. cbn [fst snd] in *.
    destruct A as [X|[K A]]; [left; exact X|right]. split; [exact K|]. apply IH. exact A.
Qed.
Lemma dumps_ok : forall v, all F writable float_ok (skipkeys o) v -> exists s, dumps F feq inf neginf float_repr int_repr o v = Ok s /\
  json_text F nan inf neginf parse_float parse_int hex4 true (allow_nan o) s (back v) /\ (ensure_ascii o = true -> ascii s).
Proof.
  intros v A. destruct (iterencode_ok v A 0%nat) as (s & E & V & As). exists s. split; [destruct v; exact E|]. split; [|exact As].
  exists [], s, []. cbn. rewrite app_nil_r. repeat split; try constructor. assumption.
Qed.
End Write.
