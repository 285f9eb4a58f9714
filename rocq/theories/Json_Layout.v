(** The text json.dumps writes, as documented, and the proof that it is what is written. *)
From Coq Require Import ZArith List Bool Lia ZifyBool ZifyNat.
From Verif Require Import Py Json_Model Json_Spec Json_Proofs JsonRead_Proofs JsonWrite_Proofs JsonMore_Proofs.
Import ListNotations.
Open Scope Z_scope.

(** * Specification *)
Definition lower_hex4 (n : Z) : str :=
  map (fun d => nth (Z.to_nat d) [48; 49; 50; 51; 52; 53; 54; 55; 56; 57; 97; 98; 99; 100; 101; 102] 0) [n / 4096; n / 256 mod 16; n / 16 mod 16; n mod 16].
(** a character inside of quotes: quotes, backslashes and five control characters with a short
    escape; other control characters, and with ensure_ascii all that are not printable ASCII,
    as UTF-16 units in lower-case hexadecimal *)
Definition char_text (only_ascii : bool) (c : Z) : str :=
  match find (fun p => snd p =? c) [(34, 34); (92, 92); (98, 8); (102, 12); (110, 10); (114, 13); (116, 9)] with
  | Some (e, _) => [92; e]
  | None => if (c <? 32) || (only_ascii && (126 <? c)) then flat_map (fun u => [92; 117] ++ lower_hex4 u) (units16 c) else [c]
  end.
Definition string_text (only_ascii : bool) (s : str) : str := [34] ++ flat_map (char_text only_ascii) s ++ [34].
Definition join (sep : str) (l : list str) : str := match l with [] => [] | x :: r => x ++ flat_map (fun y => sep ++ y) r end.
Section Layout.
Variable F : Type.
Variable float_str : F -> str.
Variable int_str : Z -> str.
Variables (only_ascii : bool) (indentation : option str) (item_sep key_sep : str).
Definition line (level : nat) : str := match indentation with Some i => [10] ++ concat (repeat i level) | None => [] end.
(** items inside of brackets, one level deeper, each on its line if there is an indentation *)
Definition block (opening closing : Z) (level : nat) (items : list str) : str :=
  [opening] ++ line (S level) ++ join (item_sep ++ line (S level)) items ++ line level ++ [closing].
Fixpoint layout (level : nat) (v : pyv F) : str :=
  match v with
  | PNone | POther => [110; 117; 108; 108]
  | PBool b => if b then [116; 114; 117; 101] else [102; 97; 108; 115; 101]
  | PInt z => int_str z
  | PFloat f => float_str f
  | PStr s => string_text only_ascii s
  | PList [] | PTuple [] => [91; 93]
  | PDict [] => [123; 125]
  | PList l => block 91 93 level (map (layout (S level)) l)
  | PTuple l => block 91 93 level (map (layout (S level)) l)
  | PDict l => block 123 125 level (flat_map (fun '(k, v) =>
      match key_text F float_str int_str k with Some s => [string_text only_ascii s ++ key_sep ++ layout (S level) v] | None => [] end) l)
  end.
End Layout.

(** * Proofs *)
Lemma lower_digit : forall d, 0 <= d < 16 -> nth (Z.to_nat d) [48; 49; 50; 51; 52; 53; 54; 55; 56; 57; 97; 98; 99; 100; 101; 102] 0 = hexdigit d.
Proof.
  intros d D. assert (H : In d [0; 1; 2; 3; 4; 5; 6; 7; 8; 9; 10; 11; 12; 13; 14; 15]) by (cbn; lia).
  cbn in H. repeat (destruct H as [<-|H]; [reflexivity|]). contradiction.
Qed.
Lemma lower_fmt : forall n, 0 <= n < 65536 -> lower_hex4 n = fmt04x n.
Proof.
  intros n N. unfold lower_hex4, fmt04x. cbn [map]. rewrite (Z.mod_small (n / 4096) 16) by (split; [apply Z.div_pos; lia|apply Z.div_lt_upper_bound; lia]).
  rewrite !lower_digit; try (apply Z.mod_pos_bound; lia); [reflexivity|]. split; [apply Z.div_pos; lia|apply Z.div_lt_upper_bound; lia].
Qed.
Lemma units_pair : forall c, 65536 <= c <= 1114111 -> units16 c = [hi_of c; lo_of c].
Proof.
  intros c C. unfold units16. destruct (c <? 65536) eqn:L; [lia|]. destruct (pair_ok c C) as (Hi & Lo & J). unfold high, low, joined in *.
  assert (E : c - 65536 = 1024 * (hi_of c - 55296) + (lo_of c - 56320)) by lia.
  rewrite <- (Z.div_unique (c - 65536) 1024 (hi_of c - 55296) (lo_of c - 56320)) by (lia || exact E).
  rewrite <- (Z.mod_unique (c - 65536) 1024 (hi_of c - 55296) (lo_of c - 56320)) by (lia || exact E).
  f_equal; [lia|]. f_equal. lia.
Qed.
Lemma char_text_eq : forall b c, 0 <= c <= 1114111 ->
  char_text b c = if b then (if escape_ascii c then replace_ascii c else [c]) else (if escape c then replace c else [c]).
Proof.
  intros b c C. destruct (in_dec Z.eq_dec c [34; 92; 8; 12; 10; 13; 9]) as [I|I].
  - cbn [In] in I. repeat (destruct I as [<-|I]; [destruct b; reflexivity|]). contradiction.
  - assert (N : forall k, In k [34; 92; 8; 12; 10; 13; 9] -> (c =? k) = false /\ (k =? c) = false).
    { intros k K. split; apply Z.eqb_neq; intros ->; contradiction. }
    assert (N1 := N 34 ltac:(cbn; auto)). assert (N2 := N 92 ltac:(cbn; auto)). assert (N3 := N 8 ltac:(cbn; auto)). assert (N4 := N 12 ltac:(cbn; auto 6)).
    assert (N5 := N 10 ltac:(cbn; auto 7)). assert (N6 := N 13 ltac:(cbn; auto 8)). assert (N7 := N 9 ltac:(cbn; auto 9)). clear N I.
    destruct N1 as [A1 B1], N2 as [A2 B2], N3 as [A3 B3], N4 as [A4 B4], N5 as [A5 B5], N6 as [A6 B6], N7 as [A7 B7].
    unfold char_text. cbn [find snd]. rewrite B1, B2, B3, B4, B5, B6, B7. clear B1 B2 B3 B4 B5 B6 B7.
    assert (D : escape_dct c = if (0 <=? c) && (c <? 32) then Some ([92; 117] ++ fmt04x c) else None).
    { unfold escape_dct. now rewrite A1, A2, A3, A4, A5, A6, A7. }
    unfold escape_ascii, escape, replace_ascii, replace. rewrite D, A1, A2. clear D A1 A2 A3 A4 A5 A6 A7. rewrite !orb_false_r. cbn [orb].
    assert (P : 0 <=? c = true) by lia. rewrite P. cbn [andb].
    destruct (c <? 32) eqn:L; cbn [orb].
    + assert (Q : 32 <=? c = false) by lia. assert (R : c <=? 31 = true) by lia. rewrite Q, R. cbn [andb negb]. unfold units16.
      assert (T : c <? 65536 = true) by lia. rewrite T. cbn [flat_map]. rewrite lower_fmt by lia. rewrite app_nil_r. destruct b; reflexivity.
    + assert (Q : 32 <=? c = true) by lia. assert (R : c <=? 31 = false) by lia. rewrite Q, R. cbn [andb]. destruct b; cbn [andb]; [|reflexivity].
      assert (M : c <=? 126 = negb (126 <? c)) by lia. rewrite M, negb_involutive. destruct (126 <? c); [|reflexivity]. destruct (c <? 65536) eqn:B.
      * unfold units16. rewrite B. cbn [flat_map]. rewrite lower_fmt by lia. now rewrite app_nil_r.
      * rewrite units_pair by lia. destruct (pair_ok c ltac:(lia)) as (Hi & Lo & _). unfold high, low in *. cbn [flat_map]. rewrite !lower_fmt by lia.
        rewrite app_nil_r, <- app_assoc. reflexivity.
Qed.
Lemma encoder_text : forall o s, code_points s -> encoder o s = string_text (ensure_ascii o) s.
Proof.
  intros o s C. unfold encoder, string_text, encode_basestring_ascii, encode_basestring, sub.
  assert (H : forall b, flat_map (char_text b) s = concat (map (fun c => if b then (if escape_ascii c then replace_ascii c else [c]) else (if escape c then replace c else [c])) s)).
  { intro b. rewrite flat_map_concat_map. f_equal. apply map_ext_in. intros c I. apply char_text_eq. unfold code_points in C. rewrite Forall_forall in C. now apply C. }
  rewrite H. destruct (ensure_ascii o); reflexivity.
Qed.
Section Out.
Variable F : Type.
Variable feq : F -> F -> bool.
Variables inf neginf : F.
Variable float_repr : F -> str.
Variable int_repr : Z -> str.
Variable o : options.
Hypothesis ints : forall z, code_points (int_repr z).
Hypothesis floats : forall f, code_points (float_repr f).
Notation enc_ := (iterencode F feq inf neginf float_repr int_repr o).
Notation fok := (fun f => allow_nan o = true \/ finite F feq inf neginf f).
Notation ftext := (float_text F feq inf neginf float_repr).
Notation lay := (layout F ftext int_repr (ensure_ascii o) (indent o) (item_separator o) (key_separator o)).
Notation ln := (line (indent o)).
Notation litems := (list_items F feq inf neginf float_repr int_repr o).
Notation ditems := (dict_items F feq inf neginf float_repr int_repr o).
Lemma floatstr_text : forall f, fok f -> floatstr F feq inf neginf float_repr o f = Ok (ftext f).
Proof.
  intros f H. unfold floatstr, float_text, finite in *. destruct (feq f f); cbn [negb]; [|destruct H as [->|(H & _)]; [reflexivity|discriminate]].
  destruct (feq f inf); [destruct H as [->|(_ & H & _)]; [reflexivity|discriminate]|]. destruct (feq f neginf); [destruct H as [->|(_ & _ & H)]; [reflexivity|discriminate]|reflexivity].
Qed.
Ltac cps := repeat (constructor; [lia|]); constructor.
Lemma ftext_points : forall f, code_points (ftext f).
Proof.
  intro f. unfold float_text. destruct (negb (feq f f)); [cps|]. destruct (feq f inf); [cps|]. destruct (feq f neginf); [cps|apply floats].
Qed.
Lemma nl_line : forall n, nl_at o n = ln n.
Proof. intro n. unfold nl_at, line, newline. destruct (indent o); reflexivity. Qed.
(** without an indentation the level does not matter *)
Lemma lay_level : forall v n m, indent o = None -> lay n v = lay m v.
Proof.
  intros v n m E. rewrite E. revert v n m.
  assert (B : forall a b n m l, block None (item_separator o) a b n l = block None (item_separator o) a b m l) by reflexivity.
  fix IH 1. intros v n m. destruct v as [|b|z|f|s|l|l|l|]; try reflexivity.
  - destruct l as [|x l]; [reflexivity|]. cbn [layout]. rewrite (B _ _ n m). f_equal. generalize (x :: l). clear x l. induction l as [|x l IHl]; [reflexivity|]. cbn [map]. rewrite (IH x (S n) (S m)). f_equal. exact IHl.
  - destruct l as [|x l]; [reflexivity|]. cbn [layout]. rewrite (B _ _ n m). f_equal. generalize (x :: l). clear x l. induction l as [|x l IHl]; [reflexivity|]. cbn [map]. rewrite (IH x (S n) (S m)). f_equal. exact IHl.
  - destruct l as [|x l]; [reflexivity|]. cbn [layout]. rewrite (B _ _ n m). f_equal. generalize (x :: l). clear x l. induction l as [|[k x] l IHl]; [reflexivity|]. cbn [flat_map]. rewrite (IH x (S n) (S m)). f_equal. exact IHl.
Qed.
Lemma lay_deeper : forall v level, lay (deeper o level) v = lay (S level) v.
Proof. intros v level. unfold deeper. destruct (indent o) eqn:E; [reflexivity|]. rewrite <- E. now apply lay_level. Qed.
Lemma line_deeper : forall level, ln (deeper o level) = ln (S level).
Proof. intro level. unfold deeper, line. destruct (indent o); reflexivity. Qed.
Definition joined_items (first : bool) (sep : str) (l : list str) : str := if first then join sep l else flat_map (fun y => sep ++ y) l.
Lemma litems_text : forall sep level l first, Forall (fun v => enc_ v level = Ok (lay level v)) l ->
  litems sep level l first = Ok (joined_items first sep (map (lay level) l)).
Proof.
  intros sep level l. induction l as [|v l IH]; intros first H; [destruct first; reflexivity|]. inversion H as [|x xs E H']; subst.
  rewrite list_items_cons, E, (IH false H'). cbn [bind map]. destruct first; cbn [joined_items join flat_map]; [reflexivity|]. now rewrite app_assoc.
Qed.
Lemma ditems_cons : forall sep level k v l first, ditems sep level ((k, v) :: l) first =
    (do k <- keystr F feq inf neginf float_repr int_repr o k;
        match k with
        | None => ditems sep level l first
        | Some k => do e <- enc_ v level; do r <- ditems sep level l false;
                    Ok ((if first then [] else sep) ++ encoder o k ++ key_separator o ++ e ++ r)
        end).
Proof. reflexivity. Qed.
Definition entry_texts (level : nat) (l : list (key F * pyv F)) : list str := flat_map (fun '(k, v) =>
      match key_text F ftext int_repr k with Some s => [string_text (ensure_ascii o) s ++ key_separator o ++ lay level v] | None => [] end) l.
Lemma keystr_text : forall k, all_key F code_points fok (skipkeys o) k -> exists s, keystr F feq inf neginf float_repr int_repr o k = Ok (Some s) /\ key_text F ftext int_repr k = Some s /\ code_points s.
Proof.
  intros k K. destruct K as [s W|f W|b| |z].
  - exists s. auto.
  - exists (ftext f). cbn [keystr]. rewrite floatstr_text by assumption. split; [reflexivity|]. split; [reflexivity|apply ftext_points].
  - destruct b; eexists; (split; [reflexivity|]; split; [reflexivity|]); cps.
  - eexists; (split; [reflexivity|]; split; [reflexivity|]); cps.
  - eexists; (split; [reflexivity|]; split; [reflexivity|]). apply ints.
Qed.
Lemma ditems_text : forall sep level l first,
  Forall (fun p => (fst p = KOther /\ skipkeys o = true) \/ (all_key F code_points fok (skipkeys o) (fst p) /\ enc_ (snd p) level = Ok (lay level (snd p)))) l ->
  ditems sep level l first = Ok (joined_items first sep (entry_texts level l)).
Proof.
  intros sep level l. induction l as [|[k v] l IH]; intros first H; [destruct first; reflexivity|]. inversion H as [|x xs P H']; subst. cbn [fst snd] in P.
  rewrite ditems_cons. unfold entry_texts. cbn [flat_map]. destruct P as [[-> Sk]|[K E]].
  - cbn [keystr key_text]. rewrite Sk. cbn [bind app]. now rewrite (IH first H').
  - destruct (keystr_text k K) as (s & E1 & E2 & C). rewrite E1, E2. cbn [bind]. rewrite E, (IH false H'). cbn [bind]. rewrite (encoder_text o s C).
    fold (entry_texts level l). destruct first; cbn [joined_items join flat_map app]; repeat rewrite <- app_assoc; reflexivity.
Qed.
Lemma iterencode_text : forall v, all F code_points fok (skipkeys o) v -> forall level, enc_ v level = Ok (lay level v).
Proof.
  assert (Lists : forall l, Forall (fun v => forall level, enc_ v level = Ok (lay level v)) l -> forall level, enc_ (PList l) level = Ok (lay level (PList l))).
  { intros l H level. destruct l as [|x l]; [reflexivity|]. rewrite list_eq by discriminate. rewrite !nl_line, line_deeper.
    rewrite litems_text by (eapply Forall_impl; [|exact H]; auto). cbn [bind]. f_equal. unfold joined_items.
    rewrite (map_ext (lay (deeper o level)) (lay (S level))) by (intro; apply lay_deeper). reflexivity. }
  fix IH 2. intros v A. destruct A as [|b|z|f Wf|s Ws|l Wl|l Wl|l Wl]; intro level.
  - reflexivity.
  - destruct b; reflexivity.
  - reflexivity.
  - cbn [iterencode layout]. now apply floatstr_text.
  - cbn [iterencode layout]. now rewrite encoder_text.
  - apply Lists. clear Lists. induction Wl as [|v l A _ IHl]; constructor; [apply IH; exact A|exact IHl].
  - rewrite tuple_eq. assert (Q : lay level (PTuple l) = lay level (PList l)) by (destruct l; reflexivity). rewrite Q. apply Lists. clear Lists Q. induction Wl as [|v l A _ IHl]; constructor; [apply IH; exact A|exact IHl].
  - assert (W : Forall (fun p => (fst p = KOther /\ skipkeys o = true) \/ (all_key F code_points fok (skipkeys o) (fst p) /\ forall level, enc_ (snd p) level = Ok (lay level (snd p)))) l).
    { clear Lists level. induction Wl as [|[k v] l A _ IHl]; constructor; [|exact IHl]. cbn [fst snd] in *. destruct A as [X|[K A]]; [left; exact X|right]. split; [exact K|]. apply IH. exact A. }
    clear Wl Lists IH. destruct l as [|x l]; [reflexivity|]. rewrite dict_eq by discriminate. rewrite !nl_line, line_deeper.
    rewrite ditems_text by (eapply Forall_impl; [|exact W]; intros p [X|[K X]]; auto). cbn [bind]. f_equal. unfold joined_items.
    assert (Q : entry_texts (deeper o level) (x :: l) = entry_texts (S level) (x :: l)).
    { unfold entry_texts. rewrite !flat_map_concat_map. f_equal. apply map_ext. intros [k v]. now rewrite lay_deeper. }
    rewrite Q. reflexivity.
Qed.
Lemma dumps_text : forall v, all F code_points fok (skipkeys o) v -> dumps F feq inf neginf float_repr int_repr o v = Ok (lay 0%nat v).
Proof. intros v A. rewrite <- (iterencode_text v A 0%nat). destruct v; reflexivity. Qed.
End Out.
