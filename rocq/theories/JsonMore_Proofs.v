(** Proofs about Json_Model: values that cannot be written, texts with proper escapes, encodings. *)
From Coq Require Import ZArith List Bool Lia ZifyBool ZifyNat.
From Verif Require Import Py Json_Model Json_Spec Json_Proofs JsonRead_Proofs JsonWrite_Proofs.
Import ListNotations.
Open Scope Z_scope.

(** * What is written can be written *)
Section Only.
Variable F : Type.
Variable feq : F -> F -> bool.
Variables inf neginf : F.
Variable float_repr : F -> str.
Variable int_repr : Z -> str.
Variable o : options.
Notation enc_ := (iterencode F feq inf neginf float_repr int_repr o).
Notation fok := (float_ok F feq inf neginf o).
Notation any := (fun _ : str => True).
Lemma floatstr_only : forall f s, floatstr F feq inf neginf float_repr o f = Ok s -> fok f.
Proof.
  intros f s H. unfold floatstr, float_ok, finite in *. destruct (feq f f); cbn [negb] in H; [|destruct (allow_nan o); [auto|discriminate]].
  destruct (feq f inf); [destruct (allow_nan o); [auto|discriminate]|]. destruct (feq f neginf); [destruct (allow_nan o); [auto|discriminate]|]. auto.
Qed.
Lemma keystr_only : forall k r, keystr F feq inf neginf float_repr int_repr o k = Ok r ->
  (k = KOther /\ skipkeys o = true /\ r = None) \/ (all_key F any fok (skipkeys o) k /\ exists s, r = Some s).
Proof.
  intros [s|f|[|]| |z|] r H; cbn [keystr] in H; try (inversion H; subst; right; split; [constructor; exact I|eauto]; fail).
  - destruct (floatstr F feq inf neginf float_repr o f) as [s|] eqn:E; [|discriminate]. inversion H; subst. right. split; [|eauto]. constructor. eapply floatstr_only, E.
  - destruct (skipkeys o) eqn:S1; [|discriminate]. inversion H. auto.
Qed.
Lemma list_items_cons : forall sep level v l first, list_items F feq inf neginf float_repr int_repr o sep level (v :: l) first =
  (do e <- enc_ v level; do r <- list_items F feq inf neginf float_repr int_repr o sep level l false; Ok ((if first then [] else sep) ++ e ++ r)).
Proof. reflexivity. Qed.
Lemma list_items_only : forall sep level l first b, list_items F feq inf neginf float_repr int_repr o sep level l first = Ok b -> forall v, In v l -> exists s, enc_ v level = Ok s.
Proof.
  intros sep level. induction l as [|v l IH]; intros first b H x I; [contradiction|]. rewrite list_items_cons in H.
  destruct (enc_ v level) as [e|] eqn:E; [|discriminate]. cbn [bind] in H.
  destruct (list_items F feq inf neginf float_repr int_repr o sep level l false) as [r|] eqn:R; [|discriminate].
  destruct I as [->|I]; [eauto|]. eapply IH; eauto.
Qed.
Lemma dict_items_only : forall sep level l first b, dict_items F feq inf neginf float_repr int_repr o sep level l first = Ok b ->
  forall k v, In (k, v) l -> (k = KOther /\ skipkeys o = true) \/ (all_key F any fok (skipkeys o) k /\ exists s, enc_ v level = Ok s).
Proof.
  intros sep level. induction l as [|[k v] l IH]; intros first b H k' v' I; [contradiction|].
  assert (Step : dict_items F feq inf neginf float_repr int_repr o sep level ((k, v) :: l) first =
    (do k <- keystr F feq inf neginf float_repr int_repr o k;
        match k with
        | None => dict_items F feq inf neginf float_repr int_repr o sep level l first
        | Some k => do e <- enc_ v level; do r <- dict_items F feq inf neginf float_repr int_repr o sep level l false;
                    Ok ((if first then [] else sep) ++ encoder o k ++ key_separator o ++ e ++ r)
        end)) by reflexivity.
  rewrite Step in H. clear Step. destruct (keystr F feq inf neginf float_repr int_repr o k) as [r|] eqn:K; [|discriminate]. cbn [bind] in H.
  apply keystr_only in K. destruct K as [(-> & Sk & ->)|(A & s & ->)].
  - destruct I as [E|I]; [inversion E; auto|]. eapply IH; eauto.
  - destruct (enc_ v level) as [e|] eqn:E; [|discriminate]. cbn [bind] in H.
    destruct (dict_items F feq inf neginf float_repr int_repr o sep level l false) as [q|] eqn:R; [|discriminate].
    destruct I as [X|I]; [inversion X; subst; right; eauto|]. eapply IH; eauto.
Qed.
Lemma iterencode_only : forall v level s, enc_ v level = Ok s -> all F any fok (skipkeys o) v.
Proof.
  assert (Lists : forall l level s, enc_ (PList l) level = Ok s -> forall v, In v l -> exists lv s, enc_ v lv = Ok s).
  { intros l level s H v I. destruct l as [|x l]; [contradiction|]. rewrite (list_eq F feq inf neginf float_repr int_repr) in H by discriminate.
    destruct (list_items F feq inf neginf float_repr int_repr o (item_separator o ++ nl_at o (deeper o level)) (deeper o level) (x :: l) true) as [b|] eqn:E; [|discriminate].
    destruct (list_items_only _ _ _ _ _ E v I) as (q & Q). eauto. }
  fix IH 1. intros v level s H. destruct v as [|b|z|f|t|l|l|l|].
  - constructor.
  - constructor.
  - constructor.
  - constructor. eapply floatstr_only. exact H.
  - now constructor.
  - constructor. pose proof (Lists l level s H) as L. clear H. induction l as [|x l IHl]; constructor.
    + destruct (L x (or_introl eq_refl)) as (lv & q & Q). exact (IH x lv q Q).
    + apply IHl. intros y Y. apply L. now right.
  - rewrite (tuple_eq F feq inf neginf float_repr int_repr) in H. constructor. pose proof (Lists l level s H) as L. clear H. induction l as [|x l IHl]; constructor.
    + destruct (L x (or_introl eq_refl)) as (lv & q & Q). exact (IH x lv q Q).
    + apply IHl. intros y Y. apply L. now right.
  - constructor. assert (L : forall k v, In (k, v) l -> (k = KOther /\ skipkeys o = true) \/ (all_key F any fok (skipkeys o) k /\ exists lv s, enc_ v lv = Ok s)).
    { destruct l as [|x l]; [intros ? ? []|]. rewrite (dict_eq F feq inf neginf float_repr int_repr) in H by discriminate.
      destruct (dict_items F feq inf neginf float_repr int_repr o (item_separator o ++ nl_at o (deeper o level)) (deeper o level) (x :: l) true) as [b|] eqn:E; [|discriminate].
      intros k v I. destruct (dict_items_only _ _ _ _ _ E k v I) as [X|(A & q & Q)]; [auto|]. right. eauto. }
    clear H. induction l as [|[k x] l IHl]; constructor.
    + cbn [fst snd]. destruct (L k x (or_introl eq_refl)) as [X|(A & lv & q & Q)]; [auto|]. right. split; [exact A|]. exact (IH x lv q Q).
    + apply IHl. intros k' y Y. apply L. now right.
  - discriminate.
Qed.
Lemma dumps_only : forall v s, dumps F feq inf neginf float_repr int_repr o v = Ok s -> all F any fok (skipkeys o) v.
Proof. intros v s H. apply (iterencode_only v 0%nat s). destruct v; exact H. Qed.
Lemma dumps_errors : forall v e, dumps F feq inf neginf float_repr int_repr o v = Err e -> e = TypeError \/ e = ValueError.
Proof.
  assert (Fl : forall f e, floatstr F feq inf neginf float_repr o f = Err e -> e = ValueError).
  { intros f e H. unfold floatstr in H. repeat (hyp_if H; try discriminate); inversion H; reflexivity. }
  assert (K : forall k e, keystr F feq inf neginf float_repr int_repr o k = Err e -> e = TypeError \/ e = ValueError).
  { intros [s|f|[|]| |z|] e H; cbn [keystr] in H; try discriminate.
    - destruct (floatstr F feq inf neginf float_repr o f) eqn:E; [discriminate|]. inversion H; subst. right. eapply Fl, E.
    - destruct (skipkeys o); [discriminate|]. inversion H. auto. }
  assert (L : forall v level e, enc_ v level = Err e -> e = TypeError \/ e = ValueError).
  { fix IH 1. intros v level e H. destruct v as [|[|]|z|f|t|l|l|l|]; try discriminate H.
    - right. eapply Fl. exact H.
    - destruct l as [|x l]; [discriminate|]. rewrite (list_eq F feq inf neginf float_repr int_repr) in H by discriminate.
      destruct (list_items F feq inf neginf float_repr int_repr o (item_separator o ++ nl_at o (deeper o level)) (deeper o level) (x :: l) true) as [b|x'] eqn:E; [discriminate|].
      cbn [bind] in H. inversion H; subst x'. clear H. revert E. generalize true. generalize (item_separator o ++ nl_at o (deeper o level)). generalize (deeper o level).
      induction (x :: l) as [|y ys IHl]; intros lv sep first E; [discriminate|]. rewrite list_items_cons in E.
      destruct (enc_ y lv) as [q|x'] eqn:Q; cbn [bind] in E; [|inversion E; subst x'; eapply IH; exact Q].
      destruct (list_items F feq inf neginf float_repr int_repr o sep lv ys false) as [r|x'] eqn:R; [discriminate|].
      cbn [bind] in E. inversion E; subst x'. eapply IHl. exact R.
    - rewrite (tuple_eq F feq inf neginf float_repr int_repr) in H. destruct l as [|x l]; [discriminate|]. rewrite (list_eq F feq inf neginf float_repr int_repr) in H by discriminate.
      destruct (list_items F feq inf neginf float_repr int_repr o (item_separator o ++ nl_at o (deeper o level)) (deeper o level) (x :: l) true) as [b|x'] eqn:E; [discriminate|].
      cbn [bind] in H. inversion H; subst x'. clear H. revert E. generalize true. generalize (item_separator o ++ nl_at o (deeper o level)). generalize (deeper o level).
      induction (x :: l) as [|y ys IHl]; intros lv sep first E; [discriminate|]. rewrite list_items_cons in E.
      destruct (enc_ y lv) as [q|x'] eqn:Q; cbn [bind] in E; [|inversion E; subst x'; eapply IH; exact Q].
      destruct (list_items F feq inf neginf float_repr int_repr o sep lv ys false) as [r|x'] eqn:R; [discriminate|].
      cbn [bind] in E. inversion E; subst x'. eapply IHl. exact R.
    - destruct l as [|x l]; [discriminate|]. rewrite (dict_eq F feq inf neginf float_repr int_repr) in H by discriminate.
      destruct (dict_items F feq inf neginf float_repr int_repr o (item_separator o ++ nl_at o (deeper o level)) (deeper o level) (x :: l) true) as [b|x'] eqn:E; [discriminate|].
      cbn [bind] in H. inversion H; subst x'. clear H. revert E. generalize true. generalize (item_separator o ++ nl_at o (deeper o level)). generalize (deeper o level).
      induction (x :: l) as [|[k y] ys IHl]; intros lv sep first E; [discriminate|].
      change (dict_items F feq inf neginf float_repr int_repr o sep lv ((k, y) :: ys) first) with
        (do k <- keystr F feq inf neginf float_repr int_repr o k;
        match k with
        | None => dict_items F feq inf neginf float_repr int_repr o sep lv ys first
        | Some k => do e <- enc_ y lv; do r <- dict_items F feq inf neginf float_repr int_repr o sep lv ys false;
                    Ok ((if first then [] else sep) ++ encoder o k ++ key_separator o ++ e ++ r)
        end) in E.
      destruct (keystr F feq inf neginf float_repr int_repr o k) as [ks|x'] eqn:Ks; cbn [bind] in E; [|inversion E; subst x'; eapply K; exact Ks].
      destruct ks as [ks|]; [|eapply IHl; exact E].
      destruct (enc_ y lv) as [q|x'] eqn:Q; cbn [bind] in E; [|inversion E; subst x'; eapply IH; exact Q].
      destruct (dict_items F feq inf neginf float_repr int_repr o sep lv ys false) as [r|x'] eqn:R; [discriminate|].
      cbn [bind] in E. inversion E; subst x'. eapply IHl. exact R.
    - cbn in H. inversion H. auto. }
  intros v e H. apply (L v 0%nat e). destruct v; exact H.
Qed.
End Only.

(** * Changing the notion of escape *)
Section Mono.
Variable F : Type.
Variables nan inf neginf : F.
Variable parse_float : str -> res F.
Variable parse_int : str -> res Z.
Variables hex1 hex2 : str -> Z -> Prop.
Variables strict c1 c2 : bool.
Hypothesis consts : c1 = true -> c2 = true.
(** [ok s]: the texts concerned; closed under parts *)
Variable ok : str -> Prop.
Hypothesis part : forall a b c, ok (a ++ b ++ c) -> ok b.
Hypothesis strings : forall t v, ok t -> chars hex1 strict t v -> chars hex2 strict t v.
Lemma ok_cons : forall c s d, ok (c :: s ++ d) -> ok s.
Proof. intros c s d H. apply (part [c] s d). exact H. Qed.
Lemma grammar_mono :
  (forall t v, value F nan inf neginf parse_float parse_int hex1 strict c1 t v -> ok t -> value F nan inf neginf parse_float parse_int hex2 strict c2 t v) /\
  (forall t v, elements F nan inf neginf parse_float parse_int hex1 strict c1 t v -> ok t -> elements F nan inf neginf parse_float parse_int hex2 strict c2 t v) /\
  (forall t v, members F nan inf neginf parse_float parse_int hex1 strict c1 t v -> ok t -> members F nan inf neginf parse_float parse_int hex2 strict c2 t v).
Proof.
  assert (P2 : forall a b, ok (a ++ b) -> ok b) by (intros a b H; apply (part a b []); now rewrite app_nil_r).
  assert (P1 : forall a b, ok (a ++ b) -> ok a) by (intros a b H; apply (part [] a b); exact H).
  apply (grammar_ind F nan inf neginf parse_float parse_int hex1 strict c1
    (fun t v => ok t -> value F nan inf neginf parse_float parse_int hex2 strict c2 t v)
    (fun t v => ok t -> elements F nan inf neginf parse_float parse_int hex2 strict c2 t v)
    (fun t v => ok t -> members F nan inf neginf parse_float parse_int hex2 strict c2 t v)).
  - intro. constructor.
  - intro. constructor.
  - intro. constructor.
  - intros t z I P _. now constructor.
  - intros t z I P _. now constructor.
  - intros C _. apply value_nan. auto.
  - intros C _. apply value_inf. auto.
  - intros C _. apply value_neginf. auto.
  - intros t s C O. constructor. apply strings; [|assumption]. now apply ok_cons in O.
  - intros b B _. now constructor.
  - intros t vs _ IH O. constructor. apply IH. now apply ok_cons in O.
  - intros b B _. now constructor.
  - intros t vs _ IH O. constructor. apply IH. now apply ok_cons in O.
  - intros b1 t b2 v B1 _ IH B2 O. constructor; try assumption. apply IH. now apply part in O.
  - intros b1 t b2 v t' vs B1 _ IHv B2 _ IHe O. constructor; try assumption.
    + apply IHv. apply (part b1 t (b2 ++ 44 :: t')). exact O.
    + apply IHe. apply (P2 (b1 ++ t ++ b2 ++ [44])). now repeat (rewrite <- ?app_assoc; cbn [app]).
  - intros b1 k s b2 b3 t v b4 B1 K B2 B3 _ IH B4 O. constructor; try assumption.
    + apply strings; [|assumption]. apply (part (b1 ++ [34]) k (34 :: b2 ++ 58 :: b3 ++ t ++ b4)). now repeat (rewrite <- ?app_assoc; cbn [app]).
    + apply IH. apply (part (b1 ++ 34 :: k ++ 34 :: b2 ++ 58 :: b3) t b4). now repeat (rewrite <- ?app_assoc; cbn [app]).
  - intros b1 k s b2 b3 t v b4 t' ps B1 K B2 B3 _ IH B4 _ IHm O. constructor; try assumption.
    + apply strings; [|assumption]. apply (part (b1 ++ [34]) k (34 :: b2 ++ 58 :: b3 ++ t ++ b4 ++ 44 :: t')). now repeat (rewrite <- ?app_assoc; cbn [app]).
    + apply IH. apply (part (b1 ++ 34 :: k ++ 34 :: b2 ++ 58 :: b3) t (b4 ++ 44 :: t')). now repeat (rewrite <- ?app_assoc; cbn [app]).
    + apply IHm. apply (P2 (b1 ++ 34 :: k ++ 34 :: b2 ++ 58 :: b3 ++ t ++ b4 ++ [44])). now repeat (rewrite <- ?app_assoc; cbn [app]).
Qed.
Lemma text_mono : forall s v, ok s -> json_text F nan inf neginf parse_float parse_int hex1 strict c1 s v -> json_text F nan inf neginf parse_float parse_int hex2 strict c2 s v.
Proof. intros s v O (b1 & t & b2 & -> & B1 & V & B2). exists b1, t, b2. split; [reflexivity|]. split; [assumption|]. split; [|assumption]. apply grammar_mono; [assumption|]. now apply part in O. Qed.
End Mono.

Section Escapes.
Variable int16 : str -> res Z.
Hypothesis reads_hex : forall h n, hex4 h n -> int16 h = Ok n.
Lemma hex4_loose : forall h n, hex4 h n -> loose int16 h n.
Proof.
  intros h n H. pose proof (reads_hex h n H) as I. pose proof (hex4_range h n H). destruct H as (a & b & c & d & x & y & z & t & -> & X & Y & Z & T & E).
  exists a, b, c, d. split; [reflexivity|]. unfold hex_value in Y. split; [lia|]. split; [lia|]. split; [assumption|]. lia.
Qed.
Lemma same_four : forall h h' n m (r r' : str), loose int16 h n -> hex4 h' m -> h ++ r = h' ++ r' -> h = h'.
Proof.
  intros h h' n m r r' (a & b & c & d & -> & _) (a' & b' & c' & d' & _ & _ & _ & _ & -> & _) E. now inversion E.
Qed.
Lemma chars_hex4_loose : forall strict t v, chars hex4 strict t v -> chars (loose int16) strict t v.
Proof.
  induction 1 as [|c t u A B St C IH|e c t u E C IH|h n t u L NP C IH|h1 n1 h2 n2 t u L1 H1 L2 H2 C IH].
  - constructor.
  - now constructor.
  - now constructor.
  - constructor; [now apply hex4_loose| |assumption]. intros [Hi (h2 & n2 & r & E & L2 & Lo)]. subst t.
    inversion C as [|c t1 v1 A1 A2 A3 C1 E1 E2|e c t1 v1 Ee C1 E1 E2|h' n' t1 v1 L' NP' C1 E1 E2|h1 n1 h3 n3 t1 v1 L1 H1 L3 H3 C1 E1 E2].
    + congruence.
    + subst e. cbn in Ee. repeat (destruct Ee as [Ee|Ee]; [discriminate|]). contradiction.
    + assert (X : h2 = h') by (eapply same_four; [exact L2|exact L'|symmetry; eassumption]). subst h2.
      apply NP. split; [assumption|]. exists h', n', r. split; [reflexivity|]. split; [assumption|].
      rewrite (loose_fun int16 h' n' n2 (hex4_loose _ _ L') L2). assumption.
    + assert (X : h2 = h1) by (eapply same_four; [exact L2|exact L1|symmetry; eassumption]). subst h2.
      pose proof (loose_fun int16 h1 n1 n2 (hex4_loose _ _ L1) L2). subst. unfold high, low in *. lia.
  - apply chars_pair; auto using hex4_loose.
Qed.
(** every backslash and u are followed by four hexadecimal digits *)
Definition proper (s : str) : Prop := forall a b, s = a ++ 92 :: 117 :: b -> exists h n r, b = h ++ r /\ hex4 h n.
(** ... within a larger text *)
Definition proper_part (t : str) : Prop := exists x y, proper (x ++ t ++ y).
Lemma proper_part_part : forall a b c, proper_part (a ++ b ++ c) -> proper_part b.
Proof. intros a b c (x & y & P). exists (x ++ a), (c ++ y). now rewrite <- !app_assoc in *. Qed.
Lemma chars_loose_hex4 : forall strict t v, proper_part t -> chars (loose int16) strict t v -> chars hex4 strict t v.
Proof.
  intros strict t v P C. revert P.
  assert (Esc : forall h n r, proper_part (92 :: 117 :: h ++ r) -> loose int16 h n -> hex4 h n).
  { intros h n r (x & y & P) L. destruct (P x (h ++ r ++ y)) as (h' & n' & r' & E & H); [cbn [app]; now rewrite <- app_assoc|].
    assert (X : h = h') by (eapply same_four; eassumption). subst h'. rewrite (loose_fun int16 h n n' L (hex4_loose _ _ H)). assumption. }
  induction C as [|c t u A B St C IH|e c t u E C IH|h n t u L NP C IH|h1 n1 h2 n2 t u L1 H1 L2 H2 C IH]; intro P.
  - constructor.
  - constructor; try assumption. apply IH. apply (proper_part_part [c] t []). now rewrite app_nil_r.
  - constructor; try assumption. apply IH. apply (proper_part_part [92; e] t []). now rewrite app_nil_r.
  - constructor; [eapply Esc; eassumption| |apply IH; apply (proper_part_part (92 :: 117 :: h) t []); now rewrite app_nil_r].
    intros [Hi (h2 & n2 & r & E & H2 & Lo)]. apply NP. split; [assumption|]. exists h2, n2, r. auto using hex4_loose.
  - apply chars_pair; try assumption; [eapply Esc; eassumption| |].
    + eapply Esc; [|exact L2]. apply (proper_part_part (92 :: 117 :: h1) (92 :: 117 :: h2 ++ t) []). rewrite app_nil_r. exact P.
    + apply IH. apply (proper_part_part (92 :: 117 :: h1 ++ 92 :: 117 :: h2) t []). rewrite app_nil_r. now repeat (rewrite <- ?app_assoc; cbn [app]).
Qed.
End Escapes.

(** * Encodings *)
Lemma flat_cons : forall {A B} (f : A -> list B) a l, flat_map f (a :: l) = f a ++ flat_map f l.
Proof. reflexivity. Qed.
(** the first characters of a text: ASCII, then not the null character *)
Definition plain_start (s : str) : Prop := match s with c :: r => 0 < c < 128 /\ match r with d :: _ => 0 < d <= 1114111 | [] => True end | [] => False end.
Lemma utf8_head : forall d, 0 < d <= 1114111 -> exists b r, utf8_bytes d = b :: r /\ 0 < b.
Proof.
  intros d D. unfold utf8_bytes. destruct (d <? 128); [exists d, []; split; [reflexivity|lia]|].
  destruct (d <? 2048); [eexists; eexists; split; [reflexivity|]; pose proof (Z.div_pos d 64); lia|].
  destruct (d <? 65536); [eexists; eexists; split; [reflexivity|]; pose proof (Z.div_pos d 4096); lia|].
  eexists; eexists; split; [reflexivity|]. pose proof (Z.div_pos d 262144). lia.
Qed.
Lemma units_head : forall d, 0 < d <= 1114111 -> exists u r, units16 d = u :: r /\ 0 < u < 65536.
Proof.
  intros d D. unfold units16. destruct (d <? 65536) eqn:E; [exists d, []; split; [reflexivity|lia]|].
  eexists; eexists; split; [reflexivity|]. assert (0 <= (d - 65536) / 1024 < 1024) by (split; [apply Z.div_pos; lia|apply Z.div_lt_upper_bound; lia]). lia.
Qed.
Lemma big2 : forall c, big 2 c = [c / 256 mod 256; c mod 256].
Proof. intro c. unfold big. cbn. now rewrite Z.div_1_r. Qed.
Lemma big4 : forall c, big 4 c = [c / 16777216 mod 256; c / 65536 mod 256; c / 256 mod 256; c mod 256].
Proof. intro c. unfold big. cbn. now rewrite Z.div_1_r. Qed.
Lemma ascii_bytes : forall c, 0 < c < 128 -> c mod 256 = c /\ c / 256 mod 256 = 0 /\ c / 65536 mod 256 = 0 /\ c / 16777216 mod 256 = 0 /\ units16 c = [c] /\ utf8_bytes c = [c].
Proof.
  intros c C. rewrite (Z.mod_small c 256) by lia. rewrite !(Z.div_small c) by lia. unfold units16, utf8_bytes. split; [reflexivity|]. repeat (split; [reflexivity|]).
  destruct (c <? 65536) eqn:?; [|lia]. destruct (c <? 128) eqn:?; [|lia]. auto.
Qed.
Lemma bits16 : forall u, 0 < u < 65536 -> (u / 256 mod 256 =? 0) = true -> (u mod 256 =? 0) = true -> False.
Proof. intros u U A B. pose proof (Z.div_mod u 256 ltac:(lia)). assert (u / 256 mod 256 = u / 256) by (apply Z.mod_small; split; [apply Z.div_pos; lia|apply Z.div_lt_upper_bound; lia]). lia. Qed.
Lemma starts_first : forall a p b r, a <> b -> starts (a :: p) (b :: r) = false.
Proof. intros a p b r H. unfold starts. now rewrite after_head. Qed.
Lemma starts_self : forall p r, starts p (p ++ r) = true.
Proof. intros p r. unfold starts. now rewrite after_app. Qed.
Lemma starts_second : forall a p b c r, a <> c -> starts (b :: a :: p) (b :: c :: r) = false.
Proof. intros a p b c r H. unfold starts. cbn [after]. rewrite Z.eqb_refl. destruct (a =? c) eqn:E; [lia|reflexivity]. Qed.

Lemma detect_ok : forall e s, plain_start s -> detect_encoding (text_bytes e s) = e.
Proof.
  intros e s P. destruct s as [|c s]; [contradiction|]. destruct P as [C D].
  destruct (ascii_bytes c C) as (M0 & M1 & M2 & M3 & U & U8). unfold detect_encoding. destruct e; cbn [text_bytes]; rewrite ?flat_cons, ?U, ?U8.
  - (* utf-8 *) cbn [app]. rewrite !starts_first by lia. cbn [orb]. destruct s as [|d s]; [reflexivity|]. rewrite flat_cons.
    destruct (utf8_head d D) as (b & r & -> & B). cbn [app]. destruct (c =? 0) eqn:?; [lia|]. destruct (b =? 0) eqn:?; [lia|].
    destruct (r ++ flat_map utf8_bytes s) as [|x [|y q]]; reflexivity.
  - (* utf-8-sig *) rewrite (starts_self [239; 187; 191]). cbn [app]. rewrite !starts_first by lia. reflexivity.
  - (* utf-16 *) rewrite (starts_self [255; 254]). rewrite orb_true_r. cbn [flat_map app]. rewrite big2, M0, M1. cbn [rev app].
    rewrite starts_first by lia. assert (X : starts [255; 254; 0; 0] (255 :: 254 :: c :: 0 :: flat_map (fun c0 => rev (big 2 c0)) (flat_map units16 s)) = false).
    { unfold starts. destruct c; [lia|reflexivity|lia]. }
    destruct c; [lia| |lia]. rewrite X. reflexivity.
  - (* utf-16-le *) cbn [flat_map app]. rewrite big2, M0, M1. cbn [rev app]. rewrite !starts_first by lia. cbn [orb].
    destruct s as [|d s]; [destruct (c =? 0) eqn:?; [lia|reflexivity]|]. rewrite flat_cons. destruct (units_head d D) as (u & r & -> & Hu).
    cbn [app flat_map]. rewrite big2. cbn [rev app]. destruct (c =? 0) eqn:?; [lia|]. change (0 =? 0) with true. cbn match.
    destruct (u mod 256 =? 0) eqn:E1; [|reflexivity]. destruct (u / 256 mod 256 =? 0) eqn:E2; [|reflexivity]. exfalso. eapply bits16; eassumption.
  - (* utf-16-be *) cbn [flat_map app]. rewrite big2, M0, M1. cbn [app]. rewrite starts_second by lia. rewrite !starts_first by lia. cbn [orb].
    destruct s as [|d s]; [reflexivity|]. rewrite flat_cons. destruct (units_head d D) as (u & r & -> & Hu).
    cbn [app flat_map]. rewrite big2. cbn [app]. change (0 =? 0) with true. cbn match. destruct (c =? 0) eqn:?; [lia|reflexivity].
  - (* utf-32 *) rewrite (starts_self [255; 254; 0; 0]). now rewrite orb_true_r.
  - (* utf-32-le *) rewrite big4, M0, M1, M2, M3. cbn [rev app]. rewrite !starts_first by lia. cbn [orb]. destruct (c =? 0) eqn:?; [lia|]. reflexivity.
  - (* utf-32-be *) rewrite big4, M0, M1, M2, M3. cbn [app]. 
    assert (X : starts [0; 0; 254; 255] (0 :: 0 :: 0 :: c :: flat_map (big 4) s) = false) by reflexivity. rewrite X. rewrite !starts_first by lia. reflexivity.
Qed.
Lemma detect_big_mark : forall wide s, detect_encoding (text_bytes_big_mark wide s) = if wide then utf_32 else utf_16.
Proof.
  intros [|] s; unfold text_bytes_big_mark, detect_encoding.
  - rewrite (starts_self [0; 0; 254; 255]). reflexivity.
  - rewrite (starts_self [254; 255]). cbn [app]. rewrite !starts_first by lia. reflexivity.
Qed.
Section TextStart.
Variable F : Type.
Variables nan inf neginf : F.
Variable parse_float : str -> res F.
Variable parse_int : str -> res Z.
Variable hex : str -> Z -> Prop.
Variable constants : bool.
(** a text of code points starts plainly *)
Lemma text_start : forall s v, json_text F nan inf neginf parse_float parse_int hex true constants s v -> code_points s -> plain_start s.
Proof.
  assert (B : forall b s, blank b -> plain_start s -> code_points s -> plain_start (b ++ s)).
  { intros b s H P Cs. destruct H as [|c b C H]; [assumption|]. cbn [app plain_start]. split; [lia|]. destruct H as [|d b Hd H]; cbn [app].
    - destruct s as [|d s]; [contradiction|]. cbn in P. lia.
    - lia. }
  assert (Safe : forall c r, 0 < c < 128 -> code_points r -> match r with d :: _ => d <> 0 | [] => True end -> plain_start (c :: r)).
  { intros c r C K H. cbn [plain_start]. split; [exact C|]. destruct r as [|d r]; [exact I|]. inversion K. lia. }
  assert (NZ : forall a r, Forall (fun c => c <> 0) a -> match r with d :: _ => d <> 0 | [] => True end -> match a ++ r with d :: _ => d <> 0 | [] => True end).
  { intros a r H K. destruct H as [|c a C H]; [exact K|]. cbn. exact C. }
  assert (Bl : forall b, blank b -> Forall (fun c => c <> 0) b) by (intros b H; eapply Forall_impl; [|exact H]; cbn; intros; lia).
  assert (As : forall t, int_part t -> Forall (fun c => 0 < c < 128) t).
  { intros t (sign & ds & -> & G & D). apply Forall_app. split; [destruct G as [->| ->]; repeat (constructor; [lia|]); constructor|].
    destruct D as [->|(c & r & -> & C & R)]; constructor; try lia; [constructor|]. eapply Forall_impl; [|exact R]. unfold decimal_digit. intros. lia. }
  assert (Hd : forall t v, value F nan inf neginf parse_float parse_int hex true constants t v -> exists c r, t = c :: r /\ 0 < c < 128).
  { intros t v H. destruct H as [| | |t z I P|t f R P| | | |t s C|b Bb|t vs E|b Bb|t ps M]; try (eexists; eexists; split; [reflexivity|]; lia).
    - destruct (int_head t I) as (c & r & -> & C). exists c, r. split; [reflexivity|lia].
    - destruct (real_head t R) as (c & r & -> & C). exists c, r. split; [reflexivity|lia]. }
  intros s v (b1 & t & b2 & -> & B1 & V & B2) K. apply B; [assumption| |apply Forall_app in K; apply K]. assert (K' : code_points (t ++ b2)) by (apply Forall_app in K; apply K). clear K.
  assert (End : match b2 with d :: _ => d <> 0 | [] => True end) by (destruct B2; [exact I|lia]).
  destruct V as [| | |t z I P|t f R P| | | |t s C|b Bb|t vs E|b Bb|t ps M]; cbn [app] in *; try (inversion K'; apply Safe; [lia|assumption|lia]).
  - pose proof (As t I) as A. destruct A as [|c r C A]; [destruct (int_head [] I) as (? & ? & ? & _); discriminate|]. cbn [app] in *. inversion K'. apply Safe; [assumption..|].
    apply NZ; [eapply Forall_impl; [|exact A]; cbn; intros; lia|exact End].
  - destruct R as (i & fr & e & -> & I & Fr & Ex & _). pose proof (As i I) as A. destruct A as [|c r C A]; [destruct (int_head [] I) as (? & ? & ? & _); discriminate|].
    cbn [app] in *. inversion K'. apply Safe; [assumption..|]. rewrite <- !app_assoc. apply NZ; [eapply Forall_impl; [|exact A]; cbn; intros; lia|].
    destruct Fr as [->|(fx & fy & -> & _)]; [|cbn; lia]. destruct Ex as [->|(ex & sg & ey & eq & -> & EX & _)]; [exact End|cbn; lia].
  - inversion K' as [|? ? _ K2]; subst. apply Safe; [lia|assumption|]. destruct C as [|cc ct cv C1 C2 C3 C4| | |]; cbn [app]; try lia.
  - inversion K' as [|? ? _ K2]; subst. apply Safe; [lia|assumption|]. rewrite <- app_assoc. apply NZ; [now apply Bl|]. cbn. lia.
  - inversion K' as [|? ? _ K2]; subst. apply Safe; [lia|assumption|]. destruct E as [x1 t x2 u X1 V X2|x1 t x2 u t' us X1 V X2 E]; repeat (rewrite <- ?app_assoc; cbn [app]);
      (apply NZ; [now apply Bl|]); destruct (Hd _ _ V) as (c & r & -> & C); cbn; lia.
  - inversion K' as [|? ? _ K2]; subst. apply Safe; [lia|assumption|]. rewrite <- app_assoc. apply NZ; [now apply Bl|]. cbn. lia.
  - inversion K' as [|? ? _ K2]; subst. apply Safe; [lia|assumption|]. destruct M as [x1 k sk x2 x3 t u x4 X1 Ck X2 X3 V X4|x1 k sk x2 x3 t u x4 t' us X1 Ck X2 X3 V X4 M]; repeat (rewrite <- ?app_assoc; cbn [app]);
      (apply NZ; [now apply Bl|]); cbn; lia.
Qed.
End TextStart.
