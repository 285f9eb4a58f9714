(** C164: case and character classes of symbolic strings are those of str. *)
From Coq Require Import ZArith List Bool Lia.
From Verif Require Import Py CaseFn_Model CaseFn_Spec.
Import ListNotations.
Local Open Scope Z_scope.

Lemma same_eq : forall x y, same x y = true <-> x = y.
Proof.
  induction x as [|a x IH]; destruct y as [|b y]; cbn [same]; try (split; congruence).
  rewrite andb_true_iff, Z.eqb_eq, IH. split.
  - intros [A B]. now subst.
  - intro E. injection E as A B. auto.
Qed.

Lemma convert3_ok : forall f c, f c <> [] -> (length (f c) <= 3)%nat -> convert3 f c = f c.
Proof.
  intros f c N L. unfold convert3, has, nth_char, changed.
  destruct (same (f c) [c]) eqn:E; cbn [negb andb].
  - apply same_eq in E. now rewrite E.
  - destruct (f c) as [|a [|b [|e [|g r]]]]; cbn in *; try congruence; lia.
Qed.
Lemma convert2_ok : forall f c, f c <> [] -> (length (f c) <= 2)%nat -> convert2 f c = f c.
Proof.
  intros f c N L. unfold convert2, has, nth_char, changed.
  destruct (same (f c) [c]) eqn:E; cbn [negb andb].
  - apply same_eq in E. now rewrite E.
  - destruct (f c) as [|a [|b [|e r]]]; cbn in *; try congruence; lia.
Qed.

Section Fixed.
Variable d : database.
Hypothesis S : sane d.
Let t := tables_of d.

Lemma lower_one : forall c, lower d [c] = lower_at d [] c [].
Proof. intro c. unfold lower. cbn [everywhere]. apply app_nil_r. Qed.
Lemma lower_one_small : forall c, lower d [c] <> [] /\ (length (lower d [c]) <= 2)%nat.
Proof.
  intro c. rewrite lower_one. unfold lower_at. destruct (c =? capital_sigma).
  - split; [discriminate|cbn; lia].
  - apply (sane_ToLower d S).
Qed.
Lemma upper_one : forall c, upper d [c] = ToUpper d c.
Proof. intro c. unfold upper. cbn [flat_map]. apply app_nil_r. Qed.
Lemma title_one : forall c, title d [c] = ToTitle d c.
Proof. intro c. unfold title. cbn [everywhere]. apply app_nil_r. Qed.
Lemma fold_one : forall c, casefold d [c] = Fold d c.
Proof. intro c. unfold casefold. cbn [flat_map]. apply app_nil_r. Qed.

Lemma m_upper_all : forall s, m_upper t s = upper d s.
Proof.
  assert (O : forall c, convert3 (one_upper t) c = ToUpper d c).
  { intro c. cbn [t tables_of one_upper].
    rewrite (convert3_ok (fun c => upper d [c])); rewrite ?upper_one; try apply (sane_ToUpper d S). reflexivity. }
  assert (A : forall s, concat (map (convert3 (one_upper t)) s) = upper d s).
  { intro s. unfold upper. rewrite <- flat_map_concat_map. apply flat_map_ext. exact O. }
  intros [|c [|c' r]]; unfold m_upper; try apply A. rewrite O. symmetry. apply upper_one.
Qed.
Lemma m_casefold_all : forall s, m_casefold t s = casefold d s.
Proof.
  assert (O : forall c, convert3 (one_casefold t) c = Fold d c).
  { intro c. cbn [t tables_of one_casefold].
    rewrite (convert3_ok (fun c => casefold d [c])); rewrite ?fold_one; try apply (sane_Fold d S). reflexivity. }
  assert (A : forall s, concat (map (convert3 (one_casefold t)) s) = casefold d s).
  { intro s. unfold casefold. rewrite <- flat_map_concat_map. apply flat_map_ext. exact O. }
  intros [|c [|c' r]]; unfold m_casefold; try apply A. rewrite O. symmetry. apply fold_one.
Qed.
Lemma m_lower_all : forall s, m_lower t s = flat_map (fun c => lower d [c]) s.
Proof.
  assert (O : forall c, convert2 (one_lower t) c = lower d [c]).
  { intro c. cbn [t tables_of one_lower]. apply (convert2_ok (fun c => lower d [c])); apply lower_one_small. }
  intros [|c [|c' r]]; unfold m_lower.
  - reflexivity.
  - rewrite O. cbn [flat_map]. now rewrite app_nil_r.
  - rewrite <- flat_map_concat_map. apply flat_map_ext. exact O.
Qed.

(** A character is lowered as if it were alone, unless it is a sigma that ends a word. *)
Definition calm (bef s : list Z) : Prop :=
  forall b a, s = b ++ capital_sigma :: a -> ends_word d (rev b ++ bef) a = false.
Lemma calm_cons : forall bef c r, calm bef (c :: r)
  <-> (c = capital_sigma -> ends_word d bef r = false) /\ calm (c :: bef) r.
Proof.
  intros bef c r. split.
  - intro C. split.
    + intro E. apply (C [] r). now rewrite E.
    + intros b a E. specialize (C (c :: b) a). cbn [rev app] in C. rewrite <- app_assoc in C.
      apply C. now rewrite E.
  - intros [H C] b a E. destruct b as [|x b]; cbn [rev app] in *; injection E as E1 E2; subst.
    + now apply H.
    + rewrite <- app_assoc. apply C. reflexivity.
Qed.
Lemma calm_start : forall s, no_final_sigma d s <-> calm [] s.
Proof.
  intro s. split; intros H b a E; specialize (H b a E).
  - now rewrite app_nil_r.
  - now rewrite app_nil_r in H.
Qed.
Lemma lower_at_alone : forall bef c after,
  (c = capital_sigma -> ends_word d bef after = false) -> lower_at d bef c after = lower d [c].
Proof.
  intros bef c after H. rewrite lower_one. unfold lower_at.
  destruct (c =? capital_sigma) eqn:E; [|reflexivity]. apply Z.eqb_eq in E. rewrite (H E). reflexivity.
Qed.
Lemma lower_at_length : forall bef c after, length (lower_at d bef c after) = length (lower d [c]).
Proof.
  intros. rewrite lower_one. unfold lower_at. destruct (c =? capital_sigma); reflexivity.
Qed.
Lemma app_split : forall (a b a' b' : list Z), length a = length a' -> a ++ b = a' ++ b' -> a = a' /\ b = b'.
Proof.
  induction a as [|x a IH]; destruct a' as [|y a']; cbn; intros b' L E; try discriminate; auto.
  injection E as E1 E2. injection L as L. destruct (IH _ _ _ L E2). now subst.
Qed.
Lemma lower_loop : forall s bef,
  everywhere (lower_at d) bef s = flat_map (fun c => lower d [c]) s <-> calm bef s.
Proof.
  induction s as [|c r IH]; intro bef.
  - split; [|reflexivity]. intros _ b a E. destruct b; discriminate.
  - rewrite calm_cons. cbn [everywhere flat_map]. split.
    + intro E. apply app_split in E; [|apply lower_at_length]. destruct E as [E1 E2].
      split; [|now apply IH]. intro X. subst c. rewrite lower_one in E1. unfold lower_at in E1.
      rewrite Z.eqb_refl in E1. destruct (ends_word d bef r); [discriminate E1|reflexivity].
    + intros [H C]. rewrite (lower_at_alone bef c r H). apply IH in C. now rewrite C.
Qed.

Lemma letter_lower : forall c, Lowercase d c = true -> letter d c = true.
Proof. intros c H. unfold letter. now rewrite H. Qed.
Lemma cased_mask : forall c, one_istitle t c || one_islower t c = letter d c.
Proof.
  intro c. cbn. unfold letter. destruct (Uppercase d c), (Titlecase d c), (Lowercase d c); reflexivity.
Qed.

Lemma m_lower_one : forall c, m_lower t [c] = lower d [c].
Proof. intro c. rewrite m_lower_all. cbn [flat_map]. apply app_nil_r. Qed.

Lemma swap_loop : forall s bef, calm bef s ->
  m_swapcase t s =
  everywhere (fun bef c after =>
    if Uppercase d c then lower_at d bef c after
    else if Lowercase d c then ToUpper d c else [c]) bef s.
Proof.
  induction s as [|c r IH]; intros bef C; [reflexivity|].
  apply calm_cons in C. destruct C as [H C]. cbn [m_swapcase everywhere].
  rewrite (IH _ C). f_equal. cbn [t tables_of one_islower one_isupper].
  destruct (Lowercase d c) eqn:L.
  - destruct (sane_lower_upper d S c L) as [U _]. rewrite U.
    fold t. rewrite m_upper_all. apply upper_one.
  - destruct (Uppercase d c); [|reflexivity]. fold t. rewrite m_lower_one. symmetry. now apply lower_at_alone.
Qed.

Lemma title_char : forall c, (if changed (one_title t) c then title_one_char t c else [c]) = ToTitle d c.
Proof.
  intro c. pose proof (convert3_ok (one_title t) c) as K. unfold convert3 in K.
  cbn [t tables_of one_title] in *. rewrite title_one in K.
  destruct (sane_ToTitle d S c) as [N L]. rewrite <- (K N L).
  unfold title_one_char. cbn [one_title]. destruct (changed _ c); reflexivity.
Qed.

Definition after_cased (bef : list Z) : bool := match bef with p :: _ => Cased d p | [] => false end.
Lemma title_loop_ok : forall s bef, calm bef s ->
  title_loop t (negb (after_cased bef)) s =
  everywhere (fun bef c after =>
    match bef with
    | p :: _ => if Cased d p then lower_at d bef c after else ToTitle d c
    | [] => ToTitle d c
    end) bef s.
Proof.
  induction s as [|c r IH]; intros bef C; [reflexivity|].
  apply calm_cons in C. destruct C as [H C]. cbn [title_loop everywhere].
  rewrite cased_mask. specialize (IH _ C). cbn [after_cased] in IH. rewrite (sane_cased d S) in IH.
  assert (R : match bef with
              | p :: _ => if Cased d p then lower_at d bef c r else ToTitle d c
              | [] => ToTitle d c
              end = if after_cased bef then lower d [c] else ToTitle d c).
  { destruct bef as [|p b]; cbn [after_cased]; [reflexivity|].
    destruct (Cased d p); [|reflexivity]. now apply lower_at_alone. }
  rewrite R. destruct (letter d c) eqn:L; cbn [negb] in *.
  - destruct (after_cased bef); cbn [negb].
    + rewrite m_lower_one, IH. reflexivity.
    + rewrite title_char, IH. reflexivity.
  - rewrite <- IH. f_equal. destruct (sane_uncased d S c L) as [T W].
    destruct (after_cased bef); [|now rewrite T]. rewrite lower_one. unfold lower_at.
    destruct (c =? capital_sigma) eqn:E; [|now rewrite W]. apply Z.eqb_eq in E. subst c.
    unfold letter in L. rewrite (sane_sigma d S), orb_true_r in L. discriminate.
Qed.

Lemma capital_loop : forall s p bef, calm (p :: bef) s ->
  everywhere (fun bef c after =>
    match bef with [] => ToTitle d c | _ => lower_at d bef c after end) (p :: bef) s
  = flat_map (fun c => lower d [c]) s.
Proof.
  induction s as [|c r IH]; intros p bef C; [reflexivity|].
  apply calm_cons in C. destruct C as [H C]. cbn [everywhere flat_map].
  rewrite (IH _ _ C). f_equal. now apply lower_at_alone.
Qed.

(** Predicates. *)
Lemma islower_loop_ok : forall s found, islower_loop t found s = true
  <-> (found = true \/ exists c, In c s /\ Lowercase d c = true)
      /\ forall c, In c s -> Uppercase d c = false /\ Titlecase d c = false.
Proof.
  induction s as [|c r IH]; intro found; cbn [islower_loop].
  - split.
    + intro E. split; [now left|]. intros c [].
    + intros [[E|(c & [] & _)] _]. exact E.
  - cbn [t tables_of one_istitle one_islower]. destruct (Uppercase d c || Titlecase d c) eqn:U.
    + split; [discriminate|]. intros [_ A]. destruct (A c (or_introl eq_refl)) as [X Y].
      rewrite X, Y in U. discriminate.
    + apply orb_false_iff in U. fold t. rewrite IH. split.
      * intros [F A]. split.
        -- destruct (Lowercase d c) eqn:L.
           ++ right. exists c. split; [now left|exact L].
           ++ destruct F as [F|(x & I & X)]; [now left|]. right. exists x. split; [now right|exact X].
        -- intros x [X|X]; [now subst|now apply A].
      * intros [F A]. split; [|intros x X; apply A; now right].
        destruct F as [F|(x & [I|I] & X)].
        -- left. rewrite F. now destruct (Lowercase d c).
        -- subst x. rewrite X. now left.
        -- right. now exists x.
Qed.
Lemma isupper_loop_ok : forall s found, isupper_loop t found s = true
  <-> (found = true \/ exists c, In c s /\ Uppercase d c = true)
      /\ forall c, In c s -> Lowercase d c = false /\ (Titlecase d c = true -> Uppercase d c = true).
Proof.
  induction s as [|c r IH]; intro found; cbn [isupper_loop].
  - split.
    + intro E. split; [now left|]. intros c [].
    + intros [[E|(c & [] & _)] _]. exact E.
  - cbn [t tables_of one_istitle one_islower one_isupper]. destruct (Uppercase d c) eqn:U; fold t.
    + assert (L : Lowercase d c = false).
      { destruct (Lowercase d c) eqn:L; [|reflexivity]. destruct (sane_lower_upper d S c L). congruence. }
      rewrite IH. split.
      * intros [_ A]. split; [right; exists c; split; [now left|exact U]|].
        intros x [X|X]; [now subst|now apply A].
      * intros [_ A]. split; [now left|]. intros x X. apply A. now right.
    + destruct (Lowercase d c || (false || Titlecase d c)) eqn:L.
      * split; [discriminate|]. intros [_ A]. destruct (A c (or_introl eq_refl)) as [X Y].
        rewrite X in L. cbn in L. apply Y in L. congruence.
      * apply orb_false_iff in L. destruct L as [L T]. cbn in T. rewrite IH. split.
        -- intros [F A]. split.
           ++ destruct F as [F|(x & I & X)]; [now left|]. right. exists x. split; [now right|exact X].
           ++ intros x [X|X]; [subst; split; [exact L|congruence]|now apply A].
        -- intros [F A]. split; [|intros x X; apply A; now right].
           destruct F as [F|(x & [I|I] & X)]; [now left| |].
           ++ subst x. congruence.
           ++ right. now exists x.
Qed.

Definition well_cased (prev : bool) (s : list Z) : Prop :=
  forall bef c after, s = bef ++ c :: after -> letter d c = true ->
    (Lowercase d c = true
     <-> (exists bef' p, bef = bef' ++ [p] /\ letter d p = true) \/ (bef = [] /\ prev = true)).
Lemma well_cased_cons : forall prev c r, well_cased prev (c :: r)
  <-> (letter d c = true -> (Lowercase d c = true <-> prev = true)) /\ well_cased (letter d c) r.
Proof.
  intros prev c r. split.
  - intro W. split.
    + intro L. rewrite (W [] c r eq_refl L). split.
      * intros [(b & p & E & _)|[_ E]]; [destruct b; discriminate|exact E].
      * intro E. right. auto.
    + intros b x a E L. rewrite (W (c :: b) x a) by (try rewrite E; auto). split.
      * intros [(b' & p & E' & P)|[E' _]]; [|discriminate]. destruct b' as [|y b']; cbn in E'; injection E' as E1 E2.
        -- subst. right. auto.
        -- subst. left. exists b', p. auto.
      * intros [(b' & p & E' & P)|[E' P]]; subst; left.
        -- exists (c :: b'), p. auto.
        -- exists [], c. auto.
  - intros [H W] b x a E L. destruct b as [|y b]; cbn in E; injection E as E1 E2; subst.
    + rewrite (H L). split; [auto|]. intros [(b' & p & E' & _)|[_ P]]; [destruct b'; discriminate|exact P].
    + rewrite (W b x a eq_refl L). split.
      * intros [(b' & p & E' & P)|[E' P]]; subst; left.
        -- exists (y :: b'), p. auto.
        -- exists [], y. auto.
      * intros [(b' & p & E' & P)|[E' _]]; [|discriminate]. destruct b' as [|z b']; cbn in E'; injection E' as E1 E2.
        -- subst. right. auto.
        -- subst. left. exists b', p. auto.
Qed.
Lemma istitle_loop_ok : forall s prev found, (prev = true -> found = true) ->
  (istitle_loop t (negb prev) found s = true
   <-> (found = true \/ exists c, In c s /\ letter d c = true) /\ well_cased prev s).
Proof.
  induction s as [|c r IH]; intros prev found K; cbn [istitle_loop].
  - split.
    + intro E. split; [now left|]. intros b x a E'. destruct b; discriminate.
    + intros [[E|(c & [] & _)] _]. exact E.
  - rewrite well_cased_cons. cbn [t tables_of one_istitle one_islower]. fold t.
    destruct (Uppercase d c || Titlecase d c) eqn:U.
    + assert (L : Lowercase d c = false).
      { destruct (Lowercase d c) eqn:L; [|reflexivity]. destruct (sane_lower_upper d S c L) as [X Y].
        rewrite X, Y in U. discriminate. }
      assert (G : letter d c = true).
      { unfold letter. rewrite L. exact U. }
      rewrite G, L, negb_involutive. destruct prev.
      * split; [discriminate|]. intros [_ [W _]]. destruct (W eq_refl) as [_ W']. now specialize (W' eq_refl).
      * rewrite (IH true true (fun _ => eq_refl)). split.
        -- intros [_ W]. split; [right; exists c; split; [now left|exact G]|]. split; [split; discriminate|exact W].
        -- intros [_ [_ W]]. split; [now left|exact W].
    + apply orb_false_iff in U. destruct U as [U T]. destruct (Lowercase d c) eqn:L.
      * rewrite (letter_lower c L). destruct prev; cbn [negb].
        -- rewrite (IH true found K). rewrite (K eq_refl). split.
           ++ intros [_ W]. split; [now left|]. split; [split; auto|exact W].
           ++ intros [_ [_ W]]. split; [now left|exact W].
        -- split; [discriminate|]. intros [_ [W _]]. destruct (W eq_refl) as [W' _]. now specialize (W' eq_refl).
      * assert (G : letter d c = false). { unfold letter. now rewrite L, U, T. }
        rewrite G. rewrite (IH false found); [|discriminate]. split.
        -- intros [F W]. split; [|split; [discriminate|exact W]].
           destruct F as [F|(x & I & X)]; [now left|]. right. exists x. split; [now right|exact X].
        -- intros [F [_ W]]. split; [|exact W]. destruct F as [F|(x & [I|I] & X)]; [now left| |].
           ++ subst x. congruence.
           ++ right. now exists x.
Qed.

Lemma mask_loop_ok : forall f s, mask_loop f s = true <-> forall c, In c s -> f c = true.
Proof.
  intros f. induction s as [|c r IH]; cbn [mask_loop].
  - split; [intros _ c []|reflexivity].
  - destruct (f c) eqn:F; cbn [negb].
    + rewrite IH. split.
      * intros A x [X|X]; [now subst|now apply A].
      * intros A x X. apply A. now right.
    + split; [discriminate|]. intro A. rewrite (A c (or_introl eq_refl)) in F. discriminate.
Qed.
Lemma has_value_ok : forall f c, has_value f c = true <-> f c <> None.
Proof. intros f c. unfold has_value. destruct (f c); split; congruence. Qed.
Lemma alpha_ok : forall c, alpha_mask t c = true <-> is_letter (Category d c) = true.
Proof. intro c. unfold alpha_mask, in_cats. cbn [t tables_of cat]. destruct (Category d c); vm_compute; tauto. Qed.

Lemma mask_of_ok : forall p c, char_is d p c <->
  (match p with
   | IsAlnum => alnum_mask t | IsAlpha => alpha_mask t | IsAscii => ascii_mask | IsDecimal => decimal_mask t
   | IsDigit => digit_mask t | IsNumeric => numeric_mask t | IsPrintable => printable_mask t
   | IsSpace => space_mask t end) c = true.
Proof.
  intros p c. destruct p; cbn [char_is].
  - unfold alnum_mask. rewrite orb_true_iff, alpha_ok, has_value_ok. cbn [t tables_of numeric].
    destruct (sane_numeric d S c) as [A B]. tauto.
  - symmetry. apply alpha_ok.
  - unfold ascii_mask. rewrite andb_true_iff, Z.leb_le, Z.ltb_lt. lia.
  - rewrite (sane_decimal d S). unfold decimal_mask, in_cats. cbn [t tables_of cat].
    destruct (Category d c); vm_compute; split; congruence.
  - symmetry. apply has_value_ok.
  - symmetry. apply has_value_ok.
  - unfold printable_mask, in_cats. cbn [t tables_of cat]. rewrite orb_true_iff, Z.eqb_eq.
    assert (X : first_letter_C_or_Z (Category d c) = false
                <-> negb (existsb (is_cat (Category d c)) [Cc; Co; Cn; Cf; Cs; Zs; Zl; Zp; Zs]) = true)
      by (destruct (Category d c); vm_compute; split; congruence).
    rewrite X. tauto.
  - unfold space_mask. cbn [t tables_of cat bidirectional].
    assert (X : is_cat (Category d c) Zs = true <-> Category d c = Zs)
      by (destruct (Category d c); vm_compute; split; congruence).
    destruct (is_cat (Category d c) Zs).
    + tauto.
    + split.
      * intros [Y|Y]; [apply X in Y; discriminate|]. destruct (Bidi d c); congruence.
      * intro Y. right. destruct (Bidi d c); congruence.
Qed.
End Fixed.

(** The predicates on case are those of str, for every string. *)
Theorem C164_case_predicates : forall d, sane d -> forall s,
  (m_islower (tables_of d) s = true <-> islower d s)
  /\ (m_isupper (tables_of d) s = true <-> isupper d s)
  /\ (m_istitle (tables_of d) s = true <-> istitle d s).
Proof.
  intros d S s. split; [|split].
  - unfold m_islower, islower. destruct s as [|c r].
    + split; [discriminate|]. intros [(x & [] & _) _].
    + rewrite islower_loop_ok. split.
      * intros [[X|X] A]; [discriminate|]. auto.
      * intros [X A]. auto.
  - unfold m_isupper, isupper. destruct s as [|c r].
    + split; [discriminate|]. intros [(x & [] & _) _].
    + rewrite (isupper_loop_ok d S). split.
      * intros [[X|X] A]; [discriminate|]. split; [exact X|]. intros x I. destruct (A x I) as [L T].
        split; [exact L|]. destruct (Titlecase d x) eqn:Tx; [|reflexivity].
        rewrite (sane_upper_title d S x (T eq_refl)) in Tx. discriminate.
      * intros [X A]. split; [auto|]. intros x I. destruct (A x I) as [L T]. split; [exact L|congruence].
  - unfold m_istitle. change true with (negb false) at 1. rewrite (istitle_loop_ok d S) by discriminate.
    unfold istitle. split.
    + intros [[X|X] W]; [discriminate|]. split; [exact X|]. intros b c a E L. rewrite (W b c a E L).
      split; [|auto]. intros [Y|[_ Y]]; [exact Y|discriminate].
    + intros [X W]. split; [auto|]. intros b c a E L. rewrite (W b c a E L). split; [auto|].
      intros [Y|[_ Y]]; [exact Y|discriminate].
Qed.
Print Assumptions C164_case_predicates.

(** So are the other predicates on characters. *)
Theorem C164_predicates : forall d, sane d -> forall p s,
  m_predicate (tables_of d) p s = true <-> holds d p s.
Proof.
  intros d S p s. unfold holds. destruct s as [|c r].
  - split.
    + intro M. split; [|intros c []]. intros _. destruct p; try discriminate M; auto.
    + intros [E _]. destruct (E eq_refl); subst; reflexivity.
  - pose proof (mask_of_ok d S p) as K. split.
    + intro M. split; [discriminate|]. intros x I. apply K.
      destruct p; cbn [m_predicate chars_in_maskfn] in M; apply mask_loop_ok with (c := x) in M; auto.
    + intros [_ A]. destruct p; cbn [m_predicate chars_in_maskfn];
      apply mask_loop_ok; intros x I; apply K; now apply A.
Qed.
Print Assumptions C164_predicates.

(** upper and casefold are those of str, for every string. *)
Theorem C164_upper_casefold : forall d, sane d -> forall s,
  m_upper (tables_of d) s = upper d s /\ m_casefold (tables_of d) s = casefold d s.
Proof. intros d S s. split; [now apply m_upper_all|now apply m_casefold_all]. Qed.
Print Assumptions C164_upper_casefold.

(** lower is that of str for exactly the strings in which no capital sigma ends a word. *)
Theorem C164_lower_exact : forall d, sane d -> forall s,
  m_lower (tables_of d) s = lower d s <-> no_final_sigma d s.
Proof.
  intros d S s. rewrite (m_lower_all d S), calm_start, <- (lower_loop d).
  unfold lower. split; congruence.
Qed.
Print Assumptions C164_lower_exact.

(** For these strings so are swapcase, title and capitalize.  Missing: all other strings. *)
Theorem C164_conversions_partial : forall d, sane d -> forall s, no_final_sigma d s ->
  m_swapcase (tables_of d) s = swapcase d s
  /\ m_title (tables_of d) s = title d s
  /\ m_capitalize (tables_of d) s = capitalize d s.
Proof.
  intros d S s N. apply calm_start in N. split; [|split].
  - now apply swap_loop.
  - exact (title_loop_ok d S s [] N).
  - unfold m_capitalize, capitalize. destruct s as [|c r]; [reflexivity|].
    apply calm_cons in N. destruct N as [_ N]. cbn [everywhere].
    rewrite (capital_loop d r c [] N), (m_lower_all d S). f_equal.
    assert (C : calm d [] [c]).
    { intros b a E. destruct b as [|x [|y b]]; try discriminate. reflexivity. }
    rewrite <- title_one. exact (title_loop_ok d S [c] [] C).
Qed.
Print Assumptions C164_conversions_partial.

(** A part of the database: ASCII letters, some Greek ones, and the sharp s, which
    becomes two letters. *)
Definition between (a b c : Z) : bool := (a <=? c) && (c <=? b).
Definition low (c : Z) : bool := between 97 122 c || between 945 969 c || (c =? 223).
Definition upp (c : Z) : bool := between 65 90 c || between 913 937 c.
Definition raise (c : Z) : list Z :=
  if c =? 223 then [83; 83] else if c =? 962 then [931] else if low c then [c - 32] else [c].
Definition greek : database :=
  mkDatabase low upp (fun _ => false) (fun c => low c || upp c) (fun c => c =? 39)
    (fun c => if upp c then [c + 32] else [c]) raise
    (fun c => if c =? 223 then [83; 115] else raise c)
    (fun c => if c =? 223 then [115; 115] else if c =? 962 then [963] else if upp c then [c + 32] else [c])
    (fun c => if low c then Ll else if upp c then Lu else if between 48 57 c then Nd else if c =? 32 then Zs else Po)
    (fun c => if c =? 32 then BidiWS else BidiOther)
    (fun c => if between 48 57 c then Some (c - 48) else None)
    (fun c => if between 48 57 c then Some (c - 48) else None)
    (fun c => if between 48 57 c then Some (c - 48) else None).
Example greek_sane : sane greek.
Proof.
  constructor; unfold letter; cbn [greek Lowercase Uppercase Titlecase Cased ToLower ToUpper ToTitle Fold Category Decimal Digit Numeric].
  - intros c H. split; [|reflexivity]. unfold low, upp, between in *. lia.
  - reflexivity.
  - reflexivity.
  - intro c. now rewrite orb_false_r.
  - intro c. destruct (upp c); split; try discriminate; cbn; lia.
  - intro c. unfold raise. destruct (c =? 223), (c =? 962), (low c); split; try discriminate; cbn; lia.
  - intro c. unfold raise. destruct (c =? 223), (c =? 962), (low c); split; try discriminate; cbn; lia.
  - intro c. destruct (c =? 223), (c =? 962), (upp c); split; try discriminate; cbn; lia.
  - intros c H. rewrite orb_false_r in H. apply orb_false_iff in H. destruct H as [L U]. rewrite U. split; [|reflexivity].
    unfold raise. rewrite L. unfold low, between in L.
    destruct (c =? 223) eqn:E1; [lia|]. destruct (c =? 962) eqn:E2; [lia|reflexivity].
  - intro c. destruct (between 48 57 c) eqn:B.
    + assert (L : low c = false) by (unfold low, between in *; lia).
      assert (U : upp c = false) by (unfold upp, between in *; lia). rewrite L, U. split; congruence.
    + split; [congruence|]. destruct (low c), (upp c), (c =? 32); congruence.
  - intro c. auto.
Qed.
(** "stra\u00dfe, it's" and a sigma inside a word. *)
Example greek_calm : no_final_sigma greek [115; 223; 931; 97; 32; 105; 39; 115].
Proof. apply calm_start. repeat (apply calm_cons; split; [vm_compute; congruence|]). intros b a E. destruct b; discriminate. Qed.
Example greek_title : m_title (tables_of greek) [115; 223; 931; 97; 32; 223; 39; 115] = [83; 223; 963; 97; 32; 83; 115; 39; 83].
Proof. reflexivity. Qed.
Example greek_istitle : m_istitle (tables_of greek) [83; 115; 39; 83] = true.
Proof. reflexivity. Qed.

(** A capital sigma that ends a word becomes the small letter that is used inside words. *)
Theorem C164_sigma_refuted : exists d s, sane d
  /\ (m_lower (tables_of d) s <> lower d s)
  /\ (m_title (tables_of d) s <> title d s)
  /\ (m_swapcase (tables_of d) s <> swapcase d s)
  /\ (m_capitalize (tables_of d) s <> capitalize d s).
Proof.
  exists greek, [913; 931]. split; [exact greek_sane|].
  split; [|split; [|split]]; vm_compute; discriminate.
Qed.
Print Assumptions C164_sigma_refuted.

(** translate is that of str if every integer of the table fits a C int. *)
Theorem C164_translate_partial : forall table s,
  (forall c z, In c s -> table c = TInt z -> - 2 ^ 31 <= z < 2 ^ 31) ->
  m_translate table s = translate table s.
Proof.
  intros table. induction s as [|c r IH]; intro H; [reflexivity|].
  cbn [m_translate translate]. rewrite IH by (intros x z I; apply H; now right).
  destruct (table c) as [z|x| | |e] eqn:T; cbn [bind]; try reflexivity.
  - specialize (H c z (or_introl eq_refl) T). unfold chr.
    destruct ((z <? - 2 ^ 31) || (2 ^ 31 <=? z)) eqn:E; [lia|].
    destruct ((z <? 0) || (1114111 <? z)) eqn:F; destruct ((0 <=? z) && (z <=? 1114111)) eqn:G; try lia; reflexivity.
  - destruct (translate table r); reflexivity.
  - destruct e; reflexivity.
Qed.
Print Assumptions C164_translate_partial.
Example translate_case : m_translate (fun c => if c =? 97 then TNone else if c =? 98 then TStr [120; 121] else TRaises KeyError) [97; 98; 99] = Ok [120; 121; 99].
Proof. reflexivity. Qed.

(** For larger integers the error is a different one, which a handler of ValueError misses. *)
Theorem C164_translate_refuted : exists table s,
  m_translate table s = Err OverflowError /\ translate table s = Err ValueError.
Proof. exists (fun _ => TInt (2 ^ 40)), [97]. split; reflexivity. Qed.
Print Assumptions C164_translate_refuted.
