(** Proofs about the texts of decimal numbers *)
From Coq Require Import ZArith Lia List Bool ZifyBool ZifyNat.
From Verif Require Import Dec_Model Dec_Spec Dec_Digits Dec_Text Dec_TextSpec.
Import ListNotations.
Open Scope Z_scope.

(** * White space *)
Lemma lstrip_spaces : forall a t, Forall (fun c => c = Space) a -> hd Other t <> Space -> lstrip (a ++ t) = t.
Proof.
  induction 1 as [|c a -> _ IH]; intro H; cbn [app lstrip].
  - destruct t as [|[] t]; cbn in H; cbn [lstrip]; congruence.
  - auto.
Qed.
Lemma lstrip_split : forall s, exists a, Forall (fun c => c = Space) a /\ s = a ++ lstrip s /\ hd Other (lstrip s) <> Space.
Proof.
  induction s as [|c s (a & F & E & H)]; [exists []; cbn; repeat split; auto; discriminate|].
  destruct c; cbn [lstrip]; try (exists []; cbn; repeat split; auto; discriminate).
  exists (Space :: a). split; [auto|]. split; [cbn; now f_equal|assumption].
Qed.
Lemma rev_forall : forall A (P : A -> Prop) l, Forall P l -> Forall P (rev l).
Proof. intros. rewrite Forall_forall in *. intros x I. apply H. now apply in_rev. Qed.
Lemma hd_rev : forall A (d : A) l, hd d (rev l) = last l d.
Proof.
  intros A d l. destruct l as [|x l] using rev_ind; [reflexivity|]. rewrite rev_app_distr, last_last. reflexivity.
Qed.
Lemma last_rev : forall A (d : A) l, last (rev l) d = hd d l.
Proof. intros. rewrite <- (rev_involutive l) at 2. now rewrite hd_rev. Qed.
Lemma strip_ok : forall a m b, Forall (fun c => c = Space) a -> Forall (fun c => c = Space) b ->
  hd Other m <> Space -> last m Other <> Space -> strip (a ++ m ++ b) = m.
Proof.
  intros a m b A B H L. unfold strip. destruct m as [|c m].
  - cbn [app]. rewrite <- (app_nil_r (a ++ b)), lstrip_spaces; [reflexivity|now apply Forall_app|discriminate].
  - rewrite lstrip_spaces by assumption. rewrite rev_app_distr, lstrip_spaces; [apply rev_involutive|now apply rev_forall|now rewrite hd_rev].
Qed.
Lemma strip_splits : forall s, exists a b, s = a ++ strip s ++ b /\ Forall (fun c => c = Space) a /\ Forall (fun c => c = Space) b /\
  hd Other (strip s) <> Space /\ last (strip s) Other <> Space.
Proof.
  intro s. destruct (lstrip_split s) as (a & A & E & H). destruct (lstrip_split (rev (lstrip s))) as (b & B & E' & H').
  assert (E2 : lstrip s = strip s ++ rev b).
  { unfold strip. apply (f_equal (@rev ch)) in E'. rewrite rev_involutive, rev_app_distr in E'. exact E'. }
  exists a, (rev b). rewrite <- E2. repeat split; auto; [now apply rev_forall| |].
  - intro N. apply H. rewrite E2. destruct (strip s); [discriminate|exact N].
  - unfold strip. now rewrite last_rev.
Qed.
Theorem stripped_iff : forall s body, stripped s body <-> body = no_under (strip s).
Proof.
  intros s body. split.
  - intros [a m b A B H L]. now rewrite strip_ok.
  - intros ->. destruct (strip_splits s) as (a & b & E & A & B & H & L). rewrite E at 1. now apply stripping.
Qed.

(** * Pieces *)
Definition no_digit (s : list ch) : Prop := match s with Dig _ :: _ => False | _ => True end.
Lemma span_digits : forall ds r, no_digit r -> span (digits ds ++ r) = (ds, r).
Proof.
  induction ds as [|d ds IH]; intros r N; [destruct r as [|[] r]; cbn in *; tauto|].
  cbn [digits map app span]. unfold digits in IH. now rewrite IH.
Qed.
Lemma span_inv : forall s ds r, span s = (ds, r) -> s = digits ds ++ r /\ no_digit r.
Proof.
  induction s as [|c s IH]; intros ds r E; [inversion E; subst; split; exact eq_refl || exact I|].
  destruct c; cbn [span] in E; try (inversion E; subst; split; [reflexivity|exact I]).
  destruct (span s) as [ds' t]. inversion E; subst. destruct (IH ds' r eq_refl) as [-> N]. split; [reflexivity|exact N].
Qed.
Lemma letter_eqb_eq : forall a b, letter_eqb a b = true <-> a = b.
Proof. destruct a, b; cbn; split; congruence. Qed.
Lemma letters_spelled : forall l w r, spelled true l w -> letters l (w ++ r) = Some r.
Proof.
  induction 1 as [|l f ls s _ _ IH]; [reflexivity|]. cbn [app letters]. rewrite (proj2 (letter_eqb_eq l l) eq_refl). exact IH.
Qed.
Lemma letters_inv : forall l s r, letters l s = Some r -> exists w, spelled true l w /\ s = w ++ r.
Proof.
  induction l as [|a l IH]; intros s r E; cbn [letters] in E; [inversion E; exists []; split; [constructor|reflexivity]|].
  destruct s as [|[] s]; try discriminate. destruct (letter_eqb a l0) eqn:L; [|discriminate]. apply letter_eqb_eq in L. subst.
  destruct (IH _ _ E) as (w & W & ->). exists (Let l0 f :: w). split; [constructor; auto|reflexivity].
Qed.
Lemma exponent_ok : forall x e, exponent_part true x e -> exponent x = Some e.
Proof.
  intros x e [|f m ds _ N]; [reflexivity|]. cbn [exponent].
  assert (S : span (digits ds) = (ds, [])) by (rewrite <- (app_nil_r (digits ds)); now apply span_digits).
  destruct ds as [|d ds]; [congruence|]. rewrite <- to_int_number.
  destruct m as [m|]; cbn [sign_text app]; [rewrite S; destruct m; reflexivity|].
  cbn [digits map]. cbn [digits map] in S. rewrite S. reflexivity.
Qed.
Lemma exponent_inv : forall x e, exponent x = Some e -> exponent_part true x e.
Proof.
  intros x e E. destruct x as [|[] x]; cbn [exponent] in E; try discriminate; [inversion E; constructor|].
  destruct l; try discriminate.
  assert (G : forall m : option bool, forall r, match span r with ([], _) => None | (ds, []) => Some (if negative m then - to_int ds else to_int ds) | _ => None end = Some e ->
     exponent_part true (Let LE f :: sign_text m ++ r) e).
  { intros m r H. destruct (span r) as [[|d ds] [|]] eqn:S; try discriminate. apply span_inv in S. destruct S as [-> _].
    rewrite app_nil_r. inversion H. rewrite to_int_number. apply some_exponent; [auto|discriminate]. }
  destruct x as [|c x]; [discriminate E|].
  destruct c as [d| |sg|l f'| | |];
    try match type of E with context [span ?r] => exact (G None r E) end.
  apply (G (Some sg) x). destruct sg; exact E.
Qed.
Lemma exponent_no_digit : forall x e, exponent x = Some e -> no_digit x /\ hd Other x <> Dot.
Proof. intros [|[] x] e; cbn; intros; try discriminate; repeat split; discriminate. Qed.

Lemma coefficient_of_str : forall n i, 0 <= n -> coefficient_of n i <-> i = to_str n.
Proof.
  intros n i N. split; [intros [C <-]; now rewrite to_str_number|]. intros ->. split; [now apply coefficient_to_str|now apply number_to_str].
Qed.
Lemma lstrip0_digits : forall s, Forall is_digit s -> payload_of (number s) (lstrip0 s).
Proof.
  induction 1 as [|d s D F IH]; [split; [constructor|split; [cbn; lia|reflexivity]]|]. cbn [lstrip0]. destruct (d =? 0) eqn:E.
  - cbn [number]. replace (d * _ + number s) with (number s) by lia. exact IH.
  - repeat split; [now constructor|cbn; lia].
Qed.
Lemma payload_inj : forall n p q, payload_of n p -> payload_of n q -> p = q.
Proof.
  assert (C : forall p, Forall is_digit p -> hd 1 p <> 0 -> p = [] \/ (coefficient p /\ 0 < number p)).
  { intros [|d p] F H; [now left|right]. cbn [hd] in H. split; [split; [assumption|split; [discriminate|contradiction]]|].
    inversion F as [|? ? D R]; subst. cbn [number]. pose proof (number_bound p R). unfold is_digit in D. nia. }
  intros n p q (P & HP & NP) (Q & HQ & NQ). destruct (C p P HP) as [->|[CP LP]], (C q Q HQ) as [->|[CQ LQ]]; cbn in *; try lia; [reflexivity|].
  apply coefficient_inj; congruence.
Qed.
Lemma payload_text : forall ds p, Forall is_digit ds -> payload_of (number ds) p <-> p = lstrip0 (to_str (to_int (or0 ds))).
Proof.
  intros ds p F. pose proof (number_bound ds F) as B. rewrite to_int_number, number_or0.
  assert (P : payload_of (number ds) (lstrip0 (to_str (number ds)))).
  { rewrite <- (number_to_str (number ds)) at 1 by lia. apply lstrip0_digits, coefficient_to_str. lia. }
  split; [intro H; exact (payload_inj _ _ _ H P)|now intros ->].
Qed.

(** * The grammar *)
Definition parse_body (s : list ch) : option dec :=
  let '(sign, s) := match s with Sgn m :: r => (m, r) | _ => (false, s) end in
  match s with
  | Dig _ :: _ | Dot :: Dig _ :: _ => number_text sign s
  | _ => match infinity_text sign s with Some d => Some d | None => nan_text sign s end
  end.
Definition parse_value (sign : bool) (s : list ch) : option dec :=
  match s with
  | Dig _ :: _ | Dot :: Dig _ :: _ => number_text sign s
  | _ => match infinity_text sign s with Some d => Some d | None => nan_text sign s end
  end.
Lemma body_sign : forall m s, (m = None -> match s with Sgn _ :: _ => False | _ => True end) ->
  parse_body (sign_text m ++ s) = parse_value (negative m) s.
Proof.
  intros [m|] s H; [destruct m; reflexivity|]. specialize (H eq_refl). cbn [sign_text app negative]. unfold parse_body, parse_value.
  destruct s as [|[] s]; try reflexivity. contradiction.
Qed.

Lemma number_text_point : forall sign a b x e, Forall is_digit (a ++ b) -> exponent_part true x e ->
  number_text sign (digits a ++ Dot :: digits b ++ x) = Some (Fin sign (to_str (number (a ++ b))) (e - len b)).
Proof.
  intros sign a b x e F X. apply exponent_ok in X. pose proof (exponent_no_digit _ _ X) as [N _].
  unfold number_text. rewrite span_digits by exact I. rewrite span_digits by assumption. rewrite X, to_int_number. reflexivity.
Qed.
Lemma number_text_whole : forall sign a x e, exponent_part true x e ->
  number_text sign (digits a ++ x) = Some (Fin sign (to_str (number a)) e).
Proof.
  intros sign a x e X. apply exponent_ok in X. pose proof (exponent_no_digit _ _ X) as [N D].
  unfold number_text. rewrite span_digits by assumption. 
  replace (match x with Dot :: r => span r | _ => ([], x) end) with (@nil Z, x) by (destruct x as [|[] x]; try reflexivity; cbn in D; congruence).
  rewrite X, to_int_number, app_nil_r. now rewrite Z.sub_0_r.
Qed.
Lemma spelled_hd : forall odd l ls w, spelled odd (l :: ls) w -> exists f r, w = Let l f :: r.
Proof. intros odd l ls w H. inversion H; subst. eauto. Qed.
Lemma spelled_app_inv : forall odd a b w, spelled odd (a ++ b) w -> exists u v, w = u ++ v /\ spelled odd a u /\ spelled odd b v.
Proof.
  induction a as [|l a IH]; intros b w H; [exists [], w; repeat split; [constructor|assumption]|].
  cbn [app] in H. inversion H; subst. destruct (IH _ _ H4) as (u & v & -> & U & V). exists (Let l f :: u), v. repeat split; auto. now constructor.
Qed.
Lemma spelled_app : forall odd a b u v, spelled odd a u -> spelled odd b v -> spelled odd (a ++ b) (u ++ v).
Proof. induction 1; intro; cbn; [assumption|constructor; auto]. Qed.

Lemma literal_parse : forall s d, literal true s d -> parse_body s = Some d.
Proof.
  intros s d L. destruct L as [m a b x e i N F X C|m a x e i N F X C|m w W|m w ds p W F P|m w ds p W F P].
  - pose proof (number_bound _ F) as B. apply coefficient_of_str in C; [|lia]. subst i.
    rewrite body_sign by (intros _; destruct a; cbn; auto).
    change (Z.of_nat (length b)) with (len b). rewrite <- (number_text_point (negative m) a b x e F X). destruct a as [|? a]; [|reflexivity]. destruct b as [|? b]; [now elim N|reflexivity].
  - pose proof (number_bound _ F) as B. apply coefficient_of_str in C; [|lia]. subst i. destruct a as [|d a]; [congruence|].
    rewrite body_sign by (intros _; cbn; auto). now rewrite <- (number_text_whole (negative m) (d :: a) x e X).
  - assert (E : parse_value (negative m) w = infinity_text (negative m) w /\ infinity_text (negative m) w = Some (Inf (negative m))).
    { destruct W as [W|W].
      - pose proof (letters_spelled _ w [] W) as L. rewrite app_nil_r in L. destruct (spelled_hd _ _ _ _ W) as (f & r & ->).
        unfold parse_value, infinity_text. rewrite L. auto.
      - change [LI; LN; LF; LI; LN; LI; LT; LY] with ([LI; LN; LF] ++ [LI; LN; LI; LT; LY]) in W.
        destruct (spelled_app_inv _ _ _ _ W) as (u & v & -> & U & V). pose proof (letters_spelled _ u v U) as L.
        pose proof (letters_spelled _ v [] V) as L2. rewrite app_nil_r in L2. destruct (spelled_hd _ _ _ _ V) as (f & r & ->).
        destruct (spelled_hd _ _ _ _ U) as (f' & r' & ->). unfold parse_value, infinity_text. rewrite L, L2. auto. }
    rewrite body_sign; [destruct E as [-> E]; exact E|]. intros _.
    destruct W as [W|W]; destruct (spelled_hd _ _ _ _ W) as (f & r & ->); exact I.
  - apply payload_text in P; [|assumption]. subst p. pose proof (letters_spelled _ w (digits ds) W) as L.
    destruct (spelled_hd _ _ _ _ W) as (f & r & ->). rewrite body_sign by (intros; exact I).
    unfold parse_value. cbn [app]. unfold infinity_text. cbn [letters letter_eqb]. unfold nan_text. cbn [app] in L. rewrite L.
    rewrite <- (app_nil_r (digits ds)), span_digits by exact I. reflexivity.
  - apply payload_text in P; [|assumption]. subst p. inversion W as [|l f ls r _ W']; subst.
    pose proof (letters_spelled _ r (digits ds) W') as L. rewrite body_sign by (intros; exact I).
    unfold parse_value. cbn [app]. unfold infinity_text. cbn [letters letter_eqb]. unfold nan_text. rewrite L.
    rewrite <- (app_nil_r (digits ds)), span_digits by exact I. reflexivity.
Qed.

Lemma proper_app : forall a b, proper (a ++ b) <-> proper a /\ proper b.
Proof. intros. unfold proper. apply Forall_app. Qed.
Lemma proper_digits : forall ds, proper (digits ds) <-> Forall is_digit ds.
Proof. intro ds. unfold proper, digits. rewrite Forall_map. reflexivity. Qed.
Lemma str_coefficient : forall ds, Forall is_digit ds -> coefficient_of (number ds) (to_str (to_int ds)).
Proof. intros ds F. pose proof (number_bound ds F). rewrite to_int_number. apply coefficient_of_str; [lia|reflexivity]. Qed.

Lemma parse_value_literal : forall m s d, proper s -> parse_value (negative m) s = Some d -> literal true (sign_text m ++ s) d.
Proof.
  intros m s d P E.
  assert (Num : (match s with Dig _ :: _ | Dot :: Dig _ :: _ => True | _ => False end) -> number_text (negative m) s = Some d -> literal true (sign_text m ++ s) d).
  { intros H. unfold number_text. destruct (span s) as [i r] eqn:S. pose proof (span_inv _ _ _ S) as [-> N].
    apply proper_app in P. destruct P as [Pi Pr]. apply proper_digits in Pi.
    destruct r as [|c r].
    - cbn [exponent]. intro Q. inversion Q; subst. rewrite (app_nil_r i). apply lit_whole; try assumption; [destruct i; [contradiction|discriminate]|constructor|now apply str_coefficient].
    - destruct c; try contradiction;
        try (intro Q; destruct (exponent _) as [e|] eqn:X in Q; [|discriminate]; apply exponent_inv in X; rewrite app_nil_r in Q; inversion Q; subst;
          cbn [len length Z.of_nat]; rewrite Z.sub_0_r; apply lit_whole; try assumption; [destruct i; [contradiction|discriminate]|now apply str_coefficient]).
      destruct (span r) as [f t] eqn:S2. apply span_inv in S2. destruct S2 as [-> N2].
      change (Dot :: digits f ++ t) with ([Dot] ++ digits f ++ t) in Pr. apply proper_app in Pr. destruct Pr as [_ Pr]. apply proper_app in Pr. destruct Pr as [Pf _]. apply proper_digits in Pf.
      destruct (exponent t) as [e|] eqn:X; [|discriminate]. apply exponent_inv in X. intro Q. inversion Q; subst.
      apply lit_point; [| |assumption|]; [|now apply Forall_app|apply str_coefficient; now apply Forall_app].
      destruct i; [|discriminate]. destruct f; [|discriminate]. destruct t as [|[] t]; contradiction. }
  assert (Word : match infinity_text (negative m) s with Some d => Some d | None => nan_text (negative m) s end = Some d -> literal true (sign_text m ++ s) d).
  { clear Num E. destruct (infinity_text (negative m) s) as [x|] eqn:I.
    - intro Q. inversion Q; subst x. unfold infinity_text in I. destruct (letters [LI; LN; LF] s) as [r|] eqn:L; [|discriminate].
      apply letters_inv in L. destruct L as (w & W & ->). destruct r as [|c r].
      + inversion I; subst. rewrite app_nil_r. apply lit_inf. now left.
      + destruct (letters _ (c :: r)) as [t|] eqn:L2; [|discriminate]. apply letters_inv in L2. destruct L2 as (v & V & ->).
        destruct t; [|discriminate]. inversion I; subst. rewrite app_nil_r. apply lit_inf. right. exact (spelled_app _ _ _ _ _ W V).
    - unfold nan_text.
      assert (G : forall g pre r, match letters [LN; LA; LN] r with
          | Some r => match span r with (p, []) => Some (NaN g (negative m) (lstrip0 (to_str (to_int (or0 p))))) | _ => None end | None => None end = Some d ->
          proper r -> (if g then spelled true [LS] pre else pre = []) -> literal true (sign_text m ++ pre ++ r) d).
      { intros g pre r Q Pr Hp. destruct (letters _ r) as [t|] eqn:L; [|discriminate]. apply letters_inv in L. destruct L as (w & W & ->).
        destruct (span t) as [p [|]] eqn:S; [|discriminate]. apply span_inv in S. destruct S as [-> _]. rewrite app_nil_r in *.
        apply proper_app in Pr. destruct Pr as [_ Pp]. apply proper_digits in Pp. inversion Q; subst.
        destruct g; [|subst pre; apply lit_nan; try assumption; now apply payload_text].
        rewrite app_assoc with (l := pre). apply lit_snan; [exact (spelled_app _ _ _ _ _ Hp W)|assumption|now apply payload_text]. }
      intro Q. destruct s as [|[d'| |sg|l f| | |] s];
        try match goal with |- literal _ (_ ++ ?s) _ => exact (G false [] s Q P eq_refl) end.
      destruct l; try match goal with |- literal _ (_ ++ ?s) _ => exact (G false [] s Q P eq_refl) end.
      apply (G true [Let LS f] s Q); [now inversion P|repeat constructor]. }
  unfold parse_value in E. destruct s as [|[] s]; try (exact (Word E)); try (exact (Num I E)).
  destruct s as [|[] s]; try (exact (Word E)). exact (Num I E).
Qed.
Lemma body_literal : forall s d, proper s -> parse_body s = Some d -> literal true s d.
Proof.
  intros s d P E. destruct s as [|c s]; [discriminate|].
  destruct c as [d'| |sg|l f'| | |]; try (exact (parse_value_literal None _ d P E)).
  refine (parse_value_literal (Some sg) s d _ _); [now inversion P|]. destruct sg; exact E.
Qed.
Lemma proper_filter : forall f s, proper s -> proper (filter f s).
Proof. intros f s P. unfold proper in *. rewrite Forall_forall in *. intros x I. apply filter_In in I. now apply P. Qed.
Lemma proper_strip : forall s, proper s -> proper (strip s).
Proof. intros s P. destruct (strip_splits s) as (a & b & E & _). rewrite E in P. apply proper_app in P. destruct P as [_ P]. now apply proper_app in P. Qed.
Theorem parse_iff : forall s d, proper s -> parse s = Some d <-> text_of true s d.
Proof.
  intros s d P. unfold text_of. change (parse s) with (parse_body (no_under (strip s))). split.
  - intro E. exists (no_under (strip s)). split; [now apply stripped_iff|]. apply body_literal; [|assumption]. now apply proper_filter, proper_strip.
  - intros (body & S & L). apply stripped_iff in S. subst. now apply literal_parse.
Qed.

(** * Letters of the alphabet *)
Definition alphabetic (s : list ch) : Prop := Forall (fun c => match c with Let _ Odd => False | _ => True end) s.
Lemma alphabetic_digits : forall ds, alphabetic (digits ds).
Proof. intro ds. unfold alphabetic, digits. rewrite Forall_map. now apply Forall_forall. Qed.
Lemma alphabetic_sign : forall m, alphabetic (sign_text m).
Proof. intros [m|]; repeat constructor. Qed.
Lemma spelled_alphabetic : forall l w, spelled false l w -> alphabetic w.
Proof. induction 1 as [|l f ls s H _ IH]; constructor; [destruct f; [exact I|exact I|specialize (H eq_refl); discriminate]|exact IH]. Qed.
Lemma exponent_alphabetic : forall x e, exponent_part false x e -> alphabetic x.
Proof.
  intros x e [|f m ds H _]; [constructor|]. constructor; [destruct f; [exact I|exact I|specialize (H eq_refl); discriminate]|].
  apply Forall_app. split; [apply alphabetic_sign|apply alphabetic_digits].
Qed.
Lemma literal_alphabetic : forall s d, literal false s d -> alphabetic s.
Proof.
  assert (A : forall a b, alphabetic a -> alphabetic b -> alphabetic (a ++ b)) by (intros; now apply Forall_app).
  intros s d [m a b x e i _ _ X _|m a x e i _ _ X _|m w W|m w ds p W _ _|m w ds p W _ _]; apply A; try apply alphabetic_sign.
  - apply A; [apply alphabetic_digits|]. constructor; [exact I|]. apply A; [apply alphabetic_digits|now apply exponent_alphabetic in X].
  - apply A; [apply alphabetic_digits|now apply exponent_alphabetic in X].
  - destruct W as [W|W]; now apply spelled_alphabetic in W.
  - apply A; [now apply spelled_alphabetic in W|apply alphabetic_digits].
  - apply A; [now apply spelled_alphabetic in W|apply alphabetic_digits].
Qed.
Lemma spelled_odd : forall l w o, spelled o l w -> (o = true -> alphabetic w) -> spelled false l w.
Proof.
  induction 1 as [|l f ls s H _ IH]; intro A; constructor.
  - intro F. specialize (A (H F)). inversion A; subst. contradiction.
  - apply IH. intro O. specialize (A O). now inversion A.
Qed.
Lemma exponent_odd : forall x e, exponent_part true x e -> alphabetic x -> exponent_part false x e.
Proof. intros x e [|f m ds _ N] A; constructor; [|assumption]. intros ->. inversion A; subst. contradiction. Qed.
Lemma literal_odd : forall s d, literal true s d -> alphabetic s -> literal false s d.
Proof.
  assert (B : forall a b, alphabetic (a ++ b) -> alphabetic a /\ alphabetic b) by (intros a b; apply Forall_app).
  intros s d [m a b x e i N F X C|m a x e i N F X C|m w W|m w ds p W F P|m w ds p W F P] A; apply B in A; destruct A as [_ A].
  - apply B in A. destruct A as [_ A]. inversion A as [|? ? _ A']; subst. apply B in A'. destruct A' as [_ A'].
    apply lit_point; auto. now apply exponent_odd.
  - apply B in A. destruct A as [_ A]. apply lit_whole; auto. now apply exponent_odd.
  - apply lit_inf. destruct W as [W|W]; [left|right]; apply (spelled_odd _ _ true); auto.
  - apply B in A. apply lit_nan; auto. apply (spelled_odd _ _ true); tauto.
  - apply B in A. apply lit_snan; auto. apply (spelled_odd _ _ true); tauto.
Qed.
Lemma spelled_mono : forall l w, spelled false l w -> spelled true l w.
Proof. induction 1; constructor; auto. Qed.
Lemma literal_mono : forall s d, literal false s d -> literal true s d.
Proof.
  assert (X : forall x e, exponent_part false x e -> exponent_part true x e) by (intros x e []; constructor; auto).
  intros s d [m a b x e i N F E C|m a x e i N F E C|m w [W|W]|m w ds p W F P|m w ds p W F P].
  - apply lit_point; auto.
  - apply lit_whole; auto.
  - apply lit_inf. left. now apply spelled_mono.
  - apply lit_inf. right. now apply spelled_mono.
  - apply lit_nan; auto. now apply spelled_mono.
  - apply lit_snan; auto. now apply spelled_mono.
Qed.
Lemma in_filter_alphabetic : forall s body, stripped s body -> alphabetic s -> alphabetic body.
Proof.
  intros s body [a m b _ _ _ _] A. apply Forall_app in A. destruct A as [_ A]. apply Forall_app in A. destruct A as [A _].
  unfold alphabetic in *. rewrite Forall_forall in *. intros c I. apply filter_In in I. now apply A.
Qed.
Theorem parse_alphabetic : forall s d, proper s -> alphabetic s -> parse s = Some d <-> text_of false s d.
Proof.
  intros s d P A. rewrite parse_iff by assumption. split; intros (body & S & L); exists body; (split; [assumption|]).
  - apply literal_odd; [assumption|]. now apply in_filter_alphabetic in S.
  - now apply literal_mono.
Qed.

(** * Texts of numbers *)
Definition plain (s : list ch) : Prop := Forall (fun c => c <> Space /\ c <> Under) s.
Lemma plain_stripped : forall s, plain s -> stripped s s.
Proof.
  intros s P. assert (E : filter (fun c => match c with Under => false | _ => true end) s = s).
  { induction P as [|c s [_ U] _ IH]; [reflexivity|]. cbn [filter]. rewrite IH. destruct c; congruence. }
  assert (HS : forall t, plain t -> hd Other t <> Space) by (intros [|c t] Q; [discriminate|inversion Q; now subst]).
  pose proof (stripping [] s [] ltac:(constructor) ltac:(constructor)) as S. rewrite app_nil_r in S. cbn [app] in S. rewrite E in S. apply S; [auto|].
  rewrite <- hd_rev. apply HS. now apply rev_forall.
Qed.
Lemma literal_plain : forall o s d, literal o s d -> plain s.
Proof.
  assert (A : forall a b, plain a -> plain b -> plain (a ++ b)) by (intros; now apply Forall_app).
  assert (D : forall ds, plain (digits ds)) by (intro ds; unfold plain, digits; rewrite Forall_map; apply Forall_forall; split; discriminate).
  assert (M : forall m, plain (sign_text m)) by (intros [m|]; repeat constructor; discriminate).
  assert (W : forall o l w, spelled o l w -> plain w) by (induction 1; constructor; auto; split; discriminate).
  assert (X : forall o x e, exponent_part o x e -> plain x) by (intros o x e [|f m ds _ _]; [constructor|constructor; [split; discriminate|apply A; auto]]).
  intros o s d [m a b x e i N F E C|m a x e i N F E C|m w [H|H]|m w ds p H F P|m w ds p H F P]; apply A; auto; try (apply A; auto); eauto.
  constructor; [split; discriminate|]. apply A; eauto.
Qed.
Lemma literal_read : forall s d, literal false s d -> parse s = Some d.
Proof.
  intros s d L. pose proof (literal_plain _ _ _ L) as P. apply plain_stripped, stripped_iff in P.
  change (parse s) with (parse_body (no_under (strip s))). rewrite <- P. now apply literal_parse, literal_mono.
Qed.

Lemma digits_zeros : forall k, Forall is_digit (zeros k).
Proof. intro k. unfold zeros. apply Forall_forall. intros x I. apply repeat_spec in I. subst. unfold is_digit. lia. Qed.
Lemma number_leading : forall k s, number (zeros k ++ s) = number s.
Proof. intros k s. unfold zeros. induction (Z.to_nat k); cbn [repeat app number]; lia. Qed.
Lemma len_of : forall s, Z.of_nat (length s) = len s. Proof. reflexivity. Qed.
Lemma len_zeros' : forall k, 0 <= k -> len (zeros k) = k.
Proof. intros. unfold len, zeros. rewrite repeat_length. lia. Qed.
Lemma len_app' : forall a b, len (a ++ b) = len a + len b.
Proof. intros. unfold len. rewrite app_length. lia. Qed.
Lemma sign_exists : forall s : bool, exists m, (if s then [Sgn true] else []) = sign_text m /\ s = negative m.
Proof. intros []; [now exists (Some true)|now exists None]. Qed.
Lemma exponent_shown : forall cap n, n <> 0 -> exponent_part false (Let LE (if cap : bool then Large else Small) :: signed_text n) n.
Proof.
  intros cap n N. assert (C := coefficient_to_str (Z.abs n) ltac:(lia)).
  replace n with (if negative (Some (n <? 0)) then - number (to_str (Z.abs n)) else number (to_str (Z.abs n))) at 2.
  - apply (some_exponent false _ (Some (n <? 0))); [now destruct cap|now destruct C as (_ & C & _)].
  - rewrite number_to_str by lia. unfold negative. destruct (n <? 0) eqn:E; lia.
Qed.

(** Where the point is and what the exponent is *)
Definition layout (eng cap : bool) (s : bool) (i : list Z) (e : Z) (a b : list Z) (E : Z) : Prop :=
  show eng cap (Fin s i e) =
    (if s then [Sgn true] else []) ++ digits a ++ match b with [] => [] | _ => Dot :: digits b end ++
    (if E =? 0 then [] else Let LE (if cap then Large else Small) :: Sgn (E <? 0) :: digits (to_str (Z.abs E))).
Lemma show_shape : forall eng cap s i e, coefficient i -> exists a b,
  layout eng cap s i e a b (e + len i - dotplace eng i e) /\
  Forall is_digit a /\ Forall is_digit b /\ a <> [] /\ (hd 1 a = 0 -> a = [0]) /\
  number (a ++ b) = number i * 10 ^ Z.max 0 (dotplace eng i e - len i) /\
  len a = Z.max 1 (dotplace eng i e) /\ len b = Z.max 0 (len i - dotplace eng i e) /\
  (0 < dotplace eng i e -> hd 1 a = hd 1 i).
Proof.
  intros eng cap s i e C. unfold layout, show. set (p := dotplace eng i e). pose proof (length_pos i C) as L. change (Z.of_nat (length i)) with (len i) in L. pose proof C as (F & N & H0).
  assert (EX : forall a b : list ch, (e + len i =? p) = (e + len i - p =? 0)) by (intros; lia).
  replace (if e + len i =? p then [] else Let LE (if cap then Large else Small) :: signed_text (e + len i - p))
     with (if e + len i - p =? 0 then [] else Let LE (if cap then Large else Small) :: Sgn (e + len i - p <? 0) :: digits (to_str (Z.abs (e + len i - p))))
    by (unfold signed_text; rewrite (EX [] []); reflexivity). clear EX.
  destruct (p <=? 0) eqn:P0; [|destruct (len i <=? p) eqn:P1].
  - exists [0], (zeros (- p) ++ i). repeat split.
    + cbn [digits map]. unfold digits. destruct (zeros (- p) ++ i) eqn:Z; [apply app_eq_nil in Z; tauto|]. rewrite <- Z, map_app. reflexivity.
    + repeat constructor; unfold is_digit; lia.
    + apply Forall_app. split; [apply digits_zeros|assumption].
    + discriminate.
    + cbn [app]. change (0 :: zeros (- p) ++ i) with ([0] ++ zeros (- p) ++ i). rewrite number_app, number_leading. cbn [number].
      replace (Z.max 0 (p - len i)) with 0 by lia. change (10 ^ 0) with 1. lia.
    + cbn; lia.
    + rewrite len_app', len_zeros' by lia. lia.
    + lia.
  - exists (i ++ zeros (p - len i)), []. rewrite app_nil_r. repeat split.
    + unfold digits. rewrite map_app. reflexivity.
    + apply Forall_app. split; [assumption|apply digits_zeros].
    + constructor.
    + destruct i; [congruence|discriminate].
    + destruct i as [|d i]; [congruence|]. cbn [hd app]. intro D. pose proof (H0 D) as J. inversion J; subst.
      (* a zero is never followed by zeros *)
      cbn [app]. f_equal. unfold p, dotplace in *. cbn [is0] in *. change (len [0]) with 1 in *. change (0 =? 0) with true in *.
      replace (zeros _) with (@nil Z); [reflexivity|]. unfold zeros.
      match goal with |- context [Z.to_nat ?z] => replace (Z.to_nat z) with O; [reflexivity|] end.
      destruct ((e <=? 0) && (-6 <? e + 1)) eqn:T; [lia|]. destruct eng; cbn [negb] in *; [|lia].
      pose proof (Z.mod_pos_bound (e + 1 + 1) 3). lia.
    + rewrite number_zeros. f_equal. f_equal. lia.
    + rewrite len_zeros by lia. lia.
    + cbn. lia.
    + intros _. destruct i; [congruence|reflexivity].
  - assert (A : upto i p ++ from i p = i) by (unfold upto, from; apply firstn_skipn).
    assert (LU : len (upto i p) = p) by (unfold len, upto in *; rewrite firstn_length; lia).
    exists (upto i p), (from i p). repeat split.
    + unfold digits. destruct (from i p) eqn:Z.
      { rewrite app_nil_r in A. rewrite A in LU. lia. } reflexivity.
    + now apply digits_upto.
    + now apply digits_from.
    + intro Q. rewrite Q in LU. cbn in LU. lia.
    + destruct i as [|d i]; [congruence|]. unfold upto in *. destruct (Z.to_nat p) eqn:T; [cbn in LU; lia|]. cbn [firstn hd].
      intro D. pose proof (H0 D) as J. inversion J; subst. now rewrite firstn_nil.
    + rewrite A. replace (Z.max 0 (p - len i)) with 0 by lia. change (10 ^ 0) with 1. lia.
    + lia.
    + assert (LL : len (upto i p) + len (from i p) = len i) by (rewrite <- len_app'; now rewrite A). lia.
    + intros _. destruct i as [|d i]; [congruence|]. unfold upto. destruct (Z.to_nat p) eqn:T; [lia|]. reflexivity.
Qed.
Lemma show_literal : forall eng cap s i e, coefficient i ->
  let k := Z.max 0 (dotplace eng i e - len i) in
  literal false (show eng cap (Fin s i e)) (Fin s (to_str (number i * 10 ^ k)) (e - k)).
Proof.
  intros eng cap s i e C k. destruct (show_shape eng cap s i e C) as (a & b & Hs & Fa & Fb & Na & _ & Nu & La & Lb & _).
  unfold layout in Hs. rewrite Hs. destruct (sign_exists s) as (m & -> & ->). fold k in Nu.
  set (E := e + len i - dotplace eng i e) in *.
  pose proof C as (F & _). pose proof (number_bound i F) as B. assert (0 < 10 ^ k) by (apply pow10_pos; lia).
  assert (Cf : coefficient_of (number (a ++ b)) (to_str (number i * 10 ^ k))) by (apply coefficient_of_str; [rewrite Nu; nia|now rewrite Nu]).
  assert (X : exponent_part false (if E =? 0 then [] else Let LE (if cap then Large else Small) :: Sgn (E <? 0) :: digits (to_str (Z.abs E))) E).
  { destruct (E =? 0) eqn:Z; [replace E with 0 by lia; constructor|]. apply exponent_shown. lia. }
  destruct b as [|d b].
  - replace (e - k) with E by (unfold E, k; cbn [len length] in Lb; change (len []) with 0 in Lb; lia).
    rewrite app_nil_r in Cf. cbn [app]. now apply lit_whole.
  - replace (e - k) with (E - Z.of_nat (length (d :: b))) by (change (Z.of_nat (length (d :: b))) with (len (d :: b)); rewrite Lb; unfold E, k; lia).
    cbn [app]. apply lit_point; auto; [destruct a; [congruence|discriminate]|now apply Forall_app].
Qed.
