(** C182: strftime writes microseconds, offsets and names of time zones as documented. *)
From Coq Require Import ZArith List Bool Lia.
From Verif Require Import Strftime_Model Strftime_Spec.
Import ListNotations.
Open Scope Z_scope.
Ltac Zify.zify_post_hook ::= Z.to_euclidean_division_equations.

Lemma d2_written : forall n, 0 <= n < 100 -> written n 2 (d2 n).
Proof.
  intros n H. split; [reflexivity|]. split.
  - intros c [<-|[<-|[]]]; lia.
  - unfold value, d2. cbn [fold_left]. lia.
Qed.
Lemma d6_written : forall n, 0 <= n < 1000000 -> written n 6 (d6 n).
Proof.
  intros n H. split; [reflexivity|]. split.
  - intros c [<-|[<-|[<-|[<-|[<-|[<-|[]]]]]]]; lia.
  - unfold value, d6. cbn [fold_left].
    replace (n / 100000) with (n / 10 / 10 / 10 / 10 / 10) by (rewrite !Z.div_div by lia; reflexivity).
    replace (n / 10000) with (n / 10 / 10 / 10 / 10) by (rewrite !Z.div_div by lia; reflexivity).
    replace (n / 1000) with (n / 10 / 10 / 10) by (rewrite !Z.div_div by lia; reflexivity).
    replace (n / 100) with (n / 10 / 10) by (rewrite !Z.div_div by lia; reflexivity).
    lia.
Qed.
Lemma z_right : forall off, Z.abs off < 24 * 3600 * 1000000 -> offset_text off (z_text off).
Proof.
  intros off H. unfold z_text.
  assert (A : (if off <? 0 then - off else off) = Z.abs off) by (destruct (Z.ltb_spec off 0); lia). rewrite A.
  remember (Z.abs off) as a eqn:Ea. assert (A0 : 0 <= a) by (subst a; apply Z.abs_nonneg).
  remember (a / 3600000000) as h eqn:Eh. remember (a mod 3600000000 / 60000000) as m eqn:Em.
  remember (a mod 3600000000 mod 60000000 / 1000000) as s eqn:Es. remember (a mod 1000000) as u eqn:Eu.
  assert (F : 0 <= h < 24 /\ 0 <= m < 60 /\ 0 <= s < 60 /\ 0 <= u < 1000000 /\ a = ((h * 60 + m) * 60 + s) * 1000000 + u).
  { clear A Ea. lia. }
  clear Eh Em Es Eu. destruct F as [Fh [Fm [Fs [Fu Fa]]]].
  assert (W : forall n, 0 <= n < 60 -> written n 2 (d2 n)) by (intros n Hn; apply d2_written; lia).
  rewrite Ea in Fa.
  destruct (Z.eqb_spec u 0) as [Z0|Z0]; cbn [negb].
  - destruct (Z.eqb_spec s 0) as [Z1|Z1]; cbn [negb].
    + replace ((if off <? 0 then 45 else 43) :: d2 h ++ d2 m) with ([if off <? 0 then 45 else 43] ++ d2 h ++ d2 m ++ [] ++ []) by (rewrite !app_nil_r; reflexivity).
      apply (Offset off _ h m s u); auto; try (apply d2_written; lia); subst s u; reflexivity.
    + replace ((if off <? 0 then 45 else 43) :: d2 h ++ d2 m ++ d2 s) with ([if off <? 0 then 45 else 43] ++ d2 h ++ d2 m ++ d2 s ++ []) by (rewrite !app_nil_r; reflexivity).
      apply (Offset off _ h m s u); auto; try (apply d2_written; lia).
      * destruct (Z.eqb_spec s 0); [contradiction|]. cbn [andb]. auto.
      * subst u. reflexivity.
  - apply (Offset off _ h m s u (d2 h) (d2 m) (d2 s) (46 :: d6 u)); auto; try (apply d2_written; lia).
    + destruct (Z.eqb_spec u 0); [contradiction|]. rewrite andb_false_r. auto.
    + destruct (Z.eqb_spec u 0); [contradiction|]. exists (d6 u). split; [apply d6_written; exact Fu|reflexivity].
Qed.

Section Library.
Variable letter : Z -> text.
Variable at_end : text.
Hypothesis letter_percent : letter 37 = [37].

Lemma c_plain : forall t r, ~ In 37 t -> c_strftime letter at_end (t ++ r) = t ++ c_strftime letter at_end r.
Proof.
  induction t as [|c t IH]; intros r N; [reflexivity|]. cbn [app c_strftime].
  destruct (Z.eqb_spec c percent) as [E|E]; [destruct N; left; exact E|]. rewrite IH; [reflexivity|]. intro I. apply N. right. exact I.
Qed.
Lemma c_escape : forall t r, c_strftime letter at_end (escape t ++ r) = t ++ c_strftime letter at_end r.
Proof.
  induction t as [|c t IH]; intros r; [reflexivity|]. cbn [escape]. destruct (Z.eqb_spec c percent) as [E|E]; cbn [app c_strftime].
  - cbn [Z.eqb percent]. change (percent =? percent) with true. cbn iota. change percent with 37 in *. rewrite letter_percent, IH, E. reflexivity.
  - destruct (Z.eqb_spec c percent); [contradiction|]. rewrite IH. reflexivity.
Qed.
Lemma written_plain : forall n w t, written n w t -> ~ In 37 t.
Proof. intros n w t [_ [D _]] I. apply D in I. clear - I. lia. Qed.
Lemma offset_plain : forall off t, offset_text off t -> ~ In 37 t.
Proof.
  intros off t [sign h m s u th tm ts tu _ _ _ _ Sg Wh Wm Ws Wu] I.
  rewrite !in_app_iff in I. destruct I as [[I|[]]|[I|[I|[I|I]]]].
  - subst sign. destruct (off <? 0); discriminate.
  - exact (written_plain _ _ _ Wh I).
  - exact (written_plain _ _ _ Wm I).
  - destruct ((s =? 0) && (u =? 0)); [subst ts; destruct I|exact (written_plain _ _ _ Ws I)].
  - destruct (u =? 0); [subst tu; destruct I|]. destruct Wu as [t' [Wt ->]]. destruct I as [I|I]; [discriminate|exact (written_plain _ _ _ Wt I)].
Qed.

(** The result is what the documentation says, letter by letter, whatever the C library writes for
    the other letters, as long as it writes a per cent sign for two of them. *)
Theorem C182_strftime : forall o format, proper o ->
  formatted letter at_end o format (wrap_strftime letter at_end o format).
Proof.
  intros o format [Pu Pz]. unfold wrap_strftime.
  enough (G : forall n format, (length format <= n)%nat -> formatted letter at_end o format (c_strftime letter at_end (new_format o format))) by (apply (G (length format)); apply le_n).
  clear format. induction n as [|n IH]; intros format L.
  { destruct format; [constructor|cbn [length] in L; inversion L]. }
  destruct format as [|c r]; [constructor|]. cbn [new_format]. cbn [length] in L. apply le_S_n in L.
  destruct (Z.eqb_spec c percent) as [E|E].
  2:{ cbn [c_strftime]. destruct (Z.eqb_spec c percent); [contradiction|]. apply FPlain; [exact E|apply IH; exact L]. }
  subst c. destruct r as [|x r]; [apply FEnd|].
  assert (IHr : formatted letter at_end o r (c_strftime letter at_end (new_format o r))) by (apply IH; cbn [length] in L; apply Nat.lt_le_incl; exact L).
  destruct (Z.eqb_spec x 102) as [->|N1].
  { assert (W : written (match microsecond o with Some u => u | None => 0 end) 6 (f_replace o)).
    { apply d6_written. destruct (microsecond o); [apply Pu; reflexivity|]. split; [discriminate|reflexivity]. }
    rewrite c_plain by (exact (written_plain _ _ _ W)). apply FLetter; [constructor; exact W|exact IHr]. }
  destruct (Z.eqb_spec x 122) as [->|N2].
  { unfold z_replace. destruct (utcoffset o) as [[off|]|] eqn:U.
    - assert (W := z_right off (Pz off eq_refl)). rewrite c_plain by (exact (offset_plain _ _ W)).
      apply FLetter; [apply ShowZ with (off := off); assumption|exact IHr].
    - apply (FLetter letter at_end o 122 r [] _); [apply ShowNoZ; right; exact U|exact IHr].
    - apply (FLetter letter at_end o 122 r [] _); [apply ShowNoZ; left; exact U|exact IHr]. }
  destruct (Z.eqb_spec x 90) as [->|N3].
  { unfold Z_replace. destruct (tzname o) as [[s|]|] eqn:U.
    - rewrite c_escape. apply FLetter; [apply ShowName; exact U|exact IHr].
    - apply (FLetter letter at_end o 90 r [] _); [apply ShowNoName; right; exact U|exact IHr].
    - apply (FLetter letter at_end o 90 r [] _); [apply ShowNoName; left; exact U|exact IHr]. }
  cbn [app c_strftime]. change (percent =? percent) with true. cbn iota.
  apply FLetter; [apply ShowOther; assumption|exact IHr].
Qed.
End Library.
Print Assumptions C182_strftime.

(** "%f|%z|%Z|%Y%%" for 123 microseconds, 5 h 30 min 1 s behind UTC, in a zone named a%b *)
Definition sample : stamp := Stamp (Some 123) (Some (Some (-19801000000))) (Some (Some [97; 37; 98])).
Definition library (c : Z) : text := if c =? 37 then [37] else [89].
Example C182_example : proper sample /\ library 37 = [37] /\ wrap_strftime library [] sample [37; 102; 124; 37; 122; 124; 37; 90; 124; 37; 89; 37; 37] =
    [48; 48; 48; 49; 50; 51; 124; 45; 48; 53; 51; 48; 48; 49; 124; 97; 37; 98; 124; 89; 37].
Proof.
  split; [|split; reflexivity]. split.
  - intros u E. injection E as <-. split; [discriminate|reflexivity].
  - intros off E. injection E as <-. reflexivity.
Qed.
