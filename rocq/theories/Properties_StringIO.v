(** In-memory text files (C74).

    Full property: a file opened on symbolic text answers every sequence of reads,
    writes, seeks, truncations and queries as io.StringIO does, for each of the five
    newline modes.  It holds for the calls that [fine] admits, and not otherwise: each
    exception is matched by a refutation.

    StringIO_Spec says what io.StringIO does: [does] for one call, [history] for a
    sequence of them. *)
From Coq Require Import List Bool ZArith Lia ZifyBool ZifyNat.
From Verif Require Import Py Str_Spec Str_Model Seq_Proofs Str_Proofs Regex_Model Regex_Spec Regex_Proofs RegexEntry_Proofs RegexSub_Proofs Properties_Regex StringIO_Model StringIO_Spec StringIO_Proofs.
Import ListNotations.
Open Scope Z_scope.

(** Excluded: negative sizes; reading a line from beyond the end of the text; a limit
    on a line, unless the file is at its start and the text is at least that long;
    getvalue and newlines on a closed file. *)
Definition fine (g : file) (o : op) : Prop :=
  match o with
  | Read (Some n) => 0 <= n
  | Readline None => position g <= blen (buffer g)
  | Readline (Some n) => position g = 0 /\ 0 <= n <= blen (buffer g)
  | Truncate (Some n) => 0 <= n
  | Getvalue | Newlines => shut g = false
  | _ => True
  end.
(** every call in the history is fine when it is made *)
Fixpoint all_fine (md : mode) (g : file) (os : list op) : Prop :=
  match os with
  | [] => True
  | o :: os => fine g o /\ match does md g o with Ok (_, g') => all_fine md g' os | Err _ => all_fine md g os end
  end.

Definition shows (f : sio) (g : file) : Prop :=
  contents f = buffer g /\ pos f = position g /\ discovered f = seen g /\ closed f = shut g /\ 0 <= pos f.

Lemma upto_between g n : 0 <= position g -> match n with Some n => 0 <= n | None => True end ->
  upto g n = between (buffer g) (position g) (match n with Some n => position g + n | None => Z.max (position g) (blen (buffer g)) end).
Proof.
  intros P N. unfold upto, between. destruct n as [n|].
  - replace (n <? 0) with false by lia. f_equal. lia.
  - rewrite firstn_all2; auto. rewrite skipn_length. unfold blen. lia.
Qed.

Lemma readline_ok md c p e d : 0 <= p <= e -> e <= blen c ->
  m_readline md (mkSio c p d false) (Some e) =
  (let r := line md (between c p e) in Ok (OStr r, mkSio c (p + blen r) d false)).
Proof.
  intros P E. unfold m_readline. cbn [contents StringIO_Model.pos]. unfold StringIO_Model.at_pos. cbn [contents StringIO_Model.discovered StringIO_Model.closed].
  change (blen c) with (slen c) in E.
  assert (G : forall nl, nl <> [] ->
    (let idx := m_find c nl (Some p) (Some e) in
     if idx =? -1 then Ok (OStr (sslice c (Some p) (Some e)), mkSio c e d false)
     else Ok (OStr (sslice c (Some p) (Some (idx + slen nl))), mkSio c (idx + slen nl) d false)) =
    (let r := line_to nl (between c p e) in Ok (OStr r, mkSio c (p + blen r) d false) : res (out * sio))).
  { intros nl NE. destruct (find_line c nl p e NE P E) as [L1 L2]. cbn zeta in *.
    destruct (m_find c nl (Some p) (Some e) =? -1) eqn:I.
    - rewrite sslice_between by lia. rewrite L1, <- L2. reflexivity.
    - rewrite L1. rewrite <- L2. rewrite sslice_any; auto. unfold blen in L2. lia. }
  destruct md; cbn [line]; try (apply G; discriminate).
  rewrite sslice_prefix, matches_hits by lia.
  assert (B : skipn (Z.to_nat p) (firstn (Z.to_nat e) c) = between c p e).
  { unfold between. rewrite skipn_firstn_comm. f_equal. lia. }
  rewrite B. pose proof (hits_line _ (between c p e) p (le_n _)) as H.
  pose proof (between_len c p e P E) as BL.
  destruct (hits p (between c p e)) as [|m ms].
  - rewrite sslice_between by lia. rewrite H, BL. cbn zeta. do 3 f_equal. lia.
  - destruct H as (k & K1 & K2 & K3). rewrite K1, K3. unfold blen in BL.
    assert (F : between c p (p + Z.of_nat k) = firstn k (between c p e)).
    { unfold between. rewrite firstn_firstn. unfold between in K2. rewrite firstn_length in K2. f_equal. lia. }
    rewrite sslice_any, F by lia. cbn zeta. do 3 f_equal. unfold blen. rewrite firstn_length. lia.
Qed.

Lemma write_ok c p t : 0 <= p ->
  (let padded := if p >? slen c then c ++ srepeat [0] (p - slen c) else c in
   let contentslen := if p >? slen c then p else slen c in
   if p =? contentslen then padded ++ t
   else sslice c None (Some p) ++ t ++ sslice c (Some (p + slen t)) None) = overwrite c p t.
Proof.
  intros P. cbn zeta. unfold overwrite. change (blen t) with (slen t). pose proof (slen_nonneg t) as TN.
  assert (SR : forall n, srepeat [0] n = repeat 0 (Z.to_nat n)).
  { intro n. unfold srepeat. induction (Z.to_nat n) as [|k IH]; cbn; auto. now rewrite IH. }
  rewrite Z.gtb_ltb. destruct (Z.ltb_spec (slen c) p).
  - rewrite Z.eqb_refl, SR. rewrite firstn_all2 by (unfold slen in *; lia).
    rewrite (skipn_all2 c) by (unfold slen in *; lia). rewrite app_nil_r, <- app_assoc.
    replace (Z.to_nat (p - slen c)) with (Z.to_nat p - length c)%nat by (unfold slen; lia). reflexivity.
  - replace (Z.to_nat p - length c)%nat with O by (unfold slen in *; lia). cbn [repeat app].
    destruct (Z.eqb_spec p (slen c)).
    + subst p. rewrite firstn_all2 by (unfold slen; lia). rewrite skipn_all2 by (unfold slen in *; lia). now rewrite app_nil_r.
    + rewrite sslice_prefix, sslice_suffix by lia. reflexivity.
Qed.

(** ** One call *)
Theorem stringio_call_partial md f g o : shows f g -> fine g o ->
  match call md f o, does md g o with
  | Ok (r, f'), Ok (r', g') => r = r' /\ shows f' g'
  | Err e, Err e' => e = e'
  | _, _ => False
  end.
Proof.
  intros (C & P & D & L & PN) F. destruct f as [c p d cl]; destruct g as [b q s sh]; cbn in *. subst b q s sh.
  destruct o as [n|n|t|n w| |n| | |]; cbn [call does]; cbn [fine] in F; cbn [contents StringIO_Model.pos discovered closed buffer position seen shut] in *.
  - destruct cl; [reflexivity|]. unfold m_read. cbn [contents StringIO_Model.pos].
    rewrite upto_between by (cbn; auto). cbn [buffer position].
    assert (E : (match n with Some n => sslice c (Some p) (Some (p + n)) | None => sslice c (Some p) None end) =
                between c p (match n with Some n => p + n | None => Z.max p (blen c) end)).
    { destruct n as [n|]; [now rewrite sslice_any by lia|]. rewrite sslice_suffix by lia. unfold between.
      rewrite firstn_all2; auto. rewrite skipn_length. unfold blen. lia. }
    rewrite E. split; [reflexivity|]. unfold shows, StringIO_Model.at_pos, moved. cbn.
    unfold slen, blen. repeat split; lia.
  - destruct cl; [reflexivity|].
    assert (G : forall e, 0 <= p <= e -> e <= blen c -> upto (mkFile c p d false) n = between c p e ->
      m_readline md (mkSio c p d false) n = m_readline md (mkSio c p d false) (Some e) ->
      match m_readline md (mkSio c p d false) n with
      | Ok (r, f') => r = OStr (line md (upto (mkFile c p d false) n)) /\
          shows f' (moved (mkFile c p d false) (p + blen (line md (upto (mkFile c p d false) n))))
      | Err _ => False
      end).
    { intros e H1 H2 U M. rewrite M, (readline_ok md c p e d H1 H2), U. cbn zeta. split; [reflexivity|].
      unfold shows, moved. cbn. unfold blen. repeat split; lia. }
    assert (exists e, 0 <= p <= e /\ e <= blen c /\ upto (mkFile c p d false) n = between c p e /\
                      m_readline md (mkSio c p d false) n = m_readline md (mkSio c p d false) (Some e)) as (e & H1 & H2 & U & M).
    { destruct n as [n|].
      - exists n. split; [lia|]. split; [lia|]. rewrite upto_between by (cbn; lia). cbn [buffer position].
        split; [f_equal; lia|reflexivity].
      - exists (blen c). split; [lia|]. split; [lia|]. rewrite upto_between by (cbn; auto). cbn [buffer position].
        split; [f_equal; lia|reflexivity]. }
    specialize (G e H1 H2 U M). destruct (m_readline md (mkSio c p d false) n) as [[r f']|]; [|contradiction].
    destruct G as [-> G]. split; auto.
  - destruct cl; [reflexivity|]. unfold m_write. cbn [contents StringIO_Model.pos discovered closed].
    destruct t as [|x t].
    { split; [reflexivity|]. unfold shows. cbn. auto 6. }
    rewrite replace_newlines_ok. cbn [bind]. rewrite write_ok by lia.
    split; [reflexivity|]. unfold shows. cbn [contents StringIO_Model.pos discovered closed buffer position seen shut].
    unfold slen, blen. repeat split; lia.
  - destruct cl; [reflexivity|]. unfold m_seek, StringIO_Model.at_pos, moved.
    cbn [contents StringIO_Model.pos discovered closed buffer position seen shut].
    destruct (Z.eqb_spec w 1) as [->|W1]; [|destruct (Z.eqb_spec w 2) as [->|W2]; [|destruct (Z.eqb_spec w 0) as [->|W0]]];
      cbn [Z.eqb orb].
    + change (1 =? 0) with false. cbn iota. destruct (Z.eqb_spec n 0) as [->|]; cbn; auto.
      unfold shows. cbn. replace (p + 0) with p by lia. auto 6.
    + change (2 =? 0) with false. cbn iota. destruct (Z.eqb_spec n 0) as [->|]; cbn; auto.
      unfold shows. cbn. rewrite Z.add_0_r. unfold slen, blen. repeat split; lia.
    + destruct (Z.ltb_spec n 0); cbn; auto. unfold shows. cbn. auto 6.
    + reflexivity.
  - destruct cl; [reflexivity|]. split; [reflexivity|]. unfold shows. cbn. auto 6.
  - destruct cl; [reflexivity|]. unfold m_truncate. cbn [contents StringIO_Model.pos discovered closed].
    assert (N : 0 <= match n with Some n => n | None => p end) by (destruct n; lia).
    set (k := match n with Some n => n | None => p end) in *.
    replace (k <? 0) with false by lia. split; [reflexivity|].
    unfold shows. cbn [contents StringIO_Model.pos discovered closed buffer position seen shut]. rewrite sslice_prefix by lia. auto 6.
  - rewrite F. split; [reflexivity|]. unfold shows. cbn. auto 6.
  - rewrite F. split; [reflexivity|]. unfold shows. cbn. auto 6.
  - split; [reflexivity|]. unfold shows. cbn. auto 6.
Qed.
Print Assumptions stringio_call_partial.

(** ** Every history *)
Lemma init_ok md initial : exists f, init md initial 0 = Ok f /\ shows f (created md initial).
Proof.
  unfold init, created. change (0 <? 0) with false. cbn iota. destruct initial as [|x l].
  - eexists. split; [reflexivity|]. unfold shows. destruct md; cbn; auto 6; repeat split; lia.
  - rewrite replace_newlines_ok. eexists. split; [reflexivity|]. unfold shows. cbn [bind fst snd contents StringIO_Model.pos discovered closed buffer position seen shut app].
    repeat split; lia.
Qed.
Theorem stringio_partial md initial os :
  all_fine md (created md initial) os ->
  exists f, init md initial 0 = Ok f /\ calls md f os = history md (created md initial) os.
Proof.
  intros A. destruct (init_ok md initial) as (f & E & S). exists f. split; [exact E|]. clear E.
  revert f S A. generalize (created md initial). induction os as [|o os IH]; intros g f S A; [reflexivity|].
  destruct A as [A1 A2]. pose proof (stringio_call_partial md f g o S A1) as H.
  cbn [calls history]. destruct (call md f o) as [[r f']|e]; destruct (does md g o) as [[r' g']|e']; try contradiction.
  - destruct H as [-> H]. f_equal. now apply IH.
  - subst e'. f_equal. now apply IH.
Qed.
Print Assumptions stringio_partial.

(** "a\r\nb" in universal mode: read a line, seek past the end, write "c\r", go back,
    truncate, look, close *)
Definition session : list op :=
  [Readline None; Tell; Seek 5 0; Write [99; 13]; Getvalue; Newlines; Seek 0 0; Readline (Some 1); Read (Some 1);
   Truncate None; Seek 1 2; Getvalue; Close; Read None].
Example session_fine : all_fine MNone (created MNone [97; 13; 10; 98]) session.
Proof. vm_compute. repeat split; try discriminate; auto. Qed.
Example session_results : history MNone (created MNone [97; 13; 10; 98]) session =
  [Ok (OStr [97; 10]); Ok (OInt 2); Ok (OInt 5); Ok (OInt 2); Ok (OStr [97; 10; 98; 0; 0; 99; 10]);
   Ok (ONames [[13]; [13; 10]]); Ok (OInt 0); Ok (OStr [97]); Ok (OStr [10]); Ok (OInt 2); Err OSError;
   Ok (OStr [97; 10]); Ok ONone; Err ValueError].
Proof. vm_compute. reflexivity. Qed.

(** *** What symbolic strings make of the pattern for newlines
    The model takes Pattern.sub and Pattern.finditer as CPython has them; for this
    pattern, they are so for symbolic strings too (C70, C71). *)
Lemma newline_simple : Forall (simple Z false) newline_re.
Proof. repeat (constructor; try discriminate; auto). Qed.
Lemma newline_supported s : supported Z Z.eqb no_word false 1 s newline_re.
Proof.
  apply simple_supported; [exact newline_simple|repeat constructor; cbn; tauto|].
  intros g [<-|[]]. lia.
Qed.
Lemma newline_advances s i w : 0 <= i <= Regex_Spec.len s -> In w (seq_ways Z Z.eqb no_word false s newline_re i) -> i < fst w.
Proof.
  intros I H. unfold newline_re in H. cbn [seq_ways ways and_then flat_map] in H.
  destruct (Regex_Spec.holds (Z.eqb 13) (Regex_Spec.at_pos s i)); destruct (Regex_Spec.holds (Z.eqb 10) (Regex_Spec.at_pos s i));
    cbn [flat_map map app fst snd] in H;
    destruct (Regex_Spec.holds (Z.eqb 10) (Regex_Spec.at_pos s (i + 1))); cbn in H;
    repeat match goal with H : _ \/ _ |- _ => destruct H end; subst; cbn in *; try contradiction; lia.
Qed.
Theorem newline_sub_symbolic s : exists N, forall fuel, (N <= fuel)%nat ->
  map_res fst (re_subn Z Z.eqb no_word false fuel 1 newline_re (fun _ _ => [10]) s 0) = Ok (universal s).
Proof.
  destruct (subn_agrees_partial Z Z.eqb no_word false 1 newline_re s 0 (fun _ => [10]) (newline_supported s)) as (N & H).
  - repeat constructor.
  - exact (newline_advances s).
  - lia.
  - exists N. intros fuel FU. rewrite (H fuel FU). cbn [map_res]. f_equal. exact (re_sub_universal s).
Qed.
Print Assumptions newline_sub_symbolic.
Theorem newline_finditer_symbolic s p e : 0 <= p <= e -> e <= Regex_Spec.len s -> exists N, forall fuel, (N <= fuel)%nat ->
  exists ms, re_finditer Z Z.eqb no_word false fuel 1 newline_re s p (Some e) = Ok ms /\
    Forall2 (agrees 1) (re_matches (visible s (Some e)) p) ms.
Proof. intros P E. exact (finditer_agrees_partial Z Z.eqb no_word false 1 newline_re s p e P E (newline_supported _)). Qed.
Print Assumptions newline_finditer_symbolic.
Example newline_example :
  map_res fst (re_subn Z Z.eqb no_word false 30 1 newline_re (fun _ _ => [10]) [97; 13; 10; 13; 98; 10] 0) = Ok [97; 10; 10; 98; 10] /\
  universal [97; 13; 10; 13; 98; 10] = [97; 10; 10; 98; 10].
Proof. vm_compute. auto. Qed.

(** ** Refutations *)
Definition differs (md : mode) (initial : list Z) (os : list op) : Prop :=
  exists f, init md initial 0 = Ok f /\ calls md f os <> history md (created md initial) os.
Ltac differ := eexists; split; [vm_compute; reflexivity|vm_compute; discriminate].

(** read(-1) on "ab" drops the last character. *)
Theorem stringio_read_refuted : differs MLf [97; 98] [Read (Some (-1))].
Proof. differ. Qed.
Print Assumptions stringio_read_refuted.
(** After reading one character of "abc", readline(1) reads nothing. *)
Theorem stringio_readline_limit_refuted : differs MLf [97; 98; 99] [Read (Some 1); Readline (Some 1)].
Proof. differ. Qed.
Print Assumptions stringio_readline_limit_refuted.
(** readline(5) on "a" moves to position 5. *)
Theorem stringio_readline_tell_refuted : differs MLf [97] [Readline (Some 5); Tell].
Proof. differ. Qed.
Print Assumptions stringio_readline_tell_refuted.
(** readline(-1) on "ab" drops the last character. *)
Theorem stringio_readline_negative_refuted : differs MLf [97; 98] [Readline (Some (-1))].
Proof. differ. Qed.
Print Assumptions stringio_readline_negative_refuted.
(** readline beyond the end of "a" moves back to its end. *)
Theorem stringio_readline_beyond_refuted : differs MLf [97] [Seek 3 0; Readline None; Tell].
Proof. differ. Qed.
Print Assumptions stringio_readline_beyond_refuted.
(** truncate(-1) is accepted. *)
Theorem stringio_truncate_refuted : differs MLf [97] [Truncate (Some (-1))].
Proof. differ. Qed.
Print Assumptions stringio_truncate_refuted.
(** getvalue and newlines work on a closed file. *)
Theorem stringio_closed_refuted : differs MLf [97] [Close; Getvalue] /\ differs MLf [97] [Close; Newlines].
Proof. split; differ. Qed.
Print Assumptions stringio_closed_refuted.
