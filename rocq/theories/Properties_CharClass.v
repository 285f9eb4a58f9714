(** Single-character patterns (C73): the mask computed for one covers the characters it
    matches.

    Full property: for every pattern and combination of flags.  It holds without
    IGNORECASE; with IGNORECASE, for the terms described by [fine_term], and not
    otherwise. *)
From Coq Require Import ZArith List Bool Lia ZifyBool.
From Verif Require Import Py CharMask_Model CharMask_Spec CharMask_Proofs CharClass_Model CharClass_Spec CharClass_Proofs.
Import ListNotations.
Open Scope Z_scope.

Theorem char_class_partial maxu lower upper other_letter ci digit word nd wordm :
  unicode maxu other_letter ci digit word nd wordm ->
  forall f i, fine_item maxu lower upper other_letter ci f i ->
  exists m, item_mask maxu lower upper other_letter ci nd wordm f i = Ok m /\
    forall x, 0 <= x <= maxu -> (covers m x = true <-> item_matches ci digit word f i x) /\
                                (smt_matches m x = true <-> item_matches ci digit word f i x).
Proof.
  intros U f i F.
  destruct (item_ok maxu lower upper other_letter ci digit word nd wordm U f i F) as (m & E & _ & H).
  exists m. split; [auto|]. intros x X. rewrite covers_ok, smt_matches_ok. rewrite (H x X). tauto.
Qed.
Print Assumptions char_class_partial.

(** Without IGNORECASE nothing else is needed than that the pattern's characters are
    characters and its ranges go upwards, as the parser sees to. *)
Definition proper (maxu : Z) (t : term) : Prop :=
  match t with
  | TLiteral c | TNotLiteral c => 0 <= c <= maxu
  | TRange lo hi => 0 <= lo <= hi /\ hi <= maxu
  | _ => True
  end.
Theorem char_class_case maxu lower upper other_letter ci digit word nd wordm :
  unicode maxu other_letter ci digit word nd wordm ->
  forall f i, ignorecase f = false ->
  match i with ITerm t => proper maxu t | IIn _ ts => Forall (proper maxu) ts end ->
  exists m, item_mask maxu lower upper other_letter ci nd wordm f i = Ok m /\
    forall x, 0 <= x <= maxu -> (covers m x = true <-> item_matches ci digit word f i x).
Proof.
  intros U f i NI P.
  assert (T : forall t, proper maxu t -> fine_term maxu lower upper other_letter ci f t).
  { intros [c|c|lo hi|n k|] H; cbn in *; try tauto.
    - split; [auto|congruence].
    - split; [auto|congruence].
    - split; [tauto|]. split; [tauto|congruence]. }
  destruct (char_class_partial maxu lower upper other_letter ci digit word nd wordm U f i) as (m & E & H).
  { destruct i as [t|n ts]; cbn; [auto|]. eapply Forall_impl; [|exact P]. auto. }
  exists m. split; [auto|]. intros x X. apply (H x X).
Qed.
Print Assumptions char_class_case.

(** A small Unicode: ASCII, where the long s (383) is a variant of s and the ordinal
    indicators (170, 186) are letters without case. *)
Definition key (c : Z) : Z := if (65 <=? c) && (c <=? 90) then c + 32 else if c =? 383 then 115 else c.
Definition cix (c x : Z) : bool := key c =? key x.
Definition maxx : Z := 12288.
Definition lowerx (c : Z) : option Z := Some (ascii_lower c).
Definition upperx (c : Z) : option Z := Some (if (97 <=? c) && (c <=? 122) then c - 32 else c).
Definition otherx (c : Z) : bool := (c =? 170) || (c =? 186).
Definition ndx : mask := [Rng 48 58].
Definition wordx : mask := [Rng 48 58; Rng 65 91; One 95; Rng 97 123].
Example unicode_example : unicode maxx otherx cix ascii_digit ascii_word ndx wordx.
Proof.
  constructor.
  - unfold maxx. lia.
  - intros c x C X. unfold cix, key, ascii_ci, ascii_lower.
    replace (c =? 383) with false by lia. replace (x =? 383) with false by lia. reflexivity.
  - intros c x O H. unfold otherx, cix, key in *.
    destruct ((65 <=? c) && (c <=? 90)) eqn:A; destruct ((65 <=? x) && (x <=? 90)) eqn:B; try lia;
      destruct (Z.eqb_spec c 383); destruct (Z.eqb_spec x 383); lia.
  - split; [split; [unfold maxx; repeat apply Forall_cons; try apply Forall_nil; cbn [first_of end_of]; lia|exact I]|].
    intros x X. unfold ndx. rewrite holds_one. cbn [first_of end_of]. unfold ascii_digit. lia.
  - split; [split; [unfold maxx; repeat apply Forall_cons; try apply Forall_nil; cbn [first_of end_of]; lia|cbn; lia]|].
    intros x X. unfold wordx. rewrite !holds_cons, holds_nil. cbn [first_of end_of]. unfold ascii_word. lia.
  - tauto.
  - tauto.
Qed.
Notation maskx := (item_mask maxx lowerx upperx otherx cix ndx wordx).
Notation matchesx := (item_matches cix ascii_digit ascii_word).
(** [^a-f\s] with IGNORECASE is fine: *)
Example class_example :
  let f := mkFlags true false false in
  let i := IIn true [TRange 97 102; TCategory false Space] in
  fine_item maxx lowerx upperx otherx cix f i /\
  map_res (fun m => map (covers m) [97; 70; 32; 160; 103; 383]) (maskx f i) =
    Ok [false; false; false; false; true; true].
Proof.
  cbv zeta. split; [|vm_compute; reflexivity].
  constructor; [|constructor; [exact I|constructor]]. cbn. unfold maxx. split; [lia|]. split; [lia|]. intros _.
  exists 97, 102, 65, 70. do 4 (split; [reflexivity|]). do 4 (split; [lia|]). intros x X. split.
  - intros [H|H].
    + exists x. split; [auto|]. unfold cix. lia.
    + exists (x + 32). split; [lia|]. unfold cix, key.
      replace ((65 <=? x + 32) && (x + 32 <=? 90)) with false by lia.
      replace ((65 <=? x) && (x <=? 90)) with true by lia. replace (x + 32 =? 383) with false by lia. lia.
  - intros (i & R & H). unfold cix, key in H.
    replace ((65 <=? i) && (i <=? 90)) with false in H by lia. replace (i =? 383) with false in H by lia.
    destruct ((65 <=? x) && (x <=? 90)) eqn:B; destruct (Z.eqb_spec x 383); lia.
Qed.

(** With IGNORECASE, an escaped dot matches every character, for instance "a". *)
Theorem class_dot_refuted : exists m, maskx (mkFlags true false false) (ITerm (TLiteral 46)) = Ok m /\
  covers m 97 = true /\ ~ matchesx (mkFlags true false false) (ITerm (TLiteral 46)) 97.
Proof.
  exists (map One (filter (fun x => negb (x =? 10)) (caseable maxx otherx))). split; [reflexivity|].
  split; [|vm_compute; discriminate]. rewrite covers_ok, holds_points, filter_In. split; [|reflexivity].
  unfold caseable. rewrite filter_In, codepoints_in. split; [unfold maxx; lia|reflexivity].
Qed.
Print Assumptions class_dot_refuted.

(** Other escaped characters raise an exception: re.error for an opening parenthesis,
    TypeError for a dollar sign. *)
Theorem class_special_refuted :
  maskx (mkFlags true false false) (ITerm (TLiteral 40)) = Err ReError /\
  maskx (mkFlags true false false) (ITerm (TLiteral 36)) = Err TypeError /\
  matchesx (mkFlags true false false) (ITerm (TLiteral 40)) 40 /\
  matchesx (mkFlags true false false) (ITerm (TLiteral 36)) 36.
Proof. vm_compute. auto. Qed.
Print Assumptions class_special_refuted.

(** With IGNORECASE, a letter without case is not matched by itself. *)
Theorem class_other_letter_refuted : exists c m, 0 <= c <= maxx /\
  maskx (mkFlags true false false) (ITerm (TLiteral c)) = Ok m /\
  covers m c = false /\ matchesx (mkFlags true false false) (ITerm (TLiteral c)) c.
Proof.
  exists 170, (map One (filter (cix 170) (caseable maxx otherx))). split; [unfold maxx; lia|]. split; [reflexivity|].
  split; [|reflexivity]. apply not_true_iff_false. rewrite covers_ok, holds_points, filter_In. unfold caseable.
  rewrite filter_In. intros [[_ H] _]. discriminate H.
Qed.
Print Assumptions class_other_letter_refuted.

(** With ASCII and IGNORECASE, nor is a character outside of ASCII. *)
Theorem class_ascii_literal_refuted : exists c m, 0 <= c <= maxx /\
  maskx (mkFlags true true false) (ITerm (TLiteral c)) = Ok m /\
  covers m c = false /\ matchesx (mkFlags true true false) (ITerm (TLiteral c)) c.
Proof.
  destruct (finds_ok maxx lowerx upperx otherx cix ascii_digit ascii_word ndx wordx unicode_example 233) as (m & E & N & _);
    [unfold maxx; lia|reflexivity|reflexivity|].
  destruct (neat_clip maxx m) as (r & E' & _ & _ & H); [unfold maxx; lia|exact N|].
  exists 233, r. split; [unfold maxx; lia|]. split.
  - unfold item_mask, term_mask. cbn [ignorecase ascii]. rewrite E. exact E'.
  - split; [|reflexivity]. apply not_true_iff_false. rewrite covers_ok, H. intros [_ B]. lia.
Qed.
Print Assumptions class_ascii_literal_refuted.

(** With ASCII and IGNORECASE, [a-z] does not match "A": clipping the two ranges, which
    are not in order, loses the second. *)
Theorem class_ascii_range_refuted : exists m,
  maskx (mkFlags true true false) (IIn false [TRange 97 122]) = Ok m /\
  covers m 65 = false /\ matchesx (mkFlags true true false) (IIn false [TRange 97 122]) 65.
Proof.
  eexists. split; [vm_compute; reflexivity|]. split; [vm_compute; reflexivity|].
  exists (TRange 97 122). split; [cbn; auto|]. exists 97. split; [lia|reflexivity].
Qed.
Print Assumptions class_ascii_range_refuted.

(** With IGNORECASE, [a-z] does not match the long s, and [Z-a] matches nothing. *)
Theorem class_range_refuted :
  (exists m, maskx (mkFlags true false false) (IIn false [TRange 97 122]) = Ok m /\
     covers m 383 = false /\ matchesx (mkFlags true false false) (IIn false [TRange 97 122]) 383) /\
  (exists m, maskx (mkFlags true false false) (IIn false [TRange 90 97]) = Ok m /\
     covers m 97 = false /\ matchesx (mkFlags true false false) (IIn false [TRange 90 97]) 97).
Proof.
  split; eexists; (split; [vm_compute; reflexivity|]); (split; [vm_compute; reflexivity|]).
  - exists (TRange 97 122). split; [cbn; auto|]. exists 115. split; [lia|reflexivity].
  - exists (TRange 90 97). split; [cbn; auto|]. exists 97. split; [lia|reflexivity].
Qed.
Print Assumptions class_range_refuted.
