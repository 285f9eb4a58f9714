(** Proofs about the string algorithms: padding, stripping, lines, fields, order. *)
From Coq Require Import ZArith List Bool Lia ZifyBool ZifyNat.
From Verif Require Import Py Range_Spec Range_Proofs PySeq_Spec Seq_Proofs Str_Model Str_Spec Str_Proofs Str_Proofs2.
Import ListNotations.
Open Scope Z_scope.

(** *** Padding *)
Lemma srepeat_fill c n : srepeat [c] n = fill c n.
Proof. unfold srepeat, fill. induction (Z.to_nat n) as [|k IH]; cbn; congruence. Qed.
Lemma fill_max c n : fill c (Z.max 0 n) = fill c n.
Proof. unfold fill. f_equal. lia. Qed.
Lemma fill_neg c n : n <= 0 -> fill c n = [].
Proof. intro. unfold fill. now replace (Z.to_nat n) with O by lia. Qed.
Lemma ljust_correct s w c : m_ljust s w c = py_ljust s w c.
Proof. unfold m_ljust, py_ljust. now rewrite srepeat_fill, fill_max. Qed.
Lemma rjust_correct s w c : m_rjust s w c = py_rjust s w c.
Proof.
  unfold m_rjust, py_rjust. destruct (w <=? slen s) eqn:E.
  - rewrite fill_neg; auto. change (len s) with (slen s). lia.
  - now rewrite srepeat_fill.
Qed.
Lemma center_correct s w c : m_center s w c = py_center s w c.
Proof.
  unfold m_center, py_center. cbn zeta. change (len s) with (slen s).
  assert (L : forall m, 0 <= m -> Z.land m (Z.land w 1) = if (w mod 2 =? 1) && (m mod 2 =? 1) then 1 else 0).
  { intros m Hm. change (Z.land w 1) with (Z.land w (Z.ones 1)). rewrite Z.land_ones by lia. change (2 ^ 1) with 2.
    pose proof (Z.mod_pos_bound w 2 ltac:(lia)). destruct (w mod 2 =? 1) eqn:W.
    - replace (w mod 2) with (Z.ones 1) by (change (Z.ones 1) with 1; lia). rewrite Z.land_ones by lia. change (2 ^ 1) with 2.
      pose proof (Z.mod_pos_bound m 2 ltac:(lia)). cbn [andb]. destruct (m mod 2 =? 1) eqn:M; lia.
    - replace (w mod 2) with 0 by lia. cbn [andb]. apply Z.land_0_r. }
  destruct (w <=? slen s) eqn:E.
  - replace (Z.max 0 (w - slen s)) with 0 by lia. change (0 / 2) with 0. change (Z.land 0 _) with 0. cbn. now rewrite app_nil_r.
  - replace (Z.max 0 (w - slen s)) with (w - slen s) by lia. rewrite L by lia. rewrite !srepeat_fill.
    set (m := w - slen s) in *. destruct (w mod 2 =? 1) eqn:W; cbn [andb].
    + pose proof (Z.div_mod m 2 ltac:(lia)). pose proof (Z.mod_pos_bound m 2 ltac:(lia)).
      destruct (m mod 2 =? 1) eqn:M; f_equal; [f_equal; lia|f_equal; f_equal; lia|f_equal; lia|f_equal; f_equal; lia].
    + now rewrite Z.add_0_r.
Qed.
Lemma startswith_char s c : m_startswith1 s [c] None None = match s with x :: _ => x =? c | [] => false end.
Proof.
  destruct (m_startswith1 s [c] None None) eqn:E.
  - apply startswith1_correct in E. cbn [win_start win_end] in E. apply occurs_in_full in E. destruct E as (u & q & -> & L).
    destruct u; [|unfold len in L; cbn in L; lia]. cbn. now rewrite Z.eqb_refl.
  - destruct s as [|x s]; auto. destruct (x =? c) eqn:X; auto. apply Z.eqb_eq in X. subst x.
    assert (m_startswith1 (c :: s) [c] None None = true); [|congruence].
    apply startswith1_correct. cbn [win_start win_end]. apply occurs_in_full. exists [], s. auto.
Qed.
Lemma zfill_correct s w : m_zfill s w = py_zfill s w.
Proof.
  unfold m_zfill, py_zfill. cbn zeta. rewrite !startswith_char, srepeat_fill, fill_max. destruct s as [|c s].
  - cbn. now rewrite app_nil_r.
  - destruct ((c =? 43) || (c =? 45)); auto. rewrite sslice_head, sslice_tail. reflexivity.
Qed.

(** *** expandtabs *)
Definition tabs_to (new : str) (s : str) : str := flat_map (fun c => if c =? 9 then new else [c]) s.
Lemma tabs_absent new s : absent s [9] -> tabs_to new s = s.
Proof.
  induction s as [|c s IH]; intro A; auto. cbn. destruct (c =? 9) eqn:E.
  - apply Z.eqb_eq in E. subst c. exfalso. apply (A [] s). reflexivity.
  - cbn. f_equal. apply IH. intros p q ->. apply (A (c :: p) q). reflexivity.
Qed.
Lemma tabs_app new a b : tabs_to new (a ++ b) = tabs_to new a ++ tabs_to new b.
Proof. apply flat_map_app. Qed.
Lemma splits_tabs new n s l : splits [9] n s l -> n < 0 -> join new l = tabs_to new s.
Proof.
  induction 1 as [|n s A|n s p q l N F S IH]; intro Hn; [lia|now rewrite tabs_absent|].
  rewrite join_cons by (eapply splits_nonnil; eauto). rewrite IH by lia.
  pose proof (first_occ_absent s [9] p q ltac:(discriminate) F) as A. destruct F as (-> & _).
  rewrite !tabs_app. rewrite (tabs_absent _ p) by auto. cbn. now rewrite app_nil_r.
Qed.
Lemma expandtabs_value s k : m_expandtabs s k = Ok (tabs_to (fill 32 k) s).
Proof.
  unfold m_expandtabs. destruct (replace_correct s [9] (srepeat [32] k) (-1)) as (r & -> & R).
  unfold is_replace in R. change (len [9] =? 0) with false in R. cbn iota in R. destruct R as (l & S & ->).
  rewrite srepeat_fill. f_equal. apply splits_tabs with (n := -1); auto. lia.
Qed.
(** every tab is at a column that is a multiple of the tab size *)
Fixpoint tabs_aligned (k col : Z) (s : list Z) : Prop :=
  match s with
  | [] => True
  | c :: r => if c =? 9 then (0 < k -> col mod k = 0) /\ tabs_aligned k col r
              else tabs_aligned k (if (c =? 10) || (c =? 13) then 0 else col + 1) r
  end.
Lemma expand_shift k j s : forall col, 0 < k -> expand k (col + j * k) s = expand k col s.
Proof.
  revert j. induction s as [|c s IH]; intros j col Hk; auto. cbn [expand].
  destruct (c =? 9).
  - replace (0 <? k) with true by lia. rewrite Z.mod_add by lia. f_equal.
    replace (col + j * k + (k - col mod k)) with (col + (k - col mod k) + j * k) by lia. now apply IH.
  - f_equal. destruct ((c =? 10) || (c =? 13)); auto. replace (col + j * k + 1) with (col + 1 + j * k) by lia. auto.
Qed.
Lemma expand_aligned k s : forall col, tabs_aligned k col s -> expand k col s = tabs_to (fill 32 k) s.
Proof.
  induction s as [|c s IH]; intros col A; auto. cbn [expand tabs_to flat_map] in *. cbn [tabs_aligned] in A.
  destruct (c =? 9) eqn:E.
  - destruct A as (A & B). destruct (0 <? k) eqn:K.
    + rewrite (A ltac:(lia)), Z.sub_0_r. f_equal.
      replace (col + k) with (col + 1 * k) by lia. rewrite expand_shift by lia. now apply IH.
    + rewrite Z.add_0_r, (fill_neg 32 0), (IH col B) by lia. unfold tabs_to. now rewrite (fill_neg 32 k) by lia.
  - cbn [app]. f_equal. now apply IH.
Qed.
Lemma expandtabs_partial s k : tabs_aligned k 0 s -> m_expandtabs s k = Ok (expand k 0 s).
Proof. intro A. rewrite expandtabs_value. f_equal. symmetry. now apply expand_aligned. Qed.

(** *** Stripping *)
Lemma lstrip_loop_correct f s : forall l p, s = p ++ l -> all_ f p -> is_lstrip f s (lstrip_loop f s (slen p) l).
Proof.
  induction l as [|c l IH]; intros p E A; cbn [lstrip_loop].
  - exists p. rewrite app_nil_r in E. subst. rewrite app_nil_r. repeat split; auto.
  - destruct (f c) eqn:F; cbn [negb].
    + replace (slen p + 1) with (slen (p ++ [c])) by (rewrite slen_app; reflexivity).
      apply IH; [now rewrite <- app_assoc|]. apply Forall_app. split; auto.
    + subst s. rewrite sslice_app_r. exists p. repeat split; auto.
Qed.
Lemma lstrip_correct f s : is_lstrip f s (m_lstrip f s).
Proof. exact (lstrip_loop_correct f s s [] eq_refl (Forall_nil _)). Qed.
Lemma getitem_last (t : str) c : py_getitem (t ++ [c]) (-1) = Ok c.
Proof.
  unfold py_getitem. cbn zeta. rewrite app_length. cbn [length]. change (-1 <? 0) with true. cbn iota.
  replace (_ || _) with false by lia. replace (Z.to_nat _) with (length t) by lia.
  rewrite nth_error_app2 by lia. now rewrite Nat.sub_diag.
Qed.
Lemma rstrip_correct f s : exists r, m_rstrip f s = Ok r /\ is_rstrip f s r.
Proof.
  unfold m_rstrip.
  enough (H : forall fuel s, (length s < fuel)%nat -> exists r, rstrip_ fuel f s = Ok r /\ is_rstrip f s r) by (apply H; lia).
  clear s. induction fuel as [|fuel IH]; intros s Hf; [lia|]. cbn [rstrip_].
  destruct s as [|c t _] using rev_ind.
  - exists []. split; auto. exists []. repeat split; [constructor|now left].
  - rewrite slen_app. change (slen [c]) with 1. replace (slen t + 1 =? 0) with false by (pose proof (slen_nonneg t); lia).
    rewrite getitem_last. cbn [bind]. destruct (f c) eqn:F.
    + change (-1) with (- slen [c]). rewrite sslice_drop_end by discriminate.
      rewrite app_length in Hf. cbn in Hf. destruct (IH t ltac:(lia)) as (r & -> & (w & E & A & L)). exists r. split; auto.
      exists (w ++ [c]). rewrite app_assoc, <- E. repeat split; auto. apply Forall_app. split; auto.
    + exists (t ++ [c]). split; auto. exists []. rewrite app_nil_r. repeat split; [constructor|]. right. exists t, c. auto.
Qed.
Lemma head_not_app f r w : head_not f (r ++ w) -> head_not f r.
Proof. destruct r; cbn; auto. Qed.
Lemma strip_correct f s : exists r, m_strip f s = Ok r /\ is_strip f s r.
Proof.
  unfold m_strip. destruct (lstrip_correct f s) as (v & E & A & H).
  destruct (rstrip_correct f (m_lstrip f s)) as (r & -> & (w & E' & A' & L)). exists r. split; auto.
  exists v, w. rewrite E' in E, H. repeat split; auto. now apply head_not_app in H.
Qed.
Lemma lstrip_unique f s r r' : is_lstrip f s r -> is_lstrip f s r' -> r = r'.
Proof.
  intros (w & E & A & H) (w' & E' & A' & H'). revert w w' E E' A A'. induction s as [|c s IH]; intros w w' E E' A A'.
  - symmetry in E, E'. apply app_eq_nil in E, E'. destruct E, E'. congruence.
  - destruct w as [|x w], w' as [|x' w']; cbn in E, E'.
    + congruence.
    + subst r. injection E' as <- E'. inversion A'; subst. cbn in H. congruence.
    + subst r'. injection E as <- E. inversion A; subst. cbn in H'. congruence.
    + injection E as <- E. injection E' as <- E'. inversion A; inversion A'; subst. eapply IH; eauto.
Qed.

(** *** Order *)
Lemma lex_lt_irrefl a : ~ lex_lt a a.
Proof.
  intros (p & [(y & b' & -> & E)|(x & y & a' & b' & E & E' & L)]).
  - apply (f_equal (@length Z)) in E. rewrite app_length in E. cbn in E. lia.
  - rewrite E in E'. apply app_inv_head in E'. injection E' as ? _. lia.
Qed.
Lemma lex_lt_cons x y a b : lex_lt (x :: a) (y :: b) <-> x < y \/ x = y /\ lex_lt a b.
Proof.
  split.
  - intros ([|z p] & [(u & b' & E & E')|(u & v & a' & b' & E & E' & L)]); cbn in E, E'; try discriminate.
    + injection E as <- ->. injection E' as <- ->. auto.
    + injection E as <- ->. injection E' as -> ->. right. split; auto. exists p. left. eauto.
    + injection E as -> ->. injection E' as <- ->. right. split; auto. exists p. right. eauto 10.
  - intros [L|(-> & (p & [(u & b' & -> & ->)|(u & v & a' & b' & -> & -> & L)]))].
    + exists []. right. cbn. eauto 10.
    + exists (y :: p). left. cbn. eauto.
    + exists (y :: p). right. cbn. eauto 10.
Qed.
Lemma lex_nil_r a : ~ lex_lt a [].
Proof. intros (p & [(u & b' & E & E')|(u & v & a' & b' & E & E' & L)]); destruct p; discriminate. Qed.
Lemma lex_nil_l y b : lex_lt [] (y :: b).
Proof. exists []. left. cbn. eauto. Qed.
Fixpoint lex_ltb (a b : list Z) : bool :=
  match a, b with
  | _, [] => false
  | [], _ :: _ => true
  | x :: a, y :: b => (x <? y) || ((x =? y) && lex_ltb a b)
  end.
Lemma lex_ltb_iff a : forall b, lex_ltb a b = true <-> lex_lt a b.
Proof.
  induction a as [|x a IH]; intros [|y b]; cbn [lex_ltb].
  - split; [discriminate|]. intro H. now apply lex_nil_r in H.
  - split; auto. intros _. apply lex_nil_l.
  - split; [discriminate|]. intro H. now apply lex_nil_r in H.
  - rewrite lex_lt_cons, orb_true_iff, andb_true_iff, IH, Z.ltb_lt, Z.eqb_eq. tauto.
Qed.
Lemma lex_total a : forall b, a <> b -> lex_ltb b a = negb (lex_ltb a b).
Proof.
  induction a as [|x a IH]; intros [|y b] N; cbn [lex_ltb]; auto; try congruence.
  destruct (Z.eq_dec x y) as [->|].
  - rewrite Z.ltb_irrefl, Z.eqb_refl. cbn [orb andb]. apply IH. congruence.
  - replace (x =? y) with false by lia. replace (y =? x) with false by lia. cbn [andb]. lia.
Qed.
Lemma cmp_scan_value o a : forall b, a <> b ->
  cmp_scan o a b = Ok (match o with OLt | OLe => lex_ltb a b | _ => lex_ltb b a end).
Proof.
  induction a as [|x a IH]; intros [|y b] N; cbn [cmp_scan lex_ltb]; try congruence.
  - destruct o; auto.
  - destruct o; auto.
  - destruct (x =? y) eqn:E.
    + apply Z.eqb_eq in E. subst y. rewrite IH by congruence. rewrite Z.ltb_irrefl, Z.eqb_refl. reflexivity.
    + f_equal. destruct o; lia.
Qed.
Definition lex_spec (o : cop) (a b : str) : Prop :=
  match o with OLt => lex_lt a b | OLe => a = b \/ lex_lt a b | OGt => lex_lt b a | OGe => a = b \/ lex_lt b a end.
Lemma cmp_correct o a b : exists v, m_cmp o a b = Ok v /\ (v = true <-> lex_spec o a b).
Proof.
  unfold m_cmp. destruct (list_eqb a b) eqn:E.
  - apply list_eqb_eq in E. subst b. eexists; split; [reflexivity|]. unfold lex_spec. pose proof (lex_lt_irrefl a). destruct o; tauto || (split; [discriminate|tauto]).
  - assert (N : a <> b) by (intro K; apply list_eqb_eq in K; congruence).
    rewrite cmp_scan_value by auto. eexists; split; [reflexivity|]. unfold lex_spec. destruct o; rewrite lex_ltb_iff; tauto.
Qed.

(** *** splitlines *)
Lemma all_app f a b : all_ f (a ++ b) <-> all_ f a /\ all_ f b.
Proof. apply Forall_app. Qed.
Lemma lines_scan_correct isnl (keepends : bool) s : isnl 13 = true -> forall l p, s = p ++ l ->
  all_ (fun c => negb (isnl c)) p ->
  (lines_scan isnl s keepends (slen p) l = Ok None /\ all_ (fun c => negb (isnl c)) s) \/
  exists u e q, s = u ++ e ++ q /\ all_ (fun c => negb (isnl c)) u /\ line_end isnl e q
    /\ lines_scan isnl s keepends (slen p) l = Ok (Some (if keepends then u ++ e else u, q)).
Proof.
  intro N13. induction l as [|c l IH]; intros p E A; cbn [lines_scan].
  - left. rewrite app_nil_r in E. now subst.
  - destruct (isnl c) eqn:F; cbn [negb].
    + right. cbn zeta.
      assert (P : sslice s None (Some (if keepends then slen p + 1 else slen p)) = (if keepends then p ++ [c] else p)
                  /\ sslice s (Some (slen p + 1)) None = l).
      { subst s. replace (slen p + 1) with (slen (p ++ [c])) by (rewrite slen_app; reflexivity).
        split; [destruct keepends|]; [| apply sslice_app_l |]; change (c :: l) with ([c] ++ l); rewrite app_assoc;
          [apply sslice_app_l|apply sslice_app_r]. }
      destruct P as (P1 & P2). rewrite P1, P2.
      destruct (c =? 13) eqn:C.
      * apply Z.eqb_eq in C. subst c. destruct (slen p + 1 <? slen s) eqn:L.
        -- destruct l as [|d l]; [subst s; rewrite slen_app in L; change (slen [13]) with 1 in L; lia|].
           assert (G : py_getitem s (slen p + 1) = Ok d).
           { subst s. unfold py_getitem. cbn zeta. fold (slen (p ++ 13 :: d :: l)). pose proof (slen_nonneg p).
             ifs; try lia. replace (Z.to_nat (slen p + 1)) with (length p + 1)%nat by (unfold slen; lia).
             rewrite nth_error_app2 by lia. now replace (length p + 1 - length p)%nat with 1%nat by lia. }
           rewrite G. cbn [bind]. destruct (d =? 10) eqn:D.
           ++ apply Z.eqb_eq in D. subst d. exists p, [13; 10], l. split; [now subst s|]. split; [auto|]. split; [now left|].
              do 2 f_equal. subst s. replace (slen p + 2) with (slen (p ++ [13; 10])) by (rewrite slen_app; reflexivity).
              f_equal; [destruct keepends|]; [| apply sslice_app_l |]; change (13 :: 10 :: l) with ([13; 10] ++ l); rewrite app_assoc;
                [apply sslice_app_l|apply sslice_app_r].
           ++ exists p, [13], (d :: l). split; [now subst s|]. split; [auto|]. split; [|reflexivity].
              right. exists 13. repeat split; auto. intros (_ & q' & K). injection K as -> _. discriminate.
        -- exists p, [13], l. split; [now subst s|]. split; [auto|]. split; [|reflexivity].
           right. exists 13. repeat split; auto. intros (_ & q' & ->). subst s. rewrite slen_app in L. unfold slen in L. cbn [length] in L. lia.
      * exists p, [c], l. split; [now subst s|]. split; [auto|]. split; [|reflexivity].
        right. exists c. repeat split; auto. intros (-> & _). discriminate.
    + replace (slen p + 1) with (slen (p ++ [c])) by (rewrite slen_app; reflexivity).
      apply IH; [now rewrite <- app_assoc|]. apply all_app. split; auto. constructor; [now rewrite F|constructor].
Qed.
Lemma splitlines_correct isnl s keepends : isnl 13 = true ->
  exists l, m_splitlines isnl s keepends = Ok l /\ lines isnl keepends s l.
Proof.
  intro N13. unfold m_splitlines.
  enough (H : forall fuel s, (length s < fuel)%nat -> exists l, splitlines_ fuel isnl s keepends = Ok l /\ lines isnl keepends s l) by (apply H; lia).
  clear s. induction fuel as [|fuel IH]; intros s Hf; [lia|]. cbn [splitlines_].
  destruct (slen s =? 0) eqn:S0.
  - assert (s = []) by (apply slen_0; lia). subst s. exists []. split; auto. constructor.
  - destruct (lines_scan_correct isnl keepends s N13 s [] eq_refl (Forall_nil _)) as [(E & A)|(u & e & q & E & A & LE & R)];
      change (slen []) with 0 in *.
    + rewrite E. cbn [bind]. exists [s]. split; auto. apply ln_last; auto. intros ->. discriminate.
    + rewrite R. cbn [bind]. assert (Lq : (length q < fuel)%nat).
      { rewrite E in Hf. rewrite !app_length in Hf. destruct LE as [->|(c & -> & _)]; cbn [length] in Hf; lia. }
      destruct (IH q Lq) as (l & -> & Ll). cbn [bind]. eexists; split; [reflexivity|]. rewrite E. now apply ln_cut.
Qed.
Lemma lines_keepends isnl s l : lines isnl true s l -> concat l = s.
Proof. induction 1 as [| |p e q l A LE S IH]; cbn [concat]; auto using app_nil_r. rewrite IH. now rewrite app_assoc. Qed.
