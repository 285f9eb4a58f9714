(** Match objects: group, groups, start, end, span, lastindex, expand. *)
From Coq Require Import List Bool ZArith Lia ZifyBool ZifyNat.
From Verif Require Import Py PySeq_Spec Range_Spec Str_Model Str_Spec Str_Proofs Regex_Model Regex_Spec Regex_Proofs RegexEntry_Proofs.
Import ListNotations.
Open Scope Z_scope.

Lemma text_slice s sp : within s sp -> sslice s (Some (fst sp)) (Some (snd sp)) = text s sp.
  Proof.
    intros [A B]. unfold len in B. rewrite sslice_mid by (unfold slen; lia).
    unfold text. auto.
  Qed.

Section O.
  Variable G : nat.
  Variable m : Z * way.
  Variable p : part.
  Hypothesis AG : agrees G m p.

  Lemma item_ok g : (g <= G)%nat -> py_getitem p (Z.of_nat g) = Ok (group_span m g).
  Proof.
    intro H. destruct AG as [L N]. unfold py_getitem. rewrite L.
    replace (Z.of_nat g <? 0) with false by lia. cbv zeta.
    replace ((Z.of_nat g <? 0) || (Z.of_nat (S G) <=? Z.of_nat g)) with false by lia.
    rewrite Nat2Z.id. rewrite <- (N g H).
    rewrite (nth_error_nth' p None) by lia. auto.
  Qed.
  Lemma item_above n : Z.of_nat G < n -> py_getitem p n = Err IndexError.
  Proof.
    intro H. destruct AG as [L N]. unfold py_getitem. rewrite L.
    replace (n <? 0) with false by lia. cbv zeta.
    replace ((n <? 0) || (Z.of_nat (S G) <=? n)) with true by lia. auto.
  Qed.
  Lemma last_index_ok q idx last g :
    (g < length q)%nat -> nth g q None <> None -> (forall h, (g < h)%nat -> nth h q None = None) ->
    last_index idx q last = Some (idx + g)%nat.
  Proof.
    revert idx last g. induction q as [|o q IH]; intros idx last g L A B; [cbn in L; lia|].
    destruct g as [|g].
    - assert (Z0 : forall q idx last, (forall h, nth h q (@None span) = None) -> last_index idx q last = last).
      { clear. induction q as [|o q IH]; intros idx last H; [auto|].
        pose proof (H O) as H0. cbn in H0. subst o. cbn. apply IH. intro h. apply (H (S h)). }
      cbn in A. destruct o; [|congruence]. cbn [last_index]. rewrite Z0; [f_equal; lia|].
      intro h. apply (B (S h)). lia.
    - cbn [last_index]. replace (idx + S g)%nat with (S idx + g)%nat by lia.
      destruct o; apply IH; auto; try (cbn in L; lia);
        intros h H; apply (B (S h)); lia.
  Qed.
  Lemma captured_some g sp l : In (g, sp) l -> captured g l <> None.
  Proof.
    induction l as [|[h x] l IH]; intro H; [destruct H|]. cbn [captured].
    destruct (Nat.eqb_spec g h); [intro X; discriminate X|].
    destruct H as [H|H]; [injection H as <- <-; congruence|auto].
  Qed.
  Lemma captured_bound g l : (forall h sp, In (h, sp) l -> (h <= g)%nat) -> forall h, (g < h)%nat -> captured h l = None.
  Proof.
    intros B h H. destruct (captured h l) eqn:E; [|auto]. apply captured_in in E. apply B in E. lia.
  Qed.
  Lemma lastindex_ok g : (0 < g <= G)%nat -> lastindex (snd m) = Some g ->
    (forall h sp, In (h, sp) (snd (snd m)) -> (h <= g)%nat) -> m_lastindex p = Some g.
  Proof.
    intros HG H B. unfold m_lastindex. destruct AG as [L N].
    replace (Some g) with (Some (0 + g)%nat) by auto. apply last_index_ok; [lia| |].
    - rewrite N by lia. destruct g as [|g]; [lia|]. cbn [group_span].
      unfold lastindex in H. destruct (snd (snd m)) as [|[h sp] l]; [discriminate|].
      cbn in H. injection H as ->. cbn [captured]. rewrite Nat.eqb_refl. intro X; discriminate X.
    - intros h Hh. destruct (Nat.le_gt_cases h G) as [X|X].
      + rewrite N by lia. destruct h as [|h]; [lia|]. cbn [group_span]. eapply captured_bound; eauto.
      + apply nth_overflow. lia.
  Qed.

  (** What groupdict gives: the spans, of the groups that took part. *)
  Lemma groupdict_ok {K} (names : list (K * nat)) : (forall k g, In (k, g) names -> (g <= G)%nat) ->
    m_groupdict names p =
    Ok (flat_map (fun kn => match group_span m (snd kn) with Some sp => [(fst kn, sp)] | None => [] end) names).
  Proof.
    induction names as [|[k g] names IH]; intro H; [auto|]. cbn [m_groupdict].
    rewrite (item_ok g) by (apply (H k); cbn; auto). cbn [bind].
    rewrite IH by (intros; apply (H k0); cbn; auto). cbn [bind flat_map fst snd].
    destruct (group_span m g); auto.
  Qed.
  Variable s : list Z.
  Hypothesis WI : forall g sp, group_span m g = Some sp -> within s sp.

  Lemma group_ok g : (g <= G)%nat -> m_group s p (Z.of_nat g) = Ok (group_text s m g).
  Proof.
    intro H. unfold m_group. rewrite (item_ok g H). cbn [bind]. unfold group_text.
    destruct (group_span m g) as [[a b]|] eqn:E; cbn [option_map]; [|auto].
    do 2 f_equal. exact (text_slice s (a, b) (WI _ _ E)).
  Qed.
  Lemma group_list_ok gs : (forall g, In g gs -> (g <= G)%nat) ->
    group_list s p gs = Ok (map (group_text s m) gs).
  Proof.
    induction gs as [|g gs IH]; intro H; [auto|]. cbn [group_list map].
    rewrite group_ok by (apply H; cbn; auto). cbn [bind]. rewrite IH by (intros; apply H; cbn; auto). auto.
  Qed.
  Lemma groups_ok : m_groups s p = Ok (groups_of s G m).
  Proof.
    unfold m_groups, groups_of. destruct AG as [L N]. rewrite L. replace (S G - 1)%nat with G by lia.
    apply group_list_ok. intros g H. apply in_seq in H. lia.
  Qed.

  (** ** expand *)
  (** A template without escapes other than references: no backslash or newline among
      the text, no digit just after a reference, references from 1 to 99. *)
  Fixpoint plain (ts : list tok) : Prop :=
    match ts with
    | [] => True
    | TLit c :: ts => c <> 92 /\ c <> 10 /\ plain ts
    | TRef g :: ts => (1 <= g <= 99)%nat /\ match ts with TLit c :: _ => is_digit c = false | _ => True end /\ plain ts
    end.

  Lemma plain_newline ts : plain ts -> existsb (Z.eqb 10) (render ts) = false.
  Proof.
    induction ts as [|[c|g] ts IH]; intro H; [auto| |].
    - destruct H as [A [B D]]. change (render (TLit c :: ts)) with (c :: render ts). cbn [existsb]. rewrite (IH D). replace (10 =? c) with false by lia. auto.
    - destruct H as [A [B D]]. change (render (TRef g :: ts)) with (render_tok (TRef g) ++ render ts).
      rewrite existsb_app, (IH D), orb_false_r. unfold render_tok. cbv zeta.
      assert (Z.of_nat g / 10 < 10) by (apply Z.div_lt_upper_bound; lia).
      assert (0 <= Z.of_nat g / 10) by (apply Z.div_pos; lia).
      pose proof (Z.mod_pos_bound (Z.of_nat g) 10 ltac:(lia)).
      destruct (Z.of_nat g <? 10) eqn:E; cbn [existsb]; unfold digit_of; lia.
  Qed.

  Lemma find_ref_lit c t : c <> 92 ->
    find_ref (c :: t) = match find_ref t with Some (pre, n, suf) => Some (c :: pre, n, suf) | None => None end.
  Proof. intro H. cbn [find_ref]. replace (c =? 92) with false by lia. auto. Qed.
  Lemma find_ref_ref g ts : (1 <= g <= 99)%nat -> match ts with TLit c :: _ => is_digit c = false | _ => True end ->
    find_ref (render_tok (TRef g) ++ render ts) = Some ([], Z.of_nat g, render ts).
  Proof.
    intros A B. unfold render_tok. cbv zeta.
    assert (HD : match render ts with c :: _ => is_digit c = false | [] => True end).
    { destruct ts as [|[c|h] ts]; cbn; auto. }
    pose proof (Z.div_mod (Z.of_nat g) 10 ltac:(lia)) as DM.
    pose proof (Z.mod_pos_bound (Z.of_nat g) 10 ltac:(lia)) as MB.
    destruct (Z.ltb_spec (Z.of_nat g) 10).
    - cbn [app find_ref]. change (92 =? 92) with true. cbv iota. unfold digit_of.
      replace ((49 <=? 48 + Z.of_nat g) && (48 + Z.of_nat g <=? 57)) with true by lia.
      replace (48 + Z.of_nat g - 48) with (Z.of_nat g) by lia.
      destruct (render ts) as [|e t]; [auto|]. rewrite HD. auto.
    - assert (1 <= Z.of_nat g / 10 <= 9) by lia.
      cbn [app find_ref]. change (92 =? 92) with true. cbv iota. unfold digit_of, is_digit.
      replace ((49 <=? 48 + Z.of_nat g / 10) && (48 + Z.of_nat g / 10 <=? 57)) with true by lia.
      replace ((48 <=? 48 + Z.of_nat g mod 10) && (48 + Z.of_nat g mod 10 <=? 57)) with true by lia.
      do 3 f_equal. lia.
  Qed.

  Lemma expand_lit n c t : c <> 92 -> c <> 10 -> (1 <= n)%nat ->
    m_expand n s p (c :: t) = map_res (cons c) (m_expand n s p t).
  Proof.
    intros A B N. destruct n as [|n]; [lia|]. cbn [m_expand existsb].
    replace (10 =? c) with false by lia. cbn [orb].
    destruct (existsb (Z.eqb 10) t); [auto|].
    rewrite (find_ref_lit c t A). destruct (find_ref t) as [[[pre num] suf]|]; [|auto].
    destruct (m_group s p num) as [[x|]|]; cbn [bind map_res]; auto.
    destruct (m_expand n s p suf); auto.
  Qed.
  Lemma expand_ok ts : plain ts ->
    (forall g, In (TRef g) ts -> (g <= G)%nat /\ group_span m g <> None) ->
    forall n, (length ts < n)%nat -> m_expand n s p (render ts) = Ok (expand s m ts).
  Proof.
    induction ts as [|[c|g] ts IH]; intros P R n N.
    - destruct n; [lia|auto].
    - destruct P as [A [B D]]. change (render (TLit c :: ts)) with (c :: render ts).
      rewrite expand_lit by (auto; lia). cbn [length] in N.
      rewrite (IH D) by (try lia; intros; apply R; cbn; auto). auto.
    - pose proof (plain_newline _ P) as NL. destruct P as [A [B D]].
      change (render (TRef g :: ts)) with (render_tok (TRef g) ++ render ts) in *.
      cbn [length] in N. destruct n as [|n]; [lia|]. cbn [m_expand]. rewrite NL.
      rewrite (find_ref_ref g ts A B). destruct (R g) as [R1 R2]; [cbn; auto|].
      rewrite (group_ok g R1). cbn [bind]. unfold expand. cbn [flat_map expand_tok]. unfold group_text.
      destruct (group_span m g); [|congruence]. cbn [option_map].
      rewrite (IH D) by (try lia; intros; apply R; cbn; auto). auto.
  Qed.

End O.

(** Texts of groups are the same in a suffix of the string. *)
Lemma text_skip s k sp : (k <= length s)%nat -> within (skipn k s) sp ->
  text (skipn k s) sp = text s (fst sp + Z.of_nat k, snd sp + Z.of_nat k).
Proof.
  intros K [A B]. unfold text. cbn [fst snd].
  replace (snd sp + Z.of_nat k - (fst sp + Z.of_nat k)) with (snd sp - fst sp) by lia. f_equal.
  replace (Z.to_nat (fst sp + Z.of_nat k)) with (k + Z.to_nat (fst sp))%nat by lia.
  generalize (Z.to_nat (fst sp)). intro a. clear. revert s. induction k as [|k IH]; intro s; [auto|].
  destruct s; cbn; [apply skipn_nil|apply IH].
Qed.
