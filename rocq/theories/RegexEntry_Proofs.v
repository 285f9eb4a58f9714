(** Proofs about the entry points of regular expression matching. *)
From Coq Require Import List Bool ZArith Lia ZifyBool ZifyNat.
From Verif Require Import Py PySeq_Spec Range_Spec Str_Spec Str_Model Str_Proofs Seq_Proofs Regex_Model Regex_Spec Regex_Proofs.
Import ListNotations.
Open Scope Z_scope.

(** ** How long match parts are *)
Lemma length_set n v p : length (set_nth n v p) = Nat.max (S n) (length p).
Proof.
  unfold set_nth. cbv zeta. rewrite app_length. cbn [length].
  rewrite firstn_length, skipn_length, app_length, repeat_length. lia.
Qed.
Lemma length_overlay p q : length (overlay p q) = Nat.max (length p) (length q).
Proof. revert q. induction p; intros [|b q]; cbn; auto. Qed.
Lemma length_add p q : length (add_match p q) = Nat.max 1 (Nat.max (length p) (length q)).
Proof. unfold add_match. rewrite length_set, length_overlay. auto. Qed.

Section L.
  Variable C : Type.
  Variable covers : C -> Z -> bool.
  Variable word : Z -> bool.
  Variable multiline : bool.
  Variable s : list Z.
  Notation mp := (match_patterns C covers word multiline s).
  Notation groupss := (groupss C).
  Variable G : nat.
  Definition short (r : res (option part)) : Prop :=
    match r with Ok (Some p) => (length p <= S G)%nat | _ => True end.

  Lemma short_continue next ae prefix :
    (length prefix <= S G)%nat -> (forall o a, short (next o a)) -> short (continue_with next ae prefix).
  Proof.
    intros H N. unfold continue_with. cbv zeta.
    specialize (N (p_end prefix) (if p_isempty prefix then ae else true)).
    destruct (next _ _) as [[q|]|e]; cbn [bind short] in *; auto. rewrite length_add. lia.
  Qed.
  Lemma short_loop sub k overall :
    (length overall <= S G)%nat -> (forall o, short (sub o)) -> short (rep_loop sub k overall).
  Proof.
    intros H N. revert overall H. induction k as [|k IH]; intros overall H; cbn [rep_loop]; [auto|].
    specialize (N (p_end overall)). destruct (sub _) as [[q|]|e]; cbn [bind short] in *; auto.
    apply IH. rewrite length_add. lia.
  Qed.

  Lemma short_mp fuel : forall ps i ae, (forall g, In g (groupss ps) -> (g <= G)%nat) -> short (mp fuel ps i ae).
  Proof.
    induction fuel as [|fuel IH]; intros ps i ae HG; [exact I|].
    destruct ps as [|p rest].
    { cbn. destruct ae; cbn; [lia|auto]. }
    rewrite mp_cons. cbv zeta. cbn [Regex_Proofs.groupss] in HG.
    assert (REST : forall o a, short (mp fuel rest o a)).
    { intros. apply IH. intros. apply HG, in_app_iff. auto. }
    assert (HERE : forall a b, short (continue_with (mp fuel rest) ae [Some (a, b)])).
    { intros. apply short_continue; [cbn; lia|auto]. }
    destruct p as [c|lazy lo hi sub|alts|a|ahead pos w sub|g sub|g b].
    - destruct (_ || _); [exact I|]. destruct (char_at s i); cbn [bind]; [|exact I].
      destruct (covers c a); [apply HERE|exact I].
    - destruct (match hi with Some hi => (hi <? lo)%nat | None => false end); [exact I|].
      assert (SUB : forall o, short (mp fuel sub o true)).
      { intro. apply IH. intros. apply HG, in_app_iff. auto. }
      pose proof (short_loop (fun o => mp fuel sub o true) lo [Some (i, i)] ltac:(cbn; lia) SUB) as SL.
      destruct (rep_loop _ _ _) as [[overall|]|]; cbn [bind]; try exact I. cbn [short] in SL.
      assert (CO : short (continue_with (mp fuel rest) ae overall)) by (apply short_continue; auto).
      destruct (match hi with Some hi => (hi <=? lo)%nat | None => false end); [exact CO|].
      assert (MORE : forall o a, short (mp fuel (NRep lazy 1 (minus hi lo) sub :: rest) o a)).
      { intros. apply IH. exact HG. }
      assert (REM : short (do more <- mp fuel (NRep lazy 1 (minus hi lo) sub :: rest) (p_end overall) (ae || negb (p_isempty overall));
                           match more with
                           | Some q => Ok (Some (add_match overall q))
                           | None => if lazy then Ok None else continue_with (mp fuel rest) ae overall
                           end)).
      { specialize (MORE (p_end overall) (ae || negb (p_isempty overall))).
        destruct (mp fuel (NRep lazy 1 _ sub :: rest) _ _) as [[q|]|]; cbn [bind]; try exact I.
        - cbn [short] in *. rewrite length_add. lia.
        - destruct lazy; [exact I|auto]. }
      destruct lazy; cbn [bind]; [|exact REM].
      destruct (continue_with _ _ overall) as [[q|]|]; cbn [bind]; auto.
    - destruct alts as [|first others]; [exact I|].
      rewrite groups_branch, <- app_assoc in HG.
      assert (A : short (mp fuel (first ++ rest) i ae)).
      { apply IH. intros g K. apply HG. rewrite groupss_app in K. rewrite !in_app_iff in *. tauto. }
      destruct (mp fuel (first ++ rest) i ae) as [[q|]|]; cbn [bind]; auto.
      destruct others as [|o os]; [exact I|]. apply IH. intros g K. apply HG.
      cbn [Regex_Proofs.groupss] in K. rewrite !in_app_iff in *. tauto.
    - destruct a; repeat match goal with
        | |- short (bind (if ?b then _ else _) _) => destruct b
        | |- short (bind (Ok _) _) => cbn [bind]
        | |- short (if ?b then _ else _) => destruct b
        | |- short (bind (char_at s ?x) _) => destruct (char_at s x); cbn [bind]
        | |- short (continue_with _ _ _) => apply HERE
        | |- short (Ok None) => exact I
        | |- short (Err _) => exact I
        | |- short (bind (continue_with ?n ?ae [Some (?a, ?b)]) _) =>
            pose proof (HERE a b); destruct (continue_with n ae [Some (a, b)]) as [[q|]|]; cbn [bind]
        | _ => assumption
        end.
    - destruct (_ && _); [exact I|].
      destruct (mp fuel sub _ true) as [m|]; cbn [bind]; [|exact I].
      destruct (negb _); [exact I|auto].
    - apply IH. intros g' K. apply HG. rewrite groupss_app in K. cbn [Regex_Proofs.groupss Regex_Proofs.groups] in K.
      change (groups C (NGroup g sub)) with (g :: groupss sub).
      cbn in K |- *. rewrite !in_app_iff in *. cbn in K. tauto.
    - pose proof (HERE i i) as H. destruct (continue_with _ _ _) as [[q|]|]; cbn [bind short] in *; auto.
      rewrite length_set. assert (g <= G)%nat by (apply HG; cbn; auto). lia.
  Qed.
End L.

(** ** Match objects *)
(** A match object agrees with a match of the specification: it has an entry for each
    group, and they are the spans of the match and of its groups. *)
Definition agrees (groups : nat) (m : Z * way) (p : part) : Prop :=
  length p = S groups /\
  forall g, (g <= groups)%nat -> nth g p None = group_span m g.
Definition agrees_o (groups : nat) (m : option (Z * way)) (p : option part) : Prop :=
  match m, p with
  | None, None => True
  | Some m, Some p => agrees groups m p
  | _, _ => False
  end.
Definition starting (i : Z) (o : option way) : option (Z * way) := option_map (fun w => (i, w)) o.

Lemma nth_map_None {A B} (f : option A -> option B) g l :
  f None = None -> nth g (map f l) None = f (nth g l None).
Proof. intro H. revert g. induction l; intros [|g]; cbn; auto. Qed.
Lemma nth_clamp g e p :
  (forall a, nth g p None = Some (a, a) -> 0 <= a <= e) -> nth g (clamp_spans e p) None = nth g p None.
Proof.
  intro H. unfold clamp_spans. rewrite nth_map_None by auto.
  destruct (nth g p None) as [[a b]|]; [|auto].
  destruct (Z.eqb_spec a b) as [->|]; [|auto]. specialize (H b eq_refl).
  replace (e <? b) with false by lia. replace (b <? 0) with false by lia. auto.
Qed.
Lemma captured_in g l sp : captured g l = Some sp -> In (g, sp) l.
Proof.
  induction l as [|[h x] l IH]; cbn; [discriminate|].
  destruct (Nat.eqb_spec g h) as [->|]; [|auto]. intro E. injection E as ->. auto.
Qed.

Lemma visible_trimmed s endpos : (forall e, endpos = Some e -> 0 <= e) -> trimmed s endpos = visible s endpos.
Proof.
  intro H. unfold trimmed, visible. rewrite sslice_eq. pose proof (slen_nonneg s).
  assert (A : win_start (slen s) None = 0) by (unfold win_start; ifs; lia). rewrite A.
  replace (Z.min (slen s) 0) with 0 by lia. cbn [skipn Z.to_nat]. rewrite Z.sub_0_r.
  destruct endpos as [e|].
  - specialize (H e eq_refl).
    assert (B : win_end (slen s) (Some e) = Z.min (slen s) e) by (unfold win_end; ifs; lia). rewrite B.
    destruct (Z.le_gt_cases (slen s) e).
    + rewrite !firstn_all2 by (unfold slen in *; lia). auto.
    + f_equal. lia.
  - assert (B : win_end (slen s) None = slen s) by (unfold win_end; ifs; lia). rewrite B.
    apply firstn_all2. unfold slen. lia.
Qed.
Lemma visible_len s endpos : (forall e, endpos = Some e -> 0 <= e) -> len (visible s endpos) <= len s.
Proof.
  intro H. unfold visible, len. destruct endpos; [|lia]. rewrite firstn_length. lia.
Qed.

Section E.
  Variable C : Type.
  Variable covers : C -> Z -> bool.
  Variable word : Z -> bool.
  Variable multiline : bool.
  Notation safe := (safe C covers word multiline).
  Notation groupss := (groupss C).
  Variable G : nat.

  (** What the matcher needs of a pattern, on a string. *)
  Definition supported (s : list Z) (ps : list (node C)) : Prop :=
    Forall (safe s) ps /\ NoDup (groupss ps) /\ forall g, In g (groupss ps) -> (g <= G)%nat.

  Lemma match_pattern_ok ps s pos endpos ae :
    (forall e, endpos = Some e -> 0 <= e) ->
    let t := visible s endpos in
    supported t ps -> 0 <= pos <= len t ->
    exists N, forall fuel, (N <= fuel)%nat ->
      exists m, match_pattern C covers word multiline fuel G ps s pos endpos ae = Ok m /\
        agrees_o G (starting pos (first_way C covers word multiline t (good ae pos) ps pos)) m.
  Proof.
    intros E t [SF [ND HG]] P. destruct (match_right C covers word multiline t ps pos ae SF ND P) as [N HN].
    exists N. intros fuel F. destruct (HN fuel F) as [m [Em Sm]].
    unfold match_pattern. rewrite visible_trimmed by auto. fold t. rewrite Em. cbn [bind].
    eexists. split; [reflexivity|]. unfold first_way.
    pose proof (fine_seq C covers word multiline t ps pos P) as FN.
    destruct (find _ _) as [[j l]|] eqn:FE; cbn in Sm |- *; destruct m as [p|]; try tauto.
    apply find_some in FE. destruct FE as [FE _]. destruct (FN _ _ FE) as [B1 B2].
    pose proof (visible_len s endpos E) as VL. fold t in VL.
    pose proof (short_mp C covers word multiline t G fuel ps pos ae HG) as SH. rewrite Em in SH. cbn in SH.
    destruct Sm as [S0 Sg]. cbn [fst snd] in *.
    set (q := if p_start p =? p_end p then clamp_spans (Z.of_nat (length s)) p else p).
    assert (LQ : length q = length p).
    { unfold q, clamp_spans. destruct (_ =? _); [apply map_length|auto]. }
    assert (NQ : forall g, nth g q None = nth g p None).
    { intro g. unfold q. destruct (_ =? _); [|auto]. apply nth_clamp. intros a A.
      change (Z.of_nat (length s)) with (len s).
      destruct g as [|g].
      - pose proof (eq_trans (eq_sym S0) A) as A'. injection A' as -> ->. lia.
      - rewrite Sg in A by lia. apply captured_in in A. destruct (B2 _ _ A) as [_ B3]. cbn in B3. lia. }
    split.
    - unfold padded. rewrite app_length, repeat_length, LQ. lia.
    - intros g HGg. unfold padded. rewrite nth_pad, NQ. destruct g as [|g]; [auto|].
      rewrite Sg by lia. auto.
  Qed.

  Notation match_at t := (match_at C covers word multiline t).
  Notation advance_at t := (advance_at C covers word multiline t).
  Notation fullmatch_at t := (fullmatch_at C covers word multiline t).

  Lemma first_way_true t ps i : first_way C covers word multiline t (good true i) ps i = match_at t ps i.
  Proof. reflexivity. Qed.
  Lemma first_way_false t ps i : first_way C covers word multiline t (good false i) ps i = advance_at t ps i.
  Proof. reflexivity. Qed.

  Lemma supported_end t ps : supported t ps -> supported t (ps ++ [NAt AEndStr]).
  Proof.
    intros [A [B D]]. split; [|split].
    - apply Forall_app. split; [auto|]. constructor; [|constructor]. constructor. exact I.
    - rewrite groupss_app. cbn. rewrite app_nil_r. auto.
    - rewrite groupss_app. cbn. rewrite app_nil_r. auto.
  Qed.
  Lemma fullmatch_way t ps i :
    match_at t (ps ++ [NAt AEndStr]) i = fullmatch_at t ps i.
  Proof.
    unfold Regex_Spec.match_at, Regex_Spec.fullmatch_at, first_way. rewrite seq_app.
    induction (seq_ways C covers word multiline t ps i) as [|[j l] w IH]; [auto|].
    rewrite and_then_cons, find_app. cbn [fst snd seq_ways ways at_holds find].
    destruct (j =? len t); [auto|]. exact IH.
  Qed.

  (** ** search *)
  Notation search_at t := (search_at C covers word multiline t).

  Lemma search_from_ok pat s e :
    0 <= e <= len s -> supported (visible s (Some e)) pat ->
    match_at (visible s (Some e)) pat e = None ->
    forall n pos, 0 <= pos <= e -> (Z.to_nat (e - pos) <= n)%nat ->
    exists N, forall fuel, (N <= fuel)%nat ->
      exists m, search_from C covers word multiline fuel G pat n s pos e = Ok m /\
        agrees_o G (search_at (visible s (Some e)) (Z.to_nat (e - pos)) pat pos) m.
  Proof.
    intros E SU NE. set (t := visible s (Some e)) in *.
    assert (LT : len t = e).
    { unfold t, visible, len in *. rewrite firstn_length. lia. }
    induction n as [|n IH]; intros pos P L.
    - exists O. intros fuel _. exists None. split; [auto|].
      replace (Z.to_nat (e - pos)) with O by lia. replace pos with e by lia.
      cbn [Regex_Spec.search_at]. rewrite NE. exact I.
    - destruct (Z.ltb_spec pos e) as [LE|GE].
      + destruct (match_pattern_ok pat s pos (Some e) true) as [N1 H1]; auto.
        { intros e' X. injection X as <-. lia. }
        { fold t. lia. }
        fold t in H1. rewrite first_way_true in H1.
        destruct (IH (pos + 1) ltac:(lia) ltac:(lia)) as [N2 H2].
        exists (Nat.max N1 N2). intros fuel F.
        destruct (H1 fuel ltac:(lia)) as [m1 [E1 A1]]. destruct (H2 fuel ltac:(lia)) as [m2 [E2 A2]].
        cbn [search_from]. replace (pos <? e) with true by lia. rewrite E1. cbn [bind].
        replace (Z.to_nat (e - pos)) with (S (Z.to_nat (e - (pos + 1)))) by lia.
        cbn [Regex_Spec.search_at].
        destruct (match_at t pat pos) as [w|]; cbn [starting option_map] in A1.
        * destruct m1; [|destruct A1]. eauto.
        * destruct m1; [destruct A1|]. eauto.
      + exists O. intros fuel _. exists None. cbn [search_from].
        replace (pos <? e) with false by lia. split; [auto|].
        replace (Z.to_nat (e - pos)) with O by lia. replace pos with e by lia.
        cbn [Regex_Spec.search_at]. rewrite NE. exact I.
  Qed.

  (** ** finditer *)
  Notation finditer_at t := (finditer_at C covers word multiline t).

  Lemma way_bound t ps i b w : 0 <= i <= len t ->
    first_way C covers word multiline t b ps i = Some w -> i <= fst w <= len t.
  Proof.
    intros P E. apply find_some in E. destruct E as [E _]. destruct w as [j l].
    destruct (fine_seq C covers word multiline t ps i P _ _ E) as [B _]. exact B.
  Qed.

  Lemma finditer_from_ok pat s e :
    0 <= e <= len s -> supported (visible s (Some e)) pat ->
    forall n n' pos (last : bool), 0 <= pos <= e + 1 ->
    2 * (e + 1 - pos) + (if last then 0 else 1) < Z.of_nat n ->
    2 * (e + 1 - pos) + (if last then 0 else 1) < Z.of_nat n' ->
    exists N, forall fuel, (N <= fuel)%nat ->
      exists ms, finditer_from C covers word multiline fuel G pat n s pos e last = Ok ms /\
        Forall2 (agrees G) (finditer_at (visible s (Some e)) n' pat pos last) ms.
  Proof.
    intros E SU. set (t := visible s (Some e)) in *.
    assert (LT : len t = e).
    { unfold t, visible, len in *. rewrite firstn_length. lia. }
    induction n as [|n IH]; intros n' pos last P L L'; [destruct last; lia|].
    destruct n' as [|n']; [destruct last; lia|].
    destruct (Z.ltb_spec e pos) as [GT|LE].
    { exists O. intros fuel _. exists []. cbn [finditer_from Regex_Spec.finditer_at]. rewrite LT.
      replace (e <? pos) with true by lia. auto. }
    destruct (match_pattern_ok pat s pos (Some e) (negb last)) as [N1 H1]; auto.
    { intros e' X. injection X as <-. lia. }
    { fold t. lia. }
    fold t in H1.
    assert (W : first_way C covers word multiline t (good (negb last) pos) pat pos =
                (if last then advance_at t pat pos else match_at t pat pos)) by (destruct last; reflexivity).
    cbn [Regex_Spec.finditer_at]. rewrite LT. replace (e <? pos) with false by lia. rewrite <- W.
    destruct (first_way _ _ _ _ _ _ _ _) as [w|] eqn:FW.
    - assert (B : pos <= fst w <= e) by (rewrite <- LT; apply way_bound in FW; lia).
      destruct (Z.eqb_spec (fst w) pos) as [EQ|NE].
      + assert (last = false) as ->.
        { destruct last; [|auto]. apply find_some in FW. destruct FW as [_ FW].
          unfold good in FW. cbn [negb orb] in FW. lia. }
        destruct (IH n' pos true ltac:(lia) ltac:(cbv iota in *; lia) ltac:(cbv iota in *; lia)) as [N2 H2].
        exists (Nat.max N1 N2). intros fuel F.
        destruct (H1 fuel ltac:(lia)) as [m1 [E1 A1]]. destruct (H2 fuel ltac:(lia)) as [m2 [E2 A2]].
        cbn [finditer_from]. replace (e <? pos) with false by lia. rewrite E1. cbn [bind].
        destruct m1 as [p|]; [|destruct A1]. cbn [starting option_map agrees_o] in A1.
        assert (PS : p_start p = pos /\ p_end p = fst w).
        { destruct A1 as [_ A1]. specialize (A1 O ltac:(lia)). cbn in A1.
          destruct p as [|[[a b]|] p]; [discriminate| |discriminate]. injection A1 as -> ->. auto. }
        destruct PS as [-> ->]. replace (pos =? fst w) with true by lia. rewrite E2. cbn [bind].
        exists (p :: m2). split; [auto|]. rewrite EQ. constructor; auto.
      + destruct (IH n' (fst w) false ltac:(lia) ltac:(destruct last; lia) ltac:(destruct last; lia)) as [N2 H2].
        exists (Nat.max N1 N2). intros fuel F.
        destruct (H1 fuel ltac:(lia)) as [m1 [E1 A1]]. destruct (H2 fuel ltac:(lia)) as [m2 [E2 A2]].
        cbn [finditer_from]. replace (e <? pos) with false by lia. rewrite E1. cbn [bind].
        destruct m1 as [p|]; [|destruct A1]. cbn [starting option_map agrees_o] in A1.
        assert (PS : p_start p = pos /\ p_end p = fst w).
        { destruct A1 as [_ A1]. specialize (A1 O ltac:(lia)). cbn in A1.
          destruct p as [|[[a b]|] p]; [discriminate| |discriminate]. injection A1 as -> ->. auto. }
        destruct PS as [-> ->]. replace (pos =? fst w) with false by lia. rewrite E2. cbn [bind].
        exists (p :: m2). split; [auto|]. constructor; auto.
    - destruct (IH n' (pos + 1) false ltac:(lia) ltac:(destruct last; lia) ltac:(destruct last; lia)) as [N2 H2].
      exists (Nat.max N1 N2). intros fuel F.
      destruct (H1 fuel ltac:(lia)) as [m1 [E1 A1]]. destruct (H2 fuel ltac:(lia)) as [m2 [E2 A2]].
      cbn [finditer_from]. replace (e <? pos) with false by lia. rewrite E1. cbn [bind].
      destruct m1; [destruct A1|]. eauto.
  Qed.
End E.

(** ** The spans of a match lie within the string *)
Section Spans.
  Variable C : Type.
  Variable covers : C -> Z -> bool.
  Variable word : Z -> bool.
  Variable multiline : bool.
  Variable s : list Z.
  (** parse trees: no end-of-group markers *)
  Inductive parsed : node C -> Prop :=
  | parsed_char c : parsed (NChar c)
  | parsed_rep lazy lo hi sub : Forall parsed sub -> parsed (NRep lazy lo hi sub)
  | parsed_branch alts : Forall (Forall parsed) alts -> parsed (NBranch alts)
  | parsed_at a : parsed (NAt a)
  | parsed_look ahead positive width sub : Forall parsed sub -> parsed (NLook ahead positive width sub)
  | parsed_group g sub : Forall parsed sub -> parsed (NGroup g sub).

  Definition within (sp : Z * Z) : Prop := 0 <= fst sp /\ fst sp <= snd sp <= len s.
  Definition tidy (i : Z) (w : list way) : Prop :=
    forall j l, In (j, l) w -> i <= j <= len s /\ forall g sp, In (g, sp) l -> within sp.

  Lemma tidy_and_then i w k :
    tidy i w -> (forall j l, In (j, l) w -> tidy j (k j)) -> tidy i (and_then w k).
  Proof.
    intros Hw Hk j l H. apply and_then_in in H. destruct H as [[a la] [[b lb] [H1 [H2 H3]]]].
    cbn in H2, H3. injection H3 as -> ->.
    destruct (Hw _ _ H1) as [A B]. destruct (Hk _ _ H1 _ _ H2) as [A' B'].
    split; [lia|]. intros g sp K. apply in_app_or in K. destruct K; eauto.
  Qed.
  Lemma tidy_app i a b : tidy i a -> tidy i b -> tidy i (a ++ b).
  Proof. intros A B j l H. apply in_app_or in H. destruct H; eauto. Qed.
  Lemma tidy_nil i : tidy i [].
  Proof. intros j l []. Qed.
  Lemma tidy_here i : 0 <= i <= len s -> tidy i [(i, [])].
  Proof. intros A j l [K|[]]. injection K as <- <-. split; [lia|]. intros ? ? []. Qed.
  Lemma tidy_repeats body lazy :
    (forall i, 0 <= i <= len s -> tidy i (body i)) ->
    forall k lo hi last i, 0 <= i <= len s -> tidy i (repeats body lazy k lo hi last i).
  Proof.
    intro B. induction k as [|k IH]; intros lo hi last i I; [apply tidy_nil|].
    assert (K : forall lo hi last, tidy i (and_then (body i) (repeats body lazy k lo hi last))).
    { intros. apply tidy_and_then; [auto|]. intros j l J. apply IH. destruct (B i I _ _ J). lia. }
    cbn [repeats]. destruct lo as [|lo]; [|apply K].
    match goal with |- context [if ?b then [] else _] => destruct b end; destruct lazy;
      try (apply (tidy_app i [(i, [])]); [apply tidy_here; auto|]);
      try (apply tidy_app; [|apply tidy_here; auto]); try apply tidy_nil; apply K.
  Qed.

  Lemma tidy_all n :
    (forall p i, (size C p <= n)%nat -> parsed p -> 0 <= i <= len s -> tidy i (ways C covers word multiline s p i)) /\
    (forall ps i, (sizes C ps <= n)%nat -> Forall parsed ps -> 0 <= i <= len s -> tidy i (seq_ways C covers word multiline s ps i)).
  Proof.
    induction n as [|n [IHp IHs]].
    { split.
      - intros p i H. pose proof (size_pos C covers word p). lia.
      - intros [|p ps] i H L I; [apply tidy_here; auto|].
        cbn [sizes] in H. pose proof (size_pos C covers word p). lia. }
    assert (P : forall p i, (size C p <= S n)%nat -> parsed p -> 0 <= i <= len s -> tidy i (ways C covers word multiline s p i)).
    { intros p i H PA I. inversion PA as [c|lazy lo hi sub PS|alts FA|a|ahead pos w sub PS|g sub PS]; subst.
      - cbn [ways]. destruct (holds _ _) eqn:E; [|apply tidy_nil].
        unfold holds in E. destruct (at_pos s i) eqn:E2; [|discriminate]. apply (len_at C covers word) in E2.
        intros j l [K|[]]. injection K as <- <-. split; [lia|]. intros ? ? [].
      - rewrite ways_rep. apply tidy_repeats; [|auto]. intros. apply IHs; auto.
        rewrite size_rep in H. destruct lo; lia.
      - clear PA. induction alts as [|a alts IHa]; [apply tidy_nil|].
        inversion FA; subst. rewrite (size_branch C covers word) in H. rewrite ways_branch_cons.
        apply tidy_app; [apply IHs; auto; lia|apply IHa; auto; lia].
      - cbn [ways]. destruct (at_holds _ _ _ _ _); [apply tidy_here; auto|apply tidy_nil].
      - rewrite size_look in H. rewrite ways_look. cbv zeta.
        set (from := if ahead then i else i - Z.of_nat w).
        destruct (from <? 0) eqn:F.
        + destruct pos; [apply tidy_nil|apply tidy_here; auto].
        + destruct pos.
          * assert (X : tidy from (seq_ways C covers word multiline s sub from)).
            { apply IHs; auto; [lia|]. unfold from in *. destruct ahead; lia. }
            destruct (seq_ways _ _ _ _ _ sub from) as [|[e l] ?]; [apply tidy_nil|].
            intros j l' [K|[]]. injection K as <- <-. split; [lia|].
            destruct (X e l) as [_ Y]; [cbn; auto|auto].
          * destruct (seq_ways _ _ _ _ _ sub from); [apply tidy_here; auto|apply tidy_nil].
      - rewrite size_group in H. rewrite ways_group. intros j l K. apply in_map_iff in K.
        destruct K as [[e le] [K1 K2]]. cbn in K1. injection K1 as <- <-.
        destruct (IHs sub i ltac:(lia) PS I _ _ K2) as [A B]. split; [lia|].
        intros g' sp [Q|Q]; [injection Q as <- <-|eauto]. unfold within. cbn. lia. }
    split; [exact P|].
    assert (Q : forall ps i, (sizes C ps <= S n)%nat -> Forall parsed ps -> 0 <= i <= len s -> tidy i (seq_ways C covers word multiline s ps i)).
    { induction ps as [|p ps IH]; intros i H PA I; [apply tidy_here; auto|].
      cbn [sizes] in H. cbn [seq_ways]. pose proof (size_pos C covers word p). inversion PA; subst.
      assert (F : tidy i (ways C covers word multiline s p i)) by (apply P; auto; lia).
      apply tidy_and_then; [auto|]. intros j l J. apply IH; auto; [lia|]. destruct (F _ _ J). lia. }
    exact Q.
  Qed.

  Lemma match_within good ps i w g sp : Forall parsed ps -> 0 <= i <= len s ->
    first_way C covers word multiline s good ps i = Some w -> group_span (i, w) g = Some sp -> within sp.
  Proof.
    intros PA I E H. apply find_some in E. destruct E as [E _]. destruct w as [j l].
    destruct (proj2 (tidy_all (sizes C ps)) ps i (le_n _) PA I _ _ E) as [A B].
    destruct g as [|g]; cbn [group_span fst snd] in H.
    - injection H as <-. unfold within. cbn. lia.
    - apply captured_in in H. eauto.
  Qed.
End Spans.

(** ** Simple patterns are supported on every string *)
Section Simple.
  Variable C : Type.
  Variable covers : C -> Z -> bool.
  Variable word : Z -> bool.
  Variable multiline : bool.

  (** Fixed text: characters and groups of them, not empty. *)
  Fixpoint fixed (p : node C) : bool :=
    let fix all ps := match ps with [] => true | p :: ps => fixed p && all ps end in
    match p with
    | NChar _ => true
    | NGroup _ sub => match sub with [] => false | _ => all sub end
    | _ => false
    end.
  Lemma fixed_all sub : (fix all (ps : list (node C)) := match ps with [] => true | p :: ps => fixed p && all ps end) sub = forallb fixed sub.
  Proof. induction sub; cbn; [auto|]. rewrite IHsub. auto. Qed.

  Lemma fixed_one s n :
    (forall p i, (size C p <= n)%nat -> fixed p = true -> 0 <= i <= len s ->
       ways C covers word multiline s p i = [] \/ exists j l, ways C covers word multiline s p i = [(j, l)] /\ i < j) /\
    (forall ps i, (sizes C ps <= n)%nat -> forallb fixed ps = true -> ps <> [] -> 0 <= i <= len s ->
       seq_ways C covers word multiline s ps i = [] \/ exists j l, seq_ways C covers word multiline s ps i = [(j, l)] /\ i < j).
  Proof.
    induction n as [|n [IHp IHs]].
    { split.
      - intros p i H. pose proof (size_pos C covers word p). lia.
      - intros [|p ps] i H L NE I; [congruence|].
        cbn [sizes] in H. pose proof (size_pos C covers word p). lia. }
    assert (P : forall p i, (size C p <= S n)%nat -> fixed p = true -> 0 <= i <= len s ->
       ways C covers word multiline s p i = [] \/ exists j l, ways C covers word multiline s p i = [(j, l)] /\ i < j).
    { intros p i H FX I. destruct p; try discriminate.
      - cbn [ways]. destruct (holds _ _); [|auto]. right. exists (i + 1), []. split; [auto|lia].
      - rewrite size_group in H. rewrite ways_group.
        assert (SE : forallb fixed sub = true /\ sub <> []).
        { destruct sub as [|a sub]; [discriminate|]. split; [|discriminate].
          rewrite <- fixed_all. exact FX. }
        destruct SE as [SE SN]. destruct (IHs sub i ltac:(lia) SE SN I) as [E|[j [l [E L]]]]; rewrite E; [auto|].
        right. cbn [map fst snd]. eauto. }
    split; [exact P|].
    assert (Q : forall ps i, (sizes C ps <= S n)%nat -> forallb fixed ps = true -> ps <> [] -> 0 <= i <= len s ->
       seq_ways C covers word multiline s ps i = [] \/ exists j l, seq_ways C covers word multiline s ps i = [(j, l)] /\ i < j).
    { induction ps as [|p ps IH]; intros i H FX NE I; [congruence|].
      cbn [sizes] in H. cbn [forallb] in FX. apply andb_prop in FX. destruct FX as [F1 F2].
      pose proof (size_pos C covers word p). cbn [seq_ways].
      pose proof (fine_ways C covers word multiline s p i I) as FW.
      destruct (P p i ltac:(lia) F1 I) as [E|[j [l [E L]]]]; rewrite E in *; [auto|].
      destruct (FW j l) as [B _]; [cbn; auto|].
      rewrite and_then_one. destruct ps as [|p2 ps].
      - right. cbn [seq_ways map addl fst snd]. eexists. eexists. split; [reflexivity|auto].
      - destruct (IH j ltac:(lia) F2 ltac:(discriminate) ltac:(lia)) as [E2|[j2 [l2 [E2 L2]]]]; rewrite E2; [auto|].
        right. cbn [map addl fst snd]. exists j2. eexists. split; [reflexivity|lia]. }
    exact Q.
  Qed.
  Lemma fixed_one_way s sub : sub <> [] -> forallb fixed sub = true -> one_way C covers word multiline s sub.
  Proof. intros NE F i I. exact (proj2 (fixed_one s (sizes C sub)) sub i (le_n _) F NE I). Qed.

  (** Patterns made of characters, groups, alternatives, repeats of fixed text, \A, \Z,
      ^ (without MULTILINE), $ (with MULTILINE), and lookahead and positive lookbehind
      without groups. *)
  Inductive simple : node C -> Prop :=
  | simple_char c : simple (NChar c)
  | simple_rep lazy lo hi sub :
      sub <> [] -> forallb fixed sub = true -> Forall simple sub ->
      match hi with Some h => (lo <= h)%nat | None => True end -> simple (NRep lazy lo hi sub)
  | simple_branch alts : alts <> [] -> Forall (Forall simple) alts -> simple (NBranch alts)
  | simple_string : simple (NAt ABeginStr)
  | simple_end : simple (NAt AEndStr)
  | simple_begin : multiline = false -> simple (NAt ABegin)
  | simple_dollar : multiline = true -> simple (NAt AEnd)
  | simple_look ahead positive width sub :
      Forall simple sub -> groupss C sub = [] -> ahead = true \/ positive = true ->
      simple (NLook ahead positive width sub)
  | simple_group g sub : (0 < g)%nat -> Forall simple sub -> simple (NGroup g sub).

  Lemma simple_safe s n p : (size C p <= n)%nat -> simple p -> safe C covers word multiline s p.
  Proof.
    revert p. induction n as [|n IH]; intros p H SI; [pose proof (size_pos C covers word p); lia|].
    assert (IHL : forall ps, (sizes C ps <= n)%nat -> Forall simple ps -> Forall (safe C covers word multiline s) ps).
    { induction ps as [|p' ps IHps]; intros HS L1; [constructor|].
      cbn [sizes] in HS. inversion L1; subst. constructor; [apply IH; auto; lia|]. apply IHps; auto. lia. }
    inversion SI; subst.
    - constructor.
    - rewrite size_rep in H. constructor; auto; [apply IHL; auto; destruct lo; lia|]. apply fixed_one_way; auto.
    - constructor; [auto|]. clear SI. match goal with N : alts <> [] |- _ => clear N end.
      induction alts as [|a alts IHa]; [constructor|].
      rewrite (size_branch C covers word) in H.
      match goal with X : Forall _ (_ :: _) |- _ => inversion X; clear X; subst end.
      constructor; [apply IHL; auto; lia|]. apply IHa; auto. lia.
    - constructor. exact I.
    - constructor. exact I.
    - constructor. cbn. congruence.
    - constructor. cbn. congruence.
    - rewrite size_look in H. constructor; auto. apply IHL; auto. lia.
    - rewrite size_group in H. constructor; auto. apply IHL; auto. lia.
  Qed.
  Lemma simple_supported G s ps : Forall simple ps -> NoDup (groupss C ps) ->
    (forall g, In g (groupss C ps) -> (g <= G)%nat) -> supported C covers word multiline G s ps.
  Proof.
    intros A B D. split; [|auto]. rewrite Forall_forall in *. intros p P. eapply simple_safe; eauto.
  Qed.
End Simple.
