(** Proofs about regular expression substitution. *)
From Coq Require Import List Bool ZArith Lia ZifyBool ZifyNat.
From Verif Require Import Py PySeq_Spec Range_Spec Str_Spec Str_Model Str_Proofs Seq_Proofs Regex_Model Regex_Spec Regex_Proofs RegexEntry_Proofs.
Import ListNotations.
Open Scope Z_scope.

(** Moving a way of matching [k] positions to the right. *)
Definition shift_caps (k : Z) (l : captures) : captures :=
  map (fun x => (fst x, (fst (snd x) + k, snd (snd x) + k))) l.
Definition shift (k : Z) (w : way) : way := (fst w + k, shift_caps k (snd w)).
Definition shift_m (k : Z) (m : Z * way) : Z * way := (fst m + k, shift k (snd m)).

Lemma shift_caps_app k a b : shift_caps k (a ++ b) = shift_caps k a ++ shift_caps k b.
Proof. apply map_app. Qed.
Lemma captured_shift k g l :
  captured g (shift_caps k l) = option_map (fun sp => (fst sp + k, snd sp + k)) (captured g l).
Proof. induction l as [|[h sp] l IH]; cbn; [auto|]. destruct (Nat.eqb g h); auto. Qed.

Lemma shift_and_then k w f g :
  (forall x, In x w -> map (shift k) (f (fst x)) = g (fst x + k)) ->
  map (shift k) (and_then w f) = and_then (map (shift k) w) g.
Proof.
  induction w as [|[j l] w IH]; intro H; [auto|].
  cbn [map]. rewrite !and_then_cons, map_app, IH by (intros; apply H; cbn; auto). f_equal.
  change (fst (shift k (j, l))) with (j + k). change (snd (shift k (j, l))) with (shift_caps k l).
  cbn [fst snd]. pose proof (H (j, l) ltac:(cbn; auto)) as E. cbn [fst] in E.
  rewrite <- E.
  rewrite !map_map. apply map_ext. intros [e le]. unfold shift, addl. cbn [fst snd].
  rewrite shift_caps_app. auto.
Qed.

Section Sh.
  Variable C : Type.
  Variable covers : C -> Z -> bool.
  Variable word : Z -> bool.
  Variable multiline : bool.
  Variable s : list Z.
  Variable k : nat.
  Hypothesis K : (k <= length s)%nat.
  Notation t := (skipn k s).
  Notation kz := (Z.of_nat k).
  Notation ways s := (ways C covers word multiline s).
  Notation seq_ways s := (seq_ways C covers word multiline s).
  Notation size := (size C).
  Notation sizes := (sizes C).
  Notation safe s := (safe C covers word multiline s).

  (** Patterns that do not look at what precedes the match. *)
  Inductive local : node C -> Prop :=
  | local_char c : local (NChar c)
  | local_rep lazy lo hi sub : Forall local sub -> local (NRep lazy lo hi sub)
  | local_branch alts : Forall (Forall local) alts -> local (NBranch alts)
  | local_at a : a = AEnd \/ a = AEndStr -> local (NAt a)
  | local_look positive width sub : Forall local sub -> local (NLook true positive width sub)
  | local_group g sub : Forall local sub -> local (NGroup g sub).

  Lemma len_skip : len t = len s - kz.
  Proof. unfold len. rewrite skipn_length. lia. Qed.
  Lemma at_skip i : 0 <= i -> at_pos t i = at_pos s (i + kz).
  Proof.
    intro I. unfold at_pos. replace (i <? 0) with false by lia. replace (i + kz <? 0) with false by lia.
    replace (Z.to_nat (i + kz)) with (k + Z.to_nat i)%nat by lia.
    rewrite <- (firstn_skipn k s) at 2. rewrite nth_error_app2; rewrite firstn_length; [|lia].
    f_equal. lia.
  Qed.

  Lemma shift_repeats body body' lazy :
    (forall i, 0 <= i <= len t -> map (shift kz) (body i) = body' (i + kz)) ->
    (forall i x, 0 <= i <= len t -> In x (body i) -> i <= fst x <= len t) ->
    forall n lo hi last i, 0 <= i <= len t ->
    map (shift kz) (repeats body lazy n lo hi last i) =
    repeats body' lazy n lo hi (option_map (fun x => x + kz) last) (i + kz).
  Proof.
    intros H B. induction n as [|n IH]; intros lo hi last i I; [auto|].
    assert (M : forall lo hi last, map (shift kz) (and_then (body i) (repeats body lazy n lo hi last)) =
       and_then (body' (i + kz)) (repeats body' lazy n lo hi (option_map (fun x => x + kz) last))).
    { intros. rewrite <- H by auto. apply shift_and_then. intros x X. apply IH.
      pose proof (B i x I X). lia. }
    cbn [repeats]. destruct lo as [|lo]; [|apply M].
    replace (match option_map (fun x : Z => x + kz) last with Some x => x =? i + kz | None => false end)
      with (match last with Some x => x =? i | None => false end) by (destruct last; cbn; lia).
    specialize (M O (option_map Nat.pred hi) (Some i)). cbn [option_map] in M.
    rewrite <- M.
    destruct (match hi with Some O => true | _ => false end ||
              match last with Some x => x =? i | None => false end); destruct lazy; cbn [map]; rewrite ?map_app; auto.
  Qed.

  Lemma shift_all n :
    (forall p i, (size p <= n)%nat -> local p -> 0 <= i <= len t ->
       map (shift kz) (ways t p i) = ways s p (i + kz)) /\
    (forall ps i, (sizes ps <= n)%nat -> Forall local ps -> 0 <= i <= len t ->
       map (shift kz) (seq_ways t ps i) = seq_ways s ps (i + kz)).
  Proof.
    induction n as [|n [IHp IHs]].
    { split.
      - intros p i H. pose proof (size_pos C covers word p). lia.
      - intros [|p ps] i H L I; [auto|].
        cbn [Regex_Proofs.sizes] in H. pose proof (size_pos C covers word p). lia. }
    assert (P : forall p i, (size p <= S n)%nat -> local p -> 0 <= i <= len t ->
       map (shift kz) (ways t p i) = ways s p (i + kz)).
    { intros p i H LO I. pose proof len_skip as LS.
      destruct p as [c|lazy lo hi sub|alts|a|ahead pos w sub|g sub|g b].
      - cbn [Regex_Spec.ways]. rewrite at_skip by lia. destruct (holds _ _); [|auto].
        cbn. unfold shift. cbn. f_equal. f_equal. lia.
      - inversion LO; subst. rewrite size_rep in H. rewrite !ways_rep.
        rewrite (shift_repeats _ (seq_ways s sub)).
        + cbn [option_map]. f_equal. lia.
        + intros. apply IHs; auto. destruct lo; lia.
        + intros i' [j l] I' X. destruct (fine_seq C covers word multiline t sub i' I' _ _ X). cbn. lia.
        + auto.
      - inversion LO as [| |? FA| | |]; subst. clear LO.
        induction alts as [|a alts IHa]; [auto|].
        inversion FA; subst. rewrite (size_branch C covers word) in H. rewrite !ways_branch_cons, map_app. f_equal.
        + apply IHs; [lia|auto|auto].
        + apply IHa; [lia|auto].
      - inversion LO as [| | |? A| |]; subst. cbn [Regex_Spec.ways].
        replace (at_holds word multiline t a i) with (at_holds word multiline s a (i + kz)).
        + destruct (at_holds word multiline s a (i + kz)); [|auto]. auto.
        + unfold at_holds. cbv zeta. rewrite LS.
          destruct A as [-> | ->]; [|lia]. rewrite at_skip by lia.
          f_equal; [lia|]. destruct multiline; [auto|]. f_equal. lia.
      - inversion LO; subst. rewrite size_look in H. rewrite !ways_look. cbv zeta.
        replace (i <? 0) with false by lia. replace (i + kz <? 0) with false by lia.
        rewrite <- (IHs sub i) by (auto; lia).
        destruct (seq_ways t sub i) as [|[e l] r]; cbn [map shift fst snd]; destruct pos; auto.
      - inversion LO; subst. rewrite size_group in H. rewrite !ways_group.
        rewrite <- (IHs sub i) by (auto; lia). rewrite !map_map. apply map_ext. intros [e l]. auto.
      - inversion LO. }
    split; [exact P|].
    assert (Q : forall ps i, (sizes ps <= S n)%nat -> Forall local ps -> 0 <= i <= len t ->
       map (shift kz) (seq_ways t ps i) = seq_ways s ps (i + kz)).
    { induction ps as [|p ps IH]; intros i H LO I; [auto|].
      cbn [Regex_Proofs.sizes] in H. inversion LO; subst. pose proof (size_pos C covers word p).
      cbn [Regex_Spec.seq_ways]. rewrite <- (P p i) by (auto; lia).
      apply shift_and_then. intros [j l] X. apply IH; auto; [lia|].
      destruct (fine_ways C covers word multiline t p i I _ _ X). cbn. lia. }
    exact Q.
  Qed.
  Lemma shift_seq ps i : Forall local ps -> 0 <= i <= len t ->
    map (shift kz) (seq_ways t ps i) = seq_ways s ps (i + kz).
  Proof. intros. apply (proj2 (shift_all (sizes ps))); auto. Qed.

  Lemma one_way_skip sub : Forall local sub -> one_way C covers word multiline s sub ->
    one_way C covers word multiline t sub.
  Proof.
    intros LO ONE i I. pose proof len_skip as LS. pose proof (shift_seq sub i LO I) as SH.
    destruct (ONE (i + kz) ltac:(lia)) as [E|[j [l [E L]]]]; rewrite E in SH.
    - left. apply map_eq_nil in SH. auto.
    - right. destruct (seq_ways t sub i) as [|[a la] [|? ?]]; try discriminate.
      cbn in SH. injection SH as SH1 SH2. exists a, la. split; [auto|lia].
  Qed.
  Lemma safe_skip n p : (size p <= n)%nat -> local p -> safe s p -> safe t p.
  Proof.
    revert p. induction n as [|n IH]; intros p H LO SF; [pose proof (size_pos C covers word p); lia|].
    assert (IHL : forall ps, (sizes ps <= n)%nat -> Forall local ps -> Forall (safe s) ps -> Forall (safe t) ps).
    { induction ps as [|p' ps IHps]; intros HS L1 L2; [constructor|].
      cbn [Regex_Proofs.sizes] in HS. inversion L1; inversion L2; subst. constructor; [apply IH; auto; lia|].
      apply IHps; auto. lia. }
    inversion LO; subst; inversion SF; subst.
    - constructor.
    - rewrite size_rep in H. constructor; auto; [apply IHL; auto; destruct lo; lia|]. apply one_way_skip; auto.
    - constructor; [auto|]. clear LO SF. match goal with N : alts <> [] |- _ => clear N end.
      induction alts as [|a alts IHa]; [constructor|].
      rewrite (size_branch C covers word) in H.
      repeat match goal with X : Forall _ (_ :: _) |- _ => inversion X; clear X; subst end.
      constructor; [apply IHL; auto; lia|]. apply IHa; auto. lia.
    - constructor. match goal with A : at_safe _ _ _ a |- _ => rename A into AT end.
      match goal with A : a = AEnd \/ a = AEndStr |- _ => destruct A as [-> | ->] end; [|exact I].
      cbn [at_safe] in *. intro M. specialize (AT M). rewrite len_skip.
      destruct (Z.eq_dec (len s) kz) as [E|NE].
      + replace (len s - kz - 1) with (-1) by lia. auto.
      + assert (kz <= len s) by (unfold len; lia).
        rewrite at_skip by lia. replace (len s - kz - 1 + kz) with (len s - 1) by lia. auto.
    - rewrite size_look in H. constructor; auto. apply IHL; auto. lia.
    - rewrite size_group in H. constructor; auto. apply IHL; auto. lia.
  Qed.
  Lemma supported_skip G ps : Forall local ps -> supported C covers word multiline G s ps ->
    supported C covers word multiline G t ps.
  Proof.
    intros LO [A B]. split; [|auto]. rewrite Forall_forall in *. intros p P.
    eapply safe_skip; eauto.
  Qed.
End Sh.

Section Sub.
  Variable C : Type.
  Variable covers : C -> Z -> bool.
  Variable word : Z -> bool.
  Variable multiline : bool.
  Variable s : list Z.
  Variable G : nat.
  Variable pat : list (node C).
  Notation seq_ways s := (seq_ways C covers word multiline s).
  Notation match_at s := (match_at C covers word multiline s).
  Notation search_at s := (search_at C covers word multiline s).
  Notation finditer_at s := (finditer_at C covers word multiline s).
  Hypothesis LO : Forall (local C) pat.
  Hypothesis SU : supported C covers word multiline G s pat.
  Hypothesis NONEMPTY : forall i w, 0 <= i <= len s -> In w (seq_ways s pat i) -> i < fst w.

  Lemma match_at_in t i w : match_at t pat i = Some w -> In w (seq_ways t pat i).
  Proof. intro E. apply find_some in E. tauto. Qed.
  Lemma match_bound i w : 0 <= i <= len s -> match_at s pat i = Some w -> i < fst w <= len s.
  Proof.
    intros I E. split; [apply NONEMPTY; auto; apply match_at_in; auto|].
    apply (way_bound C covers word multiline s pat i (fun _ => true) w I) in E. lia.
  Qed.
  Lemma match_end : match_at s pat (len s) = None.
  Proof.
    destruct (match_at s pat (len s)) as [w|] eqn:E; [|auto].
    apply match_bound in E; [lia|]. unfold len. lia.
  Qed.

  Lemma finditer_any n n' i b : 0 <= i <= len s + 1 ->
    2 * (len s + 1 - i) + (if b : bool then 0 else 1) < Z.of_nat n ->
    2 * (len s + 1 - i) + (if b : bool then 0 else 1) < Z.of_nat n' ->
    finditer_at s n pat i b = finditer_at s n' pat i b.
  Proof.
    revert n' i b. induction n as [|n IH]; intros n' i b I L L'; [destruct b; lia|].
    destruct n' as [|n']; [destruct b; lia|]. cbn [Regex_Spec.finditer_at].
    destruct (Z.ltb_spec (len s) i); [auto|].
    destruct (if b then advance_at C covers word multiline s pat i else match_at s pat i) as [w|] eqn:E.
    - assert (B : i < fst w <= len s).
      { destruct b.
        - unfold advance_at in E. pose proof (way_bound C covers word multiline s pat i _ w ltac:(lia) E).
          apply find_some in E. destruct E as [E _]. apply NONEMPTY in E; lia.
        - apply match_bound in E; lia. }
      f_equal. replace (fst w =? i) with false by lia. apply IH; destruct b; lia.
    - apply IH; destruct b; lia.
  Qed.

  Lemma finditer_search n n2 i : 0 <= i <= len s -> 2 * (len s + 1 - i) + 1 < Z.of_nat n ->
    2 * (len s + 1 - i) + 1 < Z.of_nat n2 ->
    finditer_at s n pat i false =
    match search_at s (Z.to_nat (len s - i)) pat i with
    | None => []
    | Some m => m :: finditer_at s n2 pat (fst (snd m)) false
    end.
  Proof.
    intros I L L2. remember (Z.to_nat (len s - i)) as d eqn:D.
    revert n i I L L2 D. induction d as [|d IH]; intros n i I L L2 D; (destruct n as [|n]; [lia|]);
      cbn [Regex_Spec.finditer_at Regex_Spec.search_at]; replace (len s <? i) with false by lia.
    - replace i with (len s) by lia. rewrite match_end.
      destruct n as [|n]; [lia|]. cbn [Regex_Spec.finditer_at]. replace (len s <? len s + 1) with true by lia. auto.
    - destruct (match_at s pat i) as [w|] eqn:E.
      + pose proof (match_bound i w I E). cbn [fst snd]. f_equal.
        replace (fst w =? i) with false by lia. apply finditer_any; lia.
      + rewrite (finditer_any n n2 (i + 1) false) by lia. apply IH; lia.
  Qed.

  Section Skip.
    Variable k : nat.
    Hypothesis K : (k <= length s)%nat.
    Notation t := (skipn k s).
    Notation kz := (Z.of_nat k).
    Lemma match_shift i : 0 <= i <= len t -> match_at s pat (i + kz) = option_map (shift kz) (match_at t pat i).
    Proof.
      intro I. unfold Regex_Spec.match_at, first_way.
      rewrite <- (shift_seq C covers word multiline s k K pat i LO I). rewrite find_map. auto.
    Qed.
    Lemma search_shift n i : 0 <= i -> i + Z.of_nat n <= len t ->
      search_at s n pat (i + kz) = option_map (shift_m kz) (search_at t n pat i).
    Proof.
      revert i. induction n as [|n IH]; intros i I L; cbn [Regex_Spec.search_at];
        (rewrite match_shift by lia); destruct (match_at t pat i); cbn [option_map]; auto.
      replace (i + kz + 1) with (i + 1 + kz) by lia. apply IH; lia.
    Qed.
    Lemma match_end_skip : match_at t pat (len t) = None.
    Proof.
      pose proof (len_skip C covers word s k K) as LS. assert (0 <= len t) by (unfold len; lia).
      pose proof (match_shift (len t) ltac:(lia)) as E. rewrite LS in E at 1.
      replace (len s - kz + kz) with (len s) in E by lia. rewrite match_end in E.
      destruct (match_at t pat (len t)); [discriminate|auto].
    Qed.
    Lemma search_skip_ok : exists N, forall fuel, (N <= fuel)%nat ->
      exists m, re_search C covers word multiline fuel G pat t 0 None = Ok m /\
        agrees_o G (search_at t (Z.to_nat (len t)) pat 0) m.
    Proof.
      assert (V : visible t (Some (len t)) = t) by (unfold visible, len; apply firstn_all2; lia).
      assert (0 <= len t) by (unfold len; lia).
      destruct (search_from_ok C covers word multiline G pat t (len t)) with (n := S (length t)) (pos := 0) as [N HN].
      - lia.
      - rewrite V. apply (supported_skip C covers word multiline s k K); auto.
      - rewrite V. apply match_end_skip.
      - lia.
      - unfold len. lia.
      - exists N. intros fuel F. destruct (HN fuel F) as [m [E A]]. rewrite V, Z.sub_0_r in A.
        exists m. split; [|auto]. unfold re_search. cbv zeta.
        replace (adjust (Z.of_nat (length t)) 1 0 (Some 0)) with 0.
        + exact E.
        + unfold adjust. change (len t) with (Z.of_nat (length t)) in *. ifs; lia.
    Qed.
  End Skip.

  Variable replm : list Z -> part -> list Z.
  Variable repls : Z * way -> list Z.
  Hypothesis REPL : forall k m p, (k <= length s)%nat -> agrees G m p ->
    (forall g sp, group_span m g = Some sp -> within (skipn k s) sp) ->
    replm (skipn k s) p = repls (shift_m (Z.of_nat k) m).

  Lemma parsed_local ps : Forall (local C) ps -> Forall (parsed C) ps.
  Proof.
    assert (X : forall n p, (size C p <= n)%nat -> local C p -> parsed C p).
    { induction n as [|n IH]; intros p H L; [pose proof (size_pos C covers word p); lia|].
      assert (IHL : forall ps, (sizes C ps <= n)%nat -> Forall (local C) ps -> Forall (parsed C) ps).
      { induction ps0 as [|p' ps' IHps]; intros HS L1; [constructor|].
        cbn [sizes] in HS. inversion L1; subst. constructor; [apply IH; auto; lia|]. apply IHps; auto. lia. }
      inversion L; subst.
      - constructor.
      - rewrite size_rep in H. constructor. apply IHL; auto. destruct lo; lia.
      - constructor. clear L. induction alts as [|a alts IHa]; [constructor|].
        rewrite (size_branch C covers word) in H.
        match goal with X : Forall _ (_ :: _) |- _ => inversion X; clear X; subst end.
        constructor; [apply IHL; auto; lia|]. apply IHa; auto. lia.
      - constructor.
      - rewrite size_look in H. constructor. apply IHL; auto. lia.
      - rewrite size_group in H. constructor. apply IHL; auto. lia. }
    rewrite !Forall_forall. intros H p P. eapply X; eauto.
  Qed.

  Definition limit {A} (count : Z) (l : list A) : list A :=
    if count <=? 0 then l else firstn (Z.to_nat count) l.

  Lemma search_in t n i m : 0 <= i -> i + Z.of_nat n <= len t -> search_at t n pat i = Some m ->
    i <= fst m <= i + Z.of_nat n /\ match_at t pat (fst m) = Some (snd m).
  Proof.
    revert i. induction n as [|n IH]; intros i I L; cbn [Regex_Spec.search_at].
    - destruct (match_at t pat i) eqn:E; [|discriminate]. intro X. injection X as <-. cbn. split; [lia|auto].
    - destruct (match_at t pat i) eqn:E.
      + intro X. injection X as <-. cbn. split; [lia|auto].
      + intro X. apply IH in X; try lia. destruct X. split; [lia|auto].
  Qed.

  Lemma skipn_skipn_s (a b : nat) : skipn a (skipn b s) = skipn (b + a) s.
  Proof. clear. revert s. induction b as [|b IH]; intro s; [auto|]. destruct s; cbn; [apply skipn_nil|apply IH]. Qed.

  Lemma subn_from_ok M n : 2 * (len s + 1) + 1 < Z.of_nat M -> forall k count,
    (k <= length s)%nat -> (length s - k <= n)%nat ->
    exists N, forall fuel, (N <= fuel)%nat ->
      subn_from C covers word multiline fuel G pat n replm (skipn k s) count =
      let ms := limit count (finditer_at s M pat (Z.of_nat k) false) in
      Ok (splice s repls (Z.of_nat k) ms, Z.of_nat (length ms)).
  Proof.
    intro HM. induction n as [|n IH]; intros k count K L.
    - assert (k = length s) by lia.
      destruct (search_skip_ok k K) as [N HN]. exists N. intros fuel F.
      destruct (HN fuel F) as [m [E A]]. cbn [subn_from]. rewrite E. cbn [bind].
      rewrite (finditer_search M M) by (unfold len in *; lia).
      pose proof (len_skip C covers word s k K) as LS.
      assert (LT : 0 <= len (skipn k s)) by (unfold len; lia).
      pose proof (search_shift k K (Z.to_nat (len s - Z.of_nat k)) 0 ltac:(lia) ltac:(lia)) as SS.
      rewrite Z.add_0_l in SS. rewrite LS in A. rewrite SS.
      destruct (search_at (skipn k s) (Z.to_nat (len s - Z.of_nat k)) pat 0) as [m'|] eqn:SE.
      { exfalso. apply search_in in SE; [|lia|lia]. destruct SE as [B1 B2].
        assert (Z.of_nat k = len s) by (unfold len; lia).
        replace (fst m') with (len (skipn k s)) in B2 by lia.
        rewrite (match_end_skip k K) in B2. discriminate. }
      rewrite ?SE in A. destruct m; [destruct A|]. cbn [option_map]. cbv zeta.
      replace (limit count (@nil (Z * way))) with (@nil (Z * way)).
      + cbn [splice length]. rewrite Nat2Z.id. auto.
      + unfold limit. destruct (count <=? 0); [auto|]. rewrite firstn_nil. auto.
    - destruct (search_skip_ok k K) as [N1 H1].
      pose proof (len_skip C covers word s k K) as LS.
      assert (LT : 0 <= len (skipn k s)) by (unfold len; lia).
      pose proof (search_shift k K (Z.to_nat (len s - Z.of_nat k)) 0 ltac:(lia) ltac:(lia)) as SS.
      rewrite Z.add_0_l in SS. rewrite LS in H1.
      rewrite (finditer_search M M) by (unfold len in *; lia).
      destruct (search_at (skipn k s) (Z.to_nat (len s - Z.of_nat k)) pat 0) as [[j w]|] eqn:SE.
      + pose proof SE as SE'. apply search_in in SE'; [|lia|lia]. cbn [fst snd] in SE'. destruct SE' as [B1 B2].
        assert (ME : match_at s pat (j + Z.of_nat k) = Some (shift (Z.of_nat k) w)).
        { rewrite (match_shift k K) by lia. rewrite B2. auto. }
        apply match_bound in ME; [|lia]. cbn [shift fst] in ME.
        set (e := Z.to_nat (fst w)).
        destruct (IH (k + e)%nat (count - 1) ltac:(unfold len in *; lia) ltac:(unfold len in *; lia)) as [N2 H2].
        exists (Nat.max N1 N2). intros fuel F.
        destruct (H1 fuel ltac:(lia)) as [m [E A]]. cbn [subn_from]. rewrite E. cbn [bind].
        rewrite ?SE in A. destruct m as [p|]; [|destruct A]. cbn [agrees_o] in A.
        assert (PS : p_start p = j /\ p_end p = fst w).
        { destruct A as [_ A1]. specialize (A1 O ltac:(lia)). cbn in A1.
          destruct p as [|[[a b]|] p]; [discriminate| |discriminate]. injection A1 as -> ->. auto. }
        destruct PS as [-> ->]. rewrite SS. cbn [option_map]. cbv zeta.
        rewrite (REPL k _ p K A).
        2:{ intros g sp GS. eapply (match_within C covers word multiline (skipn k s) _ pat j w g sp); eauto.
            - apply parsed_local; auto.
            - lia. }
        assert (SL : slen (skipn k s) = len s - Z.of_nat k).
        { unfold slen, len. rewrite skipn_length. lia. }
        assert (PRE : sslice (skipn k s) None (Some j) = firstn (Z.to_nat j) (skipn k s)).
        { rewrite sslice_eq, SL. unfold win_start, win_end. ifs; try lia.
          all: replace (Z.to_nat (Z.min _ _)) with O by lia; cbn [skipn]; f_equal; lia. }
        assert (SUF : sslice (skipn k s) (Some (fst w)) None = skipn (k + e) s).
        { rewrite sslice_eq, SL. unfold win_start, win_end. ifs; try lia.
          all: replace (Z.to_nat (Z.min _ _)) with e by (unfold e; lia);
               rewrite skipn_skipn_s; apply firstn_all2; rewrite skipn_length; unfold len, e in *; lia. }
        rewrite PRE, SUF. replace (fst w =? j) with false by lia.
        set (hd := shift_m (Z.of_nat k) (j, w)).
        assert (HD1 : fst hd = j + Z.of_nat k) by reflexivity.
        assert (HD2 : fst (snd hd) = Z.of_nat (k + e)) by (unfold hd; cbn; unfold e; lia).
        clearbody hd. rewrite HD2.
        specialize (H2 fuel ltac:(lia)). cbv zeta in H2.
        destruct (Z.eqb_spec count 1) as [->|NE].
        * unfold limit. change (1 <=? 0) with false. change (Z.to_nat 1) with 1%nat. cbv iota.
          cbn [firstn splice length]. rewrite HD1, HD2.
          replace (j + Z.of_nat k - Z.of_nat k) with j by lia. rewrite !Nat2Z.id.
          rewrite <- app_assoc. auto.
        * rewrite H2. cbn [bind fst snd].
          replace (limit count (hd :: finditer_at s M pat (Z.of_nat (k + e)) false))
            with (hd :: limit (count - 1) (finditer_at s M pat (Z.of_nat (k + e)) false)).
          -- cbn [splice length]. rewrite HD1, HD2.
             replace (j + Z.of_nat k - Z.of_nat k) with j by lia. rewrite Nat2Z.id.
             rewrite <- app_assoc. do 2 f_equal. lia.
          -- unfold limit. destruct (Z.leb_spec count 0).
             ++ replace (count - 1 <=? 0) with true by lia. auto.
             ++ replace (count - 1 <=? 0) with false by lia.
                replace (Z.to_nat count) with (S (Z.to_nat (count - 1))) by lia. auto.
      + exists N1. intros fuel F.
        destruct (H1 fuel ltac:(lia)) as [m [E A]]. cbn [subn_from]. rewrite E. cbn [bind].
        rewrite ?SE in A. destruct m; [destruct A|]. rewrite SS. cbn [option_map]. cbv zeta.
        replace (limit count (@nil (Z * way))) with (@nil (Z * way)).
        * cbn [splice length]. rewrite Nat2Z.id. auto.
        * unfold limit. destruct (count <=? 0); [auto|]. rewrite firstn_nil. auto.
  Qed.
End Sub.
