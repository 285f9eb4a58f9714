(** Regular expressions on symbolic strings (C69-C72).

    The full properties: for every pattern, string and bounds, Pattern.match,
    fullmatch, search, finditer and subn give what CPython's engine gives, and match
    objects answer as CPython's.  They hold for the patterns described by [supported]
    below, and in general not otherwise: each condition is matched by a refutation.

    Regex_Spec says what CPython's engine does: [seq_ways] lists the ways to match a
    pattern at a position in the order in which they are preferred.  [agrees] relates
    a match object to a match of the specification. *)
From Coq Require Import List Bool ZArith Lia ZifyBool ZifyNat.
From Verif Require Import Py PySeq_Spec Range_Spec Str_Model Str_Spec Seq_Proofs Regex_Model Regex_Spec Regex_Proofs RegexEntry_Proofs RegexSub_Proofs RegexObj_Proofs.
Import ListNotations.
Open Scope Z_scope.

(** For examples: a character set is a list of characters; letters are word
    characters. *)
Definition cov (l : list Z) (x : Z) : bool := existsb (Z.eqb x) l.
Definition letter (x : Z) : bool := (97 <=? x) && (x <=? 122).
Definition ch (c : Z) : node (list Z) := NChar [c].
Definition a : Z := 97.
Definition b : Z := 98.
Definition c : Z := 99.
Definition newline : Z := 10.
Definition star (x : list (node (list Z))) : node (list Z) := NRep false 0 None x.

(** ** C69: match and fullmatch *)
(** Missing for the full property: patterns that repeat something that can match in
    several ways or match nothing; groups inside lookaround; negative lookbehind; $ at
    a final newline; \b and \B at the ends of the string; negative pos and endpos. *)
Theorem match_agrees_partial C covers word multiline G pat s pos endpos :
  (forall e, endpos = Some e -> 0 <= e) ->
  let t := visible s endpos in
  supported C covers word multiline G t pat -> 0 <= pos <= len t ->
  exists N, forall fuel, (N <= fuel)%nat ->
    exists m, re_match C covers word multiline fuel G pat s pos endpos = Ok m /\
      agrees_o G (starting pos (match_at C covers word multiline t pat pos)) m.
Proof. intros E t S P. exact (match_pattern_ok C covers word multiline G pat s pos endpos true E S P). Qed.
Print Assumptions match_agrees_partial.

Theorem fullmatch_agrees_partial C covers word multiline G pat s pos endpos :
  (forall e, endpos = Some e -> 0 <= e) ->
  let t := visible s endpos in
  supported C covers word multiline G t pat -> 0 <= pos <= len t ->
  exists N, forall fuel, (N <= fuel)%nat ->
    exists m, re_fullmatch C covers word multiline fuel G pat s pos endpos = Ok m /\
      agrees_o G (starting pos (fullmatch_at C covers word multiline t pat pos)) m.
Proof.
  intros E t S P. rewrite <- (fullmatch_way C covers word multiline t pat pos).
  exact (match_pattern_ok C covers word multiline G (pat ++ [NAt AEndStr]) s pos endpos true E
           (supported_end C covers word multiline G t pat S) P).
Qed.
Print Assumptions fullmatch_agrees_partial.

(** The same for a class of patterns recognizable from the pattern alone: characters,
    groups, alternatives, repeats of fixed text, anchors, lookahead and positive
    lookbehind without groups. *)
Theorem match_simple_partial C covers word multiline G pat :
  Forall (simple C multiline) pat -> NoDup (groupss C pat) -> (forall g, In g (groupss C pat) -> (g <= G)%nat) ->
  forall s pos, 0 <= pos <= len s ->
  exists N, forall fuel, (N <= fuel)%nat ->
    (exists m, re_match C covers word multiline fuel G pat s pos None = Ok m /\
       agrees_o G (starting pos (match_at C covers word multiline s pat pos)) m) /\
    (exists m, re_fullmatch C covers word multiline fuel G pat s pos None = Ok m /\
       agrees_o G (starting pos (fullmatch_at C covers word multiline s pat pos)) m).
Proof.
  intros SI ND HG s pos P.
  pose proof (simple_supported C covers word multiline G s pat SI ND HG) as SU.
  destruct (match_agrees_partial C covers word multiline G pat s pos None ltac:(discriminate) SU P) as [N1 H1].
  destruct (fullmatch_agrees_partial C covers word multiline G pat s pos None ltac:(discriminate) SU P) as [N2 H2].
  exists (Nat.max N1 N2). intros fuel F. split; [apply H1|apply H2]; lia.
Qed.
Print Assumptions match_simple_partial.

(** (a|ab)(b{0,})(?!c) is such a pattern, and matches "abbb" with groups (0,1) and (1,4). *)
Definition pat1 : list (node (list Z)) :=
  [NGroup 1 [NBranch [[ch a]; [ch a; ch b]]]; NGroup 2 [star [ch b]]; NLook true false 0 [ch c]].
Example pat1_simple : Forall (simple (list Z) false) pat1 /\ groupss (list Z) pat1 = [1; 2]%nat.
Proof.
  split; [|reflexivity].
  repeat (constructor; try discriminate; auto).
Qed.
Example match_example :
  re_match (list Z) cov letter false 30 2 pat1 [a; b; b; b] 0 None = Ok (Some [Some (0, 4); Some (0, 1); Some (1, 4)]) /\
  re_match (list Z) cov letter false 30 2 pat1 [a; b; b; c] 0 None = Ok (Some [Some (0, 2); Some (0, 1); Some (1, 2)]) /\
  re_fullmatch (list Z) cov letter false 30 2 pat1 [a; b; b; c] 0 (Some 2) = Ok (Some [Some (0, 2); Some (0, 1); Some (1, 2)]).
Proof. vm_compute. auto. Qed.

(** A pattern that is supported on a string though not [simple]: \ba$ on "a". *)
Example supported_example :
  supported (list Z) cov letter false 0 [a] [NAt ABoundary; ch a; NAt AEnd].
Proof.
  split; [|split; [constructor|intros g []]].
  repeat constructor; try discriminate; auto.
Qed.

(** "$" without MULTILINE does not match before a final newline. *)
Theorem match_dollar_refuted : exists pat s,
  re_match (list Z) cov letter false 20 0 pat s 0 None = Ok None /\
  match_at (list Z) cov letter false s pat 0 <> None.
Proof. exists [ch a; NAt AEnd], [a; newline]. vm_compute. split; [auto|discriminate]. Qed.
Print Assumptions match_dollar_refuted.

(** (?:a|ab)*c does not match "abc": once the repeated part has matched, its other ways
    to match are not tried. *)
Theorem match_repeat_refuted : exists pat s,
  re_match (list Z) cov letter false 20 0 pat s 0 None = Ok None /\
  match_at (list Z) cov letter false s pat 0 <> None.
Proof.
  exists [star [ch a; NBranch [[]; [ch b]]]; ch c], [a; b; c]. vm_compute. split; [auto|discriminate].
Qed.
Print Assumptions match_repeat_refuted.

(** (?:a{0,}){0,} recurses until Python's recursion limit, whatever that is. *)
Theorem match_repeat_empty_refuted : exists pat s, forall fuel,
  re_match (list Z) cov letter false fuel 0 pat s 0 None = Err OutOfFuel /\
  match_at (list Z) cov letter false s pat 0 <> None.
Proof.
  exists [star [star [ch a]]], []. intro fuel. split; [|vm_compute; discriminate].
  assert (X : forall f, match_patterns (list Z) cov letter false [] f [NRep false 1 None [star [ch a]]] 0 true = Err OutOfFuel).
  { induction f as [|f IH]; [reflexivity|].
    cbn [match_patterns rep_loop p_end].
    assert (Y : match_patterns (list Z) cov letter false [] f [star [ch a]] 0 true = Err OutOfFuel \/
                match_patterns (list Z) cov letter false [] f [star [ch a]] 0 true = Ok (Some [Some (0, 0)])).
    { destruct f as [|[|[|[|f]]]]; [left|left|left|right|right]; vm_compute; reflexivity. }
    destruct Y as [Y|Y]; rewrite Y; cbn [bind]; [reflexivity|].
    change (add_match [Some (0, 0)] [Some (0, 0)]) with [Some (0, 0)]. cbn [rep_loop p_end orb bind].
    rewrite IH. reflexivity. }
  unfold re_match, match_pattern. change (trimmed [] None) with (@nil Z).
  destruct fuel as [|fuel]; [reflexivity|]. unfold star. cbn [match_patterns rep_loop bind p_end orb].
  fold (star [ch a]). rewrite X. reflexivity.
Qed.
Print Assumptions match_repeat_empty_refuted.

(** (?<!a)b does not match at the start of a string. *)
Theorem match_lookbehind_refuted : exists pat s,
  re_match (list Z) cov letter false 20 0 pat s 0 None = Ok None /\
  match_at (list Z) cov letter false s pat 0 <> None.
Proof. exists [NLook false false 1 [ch a]; ch b], [b]. vm_compute. split; [auto|discriminate]. Qed.
Print Assumptions match_lookbehind_refuted.

(** (?=(a))a loses what its group matched. *)
Theorem match_lookahead_group_refuted : exists pat s w,
  match_at (list Z) cov letter false s pat 0 = Some w /\ group_span (0, w) 1 = Some (0, 1) /\
  re_match (list Z) cov letter false 20 1 pat s 0 None = Ok (Some [Some (0, 1); None]).
Proof.
  exists [NLook true true 1 [NGroup 1 [ch a]]; ch a], [a], (1, [(1%nat, (0, 1))]). vm_compute. auto.
Qed.
Print Assumptions match_lookahead_group_refuted.

(** \b matches at the ends of any string, and \B at neither, even where there is no
    word character. *)
Theorem match_boundary_refuted : exists s,
  re_match (list Z) cov letter false 20 0 [NAt ABoundary] s 0 None = Ok (Some [Some (0, 0)]) /\
  match_at (list Z) cov letter false s [NAt ABoundary] 0 = None /\
  re_match (list Z) cov letter false 20 0 [NAt ANonBoundary] s 0 None = Ok None /\
  match_at (list Z) cov letter false s [NAt ANonBoundary] 0 <> None.
Proof. exists [32; 32]. vm_compute. repeat split; discriminate. Qed.
Print Assumptions match_boundary_refuted.

(** (?m)^a raises IndexError on the empty string. *)
Theorem match_multiline_refuted : exists pat,
  re_match (list Z) cov letter true 20 0 pat [] 0 None = Err IndexError /\
  match_at (list Z) cov letter true [] pat 0 = None.
Proof. exists [NAt ABegin; ch a]. vm_compute. auto. Qed.
Print Assumptions match_multiline_refuted.

(** A negative endpos counts from the end of the string; CPython takes it for 0. *)
Theorem match_endpos_refuted : exists s e, e < 0 /\
  re_match (list Z) cov letter false 20 0 [ch a] s 0 (Some e) = Ok (Some [Some (0, 1)]) /\
  match_at (list Z) cov letter false (visible s (Some e)) [ch a] 0 = None.
Proof. exists [a; a], (-1). vm_compute. auto. Qed.
Print Assumptions match_endpos_refuted.

(** ** C70: search and finditer *)
(** [search] from pos to endpos, both within the string.  Missing: patterns that can
    match the empty string at endpos. *)
Theorem search_agrees_partial C covers word multiline G pat s pos e :
  0 <= pos <= e -> e <= len s ->
  let t := visible s (Some e) in
  supported C covers word multiline G t pat ->
  match_at C covers word multiline t pat e = None ->
  exists N, forall fuel, (N <= fuel)%nat ->
    exists m, re_search C covers word multiline fuel G pat s pos (Some e) = Ok m /\
      agrees_o G (search C covers word multiline t pat pos) m.
Proof.
  intros P E t S M.
  destruct (search_from_ok C covers word multiline G pat s e ltac:(lia) S M (Datatypes.S (length s)) pos P) as [N HN].
  { unfold len in E. lia. }
  exists N. intros fuel F. destruct (HN fuel F) as [m [Em Am]]. exists m. split.
  - unfold re_search. cbv zeta. unfold len in E.
    replace (adjust (Z.of_nat (length s)) 1 0 (Some pos)) with pos by (unfold adjust; ifs; lia).
    replace (adjust (Z.of_nat (length s)) 1 (Z.of_nat (length s)) (Some e)) with e by (unfold adjust; ifs; lia).
    exact Em.
  - unfold search. replace (len t) with e; [exact Am|].
    unfold t, visible, len in *. rewrite firstn_length. lia.
Qed.
Print Assumptions search_agrees_partial.

Theorem finditer_agrees_partial C covers word multiline G pat s pos e :
  0 <= pos <= e -> e <= len s ->
  let t := visible s (Some e) in
  supported C covers word multiline G t pat ->
  exists N, forall fuel, (N <= fuel)%nat ->
    exists ms, re_finditer C covers word multiline fuel G pat s pos (Some e) = Ok ms /\
      Forall2 (agrees G) (finditer C covers word multiline t pat pos) ms.
Proof.
  intros P E t S. unfold len in E.
  assert (LT : length t = Z.to_nat e) by (unfold t, visible; rewrite firstn_length; lia).
  destruct (finditer_from_ok C covers word multiline G pat s e ltac:(unfold len; lia) S
              (2 * length s + 4) (2 * length t + 4) pos false) as [N HN]; [lia|lia|lia|].
  exists N. intros fuel F. destruct (HN fuel F) as [ms [Em Am]]. exists ms. split; [|exact Am].
  unfold re_finditer. cbv zeta.
  replace (adjust (Z.of_nat (length s)) 1 0 (Some pos)) with pos by (unfold adjust; ifs; lia).
  replace (adjust (Z.of_nat (length s)) 1 (Z.of_nat (length s)) (Some e)) with e by (unfold adjust; ifs; lia).
  exact Em.
Qed.
Print Assumptions finditer_agrees_partial.

(** ab* in "cabbac": found at 1; matches (1,4) and (4,5) *)
Definition pat2 : list (node (list Z)) := [ch a; star [ch b]].
Example pat2_simple : Forall (simple (list Z) false) pat2.
Proof. repeat (constructor; try discriminate; auto). Qed.
Example search_example :
  let s := [c; a; b; b; a; c] in
  match_at (list Z) cov letter false s pat2 6 = None /\
  re_search (list Z) cov letter false 30 0 pat2 s 0 (Some 6) = Ok (Some [Some (1, 4)]) /\
  re_finditer (list Z) cov letter false 30 0 pat2 s 0 (Some 6) = Ok [[Some (1, 4)]; [Some (4, 5)]] /\
  (* b*, with its empty matches *)
  re_finditer (list Z) cov letter false 30 0 [star [ch b]] [a; b; a] 0 (Some 3) =
    Ok [[Some (0, 0)]; [Some (1, 2)]; [Some (2, 2)]; [Some (3, 3)]].
Proof. vm_compute. auto. Qed.

(** search never tries the end of the string: "$" is not found in "abc". *)
Theorem search_end_refuted : exists pat s,
  re_search (list Z) cov letter false 20 0 pat s 0 None = Ok None /\
  search (list Z) cov letter false s pat 0 <> None.
Proof. exists [NAt AEnd], [a; b; c]. vm_compute. split; [auto|discriminate]. Qed.
Print Assumptions search_end_refuted.

(** search from pos = -1 starts at the last character; CPython starts at 0. *)
Theorem search_pos_refuted : exists s pos, pos < 0 /\
  re_search (list Z) cov letter false 20 0 [ch a] s pos None = Ok (Some [Some (1, 2)]) /\
  search (list Z) cov letter false s [ch a] 0 = Some (0, (1, [])).
Proof. exists [a; a], (-1). vm_compute. auto. Qed.
Print Assumptions search_pos_refuted.

(** ** C71: subn *)
(** The replacement depends on the texts of the match and its groups; the texts are
    [groups_text] below, None for a group that took no part.  Missing: patterns that
    look behind the match or can match the empty string; negative counts. *)
Definition groups_text (s : list Z) (G : nat) (m : Z * way) : list (option (list Z)) :=
  map (group_text s m) (seq 0 (S G)).
(** what a replacement function sees of a match object: m.group(0), m.group(1), ... *)
Definition object_text (s : list Z) (p : part) : list (option (list Z)) :=
  map (fun o => match o with Some (x, y) => Some (sslice s (Some x) (Some y)) | None => None end) p.

Lemma object_text_ok s G m p : agrees G m p -> (forall g sp, group_span m g = Some sp -> within s sp) ->
  object_text s p = groups_text s G m.
Proof.
  intros [L N] W. unfold object_text, groups_text.
  assert (P : p = map (group_span m) (seq 0 (S G))).
  { apply nth_ext with (d := None) (d' := None); [rewrite map_length, seq_length; auto|].
    intros n Hn. rewrite L in Hn. rewrite N by lia.
    rewrite (nth_indep _ None (group_span m O)) by (rewrite map_length, seq_length; lia).
    rewrite (map_nth (group_span m) (seq 0 (S G)) O n), seq_nth by lia. auto. }
  rewrite P at 1. rewrite map_map. apply map_ext. intro g. unfold group_text.
  destruct (group_span m g) as [[x y]|] eqn:E; [|auto]. cbn [option_map]. f_equal.
  exact (text_slice s (x, y) (W _ _ E)).
Qed.

Theorem subn_agrees_partial C covers word multiline G pat s count (f : list (option (list Z)) -> list Z) :
  supported C covers word multiline G s pat -> Forall (local C) pat ->
  (forall i w, 0 <= i <= len s -> In w (seq_ways C covers word multiline s pat i) -> i < fst w) ->
  0 <= count ->
  exists N, forall fuel, (N <= fuel)%nat ->
    re_subn C covers word multiline fuel G pat (fun t p => f (object_text t p)) s count =
    Ok (subn C covers word multiline s (fun m => f (groups_text s G m)) pat count).
Proof.
  intros SU LO NE CT.
  assert (R : forall k m p, (k <= length s)%nat -> agrees G m p ->
            (forall g sp, group_span m g = Some sp -> within (skipn k s) sp) ->
            f (object_text (skipn k s) p) = f (groups_text s G (shift_m (Z.of_nat k) m))).
  { intros k m p K A W. f_equal. rewrite (object_text_ok _ G m p A W). unfold groups_text.
    apply map_ext. intro g. unfold group_text.
    assert (GS : group_span (shift_m (Z.of_nat k) m) g =
                 option_map (fun sp => (fst sp + Z.of_nat k, snd sp + Z.of_nat k)) (group_span m g)).
    { destruct g as [|g]; [reflexivity|]. cbn [group_span shift_m snd shift].
      rewrite captured_shift. auto. }
    rewrite GS. destruct (group_span m g) as [sp|] eqn:E; cbn [option_map]; [|auto].
    f_equal. apply text_skip; auto. eapply W; eauto. }
  destruct (subn_from_ok C covers word multiline s G pat LO SU NE
              (fun t p => f (object_text t p)) (fun m => f (groups_text s G m)) R
              (2 * length s + 4) (S (length s)) ltac:(unfold len; lia) O count ltac:(lia) ltac:(lia)) as [N HN].
  exists N. intros fuel F. unfold re_subn. specialize (HN fuel F). cbn [skipn] in HN. rewrite HN.
  cbv zeta. unfold subn, finditer, limit. cbv zeta.
  destruct (Z.eqb_spec count 0) as [->|Z]; [reflexivity|].
  replace (count <=? 0) with false by lia. reflexivity.
Qed.
Print Assumptions subn_agrees_partial.

(** ab* in "cabbac", replaced by its match between two c's *)
Example pat2_local : Forall (local (list Z)) pat2 /\
  forall i w, In w (seq_ways (list Z) cov letter false [c; a; b; b; a; c] pat2 i) -> 0 <= i <= 6 -> i < fst w.
Proof.
  split; [repeat constructor|].
  intros i w H I.
  assert (D : i = 0 \/ i = 1 \/ i = 2 \/ i = 3 \/ i = 4 \/ i = 5 \/ i = 6) by lia.
  repeat destruct D as [D|D]; subst i; vm_compute in H; repeat destruct H as [H|H]; subst; cbn; try lia; destruct H.
Qed.
Example subn_example :
  let f := fun ts => match ts with Some x :: _ => c :: x ++ [c] | _ => [] end in
  re_subn (list Z) cov letter false 30 0 pat2 (fun t p => f (object_text t p)) [c; a; b; b; a; c] 0 =
    Ok ([c; c; a; b; b; c; c; a; c; c], 2) /\
  re_subn (list Z) cov letter false 30 0 pat2 (fun t p => f (object_text t p)) [c; a; b; b; a; c] 1 =
    Ok ([c; c; a; b; b; c; a; c], 1).
Proof. vm_compute. auto. Qed.

(** re.sub("c*", "-", "abc") loses characters: "---" rather than "-a-b--". *)
Theorem subn_empty_refuted : exists pat s r r',
  re_subn (list Z) cov letter false 20 0 pat (fun _ _ => [45]) s 0 = Ok r /\
  subn (list Z) cov letter false s (fun _ => [45]) pat 0 = r' /\ r <> r'.
Proof.
  exists [star [ch c]], [a; b; c]. eexists. eexists. split; [vm_compute; reflexivity|].
  split; [vm_compute; reflexivity|]. discriminate.
Qed.
Print Assumptions subn_empty_refuted.

(** re.sub("^a", "b", "aaa") replaces every a: what remains of the string is matched
    as a string of its own. *)
Theorem subn_anchor_refuted : exists pat s,
  re_subn (list Z) cov letter false 20 0 pat (fun _ _ => [b]) s 0 = Ok ([b; b; b], 3) /\
  subn (list Z) cov letter false s (fun _ => [b]) pat 0 = ([b; a; a], 1).
Proof. exists [NAt ABegin; ch a], [a; a; a]. vm_compute. auto. Qed.
Print Assumptions subn_anchor_refuted.

(** For the same reason, a replacement function that looks at m.start() sees positions
    counted from the end of the previous match. *)
Theorem subn_position_refuted : exists s,
  re_subn (list Z) cov letter false 20 0 [ch a] (fun _ p => [p_start p]) s 0 = Ok ([0; 0], 2) /\
  subn (list Z) cov letter false s (fun m => [fst m]) [ch a] 0 = ([0; 1], 2).
Proof. exists [a; a]. vm_compute. auto. Qed.
Print Assumptions subn_position_refuted.

(** A negative count replaces everything; CPython replaces nothing. *)
Theorem subn_count_refuted : exists s count,
  re_subn (list Z) cov letter false 20 0 [ch a] (fun _ _ => [b]) s count = Ok ([b], 1) /\
  subn (list Z) cov letter false s (fun _ => [b]) [ch a] count = ([a], 0).
Proof. exists [a], (-1). vm_compute. auto. Qed.
Print Assumptions subn_count_refuted.

(** ** C72: match objects *)
(** A match object for a match of a pattern answers group, groups, start, end and span
    as CPython's does.  [parsed]: the pattern is as the parser makes it. *)
Theorem match_group_partial C covers word multiline G pat s pos w p :
  Forall (parsed C) pat -> 0 <= pos <= len s ->
  match_at C covers word multiline s pat pos = Some w -> agrees G (pos, w) p ->
  m_groups s p = Ok (groups_of s G (pos, w)) /\
  (forall g, (g <= G)%nat ->
     m_group s p (Z.of_nat g) = Ok (group_text s (pos, w) g) /\
     forall x y, group_span (pos, w) g = Some (x, y) ->
       m_span p (Z.of_nat g) = Ok (Some (x, y)) /\ m_start p (Z.of_nat g) = Ok x /\ m_end p (Z.of_nat g) = Ok y) /\
  (forall n, Z.of_nat G < n -> m_group s p n = Err IndexError /\ m_span p n = Err IndexError /\
     m_start p n = Err IndexError /\ m_end p n = Err IndexError).
Proof.
  intros PA P M A.
  assert (W : forall g sp, group_span (pos, w) g = Some sp -> within s sp).
  { intros g sp H. eapply (match_within C covers word multiline s (fun _ => true) pat pos w g sp); eauto. }
  split; [apply (groups_ok G (pos, w) p A s W)|]. split.
  - intros g Hg. split; [apply (group_ok G (pos, w) p A s W g Hg)|]. intros x y E.
    unfold m_span, m_start, m_end. rewrite (item_ok G (pos, w) p A g Hg), E. auto.
  - intros n Hn. unfold m_group, m_span, m_start, m_end. rewrite (item_above G (pos, w) p A n Hn). auto.
Qed.
Print Assumptions match_group_partial.

(** lastindex, when the group closed last is also the one with the largest number. *)
Theorem match_lastindex_partial G m p g :
  agrees G m p -> (0 < g <= G)%nat -> lastindex (snd m) = Some g ->
  (forall h sp, In (h, sp) (snd (snd m)) -> (h <= g)%nat) -> m_lastindex p = Some g.
Proof. intros A. exact (lastindex_ok G m p A g). Qed.
Print Assumptions match_lastindex_partial.

(** expand, for templates without other escapes and groups that took part *)
Theorem match_expand_partial C covers word multiline G pat s pos w p ts :
  Forall (parsed C) pat -> 0 <= pos <= len s ->
  match_at C covers word multiline s pat pos = Some w -> agrees G (pos, w) p ->
  plain ts -> (forall g, In (TRef g) ts -> (g <= G)%nat /\ group_span (pos, w) g <> None) ->
  m_expand (S (length ts)) s p (render ts) = Ok (expand s (pos, w) ts).
Proof.
  intros PA P M A PL R.
  apply (expand_ok G (pos, w) p A); auto.
  intros g sp H. eapply (match_within C covers word multiline s (fun _ => true) pat pos w g sp); eauto.
Qed.
Print Assumptions match_expand_partial.

(** (a|ab)(b{0,})(?!c) on "abbb", as above; the template "<\2>\1" gives "<bbb>a" *)
Example object_example :
  let s := [a; b; b; b] in let w := (4, [(2%nat, (1, 4)); (1%nat, (0, 1))]) in
  let p := [Some (0, 4); Some (0, 1); Some (1, 4)] in
  Forall (parsed (list Z)) pat1 /\ match_at (list Z) cov letter false s pat1 0 = Some w /\ agrees 2 (0, w) p /\
  lastindex w = Some 2%nat /\
  plain [TLit 60; TRef 2; TLit 62; TRef 1] /\ render [TLit 60; TRef 2; TLit 62; TRef 1] = [60; 92; 50; 62; 92; 49] /\
  expand s (0, w) [TLit 60; TRef 2; TLit 62; TRef 1] = [60; b; b; b; 62; a].
Proof.
  cbv zeta. split; [repeat constructor|]. split; [vm_compute; auto|]. split.
  - split; [auto|]. intros [|[|[|g]]] H; [reflexivity|reflexivity|reflexivity|lia].
  - split; [reflexivity|]. split; [cbn; repeat split; lia|]. split; vm_compute; reflexivity.
Qed.

(** lastindex counts group 0, and takes the largest group that took part rather than
    the one closed last: for "a" it is 0 rather than None, for "((a))" 2 rather than 1. *)
Theorem match_lastindex_refuted :
  (exists s w, match_at (list Z) cov letter false s [ch a] 0 = Some w /\ lastindex w = None /\
     (do m <- re_match (list Z) cov letter false 20 0 [ch a] s 0 None;
      Ok (option_map m_lastindex m)) = Ok (Some (Some 0%nat))) /\
  (exists s w pat, pat = [NGroup 1 [NGroup 2 [ch a]]] /\
     match_at (list Z) cov letter false s pat 0 = Some w /\ lastindex w = Some 1%nat /\
     (do m <- re_match (list Z) cov letter false 20 2 pat s 0 None;
      Ok (option_map m_lastindex m)) = Ok (Some (Some 2%nat))).
Proof.
  split.
  - exists [a], (1, []). vm_compute. auto.
  - exists [a], (1, [(1%nat, (0, 1)); (2%nat, (0, 1))]). eexists. split; [reflexivity|]. vm_compute. auto.
Qed.
Print Assumptions match_lastindex_refuted.

(** groupdict gives spans rather than texts, of the groups that took part; CPython has
    an entry for every name. *)
Theorem match_groupdict_refuted : exists s m p, agrees 2 m p /\
  m_groupdict [(a, 1%nat); (b, 2%nat)] p = Ok [(a, (0, 1))] /\
  groupdict s m [(a, 1%nat); (b, 2%nat)] = [(a, Some [a]); (b, None)].
Proof.
  exists [a], (0, (1, [(1%nat, (0, 1))])), [Some (0, 1); Some (0, 1); None]. split; [|vm_compute; auto].
  split; [auto|]. intros [|[|[|g]]] H; [reflexivity|reflexivity|reflexivity|lia].
Qed.
Print Assumptions match_groupdict_refuted.

(** start, end and span of a group that took no part: TypeError, TypeError and None;
    CPython answers -1, -1 and (-1, -1). *)
Theorem match_span_refuted : exists m p, agrees 1 m p /\ group_span m 1 = None /\
  m_start p 1 = Err TypeError /\ m_end p 1 = Err TypeError /\ m_span p 1 = Ok None.
Proof.
  exists (0, (1, [])), [Some (0, 1); None]. split; [|vm_compute; auto].
  split; [auto|]. intros [|[|g]] H; [reflexivity|reflexivity|lia].
Qed.
Print Assumptions match_span_refuted.

(** group(-1) is the last group; CPython raises IndexError. *)
Theorem match_negative_group_refuted : exists s p n, n < 0 /\ m_group s p n = Ok (Some [a]).
Proof. exists [a], [Some (0, 1)], (-1). vm_compute. auto. Qed.
Print Assumptions match_negative_group_refuted.

(** expand raises TypeError for a group that took no part, where CPython puts nothing;
    and leaves a template with a newline as it is. *)
Theorem match_expand_refuted :
  (exists s m p, agrees 1 m p /\
     m_expand 10 s p (render [TRef 1]) = Err TypeError /\ expand s m [TRef 1] = []) /\
  (exists s m p, agrees 1 m p /\
     m_expand 10 s p (render [TLit 10; TRef 1]) = Ok [10; 92; 49] /\ expand s m [TLit 10; TRef 1] = [10; a]).
Proof.
  split.
  - exists [a], (0, (1, [])), [Some (0, 1); None]. split; [|vm_compute; auto].
    split; [auto|]. intros [|[|g]] H; [reflexivity|reflexivity|lia].
  - exists [a], (0, (1, [(1%nat, (0, 1))])), [Some (0, 1); Some (0, 1)]. split; [|vm_compute; auto].
    split; [auto|]. intros [|[|g]] H; [reflexivity|reflexivity|lia].
Qed.
Print Assumptions match_expand_refuted.
