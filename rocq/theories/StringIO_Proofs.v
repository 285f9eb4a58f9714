(** Proofs about in-memory text files: newlines, lines, writes. *)
From Coq Require Import List Bool ZArith Lia ZifyBool ZifyNat.
From Verif Require Import Py Str_Spec Str_Model Seq_Proofs Str_Proofs Str_Proofs2 Regex_Model Regex_Spec StringIO_Model StringIO_Spec.
Import ListNotations.
Open Scope Z_scope.

(** *** Newlines *)
Definition hit (i e : Z) : Z * way := (i, (e, [(1%nat, (i, e))])).
Fixpoint hits (i : Z) (t : list Z) : list (Z * way) :=
  match t with
  | [] => []
  | c :: r => if c =? 13 then
                match r with
                | d :: r' => if d =? 10 then hit i (i + 2) :: hits (i + 2) r' else hit i (i + 1) :: hits (i + 1) r
                | [] => [hit i (i + 1)]
                end
              else if c =? 10 then hit i (i + 1) :: hits (i + 1) r else hits (i + 1) r
  end.

Lemma skipn_cons {A} n (s : list A) x r : skipn n s = x :: r -> skipn (S n) s = r /\ (n < length s)%nat /\ nth_error s n = Some x.
Proof.
  revert s. induction n as [|n IH]; intros [|y s] H; cbn in H; try discriminate.
  - injection H as -> ->. cbn. repeat split; lia.
  - destruct (IH _ H) as (A1 & A2 & A3). cbn [skipn length nth_error]. repeat split; auto; lia.
Qed.
Lemma at_pos_skip s i x r : 0 <= i -> skipn (Z.to_nat i) s = x :: r -> Regex_Spec.at_pos s i = Some x.
Proof. intros I H. unfold Regex_Spec.at_pos. replace (i <? 0) with false by lia. now apply skipn_cons in H. Qed.
Lemma at_pos_end s i : 0 <= i -> skipn (Z.to_nat i) s = [] -> Regex_Spec.at_pos s i = None.
Proof.
  intros I H. unfold Regex_Spec.at_pos. replace (i <? 0) with false by lia. apply nth_error_None.
  apply (f_equal (@length Z)) in H. rewrite skipn_length in H. cbn in H. lia.
Qed.
Lemma skip_next (s : list Z) i x r : 0 <= i -> skipn (Z.to_nat i) s = x :: r -> skipn (Z.to_nat (i + 1)) s = r.
Proof. intros I H. apply skipn_cons in H. replace (Z.to_nat (i + 1)) with (S (Z.to_nat i)) by lia. tauto. Qed.

Lemma match_newline s i : 0 <= i ->
  match_at Z Z.eqb no_word false s newline_re i =
  match skipn (Z.to_nat i) s with
  | [] => None
  | c :: r => if c =? 13 then
                match r with
                | d :: r' => if d =? 10 then Some (snd (hit i (i + 2))) else Some (snd (hit i (i + 1)))
                | [] => Some (snd (hit i (i + 1)))
                end
              else if c =? 10 then Some (snd (hit i (i + 1))) else None
  end.
Proof.
  intros I. unfold match_at, first_way, newline_re.
  cbn [seq_ways ways]. destruct (skipn (Z.to_nat i) s) as [|c r] eqn:E.
  - rewrite (at_pos_end s i I E). reflexivity.
  - rewrite (at_pos_skip s i c r I E). cbn [holds].
    pose proof (skip_next s i c r I E) as E1.
    rewrite (Z.eqb_sym c 13), (Z.eqb_sym c 10).
    destruct (13 =? c) eqn:C13.
    + replace (10 =? c) with false by lia.
      destruct r as [|d r].
      * cbn [and_then flat_map map fst snd app].
        rewrite (at_pos_end s (i + 1) ltac:(lia) E1). reflexivity.
      * cbn [and_then flat_map map fst snd app]. rewrite (at_pos_skip s (i + 1) d r ltac:(lia) E1). cbn [holds].
        rewrite (Z.eqb_sym d 10). destruct (10 =? d).
        -- cbn. unfold hit, snd. replace (i + 1 + 1) with (i + 2) by lia. reflexivity.
        -- reflexivity.
    + destruct (10 =? c); reflexivity.
Qed.

Lemma finditer_newline s n i : 0 <= i -> (length (skipn (Z.to_nat i) s) <= n)%nat ->
  finditer_at Z Z.eqb no_word false s n newline_re i false = hits i (skipn (Z.to_nat i) s).
Proof.
  revert i. induction n as [|n IH]; intros i I L.
  - destruct (skipn (Z.to_nat i) s); [reflexivity|cbn in L; lia].
  - cbn [finditer_at]. destruct (len s <? i) eqn:P.
    + assert (E : skipn (Z.to_nat i) s = []) by (apply skipn_all2; unfold len in P; lia). now rewrite E.
    + rewrite (match_newline s i I). destruct (skipn (Z.to_nat i) s) as [|c r] eqn:E.
      * destruct n; [reflexivity|].
        assert (E1 : skipn (Z.to_nat (i + 1)) s = []).
        { apply skipn_all2. apply (f_equal (@length Z)) in E. rewrite skipn_length in E. cbn in E. lia. }
        rewrite IH; [now rewrite E1|lia|rewrite E1; cbn; lia].
      * pose proof (skip_next s i c r I E) as E1. cbn [length] in L. cbn [hits].
        destruct (c =? 13) eqn:C13.
        -- destruct r as [|d r].
           ++ cbn [hit snd fst]. replace (i + 1 =? i) with false by lia. rewrite IH; [|lia|rewrite E1; cbn; lia].
              rewrite E1. reflexivity.
           ++ destruct (d =? 10).
              ** cbn [hit snd fst]. replace (i + 2 =? i) with false by lia.
                 pose proof (skip_next s (i + 1) d r ltac:(lia) E1) as E2. replace (i + 1 + 1) with (i + 2) in E2 by lia.
                 rewrite IH; [|lia|rewrite E2; cbn in L; lia]. now rewrite E2.
              ** cbn [hit snd fst]. replace (i + 1 =? i) with false by lia. rewrite IH; [|lia|rewrite E1; cbn in *; lia].
                 now rewrite E1.
        -- destruct (c =? 10).
           ++ cbn [hit snd fst]. replace (i + 1 =? i) with false by lia. rewrite IH; [|lia|rewrite E1; lia]. now rewrite E1.
           ++ rewrite IH; [|lia|rewrite E1; lia]. now rewrite E1.
Qed.
Lemma matches_hits s i : 0 <= i -> re_matches s i = hits i (skipn (Z.to_nat i) s).
Proof. intros. apply finditer_newline; auto. rewrite skipn_length. lia. Qed.

Lemma firstn_snoc (s : list Z) j i x r : 0 <= j <= i -> skipn (Z.to_nat i) s = x :: r ->
  firstn (Z.to_nat (i + 1 - j)) (skipn (Z.to_nat j) s) = firstn (Z.to_nat (i - j)) (skipn (Z.to_nat j) s) ++ [x].
Proof.
  intros J E. replace (Z.to_nat (i + 1 - j)) with (Z.to_nat (i - j) + 1)%nat by lia.
  rewrite <- (firstn_skipn (Z.to_nat (i - j)) (skipn (Z.to_nat j) s)) at 1.
  assert (SS : skipn (Z.to_nat (i - j)) (skipn (Z.to_nat j) s) = x :: r).
  { rewrite <- E. revert J. clear. intros J. replace (Z.to_nat i) with (Z.to_nat j + Z.to_nat (i - j))%nat by lia.
    generalize (Z.to_nat (i - j)) as m. generalize (Z.to_nat j) as k. clear.
    intros k. revert s. induction k as [|k IH]; intros [|y s] m; cbn [skipn Nat.add]; auto. now rewrite skipn_nil. }
  rewrite SS. rewrite firstn_app.
  assert (LL : length (firstn (Z.to_nat (i - j)) (skipn (Z.to_nat j) s)) = Z.to_nat (i - j)).
  { rewrite firstn_length. apply (f_equal (@length Z)) in SS. rewrite skipn_length in SS. cbn in SS. lia. }
  rewrite LL. rewrite firstn_all2 by lia. replace (Z.to_nat (i - j) + 1 - Z.to_nat (i - j))%nat with 1%nat by lia.
  reflexivity.
Qed.

Lemma splice_newline s n : forall i j, 0 <= j <= i -> (length (skipn (Z.to_nat i) s) <= n)%nat ->
  i <= Z.of_nat (length s) ->
  splice s (fun _ => [10]) j (hits i (skipn (Z.to_nat i) s)) =
  firstn (Z.to_nat (i - j)) (skipn (Z.to_nat j) s) ++ universal (skipn (Z.to_nat i) s).
Proof.
  induction n as [|n IH]; intros i j J L B.
  - destruct (skipn (Z.to_nat i) s) as [|c r] eqn:E; [|cbn in L; lia]. cbn [hits splice universal].
    rewrite app_nil_r, firstn_all2; auto. apply (f_equal (@length Z)) in E. rewrite skipn_length in *. cbn in E. lia.
  - destruct (skipn (Z.to_nat i) s) as [|c r] eqn:E.
    + cbn [hits splice universal].
      rewrite app_nil_r, firstn_all2; auto. apply (f_equal (@length Z)) in E. rewrite skipn_length in *. cbn in E. lia.
    + pose proof (skip_next s i c r ltac:(lia) E) as E1. pose proof (skipn_cons _ s _ _ E) as (_ & B1 & _).
      cbn [length] in L. cbn [hits universal].
      assert (G : forall e, 0 <= e <= Z.of_nat (length s) -> (length (skipn (Z.to_nat e) s) <= n)%nat ->
        splice s (fun _ => [10]) e (hits e (skipn (Z.to_nat e) s)) = universal (skipn (Z.to_nat e) s)).
      { intros e He Le. rewrite IH by lia. replace (e - e) with 0 by lia. reflexivity. }
      destruct (c =? 13) eqn:C13.
      * destruct r as [|d r].
        -- cbn [splice hit fst snd]. rewrite E1. reflexivity.
        -- destruct (d =? 10).
           ++ pose proof (skip_next s (i + 1) d r ltac:(lia) E1) as E2. replace (i + 1 + 1) with (i + 2) in E2 by lia.
              pose proof (skipn_cons _ _ _ _ E1) as (_ & B2 & _).
              cbn [splice hit fst snd]. rewrite <- E2, G; [reflexivity|lia|rewrite E2; cbn in L; lia].
           ++ cbn [splice hit fst snd]. rewrite <- E1, G; [reflexivity|lia|rewrite E1; cbn in *; lia].
      * destruct (c =? 10) eqn:C10.
        -- cbn [splice hit fst snd]. rewrite <- E1, G; [|lia|rewrite E1; lia].
           apply Z.eqb_eq in C10. subst c. reflexivity.
        -- rewrite <- E1, IH; [|lia|rewrite E1; lia|lia]. rewrite (firstn_snoc s j i c r J E).
           rewrite <- app_assoc. reflexivity.
Qed.
Lemma re_sub_universal s : re_sub [10] s = universal s.
Proof.
  unfold re_sub, subn. cbn [fst]. fold (re_matches s 0). rewrite matches_hits by lia.
  cbn [Z.eqb]. change (0 =? 0) with true. cbn iota.
  rewrite (splice_newline s (length s)); [reflexivity|lia|cbn; lia|lia].
Qed.

Lemma group_hit s i e : group_text s (hit i e) 1 = Some (firstn (Z.to_nat (e - i)) (skipn (Z.to_nat i) s)).
Proof. reflexivity. Qed.
Lemma texts_hits s n : forall i, 0 <= i -> (length (skipn (Z.to_nat i) s) <= n)%nat ->
  map (fun m => match group_text s m 1 with Some t => t | None => [] end) (hits i (skipn (Z.to_nat i) s)) =
  newlines_in (skipn (Z.to_nat i) s).
Proof.
  induction n as [|n IH]; intros i I L.
  - destruct (skipn (Z.to_nat i) s); [reflexivity|cbn in L; lia].
  - destruct (skipn (Z.to_nat i) s) as [|c r] eqn:E; [reflexivity|].
    pose proof (skip_next s i c r I E) as E1. cbn [length] in L. cbn [hits newlines_in].
    assert (T1 : firstn (Z.to_nat (i + 1 - i)) (skipn (Z.to_nat i) s) = [c]).
    { rewrite E. replace (Z.to_nat (i + 1 - i)) with 1%nat by lia. reflexivity. }
    destruct (c =? 13) eqn:C13.
    + apply Z.eqb_eq in C13. subst c. destruct r as [|d r].
      * cbn [map]. rewrite group_hit, T1. reflexivity.
      * destruct (d =? 10) eqn:D.
        -- apply Z.eqb_eq in D. subst d. cbn [map]. rewrite group_hit.
           pose proof (skip_next s (i + 1) 10 r ltac:(lia) E1) as E2. replace (i + 1 + 1) with (i + 2) in E2 by lia.
           rewrite <- E2, IH; [|lia|rewrite E2; cbn in L; lia]. f_equal. rewrite E.
           replace (Z.to_nat (i + 2 - i)) with 2%nat by lia. reflexivity.
        -- cbn [map]. rewrite group_hit, T1, <- E1, IH; [reflexivity|lia|rewrite E1; cbn in *; lia].
    + destruct (c =? 10) eqn:C10.
      * apply Z.eqb_eq in C10. subst c. cbn [map]. rewrite group_hit, T1, <- E1, IH; [reflexivity|lia|rewrite E1; lia].
      * rewrite <- E1, IH; [reflexivity|lia|rewrite E1; lia].
Qed.
Lemma re_texts_newlines s : re_texts s = newlines_in s.
Proof. unfold re_texts. rewrite matches_hits by lia. rewrite (texts_hits s (length s)); [reflexivity|lia|cbn; lia]. Qed.

(** the first hit ends the first line *)
Lemma hits_line n : forall t i, (length t <= n)%nat ->
  match hits i t with
  | m :: _ => exists k, fst (snd m) = i + Z.of_nat k /\ (k <= length t)%nat /\ line_any t = firstn k t
  | [] => line_any t = t
  end.
Proof.
  induction n as [|n IH]; intros [|c r] i L; [reflexivity|cbn in L; lia|reflexivity|].
  cbn [hits line_any]. cbn [length] in L.
  destruct (c =? 13) eqn:C13.
  - replace (c =? 10) with false by lia. apply Z.eqb_eq in C13. subst c. destruct r as [|d r].
    + exists 1%nat. cbn. repeat split; lia.
    + destruct (d =? 10) eqn:D; cbn [hit fst snd].
      * apply Z.eqb_eq in D. subst d. exists 2%nat. cbn. repeat split; lia.
      * exists 1%nat. cbn [length firstn]. repeat split; lia.
  - destruct (c =? 10) eqn:C10.
    + apply Z.eqb_eq in C10. subst c. exists 1%nat. cbn [hit fst snd length firstn]. repeat split; lia.
    + specialize (IH r (i + 1) ltac:(lia)). destruct (hits (i + 1) r) as [|m ms].
      * now rewrite IH.
      * destruct IH as (k & K1 & K2 & K3). exists (S k). cbn [length firstn]. rewrite K3. repeat split; lia.
Qed.

(** *** str.replace of one character *)
Lemma flat_map_none f (t : list Z) : (forall x, In x t -> f x = [x]) -> flat_map f t = t.
Proof. induction t as [|y t IH]; intros H; cbn; auto. rewrite H by now left. rewrite IH by (intros; apply H; now right). reflexivity. Qed.
Lemma replace_one s x new : exists r, m_replace s [x] new (-1) = Ok r /\
  r = flat_map (fun c => if c =? x then new else [c]) s.
Proof.
  destruct (replace_correct s [x] new (-1)) as (r & E & H). exists r. split; auto. clear E.
  unfold is_replace in H. change (Str_Spec.len [x] =? 0) with false in H. cbn iota in H. destruct H as (l & S1 & ->).
  assert (G : forall n t l, n < 0 -> splits [x] n t l -> join new l = flat_map (fun c => if c =? x then new else [c]) t /\ l <> []).
  { clear. intros n t l N H. induction H as [s|n s A|n s p q l NZ [O F] H IH].
    - lia.
    - split; [|discriminate]. cbn [join]. symmetry. apply flat_map_none. intros y Y. destruct (y =? x) eqn:X; auto.
      apply Z.eqb_eq in X. subst y. destruct (in_split _ _ Y) as (a & b & ->). exfalso. now apply (A a b).
    - destruct (IH ltac:(lia)) as [IH1 IH2]. split; [|discriminate].
      rewrite join_cons by auto. rewrite IH1, O. rewrite !flat_map_app. cbn [flat_map]. rewrite Z.eqb_refl, app_nil_r.
      f_equal. symmetry. apply flat_map_none. intros y Y. destruct (y =? x) eqn:X; auto.
      apply Z.eqb_eq in X. subst y. destruct (in_split _ _ Y) as (a & b & ->). exfalso.
      specialize (F a (b ++ [x] ++ q)). rewrite O in F. rewrite <- !app_assoc in F. specialize (F eq_refl).
      rewrite app_length in F. cbn in F. lia. }
  apply (G (-1)); auto. lia.
Qed.

Lemma replace_newlines_ok md s l : replace_newlines md s l = Ok (translated md s, l ++ seen_by md s).
Proof.
  destruct md; cbn [replace_newlines translated seen_by]; rewrite ?re_sub_universal, ?re_texts_newlines, ?app_nil_r; auto.
  - destruct (replace_one s 10 [13]) as (r & -> & ->). reflexivity.
  - destruct (replace_one s 10 [13; 10]) as (r & -> & ->). reflexivity.
Qed.

(** *** Lines *)
Lemma starts_app p s : starts p s = true <-> exists q, s = p ++ q.
Proof.
  revert s. induction p as [|a p IH]; intros s; cbn [starts].
  - split; [intros _; now exists s|reflexivity].
  - destruct s as [|b s]; [split; [discriminate|intros (q & Q); discriminate]|].
    rewrite andb_true_iff, IH, Z.eqb_eq. split.
    + intros [-> (q & ->)]. now exists q.
    + intros (q & Q). injection Q as -> ->. eauto.
Qed.
Lemma line_to_at nl t p q : nl <> [] -> t = p ++ nl ++ q ->
  (forall p' q', t = p' ++ nl ++ q' -> (length p <= length p')%nat) -> line_to nl t = p ++ nl.
Proof.
  intros NE. revert t. induction p as [|c p IH]; intros t E F.
  - cbn in E. assert (SA : starts nl t = true) by (apply starts_app; eauto).
    destruct t as [|x t]; [destruct nl; [congruence|discriminate]|]. cbn [line_to]. now rewrite SA.
  - subst t. cbn [app line_to].
    destruct (starts nl (c :: p ++ nl ++ q)) eqn:SA.
    + apply starts_app in SA. destruct SA as (q' & Q). specialize (F [] q'). cbn [app] in F. specialize (F Q). cbn in F. lia.
    + rewrite IH; auto. intros p' q' E. specialize (F (c :: p') q'). cbn [app] in F. rewrite E in F. specialize (F eq_refl).
      cbn in F. lia.
Qed.
Lemma line_to_none nl t : (forall p q, t <> p ++ nl ++ q) -> line_to nl t = t.
Proof.
  induction t as [|c t IH]; intros H; auto. cbn [line_to].
  destruct (starts nl (c :: t)) eqn:SA.
  - apply starts_app in SA. destruct SA as (q & Q). exfalso. now apply (H [] q).
  - f_equal. apply IH. intros p q E. apply (H (c :: p) q). now rewrite E.
Qed.

(** the text between two positions *)
Definition between (s : list Z) (p e : Z) : list Z := firstn (Z.to_nat (e - p)) (skipn (Z.to_nat p) s).
Lemma between_len s p e : 0 <= p <= e -> e <= slen s -> blen (between s p e) = e - p.
Proof. intros. unfold blen, between, slen in *. rewrite firstn_length, skipn_length. lia. Qed.
Lemma between_split s p e : 0 <= p <= e -> e <= slen s -> exists u v, s = u ++ between s p e ++ v /\ blen u = p.
Proof.
  intros H1 H2. exists (firstn (Z.to_nat p) s), (skipn (Z.to_nat (e - p)) (skipn (Z.to_nat p) s)).
  unfold between. rewrite firstn_skipn, firstn_skipn. split; auto. unfold blen, slen in *. rewrite firstn_length. lia.
Qed.
Lemma app_inv_len {A} (a b c d : list A) : a ++ b = c ++ d -> length a = length c -> a = c /\ b = d.
Proof.
  revert c. induction a as [|x a IH]; intros [|y c] E L; cbn in *; try discriminate; auto.
  injection E as -> E. destruct (IH c E ltac:(lia)) as [-> ->]. auto.
Qed.
(** occurrences in the text between two positions *)
Lemma occurs_between s nl p e : 0 <= p <= e -> e <= slen s ->
  forall i, occurs_in s nl p e i <-> exists a b, between s p e = a ++ nl ++ b /\ p + blen a = i.
Proof.
  intros H1 H2 i. destruct (between_split s p e H1 H2) as (u & v & S1 & U). pose proof (between_len s p e H1 H2) as BL.
  set (t := between s p e) in *. clearbody t. unfold occurs_in, occurs, Str_Spec.len. unfold blen, slen in *. split.
  - intros ((a & b & E & A) & I1 & I2).
    exists (skipn (length u) a), (firstn (length t - (Z.to_nat i - length u) - length nl) b).
    rewrite S1 in E.
    assert (a = u ++ skipn (length u) a).
    { rewrite <- (firstn_skipn (length u) a) at 1. f_equal.
      rewrite <- (firstn_skipn (length u) a), <- app_assoc in E.
      apply app_inv_len in E; [symmetry; tauto|]. rewrite firstn_length. lia. }
    set (a' := skipn (length u) a) in *. clearbody a'. subst a. rewrite <- app_assoc in E. apply app_inv_head in E.
    rewrite app_length in A. split; [|lia].
    set (k := (length t - (Z.to_nat i - length u) - length nl)%nat).
    rewrite <- (firstn_skipn k b) in E. rewrite !app_assoc in E. apply app_inv_len in E.
    + rewrite app_assoc. tauto.
    + rewrite !app_length, firstn_length. apply (f_equal (@length Z)) in E. rewrite !app_length in E.
      rewrite firstn_length, skipn_length in E. unfold k in *. lia.
  - intros (a & b & E & I). split; [|rewrite E, !app_length in BL; lia].
    exists (u ++ a), (b ++ v). rewrite S1, E. rewrite <- !app_assoc. split; auto. rewrite app_length. lia.
Qed.

Lemma between_prefix s p e a b : 0 <= p <= e -> e <= slen s -> between s p e = a ++ b ->
  between s p (p + blen a) = a /\ p + blen a <= e.
Proof.
  intros H1 H2 E. pose proof (between_len s p e H1 H2) as BL. rewrite E in BL. unfold blen in *. rewrite app_length in BL.
  split; [|lia]. unfold between in *.
  replace (Z.to_nat (p + Z.of_nat (length a) - p)) with (length a) by lia.
  replace (Z.to_nat (e - p)) with (length a + (Z.to_nat (e - p) - length a))%nat in E by lia.
  rewrite <- (firstn_skipn (length a + (Z.to_nat (e - p) - length a)) (skipn (Z.to_nat p) s)), E.
  rewrite <- app_assoc, firstn_app, Nat.sub_diag, firstn_all. cbn [firstn]. apply app_nil_r.
Qed.

Lemma find_line s nl p e : nl <> [] -> 0 <= p <= e -> e <= slen s ->
  let idx := m_find s nl (Some p) (Some e) in
  let r := if idx =? -1 then between s p e else between s p (idx + slen nl) in
  line_to nl (between s p e) = r /\ (if idx =? -1 then e else idx + slen nl) = p + blen r.
Proof.
  intros NE H1 H2 idx. pose proof (slen_nonneg s) as SN.
  pose proof (find_spec s nl (Some p) (Some e) ltac:(cbn; lia) ltac:(cbn; lia)) as F. fold idx in F.
  replace (win_start (slen s) (Some p)) with p in F by (unfold win_start; ifs; lia).
  replace (win_end (slen s) (Some e)) with e in F by (unfold win_end; ifs; lia).
  destruct F as [(O & Least)|(E & N)].
  - pose proof (proj1 (occurs_between s nl p e H1 H2 idx) O) as (a & b & B & I).
    assert (idx <> -1) by (unfold blen in I; lia). replace (idx =? -1) with false by lia. cbn zeta.
    rewrite app_assoc in B. destruct (between_prefix s p e (a ++ nl) b H1 H2 B) as [P1 P2]. rewrite <- app_assoc in B.
    replace (idx + slen nl) with (p + blen (a ++ nl)) by (unfold blen, slen in *; rewrite app_length; lia).
    rewrite P1. split; auto. apply (line_to_at nl _ a b); auto.
    intros p' q' E. pose proof (Least (p + blen p')) as L.
    rewrite (occurs_between s nl p e H1 H2) in L. specialize (L (ex_intro _ p' (ex_intro _ q' (conj E eq_refl)))).
    unfold blen in *. lia.
  - rewrite E. change (-1 =? -1) with true. cbn zeta iota. rewrite between_len by lia. split; [|lia].
    apply line_to_none. intros a b B. apply (N (p + blen a)). apply occurs_between; eauto.
Qed.

Lemma sslice_between s p e : 0 <= p <= e -> e <= slen s -> sslice s (Some p) (Some e) = between s p e.
Proof. intros. now rewrite sslice_mid by lia. Qed.
Lemma sslice_prefix s e : 0 <= e -> sslice s None (Some e) = firstn (Z.to_nat e) s.
Proof.
  intros. rewrite sslice_eq. unfold win_start, win_end. pose proof (slen_nonneg s). ifs; try lia.
  replace (Z.to_nat (Z.min (slen s) 0)) with O by lia. cbn [skipn].
  replace (Z.min (slen s) 0) with 0 by lia. rewrite Z.sub_0_r.
  destruct (Z.leb_spec e (slen s)); [now replace (Z.min e (slen s)) with e by lia|].
  rewrite !firstn_all2; auto; unfold slen in *; lia.
Qed.
Lemma sslice_suffix s p : 0 <= p -> sslice s (Some p) None = skipn (Z.to_nat p) s.
Proof.
  intros. rewrite sslice_eq. unfold win_start, win_end. pose proof (slen_nonneg s). ifs; try lia.
  destruct (Z.leb_spec p (slen s)).
  - replace (Z.min (slen s) p) with p by lia. apply firstn_all2. rewrite skipn_length. unfold slen in *. lia.
  - rewrite firstn_all2 by (rewrite skipn_length; unfold slen in *; lia).
    rewrite !skipn_all2; auto; unfold slen in *; lia.
Qed.
Lemma sslice_any s p e : 0 <= p <= e -> sslice s (Some p) (Some e) = between s p e.
Proof.
  intros. rewrite sslice_eq. unfold win_start, win_end, between. pose proof (slen_nonneg s). ifs; try lia.
  destruct (Z.leb_spec p (slen s)).
  - replace (Z.min (slen s) p) with p by lia. destruct (Z.leb_spec e (slen s)).
    + now replace (Z.min e (slen s)) with e by lia.
    + rewrite !firstn_all2; auto; rewrite skipn_length; unfold slen in *; lia.
  - rewrite (skipn_all2 s (n := Z.to_nat p)) by (unfold slen in *; lia).
    rewrite (skipn_all2 s) by (unfold slen in *; lia). now rewrite !firstn_nil.
Qed.
