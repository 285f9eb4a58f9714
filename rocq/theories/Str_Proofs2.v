(** Proofs about the string algorithms: cutting, joining, padding and stripping. *)
From Coq Require Import ZArith List Bool Lia ZifyBool ZifyNat.
From Verif Require Import Py Range_Spec PySeq_Spec Seq_Proofs Str_Model Str_Spec Str_Proofs.
Import ListNotations.
Open Scope Z_scope.

(** *** partition *)
Lemma occurs_split s sub i : occurs s sub i ->
  sslice s None (Some i) ++ sub ++ sslice s (Some (i + slen sub)) None = s
  /\ slen (sslice s None (Some i)) = i.
Proof.
  intros (p & q & -> & <-). change (len p) with (slen p).
  rewrite sslice_app_l. split; auto.
  assert (E : sslice (p ++ sub ++ q) (Some (slen p + slen sub)) None = q)
    by (rewrite <- slen_app, app_assoc; apply sslice_app_r).
  now rewrite E.
Qed.
Lemma first_occ_of s sep i : occurs s sep i -> (forall j, occurs s sep j -> i <= j) ->
  first_occ s sep (sslice s None (Some i)) (sslice s (Some (i + slen sep)) None).
Proof.
  intros O K. destruct (occurs_split s sep i O) as (E & L). split; [auto|].
  intros p' q' E'. specialize (K (len p') ltac:(exists p', q'; auto)). unfold len, slen in *. lia.
Qed.
Lemma last_occ_of s sep i : occurs s sep i -> (forall j, occurs s sep j -> j <= i) ->
  last_occ s sep (sslice s None (Some i)) (sslice s (Some (i + slen sep)) None).
Proof.
  intros O K. destruct (occurs_split s sep i O) as (E & L). split; [auto|].
  intros p' q' E'. specialize (K (len p') ltac:(exists p', q'; auto)). unfold len, slen in *. lia.
Qed.
Lemma absent_of s sep : (forall j, ~ occurs s sep j) -> absent s sep.
Proof. intros H p q E. apply (H (len p)). exists p, q. auto. Qed.
Lemma partition_correct s sep :
  match m_partition s sep with
  | Err e => e = ValueError /\ sep = []
  | Ok (p, m, q) => sep <> [] /\ (m = sep /\ first_occ s sep p q \/ p = s /\ m = [] /\ q = [] /\ absent s sep)
  end.
Proof.
  unfold m_partition. destruct (slen sep =? 0) eqn:E0.
  - split; auto. apply slen_0. lia.
  - assert (sep <> []) by (intros ->; discriminate). pose proof (first_pos_up s sep) as F.
    destruct (first_pos _ _ _) as [i|]; unfold cut_at; (split; [auto|]).
    + left. split; auto. apply first_occ_of; tauto.
    + right. auto using absent_of.
Qed.
Lemma rpartition_correct s sep :
  match m_rpartition s sep with
  | Err e => e = ValueError /\ sep = []
  | Ok (p, m, q) => sep <> [] /\ (m = sep /\ last_occ s sep p q \/ p = [] /\ m = [] /\ q = s /\ absent s sep)
  end.
Proof.
  unfold m_rpartition. destruct (slen sep =? 0) eqn:E0.
  - split; auto. apply slen_0. lia.
  - assert (sep <> []) by (intros ->; discriminate). pose proof (first_pos_down s sep) as F.
    destruct (first_pos _ _ _) as [i|]; unfold cut_at; (split; [auto|]).
    + left. split; auto. apply last_occ_of; tauto.
    + right. auto using absent_of.
Qed.

(** *** replace *)
Lemma sslice_tail c s : sslice (c :: s) (Some 1) None = s.
Proof. exact (sslice_app_r [c] s). Qed.
Lemma sslice_head c s : sslice (c :: s) None (Some 1) = [c].
Proof. exact (sslice_app_l [c] s). Qed.
Lemma absent_nil sep : sep <> [] -> absent [] sep.
Proof. intros N p q E. destruct p, sep; cbn in E; congruence. Qed.
Lemma splits_nonnil sep n s l : splits sep n s l -> l <> [].
Proof. inversion 1; discriminate. Qed.
Lemma join_cons sep x l : l <> [] -> join sep (x :: l) = x ++ sep ++ join sep l.
Proof. destruct l; [congruence|reflexivity]. Qed.
Lemma replace_correct s old new n : exists r, m_replace s old new n = Ok r /\ is_replace s old new n r.
Proof.
  unfold m_replace.
  enough (H : forall fuel s n, (length s < fuel)%nat ->
    exists r, replace_ fuel s old new n = Ok r /\ is_replace s old new n r) by (apply H; lia).
  clear s n. unfold is_replace. change (len old) with (slen old).
  induction fuel as [|fuel IH]; intros s n Hf; [lia|]. cbn [replace_].
  destruct (slen old =? 0) eqn:E0.
  - assert (old = []) by (apply slen_0; lia). subst old.
    destruct (n =? 0) eqn:N0.
    { exists s. split; auto. destruct s; cbn [interleave]; rewrite N0; auto. }
    destruct s as [|c s].
    + change (slen [] =? 0) with true. cbn iota. exists new. split; auto. cbn [interleave]. now rewrite N0.
    + rewrite slen_cons. replace (slen s + 1 =? 0) with false by (pose proof (slen_nonneg s); lia).
      rewrite sslice_tail, sslice_head. destruct (IH s (n - 1) ltac:(cbn [length] in Hf; lia)) as (r & -> & ->).
      cbn [bind]. eexists; split; [reflexivity|]. cbn [interleave]. rewrite N0. reflexivity.
  - assert (old <> []) by (intros ->; discriminate).
    destruct (n =? 0) eqn:N0.
    { apply Z.eqb_eq in N0. subst n. exists s. split; auto. exists [s]. split; [constructor|reflexivity]. }
    destruct (slen s =? 0) eqn:S0.
    { assert (s = []) by (apply slen_0; lia). subst s. exists []. split; auto. exists [[]].
      split; [constructor; now apply absent_nil|reflexivity]. }
    pose proof (partition_correct s old) as P. destruct (m_partition s old) as [((p, m), q)|]; [|destruct P; congruence].
    cbn [bind]. destruct P as (_ & [(-> & F)|(-> & -> & -> & A)]).
    + rewrite E0. destruct F as (E & K).
      assert (Lq : (length q < fuel)%nat).
      { rewrite E in Hf. rewrite !app_length in Hf. assert (0 < length old)%nat by (destruct old; cbn; [congruence|lia]). lia. }
      destruct (IH q (n - 1) Lq) as (r & -> & (l & Sp & ->)). cbn [bind]. eexists; split; [reflexivity|].
      exists (p :: l). split; [apply sp_cut with (q := q); [lia|split; auto|auto]|].
      now rewrite join_cons by (eapply splits_nonnil; eauto).
    + change (slen [] =? 0) with true. cbn iota. exists s. split; auto. exists [s]. split; [now constructor|reflexivity].
Qed.

(** *** split, rsplit *)
Lemma find_first s sep : let i := m_find s sep None None in
  (i <> -1 /\ first_occ s sep (sslice s None (Some i)) (sslice s (Some (i + slen sep)) None))
  \/ (i = -1 /\ absent s sep).
Proof.
  cbn zeta. pose proof (find_spec s sep None None I I) as F. cbn [win_start win_end] in F.
  destruct F as [(O & K)|(-> & N)].
  - left. apply occurs_in_full in O. split; [apply occurs_bounds in O; lia|]. apply first_occ_of; auto.
    intros j J. apply K. now apply occurs_in_full.
  - right. split; auto. apply absent_of. intros j J. apply (N j). now apply occurs_in_full.
Qed.
Lemma rfind_last s sep : let i := m_rfind s sep None None in
  (i <> -1 /\ last_occ s sep (sslice s None (Some i)) (sslice s (Some (i + slen sep)) None))
  \/ (i = -1 /\ absent s sep).
Proof.
  cbn zeta. pose proof (rfind_spec s sep None None I I) as F. cbn [win_start win_end] in F.
  destruct F as [(O & K)|(-> & N)].
  - left. apply occurs_in_full in O. split; [apply occurs_bounds in O; lia|]. apply last_occ_of; auto.
    intros j J. apply K. now apply occurs_in_full.
  - right. split; auto. apply absent_of. intros j J. apply (N j). now apply occurs_in_full.
Qed.
(** any negative limit means the same *)
Lemma splits_neg sep n s l : splits sep n s l -> n < 0 -> forall m, m < 0 -> splits sep m s l.
Proof.
  induction 1; intros Hn m Hm; [lia|now constructor|]. eapply sp_cut; eauto; [lia|]. apply IHsplits; lia.
Qed.
Lemma rsplits_neg sep n s l : rsplits sep n s l -> n < 0 -> forall m, m < 0 -> rsplits sep m s l.
Proof.
  induction 1; intros Hn m Hm; [lia|now constructor|]. eapply rs_cut; eauto; [lia|]. apply IHrsplits; lia.
Qed.
Lemma split_correct s sep n :
  match m_split s sep n with Err e => e = ValueError /\ sep = [] | Ok l => sep <> [] /\ splits sep n s l end.
Proof.
  unfold m_split. destruct (slen sep =? 0) eqn:E0.
  { cbn [split_]. rewrite E0. split; auto. apply slen_0; lia. }
  assert (N : sep <> []) by (intros ->; discriminate).
  enough (H : forall fuel s n, (length s < fuel)%nat -> exists l, split_ fuel s sep n = Ok l /\ splits sep n s l).
  { destruct (H (S (length s)) s n ltac:(lia)) as (l & -> & ?). auto. }
  clear s n. induction fuel as [|fuel IH]; intros s n Hf; [lia|]. cbn [split_]. rewrite E0.
  destruct (n =? 0) eqn:N0.
  { apply Z.eqb_eq in N0. subst n. exists [s]. split; auto. constructor. }
  destruct (find_first s sep) as [(Ni & F)|(-> & A)].
  - replace (m_find s sep None None =? -1) with false by lia. set (i := m_find s sep None None) in *.
    set (p := sslice s None (Some i)) in *. set (q := sslice s (Some (i + slen sep)) None) in *.
    assert (Lq : (length q < fuel)%nat).
    { destruct F as (E & _). rewrite E in Hf. rewrite !app_length in Hf. assert (0 < length sep)%nat by (destruct sep; cbn; [congruence|lia]). lia. }
    destruct (IH q (if n <? 0 then -1 else n - 1) Lq) as (l & -> & Sp). cbn [bind]. eexists; split; [reflexivity|].
    apply sp_cut with (q := q); [lia|auto|]. destruct (n <? 0) eqn:Nn; auto. apply splits_neg with (n := -1); auto; lia.
  - change (-1 =? -1) with true. cbn iota. exists [s]. split; auto. now constructor.
Qed.
Lemma rsplit_correct s sep n :
  match m_rsplit s sep n with Err e => e = ValueError /\ sep = [] | Ok l => sep <> [] /\ rsplits sep n s l end.
Proof.
  unfold m_rsplit. destruct (slen sep =? 0) eqn:E0.
  { cbn [rsplit_]. rewrite E0. split; auto. apply slen_0; lia. }
  assert (N : sep <> []) by (intros ->; discriminate).
  enough (H : forall fuel s n, (length s < fuel)%nat -> exists l, rsplit_ fuel s sep n = Ok l /\ rsplits sep n s l).
  { destruct (H (S (length s)) s n ltac:(lia)) as (l & -> & ?). auto. }
  clear s n. induction fuel as [|fuel IH]; intros s n Hf; [lia|]. cbn [rsplit_]. rewrite E0.
  destruct (n =? 0) eqn:N0.
  { apply Z.eqb_eq in N0. subst n. exists [s]. split; auto. constructor. }
  destruct (rfind_last s sep) as [(Ni & F)|(-> & A)].
  - replace (m_rfind s sep None None =? -1) with false by lia. set (i := m_rfind s sep None None) in *.
    rewrite (Z.add_comm (slen sep) i).
    set (p := sslice s None (Some i)) in *. set (q := sslice s (Some (i + slen sep)) None) in *.
    assert (Lq : (length p < fuel)%nat).
    { destruct F as (E & _). rewrite E in Hf. rewrite !app_length in Hf. assert (0 < length sep)%nat by (destruct sep; cbn; [congruence|lia]). lia. }
    destruct (IH p (if n <? 0 then -1 else n - 1) Lq) as (l & -> & Sp). cbn [bind]. eexists; split; [reflexivity|].
    apply rs_cut with (p := p); [lia|auto|]. destruct (n <? 0) eqn:Nn; auto. apply rsplits_neg with (n := -1); auto; lia.
  - change (-1 =? -1) with true. cbn iota. exists [s]. split; auto. now constructor.
Qed.

(** consequences of the specification: joining back, the number of pieces, no separator
    left inside a piece *)
Lemma splits_join sep n s l : splits sep n s l -> join sep l = s.
Proof.
  induction 1 as [| |n s p q l N F S IH]; auto. rewrite join_cons by (eapply splits_nonnil; eauto).
  rewrite IH. symmetry. apply F.
Qed.
Lemma join_snoc sep l x : l <> [] -> join sep (l ++ [x]) = join sep l ++ sep ++ x.
Proof.
  induction l as [|y l IH]; [congruence|]. intros _. destruct l as [|z l]; [reflexivity|].
  change ((y :: z :: l) ++ [x]) with (y :: ((z :: l) ++ [x])).
  rewrite (join_cons sep y ((z :: l) ++ [x])), (join_cons sep y (z :: l)), IH by (cbn; congruence). now rewrite <- !app_assoc.
Qed.
Lemma rsplits_nonnil sep n s l : rsplits sep n s l -> l <> [].
Proof. destruct 1; try discriminate. intro E. now apply app_eq_nil in E as (_ & E). Qed.
Lemma rsplits_join sep n s l : rsplits sep n s l -> join sep l = s.
Proof.
  induction 1 as [| |n s p q l N F S IH]; auto. rewrite join_snoc by (eapply rsplits_nonnil; eauto).
  rewrite IH. symmetry. apply F.
Qed.
Lemma splits_count sep n s l : splits sep n s l -> 0 <= n -> Z.of_nat (length l) <= n + 1.
Proof. induction 1; intros; cbn [length]; lia. Qed.
Lemma rsplits_count sep n s l : rsplits sep n s l -> 0 <= n -> Z.of_nat (length l) <= n + 1.
Proof. induction 1; intros; rewrite ?app_length; cbn [length]; lia. Qed.
Lemma first_occ_absent s sep p q : sep <> [] -> first_occ s sep p q -> absent p sep.
Proof.
  intros N (-> & K) u v ->. specialize (K u (v ++ sep ++ q)). rewrite <- !app_assoc in K. specialize (K eq_refl).
  rewrite !app_length in K. destruct sep; [congruence|]. cbn in K. lia.
Qed.
Lemma last_occ_absent s sep p q : sep <> [] -> last_occ s sep p q -> absent q sep.
Proof.
  intros N (-> & K) u v ->. specialize (K (p ++ sep ++ u) v). rewrite <- !app_assoc in K. specialize (K eq_refl).
  rewrite !app_length in K. destruct sep; [congruence|]. cbn in K. lia.
Qed.
Lemma splits_absent sep n s l : sep <> [] -> splits sep n s l -> n < 0 -> Forall (fun x => absent x sep) l.
Proof.
  intro N. induction 1; intros; [lia|auto|]. constructor; [eapply first_occ_absent; eauto|]. apply IHsplits. lia.
Qed.
Lemma rsplits_absent sep n s l : sep <> [] -> rsplits sep n s l -> n < 0 -> Forall (fun x => absent x sep) l.
Proof.
  intro N. induction 1; intros; [lia|auto|]. apply Forall_app. split; [apply IHrsplits; lia|]. constructor; auto.
  eapply last_occ_absent; eauto.
Qed.
(** the specification determines the answer *)
Lemma app_eq_len {A} (a b c d : list A) : a ++ b = c ++ d -> length a = length c -> a = c /\ b = d.
Proof. revert c. induction a as [|x a IH]; intros [|y c] E L; cbn in *; try discriminate; auto. injection E as -> E. destruct (IH c E); [lia|subst; auto]. Qed.
Lemma first_occ_unique s sep p q p' q' : first_occ s sep p q -> first_occ s sep p' q' -> p = p' /\ q = q'.
Proof.
  intros (E & K) (E' & K'). pose proof (K _ _ E'). pose proof (K' _ _ E). rewrite E in E'.
  destruct (app_eq_len _ _ _ _ E') as (-> & R); [lia|]. apply app_inv_head in R. auto.
Qed.
Lemma splits_unique sep n s l : splits sep n s l -> forall l', splits sep n s l' -> l = l'.
Proof.
  induction 1; intros l' H'; inversion H'; subst; auto; try congruence; try lia.
  - destruct H1 as (-> & _). exfalso. eapply H; reflexivity.
  - destruct H0 as (-> & _). exfalso. eapply H2; reflexivity.
  - destruct (first_occ_unique _ _ _ _ _ _ H0 H3) as (-> & ->). f_equal. auto.
Qed.

(** *** join, removeprefix, removesuffix *)
Lemma join_correct sep l : m_join sep l = join sep l.
Proof.
  unfold m_join.
  assert (H : forall l res idx, 0 < idx -> join_loop sep res idx l = fold_left (fun r x => r ++ sep ++ x) l res).
  { induction l0 as [|x l0 IH]; intros res idx Hi; cbn [join_loop fold_left]; auto.
    replace (0 <? idx) with true by lia. rewrite IH by lia. now rewrite app_assoc. }
  assert (F : forall l a, fold_left (fun r x => r ++ sep ++ x) l a = a ++ match l with [] => [] | _ => sep ++ join sep l end).
  { induction l0 as [|x l0 IH]; intros a; cbn [fold_left]; [now rewrite app_nil_r|]. rewrite IH.
    destruct l0; [now rewrite app_nil_r|]. cbn [join]. now rewrite <- !app_assoc. }
  destruct l as [|x l]; auto. cbn [join_loop]. change (0 <? 0) with false. cbn iota. cbn [app]. rewrite H by lia.
  rewrite F. destruct l; cbn [join]; [apply app_nil_r|reflexivity].
Qed.
Lemma removeprefix_correct s p :
  (exists q, s = p ++ q /\ m_removeprefix s p = q) \/ ((forall q, s <> p ++ q) /\ m_removeprefix s p = s).
Proof.
  unfold m_removeprefix. destruct (m_startswith1 s p None None) eqn:E.
  - apply startswith1_correct in E. cbn [win_start win_end] in E. apply occurs_in_full in E.
    destruct E as (u & q & -> & L). destruct u; [|unfold len in L; cbn in L; lia]. left. exists q. cbn [app].
    now rewrite sslice_app_r.
  - right. split; auto. intros q ->. assert (m_startswith1 (p ++ q) p None None = true); [|congruence].
    apply startswith1_correct. cbn [win_start win_end]. apply occurs_in_full. exists [], q. auto.
Qed.
Lemma sslice_drop_end q p : p <> [] -> sslice (q ++ p) None (Some (- slen p)) = q.
Proof.
  intro N. assert (0 < slen p) by (destruct p; [congruence|unfold slen; cbn [length]; lia]).
  rewrite sslice_eq. unfold win_start, win_end. rewrite slen_app. pose proof (slen_nonneg q).
  replace (- slen p <? 0) with true by lia. cbn iota.
  replace (Z.to_nat (Z.min _ 0)) with O by lia. cbn [skipn]. replace (Z.to_nat _) with (length q) by (unfold slen in *; lia).
  rewrite firstn_app, Nat.sub_diag, firstn_all. cbn [firstn]. apply app_nil_r.
Qed.
Lemma removesuffix_correct s p :
  (exists q, s = q ++ p /\ m_removesuffix s p = q) \/ ((forall q, s <> q ++ p) /\ m_removesuffix s p = s).
Proof.
  unfold m_removesuffix. destruct (m_endswith1 s p None None) eqn:E.
  - apply endswith1_correct in E. cbn [win_start win_end] in E. apply occurs_in_full in E.
    destruct E as (q & u & E & L). assert (u = []).
    { apply slen_0. apply (f_equal slen) in E. rewrite !slen_app in E. change (len q) with (slen q) in L. lia. }
    subst u. rewrite app_nil_r in E. subst s. left. exists q. split; auto.
    destruct (slen p =? 0) eqn:P0.
    + assert (p = []) by (apply slen_0; lia). subst p. now rewrite app_nil_r.
    + apply sslice_drop_end. intros ->. discriminate.
  - right. split; auto. intros q ->. assert (m_endswith1 (q ++ p) p None None = true); [|congruence].
    apply endswith1_correct. cbn [win_start win_end]. apply occurs_in_full. exists q, []. rewrite app_nil_r. split; auto.
    rewrite slen_app. change (len q) with (slen q). lia.
Qed.
