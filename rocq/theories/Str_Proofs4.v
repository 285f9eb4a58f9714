(** Proofs about splitting strings on whitespace. *)
From Coq Require Import ZArith List Bool Lia ZifyBool ZifyNat.
From Verif Require Import Py Range_Spec PySeq_Spec Seq_Proofs Str_Model Str_Spec Str_Proofs Str_Proofs2 Str_Proofs3.
Import ListNotations.
Open Scope Z_scope.

Section WS.
  Variable f : Z -> bool.
  Notation sp := (all_ f).
  Notation ns := (all_ (fun c => negb (f c))).

  (** *** The specification *)
  Lemma fields_prefix n w s l : sp w -> fields f n s l -> fields f n (w ++ s) l.
  Proof.
    intros W H. destruct H as [n s A|v r A N H|n v t r l N A T NS R F].
    - constructor. apply all_app. auto.
    - rewrite app_assoc. apply fi_rest; auto. apply all_app. auto.
    - rewrite app_assoc. apply fi_word; auto. apply all_app. auto.
  Qed.
  Lemma fields_suffix n s l : fields f n s l -> forall w, sp w -> n < 0 \/ Z.of_nat (length l) <= n -> fields f n (s ++ w) l.
  Proof.
    induction 1 as [n s A|v r A N H|n v t r l N A T NS R F IH]; intros w W B.
    - constructor. apply all_app. auto.
    - cbn [length] in B. lia.
    - rewrite <- !app_assoc. apply fi_word; auto.
      + destruct R as [->|(c & r' & -> & C)]; [|right; exists c, (r' ++ w); auto].
        destruct w as [|c w]; [now left|right]. inversion W; subst. cbn. eauto.
      + apply IH; auto. cbn [length] in B. lia.
  Qed.
  Lemma fields_unlimit n s l : fields f n s l -> n < 0 \/ Z.of_nat (length l) <= n -> forall m, m < 0 -> fields f m s l.
  Proof.
    induction 1 as [n s A|v r A N H|n v t r l N A T NS R F IH]; intros B m Hm.
    - now constructor.
    - cbn [length] in B. lia.
    - apply fi_word; auto; [lia|]. apply IH; [|lia]. cbn [length] in B. lia.
  Qed.
  Lemma fields_length n s l : fields f n s l -> (length l <= length s)%nat.
  Proof.
    induction 1 as [n s A|v r A N H|n v t r l N A T NS R F IH]; rewrite ?app_length; cbn [length]; try lia.
    - destruct r; [congruence|cbn; lia].
    - destruct t; [congruence|cbn; lia].
  Qed.
  Lemma fields_all_word n t : t <> [] -> ns t -> 0 <> n -> fields f n t [t].
  Proof.
    intros N A Hn. pose proof (fi_word f n [] t [] []) as H. rewrite !app_nil_r in H. cbn [app] in H.
    apply H; auto; [constructor|]. constructor. constructor.
  Qed.
  Lemma fields_whole t : t <> [] -> head_not f t -> fields f 0 t [t].
  Proof. intros N H. apply (fi_rest f [] t); auto. constructor. Qed.

  (** *** Searching for a run of whitespace *)
  Lemma run_end_eq w : forall l i, sp w -> head_not f l -> run_end f (w ++ l) i = i + slen w.
  Proof.
    induction w as [|c w IH]; intros l i W H; cbn [app].
    - rewrite slen_nil, Z.add_0_r. destruct l as [|d l]; cbn [run_end]; auto. cbn in H. now rewrite H.
    - inversion W; subst. cbn [run_end]. rewrite H2, IH by auto. rewrite slen_cons. lia.
  Qed.
  Lemma ws_search_none t : forall i, ns t -> ws_search f t i = None.
  Proof. induction t as [|c t IH]; intros i N; auto. inversion N; subst. cbn [ws_search]. destruct (f c); [discriminate|auto]. Qed.
  Lemma ws_search_run t w l : forall i, ns t -> w <> [] -> sp w -> head_not f l ->
    ws_search f (t ++ w ++ l) i = Some (i + slen t, i + slen t + slen w).
  Proof.
    induction t as [|c t IH]; intros i N W S H; cbn [app].
    - destruct w as [|c w]; [congruence|]. inversion S; subst. cbn [app ws_search]. rewrite H2.
      rewrite run_end_eq by auto. rewrite slen_nil, slen_cons. do 2 f_equal; lia.
    - inversion N; subst. cbn [ws_search]. destruct (f c); [discriminate|]. rewrite IH by auto. rewrite slen_cons. do 2 f_equal; lia.
  Qed.
  Lemma search_from_app p l : search_from f (p ++ l) (slen p) = ws_search f l (slen p).
  Proof. unfold search_from. now rewrite sslice_app_r. Qed.

  (** *** Taking a string apart *)
  Lemma take_spaces l : exists w r, l = w ++ r /\ sp w /\ head_not f r.
  Proof.
    induction l as [|c l (w & r & -> & W & H)]; [exists [], []; repeat split; constructor|].
    destruct (f c) eqn:F.
    - exists (c :: w), r. repeat split; auto. constructor; auto.
    - exists [], (c :: w ++ r). repeat split; auto. constructor.
  Qed.
  Lemma take_word l : ns l \/ exists t w r, l = t ++ w ++ r /\ ns t /\ w <> [] /\ sp w /\ head_not f r.
  Proof.
    induction l as [|c l IH]; [left; constructor|]. destruct (f c) eqn:F.
    - right. destruct (take_spaces l) as (w & r & -> & W & H). exists [], (c :: w), r.
      repeat split; auto; [constructor|discriminate|constructor; auto].
    - destruct IH as [A|(t & w & r & -> & A & R)]; [left; constructor; [now rewrite F|auto]|].
      right. exists (c :: t), w, r. split; auto. split; auto. constructor; [now rewrite F|auto].
  Qed.
  Lemma take_word_r l : ns l \/ exists r w t, l = r ++ w ++ t /\ ns t /\ w <> [] /\ sp w /\ last_not f r.
  Proof.
    assert (LN : forall g a, all_ g (rev a) -> all_ g a).
    { intros g a H. apply Forall_rev in H. now rewrite rev_involutive in H. }
    destruct (take_word (rev l)) as [A|(t & w & r & E & T & W & S & H)]; [left; auto|]. right.
    exists (rev r), (rev w), (rev t). split; [|split; [|split; [|split]]].
    - apply (f_equal (@rev Z)) in E. rewrite rev_involutive, !rev_app_distr, <- app_assoc in E. auto.
    - now apply Forall_rev.
    - intro K. apply W. apply (f_equal (@rev Z)) in K. now rewrite rev_involutive in K.
    - now apply Forall_rev.
    - destruct r as [|c r]; [now left|right]. exists (rev r), c. auto.
  Qed.
  Lemma last_not_app a b : last_not f (a ++ b) -> b <> [] -> last_not f b.
  Proof.
    intros [E|(t & c & E & F)] N.
    - apply app_eq_nil in E. tauto.
    - right. destruct b as [|d b' _] using rev_ind; [congruence|]. rewrite app_assoc in E. apply app_inj_tail in E as (E & ->).
      exists b', c. auto.
  Qed.
  Lemma last_not_spaces w : w <> [] -> sp w -> ~ last_not f w.
  Proof.
    intros N S [E|(t & c & -> & F)]; [auto|]. apply all_app in S. destruct S as (_ & S). inversion S; subst. congruence.
  Qed.
  Lemma nonspace_head r : r <> [] -> last_not f r -> head_not f r -> ns r \/
    exists t w l, r = t ++ w ++ l /\ t <> [] /\ l <> [] /\ ns t /\ w <> [] /\ sp w /\ head_not f l /\ last_not f l.
  Proof.
    intros N L H. destruct (take_word r) as [A|(t & w & l & -> & T & W & S & H')]; [auto|right].
    assert (t <> []).
    { intros ->. cbn in H. destruct w as [|c w]; [congruence|]. cbn in H. inversion S; subst. congruence. }
    assert (l <> []).
    { intros ->. rewrite app_nil_r in L. apply (last_not_spaces w W S). apply (last_not_app t w L W). }
    exists t, w, l. repeat split; auto. rewrite app_assoc in L. now apply last_not_app in L.
  Qed.

  (** *** split *)
  Definition lim (ms splits : Z) : Z := if ms =? 0 then -1 else ms - splits.
  Lemma parts_loop_correct s ms : 0 <= ms -> forall fuel p l splits, s = p ++ l -> l <> [] -> head_not f l -> last_not f l ->
    (length l < fuel)%nat -> (ms = 0 \/ splits <= ms) ->
    exists out, parts_loop f fuel s ms (slen p) splits = Ok out /\ fields f (lim ms splits) l out.
  Proof.
    intro Hms. induction fuel as [|fuel IH]; intros p l splits E N H L Hf B; [lia|]. cbn [parts_loop].
    destruct (negb (ms =? 0) && (ms <=? splits)) eqn:C.
    - exists [l]. subst s. rewrite sslice_app_r. split; auto. unfold lim. replace (ms =? 0) with false by lia.
      replace (ms - splits) with 0 by lia. now apply fields_whole.
    - assert (NL : 0 <> lim ms splits) by (unfold lim; destruct (ms =? 0) eqn:?; lia).
      subst s. rewrite search_from_app.
      destruct (nonspace_head l N L H) as [A|(t & w & r & -> & T & R & NT & W & S & H' & L')].
      + rewrite ws_search_none by auto. rewrite sslice_app_r. exists [l]. split; auto. now apply fields_all_word.
      + rewrite ws_search_run by auto. cbn zeta.
        assert (P : sslice (p ++ t ++ w ++ r) (Some (slen p)) (Some (slen p + slen t)) = t).
        { pose proof (slen_nonneg p). pose proof (slen_nonneg t). pose proof (slen_nonneg w). pose proof (slen_nonneg r).
          rewrite sslice_mid by (rewrite ?slen_app; lia).
          replace (Z.to_nat (slen p)) with (length p) by (unfold slen; lia). rewrite skipn_app, skipn_all, Nat.sub_diag. cbn [skipn app].
          replace (Z.to_nat _) with (length t) by (unfold slen; lia). rewrite firstn_app, Nat.sub_diag, firstn_all. cbn [firstn]. apply app_nil_r. }
        rewrite P.
        assert (0 < slen r) by (destruct r; [congruence|unfold slen; cbn [length]; lia]).
        replace (slen p + slen t + slen w =? slen (p ++ t ++ w ++ r)) with false by (rewrite !slen_app; lia).
        replace (slen p + slen t + slen w) with (slen (p ++ t ++ w)) by (rewrite !slen_app; lia).
        rewrite !app_length in Hf. assert (0 < length t)%nat by (destruct t; [congruence|cbn; lia]).
        destruct (IH (p ++ t ++ w) r (splits + 1)) as (out & -> & F); auto; [now rewrite <- !app_assoc|lia|lia|].
        cbn [bind]. eexists; split; [reflexivity|].
        change (t ++ w ++ r) with ([] ++ t ++ w ++ r). apply fi_word; auto; [constructor| |].
        * right. destruct w as [|c w]; [congruence|]. inversion S; subst. exists c, (w ++ r). auto.
        * apply fields_prefix; auto. unfold lim in *. destruct (ms =? 0) eqn:M.
          -- apply fields_unlimit with (n := -1); auto; lia.
          -- now replace (ms - splits - 1) with (ms - (splits + 1)) by lia.
  Qed.
  Lemma split_ws_correct s n : exists l, m_split_ws f s n = Ok l /\
    (n <= 0 \/ last_not f s \/ Z.of_nat (length l) <= n -> fields f n s l).
  Proof.
    unfold m_split_ws. destruct (n =? 0) eqn:N0.
    - assert (n = 0) by lia. subst n. cbn zeta. destruct (lstrip_correct f s) as (w & E & A & H).
      destruct (slen (m_lstrip f s) =? 0) eqn:Z0; eexists; (split; [reflexivity|]); intros _.
      + assert (K : m_lstrip f s = []) by (apply slen_0; lia). rewrite K, app_nil_r in E. subst. now constructor.
      + rewrite E at 1. apply fi_rest; auto. intro K. rewrite K in Z0. discriminate.
    - cbn zeta. destruct (strip_correct f s) as (r & -> & (v & w & E & A & A' & H & L)). cbn [bind].
      destruct (slen r =? 0) eqn:R0.
      + exists []. split; auto. intros _. assert (r = []) by (apply slen_0; lia). subst r. subst s. constructor. apply all_app. auto.
      + assert (RN : r <> []) by (intros ->; discriminate).
        destruct (parts_loop_correct r (if n <? 0 then 0 else n) ltac:(destruct (n <? 0) eqn:?; lia) (S (length r)) [] r 0) as (out & R & F);
          auto; [destruct (n <? 0) eqn:?; lia|].
        change (slen []) with 0 in R. rewrite R. exists out. split; auto. intro B. subst s. apply fields_prefix; auto.
        assert (F' : fields f n r out).
        { unfold lim in F. destruct (n <? 0) eqn:NN; [apply fields_unlimit with (n := -1); auto; lia|].
          rewrite N0, Z.sub_0_r in F. auto. }
        destruct B as [B|[B|B]].
        * apply fields_suffix; auto. lia.
        * assert (w = []); [|subst w; now rewrite app_nil_r]. destruct w as [|c w]; auto. exfalso.
          apply (last_not_spaces (c :: w) ltac:(discriminate) A'). rewrite app_assoc in B. now apply last_not_app in B.
        * apply fields_suffix; auto.
  Qed.

  (** *** rsplit *)
  Inductive runs : Z -> str -> list (Z * Z) -> Prop :=
  | r_none i l : ns l -> runs i l []
  | r_run i t w l ms : ns t -> w <> [] -> sp w -> head_not f l -> runs (i + slen t + slen w) l ms ->
      runs i (t ++ w ++ l) ((i + slen t, i + slen t + slen w) :: ms).
  Lemma runs_snoc i p ms : runs i p ms -> last_not f p -> forall w t, w <> [] -> sp w -> ns t ->
    runs i (p ++ w ++ t) (ms ++ [(i + slen p, i + slen p + slen w)]).
  Proof.
    assert (HN : forall t, ns t -> head_not f t).
    { intros [|c t] A; cbn; auto. inversion A; subst. destruct (f c); auto. }
    induction 1 as [i l A|i t0 w0 l ms T0 W0 S0 H0 R IH]; intros L w t W S T.
    - cbn [app]. apply r_run; auto. now constructor.
    - assert (N : l <> []).
      { intros ->. rewrite app_nil_r in L. apply (last_not_spaces w0 W0 S0). apply (last_not_app t0 w0 L W0). }
      rewrite <- !app_assoc. rewrite <- app_comm_cons. apply r_run; auto.
      + destruct l; [congruence|exact H0].
      + assert (L' : last_not f l) by (rewrite app_assoc in L; now apply last_not_app in L).
        specialize (IH L' w t W S T). rewrite !slen_app.
        replace (i + (slen t0 + (slen w0 + slen l))) with (i + slen t0 + slen w0 + slen l) by lia. exact IH.
  Qed.
  Lemma finditer_runs i l ms : runs i l ms -> forall p fuel, i = slen p -> (length l <= fuel)%nat -> finditer f fuel (p ++ l) i = ms.
  Proof.
    induction 1 as [i l A|i t w l ms T W S H R IH]; intros p fuel E Hf; subst i.
    - destruct fuel as [|fuel]; cbn [finditer]; auto. rewrite search_from_app. now rewrite ws_search_none by auto.
    - rewrite !app_length in Hf. assert (0 < length w)%nat by (destruct w; [congruence|cbn; lia]).
      destruct fuel as [|fuel]; [lia|]. cbn [finditer]. rewrite search_from_app, ws_search_run by auto. f_equal.
      replace (p ++ t ++ w ++ l) with ((p ++ t ++ w) ++ l) by (now rewrite <- !app_assoc).
      apply IH; [now rewrite !slen_app, Z.add_assoc|lia].
  Qed.
  Lemma rparts_correct n : forall p, (length p <= n)%nat -> p <> [] -> head_not f p -> last_not f p ->
    exists ms, runs 0 p ms /\ forall r rest m parts, r = p ++ rest -> 0 <= m ->
      exists out, rparts_loop r (rev ms) m (slen p) parts = parts ++ out /\ fields f m (rev p) (map (@rev Z) out).
  Proof.
    induction n as [|n IH]; intros p Hn N H L; [destruct p; [congruence|cbn in Hn; lia]|].
    assert (RN : rev p <> []) by (intro K; apply N; apply (f_equal (@rev Z)) in K; now rewrite rev_involutive in K).
    assert (RH : head_not f (rev p)).
    { destruct L as [->|(t & c & -> & F)]; [congruence|]. now rewrite rev_unit. }
    destruct (take_word_r p) as [A|(u & w & t & E & T & W & S & L')].
    - exists []. split; [now constructor|]. intros r rest m parts -> Hm. cbn [rev rparts_loop]. rewrite sslice_app_l.
      exists [p]. split; auto. cbn [map]. destruct (Z.eq_dec m 0) as [->|]; [now apply fields_whole|].
      apply fields_all_word; auto. now apply Forall_rev.
    - assert (TN : t <> []).
      { intros ->. rewrite E, app_nil_r in L. apply (last_not_spaces w W S). apply (last_not_app u w L W). }
      assert (UN : u <> []).
      { intros ->. rewrite E in H. destruct w as [|c w]; [congruence|]. cbn in H. inversion S; subst. congruence. }
      assert (UH : head_not f u) by (rewrite E in H; destruct u; [congruence|exact H]).
      assert (UL : (length u <= n)%nat).
      { rewrite E in Hn. rewrite !app_length in Hn. destruct t; [congruence|cbn in Hn; lia]. }
      destruct (IH u UL UN UH L') as (ms & R & K). exists (ms ++ [(slen u, slen u + slen w)]). split.
      { rewrite E. exact (runs_snoc 0 u ms R L' w t W S T). }
      intros r rest m parts -> Hm. rewrite rev_unit. cbn [rparts_loop]. destruct (m <=? 0) eqn:M.
      + assert (m = 0) by lia. subst m. rewrite sslice_app_l. exists [p]. split; auto. cbn [map]. now apply fields_whole.
      + destruct (K (p ++ rest) (w ++ t ++ rest) (m - 1) (parts ++ [sslice (p ++ rest) (Some (slen u + slen w)) (Some (slen p))])
                    ltac:(rewrite E, <- !app_assoc; reflexivity) ltac:(lia)) as (out & -> & F).
        assert (P : sslice (p ++ rest) (Some (slen u + slen w)) (Some (slen p)) = t).
        { pose proof (slen_nonneg u). pose proof (slen_nonneg t). pose proof (slen_nonneg w). pose proof (slen_nonneg rest).
          rewrite sslice_mid by (rewrite ?E, ?slen_app; lia). rewrite E. rewrite !slen_app.
          replace ((u ++ w ++ t) ++ rest) with ((u ++ w) ++ (t ++ rest)) by (now rewrite <- !app_assoc).
          replace (Z.to_nat (slen u + slen w)) with (length (u ++ w)) by (rewrite app_length; unfold slen; lia).
          rewrite skipn_app, skipn_all, Nat.sub_diag. cbn [skipn app].
          replace (Z.to_nat _) with (length t) by (unfold slen; lia). rewrite firstn_app, Nat.sub_diag, firstn_all. cbn [firstn]. apply app_nil_r. }
        rewrite P. exists (t :: out). split; [now rewrite <- app_assoc|]. cbn [map].
        rewrite E. rewrite !rev_app_distr, <- app_assoc. change (rev t ++ rev w ++ rev u) with ([] ++ rev t ++ rev w ++ rev u).
        apply fi_word; [lia|constructor| |now apply Forall_rev| |].
        * intro Q. apply TN. apply (f_equal (@rev Z)) in Q. now rewrite rev_involutive in Q.
        * right. assert (S' : sp (rev w)) by now apply Forall_rev. destruct (rev w) as [|c w'] eqn:RW.
          -- apply (f_equal (@rev Z)) in RW. rewrite rev_involutive in RW. destruct (W RW).
          -- inversion S'; subst. exists c, (w' ++ rev u). auto.
        * apply fields_prefix; auto. now apply Forall_rev.
  Qed.
  Lemma rsplit_parts_correct r m : r <> [] -> head_not f r -> last_not f r -> 0 <= m -> rfields f m r (rsplit_parts f r m).
  Proof.
    intros N H L Hm. destruct (rparts_correct (length r) r (le_n _) N H L) as (ms & R & K).
    unfold rsplit_parts. cbn zeta. pose proof (finditer_runs 0 r ms R [] (length r) eq_refl (le_n _)) as E. cbn [app] in E. rewrite E.
    destruct (K r [] m [] ltac:(now rewrite app_nil_r) Hm) as (out & E2 & F). cbn [app] in E2.
    assert (G : rfields f m r (rev out)) by (unfold rfields; now rewrite map_rev, rev_involutive).
    destruct (Nat.eqb (length ms) 0) eqn:Z0.
    - apply Nat.eqb_eq in Z0. destruct ms; [|discriminate]. cbn [rev rparts_loop app] in E2.
      assert (Q : sslice r None (Some (slen r)) = r) by (pose proof (sslice_app_l r []) as Q; now rewrite app_nil_r in Q).
      rewrite Q in E2. subst out. exact G.
    - rewrite E2. exact G.
  Qed.
  Lemma head_not_first s : head_not f s <-> last_not f (rev s).
  Proof.
    destruct s as [|c s]; cbn [head_not rev]; [split; [left; auto|auto]|]. split.
    - intro H. right. exists (rev s), c. auto.
    - intros [E|(t & d & E & F)]; [apply app_eq_nil in E; destruct E; discriminate|]. apply app_inj_tail in E as (_ & ->). auto.
  Qed.
  Lemma rsplit_ws_correct s n : slen s < 2 ^ 63 -> exists l, m_rsplit_ws f s n = Ok l /\
    (n <= 0 \/ head_not f s \/ Z.of_nat (length l) <= n -> rfields f n s l).
  Proof.
    intro Hs. unfold m_rsplit_ws. destruct (n =? 0) eqn:N0.
    - assert (n = 0) by lia. subst n. destruct (rstrip_correct f s) as (r & -> & (w & E & A & L)). cbn [bind].
      destruct (slen r =? 0) eqn:Z0; eexists; (split; [reflexivity|]); intros _; unfold rfields; subst s; rewrite rev_app_distr.
      + assert (r = []) by (apply slen_0; lia). subst r. constructor. cbn [rev]. rewrite app_nil_r. now apply Forall_rev.
      + cbn [map rev app]. apply fi_rest; [now apply Forall_rev| |].
        * intro K. apply (f_equal (@rev Z)) in K. rewrite rev_involutive in K. subst r. discriminate.
        * apply head_not_first. now rewrite rev_involutive.
    - destruct (strip_correct f s) as (r & -> & (v & w & E & A & A' & H & L)). cbn [bind].
      destruct (slen r =? 0) eqn:R0.
      + exists []. split; auto. intros _. assert (r = []) by (apply slen_0; lia). subst r. unfold rfields. cbn [map rev].
        constructor. subst s. apply Forall_rev. apply all_app. auto.
      + assert (RN : r <> []) by (intros ->; discriminate).
        assert (G : exists l, (if n <? 0 then Ok (rsplit_parts f r (2 ^ 63 - 1)) else Ok (rsplit_parts f r n)) = Ok l /\ rfields f n r l).
        { destruct (n <? 0) eqn:NN; eexists; (split; [reflexivity|]).
          - pose proof (rsplit_parts_correct r (2 ^ 63 - 1) RN H L ltac:(lia)) as F. unfold rfields in *.
            apply fields_unlimit with (n := 2 ^ 63 - 1); auto; [|lia]. right. apply fields_length in F.
            subst s. rewrite !slen_app in Hs. pose proof (slen_nonneg v). pose proof (slen_nonneg w). unfold slen in *.
            rewrite (rev_length r) in F. lia.
          - apply rsplit_parts_correct; auto. lia. }
        destruct G as (l & -> & F). exists l. split; auto. intro B. unfold rfields in *. subst s.
        rewrite !rev_app_distr, <- app_assoc. apply fields_prefix; [now apply Forall_rev|].
        destruct B as [B|[B|B]].
        * apply fields_suffix; auto; [now apply Forall_rev|lia].
        * assert (v = []); [|subst v; cbn [rev]; now rewrite app_nil_r]. destruct v as [|c v]; auto. exfalso.
          cbn in B. inversion A; subst. congruence.
        * apply fields_suffix; auto; [now apply Forall_rev|]. right. now rewrite rev_length, map_length.
  Qed.
End WS.
