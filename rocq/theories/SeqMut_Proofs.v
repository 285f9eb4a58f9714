From Coq Require Import ZArith List Bool Lia.
From Coq Require Import ZifyBool ZifyNat.
From Verif Require Import Py Range_Spec Range_Proofs PySeq_Spec Seq_Model Seq_Spec Seq_Proofs.
Import ListNotations.
Open Scope Z_scope.

Section Mut.
  Context {A : Type}.
  Implicit Types s v q : pseq A.

  Lemma firstn_keep (l : list A) n : 0 <= n -> firstn (Z.to_nat n) l = keep (fun x => x <? n) 0 l.
  Proof.
    intro H. pose proof (firstn_skipn_keep l 0 n 0 ltac:(lia) ltac:(lia)) as E.
    cbn [Z.to_nat skipn] in E. rewrite Z.sub_0_r in E. rewrite E. apply keep_ext. intros; lia.
  Qed.
  Lemma skipn_keep (l : list A) n : 0 <= n -> skipn (Z.to_nat n) l = keep (fun x => n <=? x) 0 l.
  Proof.
    intro H. destruct (Z_le_gt_dec n (Z.of_nat (length l))) as [L|L].
    - pose proof (firstn_skipn_keep l n (Z.of_nat (length l)) 0 ltac:(lia) ltac:(lia)) as E.
      rewrite firstn_all2 in E by (rewrite skipn_length; lia). rewrite E. apply keep_ext. intros; lia.
    - rewrite skipn_all2 by lia. symmetry. apply keep_none. intros; lia.
  Qed.

  Lemma slice_to (l : list A) n : 0 <= n -> py_slice l (sl_to n) = Ok (firstn (Z.to_nat n) l).
  Proof.
    intro H. rewrite py_slice_fwd by (cbn; lia). change (the_step (sl_to n)) with 1. f_equal.
    rewrite firstn_keep by auto. apply keep_ext. intros x Hx. unfold fwd, sl_to, ppos. cbn [sl_start sl_stop].
    rewrite Z.mod_1_r. unfold adjust. cbn zeta. ifs; lia.
  Qed.
  Lemma slice_from (l : list A) n : 0 <= n -> py_slice l (sl_from n) = Ok (skipn (Z.to_nat n) l).
  Proof.
    intro H. rewrite py_slice_fwd by (cbn; lia). change (the_step (sl_from n)) with 1. f_equal.
    rewrite skipn_keep by auto. apply keep_ext. intros x Hx. unfold fwd, sl_from, ppos. cbn [sl_start sl_stop].
    rewrite Z.mod_1_r. unfold adjust. cbn zeta. ifs; lia.
  Qed.

  Lemma splice_ok s v (start stop : Z) : wf s -> wf v ->
    refines (splice s start stop v)
      (Ok (firstn (Z.to_nat start) (contents s) ++ contents v
           ++ skipn (Z.to_nat (Z.max start stop)) (contents s))).
  Proof.
    intros Ws Wv. unfold splice. pose proof (m_len_ok s Ws) as N. cbn zeta.
    replace (if stop <? start then start else stop) with (Z.max start stop) by (ifs; lia).
    set (m := Z.max start stop).
    assert (R : forall x l1, wf x -> contents x = l1 -> forall k, Z.to_nat k = Z.to_nat m -> (0 <= k) ->
      refines (if k <? m_len s then do r <- m_getslice s (sl_from k); Ok (m_concat x r) else Ok x)
        (Ok (l1 ++ skipn (Z.to_nat m) (contents s)))).
    { intros x l1 Wx Cx k K K0. destruct (k <? m_len s) eqn:E.
      - pose proof (getslice_ok s Ws (sl_from k)) as G. rewrite slice_from in G by lia.
        destruct G as (r & -> & Wr & Cr). cbn [bind]. destruct (m_concat_ok x r Wx Wr) as [W C].
        exists (m_concat x r). rewrite C, Cx, Cr, K. auto.
      - exists x. rewrite skipn_all2 by lia. rewrite app_nil_r. auto. }
    destruct (0 <? start) eqn:E.
    - pose proof (getslice_ok s Ws (sl_to start)) as G. rewrite slice_to in G by lia.
      destruct G as (r & -> & Wr & Cr). cbn [bind]. destruct (m_concat_ok r v Wr Wv) as [W C].
      rewrite app_assoc. apply R; auto; try lia. now rewrite C, Cr.
    - cbn [bind]. replace (Z.to_nat start) with 0%nat by lia. cbn [firstn app].
      apply R; auto; ifs; lia.
  Qed.

  Lemma py_setslice1 (l : list A) sl (v : list A) : the_step sl = 1 ->
    py_setslice l sl v = Ok (firstn (Z.to_nat (a_start (Z.of_nat (length l)) sl)) l ++ v
      ++ skipn (Z.to_nat (Z.max (a_start (Z.of_nat (length l)) sl) (a_stop (Z.of_nat (length l)) sl))) l).
  Proof.
    intro E. unfold py_setslice, py_indices, a_start, a_stop. fold (the_step sl). cbn zeta. rewrite E.
    reflexivity.
  Qed.
  Lemma firstn_clamp (l : list A) i : firstn (Z.to_nat (Z.max 0 (Z.min i (Z.of_nat (length l))))) l = firstn (Z.to_nat i) l.
  Proof.
    destruct (Z_le_gt_dec i (Z.of_nat (length l))).
    - f_equal. lia.
    - now rewrite !firstn_all2 by lia.
  Qed.
  Lemma skipn_clamp (l : list A) i : skipn (Z.to_nat (Z.max 0 (Z.min i (Z.of_nat (length l))))) l = skipn (Z.to_nat i) l.
  Proof.
    destruct (Z_le_gt_dec i (Z.of_nat (length l))).
    - f_equal. lia.
    - now rewrite !skipn_all2 by lia.
  Qed.

  Lemma setslice_ok s v sl : wf s -> wf v ->
    refines (m_setslice s sl v) (py_setslice (contents s) sl (contents v)).
  Proof.
    intros Ws Wv. unfold m_setslice. pose proof (m_len_ok s Ws) as N.
    assert (LIST : refines (do l <- m_iter s; do vl <- m_iter v; map_res (PRaw false) (py_setslice l sl vl))
                     (py_setslice (contents s) sl (contents v))).
    { rewrite !m_iter_ok by auto. cbn [bind]. destruct (py_setslice _ _ _) as [r|e]; cbn; auto.
      exists (PRaw false r). cbn. auto. }
    unfold m_indices. fold (the_step sl). destruct (the_step sl <=? 0) eqn:S.
    - unfold py_indices. fold (the_step sl). cbn zeta. destruct (the_step sl =? 0) eqn:Z0.
      + unfold py_setslice, py_indices. fold (the_step sl). cbn zeta. rewrite Z0. reflexivity.
      + cbn [bind]. replace (the_step sl =? 1) with false by lia. exact LIST.
    - cbn [bind]. destruct (the_step sl =? 1) eqn:S1; [|exact LIST]. cbn [negb].
      assert (E1 : the_step sl = 1) by lia. rewrite py_setslice1 by auto. rewrite <- N.
      set (u := match sl_start sl with None => _ | Some _ => _ end).
      set (w := match sl_stop sl with None => _ | Some _ => _ end).
      eapply refines_eq; [apply splice_ok; auto|].
      replace (a_start (m_len s) sl) with (Z.max 0 (Z.min u (m_len s)))
        by (unfold a_start, u, adjust, normalize_idx; rewrite E1; destruct (sl_start sl); cbn zeta; cbn [Z.ltb Z.compare]; ifs; lia).
      replace (a_stop (m_len s) sl) with (Z.max 0 (Z.min w (m_len s)))
        by (unfold a_stop, w, adjust, normalize_idx; rewrite E1; destruct (sl_stop sl); cbn zeta; cbn [Z.ltb Z.compare]; ifs; lia).
      replace (Z.max (Z.max 0 (Z.min u (m_len s))) (Z.max 0 (Z.min w (m_len s))))
        with (Z.max 0 (Z.min (Z.max u w) (m_len s))) by lia.
      rewrite N. now rewrite firstn_clamp, skipn_clamp.
  Qed.

  Lemma list_set_splice (l : list A) x : forall j, (j < length l)%nat ->
    list_set l j x = firstn j l ++ [x] ++ skipn (S j) l.
  Proof.
    induction l as [|y l IH]; intros j H; cbn in H; [lia|]. destruct j; cbn; auto.
    rewrite IH by lia. reflexivity.
  Qed.

  Lemma setitem_ok s i x : wf s -> refines (m_setitem s i x) (py_setitem (contents s) i x).
  Proof.
    intro Ws. unfold m_setitem, py_setitem. rewrite check_idx_pos, m_len_ok by auto.
    destruct (py_pos _ i) as [j|e] eqn:P; [|reflexivity]. cbn [bind]. apply py_pos_ok in P.
    eapply refines_eq; [apply splice_ok; cbn; auto|]. rewrite list_set_splice by lia. cbn [contents].
    repeat f_equal. lia.
  Qed.

  Lemma skipn_skipn' {B} (n : nat) : forall m (l : list B), skipn m (skipn n l) = skipn (m + n) l.
  Proof.
    induction n as [|n IH]; intros m l; [now rewrite Nat.add_0_r|]. destruct l; [now rewrite !skipn_nil|].
    cbn [skipn]. rewrite IH. now replace (m + S n)%nat with (S (m + n)) by lia.
  Qed.
  Lemma delete_keep (l : list A) a b : 0 <= a <= Z.of_nat (length l) ->
    keep (fun p => negb ((a <=? p) && (p <? b))) 0 l = firstn (Z.to_nat a) l ++ skipn (Z.to_nat (Z.max a b)) l.
  Proof.
    intro H. rewrite <- (firstn_skipn (Z.to_nat a) l) at 1. rewrite keep_app0. f_equal.
    - apply keep_all. intros x Hx. rewrite firstn_length in Hx. lia.
    - rewrite firstn_length. replace (Z.of_nat (Nat.min (Z.to_nat a) (length l))) with a by lia.
      replace (Z.to_nat (Z.max a b)) with (Z.to_nat (Z.max 0 (b - a)) + Z.to_nat a)%nat by lia.
      rewrite <- skipn_skipn'. rewrite (skipn_keep (skipn _ l)) by lia. apply keep_ext. intros; lia.
  Qed.

  Lemma delslice_ok s sl : wf s -> refines (m_delslice s sl) (py_delslice (contents s) sl).
  Proof.
    intro Ws. unfold m_delslice.
    replace (match sl_step sl with None => true | Some s0 => s0 =? 1 end) with (the_step sl =? 1)
      by (unfold the_step; destruct (sl_step sl); reflexivity).
    destruct (the_step sl =? 1) eqn:E.
    - pose proof (setslice_ok s (PRaw false []) sl Ws I) as H. cbn [contents] in H.
      assert (E1 : the_step sl = 1) by lia. rewrite py_setslice1 in H by auto.
      unfold py_delslice, py_indices. fold (the_step sl). cbn zeta. rewrite E1. cbn [Z.eqb bind Z.ltb Z.compare].
      eapply refines_eq; [exact H|]. cbn [app].
      assert (R : 0 <= a_start (Z.of_nat (length (contents s))) sl <= Z.of_nat (length (contents s)))
        by (unfold a_start; rewrite E1; apply adjust_pos_range; cbn; lia).
      rewrite <- delete_keep by auto. apply keep_ext. intros p Hp. f_equal. apply eq_true_iff_eq.
      rewrite existsb_in, range_in_pos by lia. rewrite Z.mod_1_r. unfold a_start, a_stop. rewrite E1. cbn. lia.
    - rewrite m_iter_ok by auto. cbn [bind]. destruct (py_delslice _ _) as [r|e]; cbn; auto.
      exists (PRaw false r). cbn. auto.
  Qed.

  Lemma delitem_ok s i : wf s -> refines (m_delitem s i) (py_delitem (contents s) i).
  Proof.
    intro Ws. unfold m_delitem, py_delitem. rewrite check_idx_pos, m_len_ok by auto.
    destruct (py_pos _ i) as [j|e] eqn:P; [|reflexivity]. cbn [bind]. apply py_pos_ok in P.
    set (sl := mkSl _ _ _). pose proof (setslice_ok s (PRaw false []) sl Ws I) as H. cbn [contents] in H.
    rewrite py_setslice1 in H by reflexivity. eapply refines_eq; [exact H|]. cbn [app].
    unfold a_start, a_stop. change (the_step sl) with 1. cbn zeta. cbn [Z.ltb Z.compare sl_start sl_stop sl].
    f_equal; f_equal; unfold adjust; cbn zeta; ifs; lia.
  Qed.

  Lemma insert_ok s i x : wf s -> refines (m_insert s i x) (Ok (py_insert (contents s) i x)).
  Proof.
    intro Ws. unfold m_insert. set (sl := mkSl _ _ _).
    pose proof (setslice_ok s (PRaw false [x]) sl Ws I) as H. cbn [contents] in H.
    rewrite py_setslice1 in H by reflexivity. eapply refines_eq; [exact H|].
    unfold py_insert, a_start, a_stop. change (the_step sl) with 1. cbn zeta. cbn [Z.ltb Z.compare sl_start sl_stop sl].
    repeat f_equal; unfold adjust; cbn zeta; ifs; lia.
  Qed.

  Lemma pop_ok s i : wf s ->
    match py_pop (contents s) i with
    | Ok (x, l) => exists s', m_pop s i = Ok (x, s') /\ wf s' /\ contents s' = l
    | Err e => m_pop s i = Err e
    end.
  Proof.
    intro Ws. unfold py_pop, m_pop. rewrite m_getitem_ok by auto.
    destruct (py_getitem (contents s) i) as [x|e]; cbn [bind]; [|auto].
    pose proof (delitem_ok s i Ws) as H. destruct (py_delitem (contents s) i) as [l|e]; cbn [bind].
    - destruct H as (s' & -> & W & C). cbn [bind]. eauto.
    - cbn in H. rewrite H. reflexivity.
  Qed.

  Lemma repeat_snoc {B} (x : B) n : repeat x (S n) = repeat x n ++ [x].
  Proof. induction n; cbn; auto. now rewrite <- IHn. Qed.
  Lemma mul_loop_ok s n : forall ret, wf s -> wf ret ->
    wf (mul_loop s n ret) /\ contents (mul_loop s n ret) = concat (repeat (contents s) n) ++ contents ret.
  Proof.
    induction n as [|n IH]; intros ret Ws Wr; [cbn; auto|]. cbn [mul_loop].
    destruct (m_concat_ok s ret Ws Wr) as [W C]. destruct (IH _ Ws W) as [W' C'].
    split; auto. rewrite C', C, repeat_snoc, concat_app. cbn [concat]. now rewrite app_nil_r, <- app_assoc.
  Qed.
  Lemma mul_ok s n : wf s -> refines (m_mul s n) (Ok (py_repeat (contents s) n)).
  Proof.
    intro Ws. unfold m_mul, py_repeat. destruct (n <=? 0) eqn:E.
    - replace (Z.to_nat n) with 0%nat by lia. cbn [repeat concat].
      pose proof (getslice_ok s Ws (mkSl (Some 0) (Some 0) None)) as H.
      rewrite py_slice_fwd in H by (cbn; lia). eapply refines_eq; [exact H|].
      apply keep_none. intros x Hx. unfold fwd, ppos. cbn [sl_start sl_stop].
      assert (adjust (Z.of_nat (length (contents s))) (the_step (mkSl (Some 0) (Some 0) None))
                (Z.of_nat (length (contents s))) (Some 0) = 0) as -> by (unfold adjust; cbn; ifs; lia).
      replace (x <? 0) with false by lia. now rewrite andb_false_r.
    - destruct (mul_loop_ok s (Z.to_nat (n - 1)) s Ws Ws) as [W C]. exists (mul_loop s (Z.to_nat (n - 1)) s).
      split; auto. split; auto. rewrite C.
      replace (Z.to_nat n) with (S (Z.to_nat (n - 1))) by lia. rewrite repeat_snoc, concat_app. cbn. now rewrite app_nil_r.
  Qed.

  Lemma upd_ok s r l : wf s -> refines r l ->
    fst (upd s r) = fst (lupd (contents s) l) /\ wf (snd (upd s r)) /\ contents (snd (upd s r)) = snd (lupd (contents s) l).
  Proof.
    intros Ws H. destruct l as [l|e]; cbn in H.
    - destruct H as (s' & -> & W & C). cbn. auto.
    - rewrite H. cbn. auto.
  Qed.

  Theorem step_ok s o : wf s -> op_wf o ->
    fst (m_step s o) = fst (l_step (contents s) o) /\ wf (snd (m_step s o))
    /\ contents (snd (m_step s o)) = snd (l_step (contents s) o).
  Proof.
    intros Ws Wo. destruct o; cbn [m_step l_step fst snd op_wf] in *.
    - rewrite m_getitem_ok by auto. auto.
    - pose proof (getslice_ok s Ws sl) as H. destruct (py_slice (contents s) sl) as [l|e].
      + destruct H as (s' & -> & W & C). cbn [bind]. rewrite m_iter_ok, C by auto. auto.
      + cbn in H. rewrite H. auto.
    - rewrite m_len_ok; auto.
    - rewrite m_iter_ok; auto.
    - apply upd_ok; auto using setitem_ok.
    - apply upd_ok; auto using setslice_ok.
    - apply upd_ok; auto using delitem_ok.
    - apply upd_ok; auto using delslice_ok.
    - exact (upd_ok s _ (Ok _) Ws (insert_ok s i x Ws)).
    - unfold m_append. destruct (m_concat_ok s (PRaw false [x]) Ws I) as [W C]. rewrite C. auto.
    - unfold m_extend. destruct (m_concat_ok s v Ws Wo) as [W C]. rewrite C. auto.
    - pose proof (pop_ok s i Ws) as H. destruct (py_pop (contents s) i) as [[x l]|e].
      + destruct H as (s' & -> & W & C). auto.
      + rewrite H. auto.
    - refine (upd_ok s _ (Ok _) Ws _). unfold m_reverse. rewrite m_iter_ok by auto. cbn [bind].
      exists (PRaw false (rev (contents s))). cbn [wf contents]. auto.
    - exact (upd_ok s _ (Ok _) Ws (mul_ok s n Ws)).
  Qed.

  Theorem run_ok : forall ops s, wf s -> Forall op_wf ops ->
    fst (m_run s ops) = fst (l_run (contents s) ops) /\ wf (snd (m_run s ops))
    /\ contents (snd (m_run s ops)) = snd (l_run (contents s) ops).
  Proof.
    induction ops as [|o ops IH]; intros s Ws F; cbn; auto. inversion F; subst.
    destruct (step_ok s o Ws H1) as (E & W & C).
    destruct (m_step s o) as [r s'], (l_step (contents s) o) as [r' l']. cbn [fst snd] in *. subst.
    destruct (IH s' W H2) as (E & W' & C).
    destruct (m_run s' ops), (l_run (contents s') ops). cbn [fst snd] in *. subst. auto.
  Qed.

  (** *** SliceView.slice *)
  Lemma view_slice_ok q (start stop : Z) : wf q ->
    wf (view_slice q start stop) /\
    contents (view_slice q start stop)
    = firstn (Z.to_nat (stop - Z.max 0 start)) (skipn (Z.to_nat start) (contents q)).
  Proof.
    intro W. unfold view_slice. rewrite m_len_ok by auto. cbn zeta.
    set (n := Z.of_nat (length (contents q))).
    destruct ((start <=? 0) && (n <=? stop)) eqn:E.
    - split; auto. replace (Z.to_nat start) with 0%nat by lia. cbn [skipn]. rewrite firstn_all2; auto. lia.
    - destruct (start <=? 0) eqn:E1, (n <=? stop) eqn:E2; try discriminate; cbn [wf contents].
      + split; [repeat split; auto; ifs; lia|]. replace (Z.to_nat start) with 0%nat by lia.
        cbn [Z.to_nat]. f_equal. ifs; lia.
      + split; [repeat split; auto; ifs; lia|].
        destruct (n <=? start) eqn:E3.
        * rewrite !skipn_all2 by lia. now rewrite !firstn_nil.
        * rewrite !firstn_all2 by (rewrite skipn_length; lia). auto.
      + destruct (stop <=? start) eqn:E3.
        * split; [repeat split; auto; lia|]. now replace (Z.to_nat (stop - Z.max 0 start)) with 0%nat by lia;
            replace (Z.to_nat (start - start)) with 0%nat by lia.
        * split; [repeat split; auto; lia|]. f_equal. lia.
  Qed.
End Mut.
