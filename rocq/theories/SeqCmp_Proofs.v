From Coq Require Import ZArith List Bool Lia.
From Coq Require Import ZifyBool ZifyNat.
From Verif Require Import Py Range_Spec Range_Proofs PySeq_Spec Seq_Model Seq_Spec Seq_Proofs SeqMut_Proofs
  SeqCmp_Model SeqCmp_Spec.
Import ListNotations.
Open Scope Z_scope.

Lemma Forall2_length {A B} {P : A -> B -> Prop} {l1 l2} : Forall2 P l1 l2 -> length l1 = length l2.
Proof. induction 1; cbn; auto. Qed.

Section Cmp.
  Context {A : Type} (eqb : A -> A -> bool).
  Implicit Types s o : pseq A.

  Lemma seqbase_eq_spec (l1 l2 : list A) :
    seqbase_eq eqb l1 l2 = true <-> Forall2 (fun x y => eqb x y = true) l1 l2.
  Proof.
    unfold seqbase_eq. split.
    - destruct (Nat.eqb _ _) eqn:E; [|discriminate]. apply Nat.eqb_eq in E. cbn [negb].
      revert l2 E. induction l1 as [|x l1 IH]; intros [|y l2] E; cbn in *; try discriminate; auto.
      destruct (eqb x y) eqn:Q; [|discriminate]. cbn. intro H. constructor; auto.
    - intro F. rewrite (Forall2_length F), Nat.eqb_refl. cbn [negb].
      induction F; cbn; auto. rewrite H. auto.
  Qed.

  Lemma concat_leaves t (a b : pseq A) : leaves_are t a -> leaves_are t b -> leaves_are t (m_concat a b).
  Proof.
    intros Ha Hb. unfold m_concat.
    repeat match goal with |- context [match ?x with _ => _ end] => destruct x end;
      cbn [leaves_are] in *; tauto.
  Qed.

  Lemma getslice_leaves t s : wf s -> leaves_are t s -> forall sl r, the_step sl = 1 ->
    m_getslice s sl = Ok r -> leaves_are t r.
  Proof.
    induction s as [t' l|a IHa b IHb|q IHq st sp]; intros W L sl r S E.
    - cbn in E, L. destruct (py_slice l sl); [|discriminate]. cbn in E. injection E as <-. auto.
    - destruct W as [Wa Wb], L as [La Lb]. specialize (IHa Wa La). specialize (IHb Wb Lb).
      cbn [m_getslice] in E. 
      match type of E with context [bind (py_indices sl ?n) ?f] => set (general := bind (py_indices sl n) f) in E end.
      assert (G : forall r, general = Ok r -> leaves_are t r).
      { clear E r. intros r E. unfold general in E. unfold py_indices in E. fold (the_step sl) in E. rewrite S in E.
        cbn [Z.eqb bind Z.ltb Z.compare] in E.
        destruct (cut_slice _ _ _ _) as [[ls le] [rs re]].
        destruct (m_getslice a _) as [x|] eqn:X; [|discriminate].
        destruct (m_getslice b _) as [y|] eqn:Y; [|discriminate].
        cbn [bind] in E. injection E as <-. 
        apply IHa in X; [|apply clamp_step]. apply IHb in Y; [|apply clamp_step]. now apply concat_leaves. }
      clearbody general. destruct sl as [ost osp ostep]. cbn [sl_start sl_stop sl_step] in E.
      assert (S1 : forall u v, the_step (mkSl u v ostep) = 1) by (intros; exact S).
      replace (match ostep with None => true | Some st => 0 <? st end) with true in E
        by (unfold the_step in S; cbn in S; destruct ostep; subst; auto).
      assert (AF : forall u v w, (match w with Some st => if m_len a <=? st then m_getslice b (mkSl u v ostep) else general
                                  | None => general end) = Ok r -> leaves_are t r).
      { intros u v [w|] H; [|auto]. destruct (m_len a <=? w); eauto. }
      destruct osp as [p|], ost as [q|]; cbn in E;
        repeat match type of E with context [if ?c then _ else _] => destruct c; cbn in E end; eauto.
    - clear IHq. cbn [m_getslice] in E. unfold m_indices in E. fold (the_step sl) in E. rewrite S in E.
      cbn [Z.leb Z.eqb Z.compare bind Pos.eqb] in E.
      match type of E with (if ?c then _ else _) = _ => destruct c end; injection E as <-; exact I.
  Qed.

  Lemma Forall2_split {P : A -> A -> Prop} l1 l2 k1 k2 : length l1 = length k1 ->
    Forall2 P (l1 ++ l2) (k1 ++ k2) <-> Forall2 P l1 k1 /\ Forall2 P l2 k2.
  Proof.
    intro E. split.
    - intro F. apply Forall2_app_inv_l in F as (x & y & F1 & F2 & E2).
      assert (x = k1 /\ y = k2) as [-> ->]; auto.
      pose proof (Forall2_length F1). assert (EL : length x = length k1) by lia.
      clear - E2 EL. revert k1 E2 EL. induction x; intros [|z k1] E2 EL; cbn in *; try discriminate; auto.
      injection E2 as -> E2. destruct (IHx k1) as [-> ->]; auto.
    - intros [F1 F2]. now apply Forall2_app.
  Qed.

  Notation same := (Forall2 (fun x y => eqb x y = true)).

  Lemma eq_raw_ok t s : wf s -> leaves_are t s -> forall l,
    exists b, eq_raw eqb s t l = Ok b /\ (b = true <-> same (contents s) l).
  Proof.
    induction s as [t' l'|a IHa b IHb|q IHq st sp]; intros W L l.
    - cbn in L. subst t'. eexists. split; [reflexivity|]. unfold raw_eq.
      rewrite Bool.eqb_reflx. cbn [andb contents]. apply seqbase_eq_spec.
    - destruct W as [Wa Wb], L as [La Lb]. cbn [eq_raw contents].
      pose proof (m_len_ok a Wa) as Na. pose proof (m_len_ok b Wb) as Nb.
      destruct (m_len a + m_len b =? Z.of_nat (length l)) eqn:E; cbn [negb].
      + rewrite slice_to, slice_from by lia. cbn [bind].
        destruct (IHa Wa La (firstn (Z.to_nat (m_len a)) l)) as (x & -> & X). cbn [bind].
        destruct (IHb Wb Lb (skipn (Z.to_nat (m_len a)) l)) as (y & Y & YE).
        rewrite Y. exists (if x then y else false).
        split; [now destruct x|].
        rewrite <- (firstn_skipn (Z.to_nat (m_len a)) l) at 1.
        rewrite Forall2_split by (rewrite firstn_length; lia). rewrite <- X, <- YE. destruct x, y; intuition congruence.
      + exists false. split; auto. split; [discriminate|]. intro F. apply Forall2_length in F.
        rewrite app_length in F. lia.
    - exists (seqbase_eq eqb (contents (PView q st sp)) l). cbn [eq_raw]. rewrite m_iter_ok by auto.
      split; [reflexivity|]. apply seqbase_eq_spec.
  Qed.

  Lemma same_sym (l1 l2 : list A) : (forall x y, eqb x y = eqb y x) -> same l1 l2 <-> same l2 l1.
  Proof. intro SY. split; intro F; induction F; constructor; auto; now rewrite SY. Qed.

  Lemma m_eq_ok t s : (forall x y, eqb x y = eqb y x) -> wf s -> leaves_are t s -> forall o, wf o -> leaves_are t o ->
    exists b, m_eq eqb s o = Ok b /\ (b = true <-> same (contents s) (contents o)).
  Proof.
    intro SY. induction s as [t' l'|a IHa b IHb|q IHq st sp]; intros W L o Wo Lo.
    - cbn in L. subst t'. cbn [m_eq contents]. destruct (eq_raw_ok t o Wo Lo l') as (b & E & B).
      exists b. split; auto. rewrite B. now apply same_sym.
    - destruct W as [Wa Wb], L as [La Lb]. cbn [m_eq contents].
      pose proof (m_len_ok a Wa) as Na. pose proof (m_len_ok b Wb) as Nb. pose proof (m_len_ok o Wo) as No.
      destruct (m_len a + m_len b =? m_len o) eqn:E; cbn [negb].
      + pose proof (getslice_ok o Wo (sl_to (m_len a))) as G1. rewrite slice_to in G1 by lia.
        destruct G1 as (o1 & E1 & W1 & C1).
        pose proof (getslice_ok o Wo (sl_from (m_len a))) as G2. rewrite slice_from in G2 by lia.
        destruct G2 as (o2 & E2 & W2 & C2).
        assert (L1 : leaves_are t o1) by (eapply getslice_leaves; [exact Wo|exact Lo| |exact E1]; reflexivity).
        assert (L2 : leaves_are t o2) by (eapply getslice_leaves; [exact Wo|exact Lo| |exact E2]; reflexivity).
        rewrite E1. cbn [bind].
        destruct (IHa Wa La o1 W1 L1) as (x & -> & X). cbn [bind].
        destruct (IHb Wb Lb o2 W2 L2) as (y & Y & YE).
        exists (if x then y else false). split; [destruct x; auto; now rewrite E2|].
        rewrite <- (firstn_skipn (Z.to_nat (m_len a)) (contents o)) at 1.
        rewrite Forall2_split by (rewrite firstn_length; lia). rewrite <- C1, <- C2, <- X, <- YE.
        destruct x, y; intuition congruence.
      + exists false. split; auto. split; [discriminate|]. intro F. apply Forall2_length in F.
        rewrite app_length in F. lia.
    - exists (seqbase_eq eqb (contents (PView q st sp)) (contents o)). cbn [m_eq]. rewrite !m_iter_ok by auto.
      split; [reflexivity|]. apply seqbase_eq_spec.
  Qed.
End Cmp.

(** *** Ordering *)
Section Order.
  Context {A : Type} (eqb ltb : A -> A -> bool).
  Hypothesis EQ : forall x y, eqb x y = true <-> x = y.
  Hypothesis IRR : forall x, ltb x x = false.
  Let lt x y := ltb x y = true.

  Lemma lex_lt_cons x l1 y l2 : lex_lt lt (x :: l1) (y :: l2) <-> (lt x y \/ (x = y /\ lex_lt lt l1 l2)).
  Proof.
    split.
    - intros [(p & u & v & r1 & r2 & E1 & E2 & L)|(v & r & E)].
      + destruct p as [|z p]; cbn in *.
        * injection E1 as -> ->. injection E2 as -> ->. auto.
        * injection E1 as -> ->. injection E2 as -> ->. right. split; auto. left. exists p, u, v, r1, r2. auto.
      + cbn in E. injection E as -> ->. right. split; auto. right. eauto.
    - intros [L|[-> [(p & u & v & r1 & r2 & -> & -> & L)|(v & r & ->)]]].
      + left. exists [], x, y, l1, l2. auto.
      + left. exists (y :: p), u, v, r1, r2. auto.
      + right. exists v, r. auto.
  Qed.

  Lemma lex_ltb l1 : forall l2,
    lex eqb l1 l2 ltb (Z.of_nat (length l1) <? Z.of_nat (length l2)) = true <-> lex_lt lt l1 l2.
  Proof.
    induction l1 as [|x l1 IH]; intros [|y l2].
    - cbn. split; [discriminate|]. intros [([|z p] & u & v & r1 & r2 & E & _)|(v & r & E)]; discriminate.
    - cbn. split; auto. intros _. right. exists y, l2. reflexivity.
    - cbn. split; [discriminate|]. intros [([|z p] & u & v & r1 & r2 & _ & E & _)|(v & r & E)]; discriminate.
    - rewrite lex_lt_cons. cbn [lex length].
      replace (Z.of_nat (S (length l1)) <? Z.of_nat (S (length l2))) with (Z.of_nat (length l1) <? Z.of_nat (length l2)) by lia.
      destruct (eqb x y) eqn:E.
      + apply EQ in E as ->. rewrite IH. split; auto. intros [L|[_ L]]; auto.
        unfold lt in L. now rewrite IRR in L.
      + split; auto. intros [L|[-> _]]; auto. rewrite (proj2 (EQ _ _) eq_refl) in E. discriminate.
  Qed.

  Lemma lex_leb l1 : forall l2,
    lex eqb l1 l2 ltb (Z.of_nat (length l1) <=? Z.of_nat (length l2)) = true <-> (lex_lt lt l1 l2 \/ l1 = l2).
  Proof.
    induction l1 as [|x l1 IH]; intros [|y l2].
    - cbn. tauto.
    - cbn. split; auto. intros _. left. right. exists y, l2. reflexivity.
    - cbn. split; [discriminate|]. intros [[([|z p] & u & v & r1 & r2 & _ & E & _)|(v & r & E)]|E]; discriminate.
    - rewrite lex_lt_cons. cbn [lex length].
      replace (Z.of_nat (S (length l1)) <=? Z.of_nat (S (length l2))) with (Z.of_nat (length l1) <=? Z.of_nat (length l2)) by lia.
      destruct (eqb x y) eqn:E.
      + apply EQ in E as ->. rewrite IH. split.
        * intros [L| ->]; auto.
        * intros [[L|[_ L]]|E]; auto; [unfold lt in L; now rewrite IRR in L|]. injection E as ->. auto.
      + split; auto. intros [[L|[-> _]]|Q]; auto.
        * rewrite (proj2 (EQ _ _) eq_refl) in E. discriminate.
        * injection Q as -> ->. rewrite (proj2 (EQ _ _) eq_refl) in E. discriminate.
  Qed.

  Lemma lex_swap l1 : forall l2 b, lex eqb l1 l2 (gtb ltb) b = lex eqb l2 l1 ltb b.
  Proof.
    induction l1 as [|x l1 IH]; intros [|y l2] b; cbn; auto.
    assert (eqb x y = eqb y x) as ->.
    { apply eq_true_iff_eq. rewrite !EQ. intuition. }
    rewrite IH. reflexivity.
  Qed.

  Implicit Types s o : pseq A.
  Lemma cmp_ok f g s o : wf s -> wf o ->
    m_cmp eqb f g s o = Ok (lex eqb (contents s) (contents o) f
       (g (Z.of_nat (length (contents s))) (Z.of_nat (length (contents o))))).
  Proof. intros. unfold m_cmp. now rewrite !m_iter_ok, !m_len_ok by auto. Qed.

  Theorem compare_ok s o : wf s -> wf o ->
    (exists b, m_lt eqb ltb s o = Ok b /\ (b = true <-> lex_lt lt (contents s) (contents o))) /\
    (exists b, m_le eqb ltb s o = Ok b /\ (b = true <-> (lex_lt lt (contents s) (contents o) \/ contents s = contents o))) /\
    (exists b, m_gt eqb ltb s o = Ok b /\ (b = true <-> lex_lt lt (contents o) (contents s))) /\
    (exists b, m_ge eqb ltb s o = Ok b /\ (b = true <-> (lex_lt lt (contents o) (contents s) \/ contents s = contents o))).
  Proof.
    intros Ws Wo. unfold m_lt, m_le, m_gt, m_ge. rewrite !cmp_ok by auto. repeat split; eexists; (split; [reflexivity|]).
    - apply lex_ltb.
    - apply lex_leb.
    - rewrite lex_swap, Z.gtb_ltb. apply lex_ltb.
    - rewrite lex_swap, Z.geb_leb. rewrite lex_leb. intuition.
  Qed.
End Order.

(** *** Slices of a concrete list with symbolic bounds *)
Section Alias.
  Context {A : Type}.
  Lemma seq_getitems (l : list A) k : forall n, (k + n <= length l)%nat ->
    sequence_res (map (fun i => py_getitem l (Z.of_nat i)) (seq k n)) = Ok (firstn n (skipn k l)).
  Proof. intros n H. exact (seq_items (PRaw false l) k n H I). Qed.

  Theorem alias_ok (st : list (list A)) ref l start stop : nth_error st ref = Some l ->
    exists v, alias_slice st ref start stop = Ok v /\
    forall st', nth_error st' ref = Some l -> alias_read st' v = py_slice l (mkSl start stop None).
  Proof.
    intro N. unfold alias_slice. rewrite N.
    pose proof (getslice_ok (PView (PRaw false l) 0 (Z.of_nat (length l))) ltac:(cbn; lia) (mkSl start stop None)) as G.
    cbn [m_getslice contents] in G. cbn [Z.to_nat skipn] in G. rewrite Z.sub_0_r in G.
    rewrite firstn_all2 in G by lia.
    destruct (m_indices _ _) as [[[a b] s]|e] eqn:E; [|discriminate E].
    cbn [bind] in *. assert (s = 1) as -> by (cbn in E; congruence). cbn [Z.eqb] in G.
    set (x := match sl_start _ with Some _ => _ | None => _ end) in *.
    set (y := match sl_stop _ with Some _ => _ | None => _ end) in *.
    rewrite !Z.add_0_l in G.
    eexists. split; [reflexivity|]. intros st' N'.
    destruct (py_slice l (mkSl start stop None)) as [r|e] eqn:P; [|rewrite py_slice_fwd in P by (cbn; lia); discriminate].
    destruct (y <=? x) eqn:C.
    - cbn [alias_read]. destruct G as (v & Ev & W & Cv).
      injection Ev as <-. cbn in Cv. now rewrite <- Cv.
    - cbn [alias_read]. rewrite N'. destruct G as (v & Ev & W & Cv).
      injection Ev as <-. rewrite <- Cv. exact (m_iter_ok _ W).
  Qed.
End Alias.

(** *** Writing through a memoryview *)
Section MV.
  Context {A : Type}.
  Lemma mv_setitem_ok (obj : list A) (vs ve k : Z) x : 0 <= vs <= ve -> ve <= Z.of_nat (length obj) ->
    - (ve - vs) <= k < ve - vs ->
    mv_setitem obj vs ve k x = view_setitem obj vs ve k x.
  Proof.
    intros B C K. unfold mv_setitem, view_setitem, py_setitem. cbn zeta.
    destruct (k <? 0) eqn:E; unfold py_pos; cbn zeta; rewrite ?E; ifs; try lia; cbn [bind]; do 2 f_equal; lia.
  Qed.

  Lemma range1_length (a b : Z) : length (py_range a b 1) = Z.to_nat (b - a).
  Proof. unfold py_range. rewrite map_length, seq_length. unfold range_count. cbn. rewrite Z.div_1_r. lia. Qed.
  Lemma py_slice_length1 (l : list A) (u v : Z) : 
    exists r, py_slice l (mkSl (Some u) (Some v) None) = Ok r /\
    length r = Z.to_nat (a_stop (Z.of_nat (length l)) (mkSl (Some u) (Some v) None)
                         - a_start (Z.of_nat (length l)) (mkSl (Some u) (Some v) None)).
  Proof.
    rewrite py_slice_nf. cbn [the_step sl_step]. cbn zeta. set (sl := mkSl (Some u) (Some v) None). cbn [Z.eqb Z.ltb Z.compare].
    set (n := Z.of_nat (length l)). set (a := a_start n sl). set (b := a_stop n sl).
    assert (0 <= a <= n) by (apply adjust_pos_range; cbn; lia).
    assert (0 <= b <= n) by (apply adjust_pos_range; cbn; lia).
    eexists. split; [reflexivity|].
    destruct (Z_le_gt_dec a b).
    - rewrite (keep_ext _ (fun x => (0 + a <=? x) && (x <? 0 + b))).
      2:{ intros x Hx. unfold ppos. rewrite Z.mod_1_r. lia. }
      rewrite <- firstn_skipn_keep by lia. rewrite firstn_length, skipn_length. lia.
    - rewrite keep_none; [cbn [length]; lia|]. intros x Hx. unfold ppos. lia.
  Qed.

  Lemma mv_setslice_ok (obj : list A) (vs ve start stop : Z) v : 0 <= vs <= ve -> ve <= Z.of_nat (length obj) ->
    0 <= start <= ve - vs -> - (ve - vs) <= stop <= ve - vs ->
    mv_setslice obj vs ve (Some start) (Some stop) v = view_setslice obj vs ve (Some start) (Some stop) v.
  Proof.
    intros B C S1 S2. unfold mv_setslice, view_setslice, compose_slices. cbn zeta.
    replace (0 <=? start) with true by lia.
    set (b0 := if 0 <=? stop then _ else _).
    destruct (py_slice_length1 obj (start + vs) b0) as (r & -> & L). cbn [bind]. rewrite L. clear r L.
    set (sl := mkSl (Some (start + vs)) (Some b0) None). 
    unfold py_indices. cbn [sl_step sl_start sl_stop]. cbn [Z.eqb Z.ltb Z.compare bind]. rewrite range1_length.
    set (n := Z.of_nat (length obj)).
    assert (E1 : a_start n sl = vs + adjust (ve - vs) 1 0 (Some start)).
    { unfold a_start, sl. change (the_step _) with 1. cbn [Z.ltb Z.compare sl_start]. cbn zeta.
      unfold adjust. cbn zeta. ifs; lia. }
    assert (E2 : Z.max (a_start n sl) (a_stop n sl) = vs + Z.max (adjust (ve - vs) 1 0 (Some start)) (adjust (ve - vs) 1 (ve - vs) (Some stop))
               /\ a_stop n sl = vs + adjust (ve - vs) 1 (ve - vs) (Some stop)).
    { rewrite E1. enough (a_stop n sl = vs + adjust (ve - vs) 1 (ve - vs) (Some stop)) by lia.
      unfold a_stop, sl, b0. change (the_step _) with 1. cbn [Z.ltb Z.compare sl_stop]. cbn zeta.
      unfold adjust. cbn zeta. ifs; lia. }
    destruct E2 as [E2 E3]. 
    assert (R1 : 0 <= adjust (ve - vs) 1 0 (Some start)) by (apply adjust_pos_range; lia).
    rewrite E1, E3.
    set (p := adjust (ve - vs) 1 0 (Some start)) in *. set (q := adjust (ve - vs) 1 (ve - vs) (Some stop)) in *.
    replace (vs + q - (vs + p)) with (q - p) by lia.
    destruct (Nat.eqb (length v) (Z.to_nat (q - p))) eqn:L; cbn [negb]; [|reflexivity].
    apply Nat.eqb_eq in L. rewrite py_setslice1 by reflexivity. fold sl n. rewrite E2, E1. repeat f_equal. lia.
  Qed.
End MV.
