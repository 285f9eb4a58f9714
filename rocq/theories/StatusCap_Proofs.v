From Coq Require Import List Bool ZArith Lia.
From Verif Require Import SearchTree_Model StatusCap_Model.
Import ListNotations.

(** *** The cap itself. *)
Lemma get_set r a h : r < length h -> get (set_nth r a h) r = a.
Proof.
  revert r. induction h as [|x h IH]; intros [|r]; cbn; intro L; try lia; auto.
  apply IH. lia.
Qed.

Lemma get_some_lt h r s : a_status (get h r) = Some s -> r < length h.
Proof.
  intro G. destruct (Nat.lt_ge_cases r (length h)); auto.
  unfold get in G. rewrite nth_overflow in G by auto. discriminate.
Qed.

Lemma r_status_ref h n r : r_ref n = Some r -> r_status h n = a_status (get h r).
Proof. destruct n; cbn; congruence. Qed.

Lemma bubble_ref h lf path n h' n' : r_bubble h lf path n = Some (h', n') -> r_ref n' <> None.
Proof.
  destruct path as [|[f b|b|] path]; cbn [r_bubble].
  - destruct n; intro H; inversion H; subst; discriminate.
  - destruct n as [|r|f0 p q r x|p q r x|c r x]; try discriminate.
    + destruct (r_bubble h lf path _) as [[h1 c]|]; [|discriminate].
      destruct (r_worst _ _ _ _) as [[h2 r'] x']. destruct (r_update _ _ _ _ _).
      intro H; inversion H; subst; discriminate.
    + destruct (r_bubble h lf path _) as [[h1 c]|]; [|discriminate].
      destruct x; [intro H; inversion H; subst; discriminate|].
      destruct (r_worst _ _ _ _) as [[h2 r'] x']. destruct (r_update _ _ _ _ _).
      intro H; inversion H; subst; discriminate.
  - destruct n as [|r|f0 p q r x|p q r x|c r x]; try discriminate.
    + destruct (r_bubble h lf path _) as [[h1 c]|]; [|discriminate].
      destruct (r_par _ _ _) as [[h2 r'] x']. destruct (r_update _ _ _ _ _).
      intro H; inversion H; subst; discriminate.
    + destruct (r_bubble h lf path _) as [[h1 c]|]; [|discriminate].
      destruct x; [intro H; inversion H; subst; discriminate|].
      destruct (r_par _ _ _) as [[h2 r'] x']. destruct (r_update _ _ _ _ _).
      intro H; inversion H; subst; discriminate.
  - destruct n as [|r|f0 p q r x|p q r x|c r x]; try discriminate.
    destruct (r_bubble h lf path _) as [[h1 c]|]; [|discriminate].
    destruct (r_update _ _ _ _ _). intro H; inversion H; subst; discriminate.
Qed.

Lemma capped_visit s v s' : r_visit s v = Some s' -> v_cap v = true -> v_path v <> [] ->
  final_status s' <> Some Confirmed.
Proof.
  unfold r_visit. cbn [alloc]. intros H C P.
  destruct (r_bubble _ _ _ _) as [[h n]|] eqn:B; [|discriminate].
  pose proof (bubble_ref _ _ _ _ _ _ B) as R. destruct (v_path v) as [|st path]; [congruence|].
  destruct (r_ref n) as [r|] eqn:Rn; [|congruence].
  destruct (a_status (get h r)) as [x|] eqn:S.
  - rewrite C in H. inversion H; subst s'. unfold final_status. cbn [r_heap r_root].
    rewrite (r_status_ref _ _ _ Rn), get_set by (eapply get_some_lt; eauto).
    cbn. destruct x; discriminate.
  - inversion H; subst s'. unfold final_status. cbn [r_heap r_root].
    rewrite (r_status_ref _ _ _ Rn), S. discriminate.
Qed.

Lemma visits_app vs ws : forall s, r_visits s (vs ++ ws) =
  match r_visits s vs with None => None | Some s => r_visits s ws end.
Proof.
  induction vs as [|v vs IH]; intro s; cbn [r_visits app]; auto. destruct (r_visit s v); auto.
Qed.

(** *** Without caps, sharing objects makes no difference. *)
Notation vnode := (node unit unit unit).

(** The tree with the objects replaced by their contents. *)
Fixpoint content (h : heap) (n : rnode) : vnode :=
  match n with
  | RStem => Stem
  | RLeaf r => Leaf (get h r)
  | RWorst f p q r x => Worst (KExpr tt) f (content h p) (content h q) (get h r) x
  | RPar p q r x => Par (content h p) (content h q) (get h r) x
  | RDet c r x => Detached (content h c) (get h r) x
  end.

(** The same bubbling in terms of SearchTree_Model. *)
Fixpoint v_bubble (lf : analysis) (path : list step) (n : vnode) : option vnode :=
  match path with
  | [] => Some (finish n lf)
  | SWorst f0 b :: path =>
      let go f p q r x :=
        match v_bubble lf path (if b then p else q : vnode) with
        | None => None
        | Some c => Some (if b then upd_worst (KExpr tt) f c q r x else upd_worst (KExpr tt) f p c r x)
        end in
      match n with
      | Stem => go f0 Stem Stem A_ignore false
      | Worst _ f p q r x => go f p q r x
      | _ => None
      end
  | SPar b :: path =>
      let go p q r x :=
        match v_bubble lf path (if b then p else q : vnode) with
        | None => None
        | Some c => Some (if b then upd_par c q r x else upd_par p c r x)
        end in
      match n with
      | Stem => go Stem Stem A_ignore false
      | Par p q r x => go p q r x
      | _ => None
      end
  | SDet :: path =>
      match n with
      | Stem => match v_bubble lf path Stem with
                | None => None
                | Some c => Some (Detached c lf true)
                end
      | _ => None
      end
  end.

Fixpoint wf (h : heap) (n : rnode) : Prop :=
  match n with
  | RStem => True
  | RLeaf r => r < length h
  | RWorst _ p q r _ | RPar p q r _ => wf h p /\ wf h q /\ r < length h
  | RDet c r _ => wf h c /\ r < length h
  end.

Lemma get_app h l r : r < length h -> get (h ++ l) r = get h r.
Proof. intro L. unfold get. now rewrite app_nth1. Qed.

Lemma content_app h l n : wf h n -> content (h ++ l) n = content h n.
Proof.
  induction n; cbn; intro W; auto.
  - now rewrite get_app.
  - destruct W as (W1 & W2 & W3). now rewrite IHn1, IHn2, get_app.
  - destruct W as (W1 & W2 & W3). now rewrite IHn1, IHn2, get_app.
  - destruct W as (W1 & W2). now rewrite IHn, get_app.
Qed.

Lemma wf_app h l n : wf h n -> wf (h ++ l) n.
Proof.
  induction n; cbn; rewrite ?app_length; intuition lia.
Qed.

Lemma exh_content h n : n_exh (content h n) = r_exh n.
Proof. destruct n; reflexivity. Qed.
Lemma status_content h n : n_status (content h n) = r_status h n.
Proof. destruct n; reflexivity. Qed.

Lemma get_last h a : get (h ++ [a]) (length h) = a.
Proof. unfold get. rewrite app_nth2, Nat.sub_diag by lia. reflexivity. Qed.

(** A computed result: the heap only grows, the reference is valid and holds the
    value the value model computes. *)
Definition computes (h : heap) (c : heap * ref * bool) (v : analysis * bool) : Prop :=
  let '(h', r, x) := c in
  (exists l, h' = h ++ l) /\ r < length h' /\ (get h' r, x) = v.

Lemma r_get_ok h n : wf h n -> let '(h', r) := r_get h n in
  (exists l, h' = h ++ l) /\ r < length h' /\ get h' r = n_res (content h n).
Proof.
  destruct n; cbn; intro W;
    try (split; [exists []; now rewrite app_nil_r|]; split; [tauto|reflexivity]).
  split; [eauto|]. rewrite app_length. cbn. split; [lia|]. apply get_last.
Qed.

Lemma r_merge_ok h l x n : wf h n -> l < length h ->
  computes h (r_merge h l x n) (merge (get h l) x (content h n)).
Proof.
  intros W L. unfold r_merge, merge. pose proof (r_get_ok h n W) as G.
  destruct (r_get h n) as [h1 r]. destruct G as ((l1 & ->) & R & G).
  rewrite exh_content, <- G, get_app by auto.
  unfold computes.
  destruct (a_status (get h l)) as [ls|] eqn:A.
  2: { split; [eauto|]. auto. }
  destruct (a_status (get (h ++ l1) r)) as [rs|].
  2: { split; [eauto|]. split; [rewrite app_length; lia|]. now rewrite get_app. }
  cbn [alloc]. rewrite <- app_assoc. split; [eauto|].
  rewrite app_assoc. split; [rewrite (app_length (h ++ l1)); cbn; lia|].
  rewrite get_last. rewrite ?(get_app h l1 l L). reflexivity.
Qed.

Lemma get_branch h n (x : bool) : wf h n ->
  computes h (let '(h', r) := r_get h n in (h', r, x)) (n_res (content h n), x).
Proof.
  intro W. pose proof (r_get_ok h n W) as G. destruct (r_get h n) as [h1 r].
  destruct G as (E & R & G). split; auto. split; auto. now rewrite G.
Qed.

Lemma r_worst_ok h f p q : wf h p -> wf h q ->
  computes h (r_worst h f p q) (worst_compute f (content h p) (content h q)).
Proof.
  intros Wp Wq. unfold r_worst, worst_compute, worst_exhausted.
  rewrite !exh_content, !status_content.
  destruct (_ || match f with Some true => true | _ => false end); [now apply get_branch|].
  destruct (_ || match f with Some false => true | _ => false end); [now apply get_branch|].
  pose proof (r_get_ok h p Wp) as G. destruct (r_get h p) as [h1 l].
  destruct G as ((l1 & ->) & R & G). rewrite <- G, <- (content_app h l1 q Wq).
  pose proof (r_merge_ok (h ++ l1) l (r_exh p) q (wf_app _ _ _ Wq) R) as M.
  destruct (r_merge _ _ _ _) as [[h2 m] x]. destruct M as ((l2 & ->) & M2 & M3).
  split; auto. exists (l1 ++ l2). now rewrite app_assoc.
Qed.

Lemma r_par_ok h p q : wf h p -> wf h q ->
  computes h (r_par h p q) (par_compute (content h p) (content h q)).
Proof.
  intros Wp Wq. unfold r_par, par_compute.
  rewrite !exh_content, !status_content.
  destruct (r_exh p && negb _); [now apply get_branch|].
  destruct (r_exh q && negb _); [now apply get_branch|].
  pose proof (r_get_ok h p Wp) as G. destruct (r_get h p) as [h1 l].
  destruct G as ((l1 & ->) & R & G). rewrite <- G, <- (content_app h l1 q Wq).
  pose proof (r_merge_ok (h ++ l1) l (r_exh p && r_exh q) q (wf_app _ _ _ Wq) R) as M.
  destruct (r_merge _ _ _ _) as [[h2 m] x]. destruct M as ((l2 & ->) & M2 & M3).
  split; auto. exists (l1 ++ l2). now rewrite app_assoc.
Qed.

Lemma zs_eqb_eq a : forall b, zs_eqb a b = true -> a = b.
Proof.
  induction a as [|x a IH]; intros [|y b]; cbn; try discriminate; auto.
  intro H. apply andb_true_iff in H as [H1 H2]. apply Z.eqb_eq in H1. f_equal; auto.
Qed.

Lemma a_eqb_eq a b : a_eqb a b = true -> a = b.
Proof.
  unfold a_eqb. intro H. apply andb_true_iff in H as [H F]. apply andb_true_iff in H as [S M].
  destruct a as [sa ma fa], b as [sb mb fb]. cbn in *. apply zs_eqb_eq in M. subst mb.
  assert (sa = sb). { destruct sa as [[]|], sb as [[]|]; cbn in S; congruence. }
  assert (fa = fb).
  { destruct fa as [[x y]|], fb as [[z w]|]; cbn in F; try discriminate; auto.
    apply andb_true_iff in F as [F1 F2]. apply Z.eqb_eq in F1, F2. congruence. }
  congruence.
Qed.

Lemma r_update_ok h old new newx : old < length h -> new < length h ->
  let '(r, x) := r_update h old false new newx in
  r < length h /\ get h r = get h new /\ x = newx.
Proof.
  intros O N. unfold r_update. destruct newx; cbn; auto.
  destruct (a_eqb (get h new) (get h old)) eqn:E; cbn; auto.
  apply a_eqb_eq in E. auto.
Qed.

Definition good_heap (h : heap) : Prop := exists t, h = A_ignore :: t.

Lemma bubble_ok path : forall h lf n, good_heap h -> wf h n -> lf < length h ->
  match r_bubble h lf path n, v_bubble (get h lf) path (content h n) with
  | Some (h', n'), Some v => (exists l, h' = h ++ l) /\ wf h' n' /\ content h' n' = v
  | None, None => True
  | _, _ => False
  end.
Proof.
  induction path as [|s path IH]; intros h lf n GH W L.
  - cbn [r_bubble v_bubble].
    destruct n; cbn [content finish]; (split; [exists []; now rewrite app_nil_r|]); cbn in *; intuition.
  - assert (Z0 : 0 < length h) by (destruct GH as [t ->]; cbn; lia).
    assert (G0 : get h 0 = A_ignore) by (destruct GH as [t ->]; reflexivity).
    assert (Wst : forall f b p q r, r < length h -> wf h p -> wf h q ->
      match
        match r_bubble h lf path (if b : bool then p else q) with
        | None => None
        | Some (h, c) =>
            let p := if b then c else p in
            let q := if b then q else c in
            let '(h, r', x') := r_worst h f p q in
            let '(r, x) := r_update h r false r' x' in Some (h, RWorst f p q r x)
        end,
        match v_bubble (get h lf) path (if b then content h p else content h q) with
        | None => None
        | Some c => Some (if b then upd_worst (KExpr tt) f c (content h q) (get h r) false
                          else upd_worst (KExpr tt) f (content h p) c (get h r) false)
        end with
      | Some (h', n'), Some v => (exists l, h' = h ++ l) /\ wf h' n' /\ content h' n' = v
      | None, None => True
      | _, _ => False
      end).
    { intros f b p q r R Wp Wq.
      replace (if b then content h p else content h q) with (content h (if b then p else q))
        by (destruct b; reflexivity).
      pose proof (IH h lf (if b then p else q) GH ltac:(destruct b; auto) L) as I.
      destruct (r_bubble h lf path (if b then p else q)) as [[h1 c]|];
        destruct (v_bubble (get h lf) path (content h (if b then p else q))) as [v|]; auto; try contradiction.
      destruct I as ((l1 & ->) & Wc & <-). cbv zeta.
      assert (Wp1 := wf_app h l1 p Wp). assert (Wq1 := wf_app h l1 q Wq).
      pose proof (r_worst_ok (h ++ l1) f (if b then c else p) (if b then q else c)
        ltac:(destruct b; auto) ltac:(destruct b; auto)) as C.
      destruct (r_worst _ _ _ _) as [[h2 r'] x']. destruct C as ((l2 & ->) & R' & C).
      assert (R2 : r < length ((h ++ l1) ++ l2)) by (rewrite !app_length; lia).
      pose proof (r_update_ok ((h ++ l1) ++ l2) r r' x' R2 R') as U.
      destruct (r_update _ _ _ _ _) as [r2 x2]. destruct U as (U1 & U2 & ->).
      split; [exists (l1 ++ l2); now rewrite app_assoc|].
      assert (Wc2 := wf_app _ l2 c Wc). assert (Wp2 := wf_app _ l2 p Wp1). assert (Wq2 := wf_app _ l2 q Wq1).
      split; [cbn; destruct b; auto|].
      cbn [content]. unfold upd_worst. destruct b.
      - rewrite !(content_app (h ++ l1) l2) by auto. rewrite U2.
        rewrite (content_app h l1 q Wq) in *. rewrite <- C. reflexivity.
      - rewrite !(content_app (h ++ l1) l2) by auto. rewrite U2.
        rewrite (content_app h l1 p Wp) in *. rewrite <- C. reflexivity. }
    assert (Pst : forall b p q r, r < length h -> wf h p -> wf h q ->
      match
        match r_bubble h lf path (if b : bool then p else q) with
        | None => None
        | Some (h, c) =>
            let p := if b then c else p in
            let q := if b then q else c in
            let '(h, r', x') := r_par h p q in
            let '(r, x) := r_update h r false r' x' in Some (h, RPar p q r x)
        end,
        match v_bubble (get h lf) path (if b then content h p else content h q) with
        | None => None
        | Some c => Some (if b then upd_par c (content h q) (get h r) false
                          else upd_par (content h p) c (get h r) false)
        end with
      | Some (h', n'), Some v => (exists l, h' = h ++ l) /\ wf h' n' /\ content h' n' = v
      | None, None => True
      | _, _ => False
      end).
    { intros b p q r R Wp Wq.
      replace (if b then content h p else content h q) with (content h (if b then p else q))
        by (destruct b; reflexivity).
      pose proof (IH h lf (if b then p else q) GH ltac:(destruct b; auto) L) as I.
      destruct (r_bubble h lf path (if b then p else q)) as [[h1 c]|];
        destruct (v_bubble (get h lf) path (content h (if b then p else q))) as [v|]; auto; try contradiction.
      destruct I as ((l1 & ->) & Wc & <-). cbv zeta.
      assert (Wp1 := wf_app h l1 p Wp). assert (Wq1 := wf_app h l1 q Wq).
      pose proof (r_par_ok (h ++ l1) (if b then c else p) (if b then q else c)
        ltac:(destruct b; auto) ltac:(destruct b; auto)) as C.
      destruct (r_par _ _ _) as [[h2 r'] x']. destruct C as ((l2 & ->) & R' & C).
      assert (R2 : r < length ((h ++ l1) ++ l2)) by (rewrite !app_length; lia).
      pose proof (r_update_ok ((h ++ l1) ++ l2) r r' x' R2 R') as U.
      destruct (r_update _ _ _ _ _) as [r2 x2]. destruct U as (U1 & U2 & ->).
      split; [exists (l1 ++ l2); now rewrite app_assoc|].
      assert (Wc2 := wf_app _ l2 c Wc). assert (Wp2 := wf_app _ l2 p Wp1). assert (Wq2 := wf_app _ l2 q Wq1).
      split; [cbn; destruct b; auto|].
      cbn [content]. unfold upd_par. destruct b.
      - rewrite !(content_app (h ++ l1) l2) by auto. rewrite U2.
        rewrite (content_app h l1 q Wq) in *. rewrite <- C. reflexivity.
      - rewrite !(content_app (h ++ l1) l2) by auto. rewrite U2.
        rewrite (content_app h l1 p Wp) in *. rewrite <- C. reflexivity. }
    assert (Done : forall (b : bool) p q,
      match r_bubble h lf path (if b then p else q),
            v_bubble (get h lf) path (if b then content h p else content h q) with
      | Some (h', n'), Some v => (exists l, h' = h ++ l) /\ wf h' n' /\ content h' n' = v
      | None, None => True | _, _ => False end \/ ~ (wf h p /\ wf h q)).
    { intros b p q.
      assert (D : wf h p /\ wf h q \/ ~ (wf h p /\ wf h q)).
      { assert (Dn : forall n, wf h n \/ ~ wf h n).
        { clear. induction n; cbn; auto.
          - destruct (Nat.lt_ge_cases r (length h)); [auto|right; lia].
          - destruct (Nat.lt_ge_cases r (length h)); [|right; lia]. tauto.
          - destruct (Nat.lt_ge_cases r (length h)); [|right; lia]. tauto.
          - destruct (Nat.lt_ge_cases r (length h)); [|right; lia]. tauto. }
        destruct (Dn p), (Dn q); tauto. }
      destruct D as [[Wp Wq]|D]; auto. left.
      replace (if b then content h p else content h q) with (content h (if b then p else q))
        by (destruct b; reflexivity).
      apply IH; auto. destruct b; auto. }
    destruct s as [f0 b|b|]; cbn [r_bubble v_bubble].
    + destruct n as [|r|f p q r x|p q r x|c r x]; cbn [content]; auto.
      * pose proof (Wst f0 b RStem RStem 0 Z0 I I) as K. rewrite G0 in K.
        cbn [content] in K. exact K.
      * destruct W as (Wp & Wq & R). destruct x; [|apply Wst; auto].
        pose proof (Done b p q) as [K|K]; [|tauto].
        destruct (r_bubble h lf path (if b then p else q)) as [[h1 c]|];
          destruct (v_bubble _ path (if b then content h p else content h q)) as [v|]; auto; try contradiction.
        destruct K as ((l1 & ->) & Wc & <-). cbv zeta. split; [eauto|].
        assert (Wp1 := wf_app h l1 p Wp). assert (Wq1 := wf_app h l1 q Wq).
        cbn [wf content upd_worst]. split.
        -- split; [destruct b; auto|]. split; [destruct b; auto|]. rewrite app_length. lia.
        -- rewrite get_app by auto. destruct b; [rewrite (content_app h l1 q Wq)|rewrite (content_app h l1 p Wp)]; reflexivity.
    + destruct n as [|r|f p q r x|p q r x|c r x]; cbn [content]; auto.
      * pose proof (Pst b RStem RStem 0 Z0 I I) as K. rewrite G0 in K.
        cbn [content] in K. exact K.
      * destruct W as (Wp & Wq & R). destruct x; [|apply Pst; auto].
        pose proof (Done b p q) as [K|K]; [|tauto].
        destruct (r_bubble h lf path (if b then p else q)) as [[h1 c]|];
          destruct (v_bubble _ path (if b then content h p else content h q)) as [v|]; auto; try contradiction.
        destruct K as ((l1 & ->) & Wc & <-). cbv zeta. split; [eauto|].
        assert (Wp1 := wf_app h l1 p Wp). assert (Wq1 := wf_app h l1 q Wq).
        cbn [wf content upd_par]. split.
        -- split; [destruct b; auto|]. split; [destruct b; auto|]. rewrite app_length. lia.
        -- rewrite get_app by auto. destruct b; [rewrite (content_app h l1 q Wq)|rewrite (content_app h l1 p Wp)]; reflexivity.
    + destruct n as [|r|f p q r x|p q r x|c r x]; cbn [content]; auto.
      pose proof (IH h lf RStem GH I L) as K. cbn [content] in K.
      destruct (r_bubble h lf path RStem) as [[h1 c]|];
        destruct (v_bubble _ path Stem) as [v|]; auto; try contradiction.
      destruct K as ((l1 & ->) & Wc & <-).
      assert (L1 : lf < length (h ++ l1)) by (rewrite app_length; lia).
      assert (L0 : 0 < length (h ++ l1)) by (rewrite app_length; lia).
      pose proof (r_update_ok (h ++ l1) 0 lf true L0 L1) as U.
      destruct (r_update _ _ _ _ _) as [r2 x2]. destruct U as (U1 & U2 & ->).
      split; [eauto|]. split; [cbn; auto|]. cbn [content]. rewrite U2, get_app by auto. reflexivity.
Qed.

Fixpoint v_visits (n : vnode) (vs : list visit) : option vnode :=
  match vs with
  | [] => Some n
  | v :: vs => match v_bubble (v_res v) (v_path v) n with None => None | Some n => v_visits n vs end
  end.

Lemma visits_ok vs : Forall (fun v => v_cap v = false) vs -> forall s,
  good_heap (r_heap s) -> wf (r_heap s) (r_root s) ->
  match r_visits s vs, v_visits (content (r_heap s) (r_root s)) vs with
  | Some s', Some n => content (r_heap s') (r_root s') = n
  | None, None => True
  | _, _ => False
  end.
Proof.
  induction 1 as [|v vs C F IH]; intros s G W; cbn [r_visits v_visits]; auto.
  unfold r_visit. cbn [alloc].
  assert (GH : good_heap (r_heap s ++ [v_res v])) by (destruct G as [t ->]; exists (t ++ [v_res v]); reflexivity).
  pose proof (bubble_ok (v_path v) (r_heap s ++ [v_res v]) (length (r_heap s)) (r_root s) GH
    (wf_app _ _ _ W) ltac:(rewrite app_length; cbn; lia)) as B.
  rewrite get_last, content_app in B by auto.
  destruct (r_bubble _ _ _ _) as [[h n]|]; destruct (v_bubble _ _ _) as [vn|]; auto; try contradiction.
  destruct B as ((l & ->) & W' & <-).
  assert (K : match v_path v, r_ref n with
      | _ :: _, Some r =>
          match a_status (get ((r_heap s ++ [v_res v]) ++ l) r) with
          | Some st =>
              if v_cap v
              then Some (mkR (set_nth r (mkA (Some (status_min st Unknown))
                                             (a_msgs (get ((r_heap s ++ [v_res v]) ++ l) r))
                                             (a_fp (get ((r_heap s ++ [v_res v]) ++ l) r)))
                                        ((r_heap s ++ [v_res v]) ++ l)) n)
              else Some (mkR ((r_heap s ++ [v_res v]) ++ l) n)
          | None => Some (mkR ((r_heap s ++ [v_res v]) ++ l) n)
          end
      | _, _ => Some (mkR ((r_heap s ++ [v_res v]) ++ l) n)
      end = Some (mkR ((r_heap s ++ [v_res v]) ++ l) n)).
  { rewrite C. destruct (v_path v); auto. destruct (r_ref n); auto. destruct (a_status _); auto. }
  rewrite K. apply IH; auto. cbn. destruct GH as [t ->]. exists (t ++ l). reflexivity.
Qed.
