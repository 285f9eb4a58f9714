(** Parsing of formats *)
From Coq Require Import ZArith List Bool Lia ZifyBool ZifyNat.
From Verif Require Import Py PySeq_Spec Str_Model IntOps_Model IntOps_Spec Struct_Model Struct_Spec.
Import ListNotations.
Open Scope Z_scope.

Lemma code_not_space c k : code_of c = Some k -> ~ c_space c /\ ~ is_digit c.
Proof.
  intro E. assert (H : forall x, 9 <= x <= 13 \/ x = 32 \/ 48 <= x <= 57 -> code_of x = None).
  { intros x Hx. assert (In x [9;10;11;12;13;32;48;49;50;51;52;53;54;55;56;57]) as I by (cbn; lia).
    cbn in I. repeat (destruct I as [<-|I]; [reflexivity|]). destruct I. }
  unfold c_space, is_digit. split; intro; rewrite H in E by lia; discriminate.
Qed.
Lemma skips_space c : plain c -> skips c = true <-> c_space c.
Proof. unfold plain, skips, c_space. intros. lia. Qed.
Lemma digit_is c : digit c = true <-> is_digit c.
Proof. unfold digit, is_digit. lia. Qed.

Lemma format_space_inv c s l : c_space c -> format (c :: s) l -> format s l.
Proof.
  intros C F. remember (c :: s) as t eqn:E. destruct F; try discriminate.
  - injection E as -> ->. assumption.
  - injection E as -> ->. apply code_not_space in H as [H _]. contradiction.
  - destruct ds as [|d ds]; [congruence|]. injection E as -> _. inversion H0; subst.
    unfold c_space, is_digit in *. lia.
Qed.
Lemma format_skip s l : Forall plain s -> format s l <-> format (dropw skips s) l.
Proof.
  induction 1 as [|c s P _ IH]; [reflexivity|]. cbn [dropw]. destruct (skips c) eqn:E; [|reflexivity].
  apply skips_space in E; auto. rewrite <- IH. split; [now apply format_space_inv|now constructor].
Qed.
Lemma dropw_plain f s : Forall plain s -> Forall plain (dropw f s).
Proof. induction 1; cbn [dropw]; [constructor|]. destruct (f x); auto. Qed.
Lemma dropw_length f s : (length (dropw f s) <= length s)%nat.
Proof. induction s; cbn [dropw length]; [lia|]. destruct (f a); cbn [length]; lia. Qed.
Lemma dropw_head f s c r : dropw f s = c :: r -> f c = false.
Proof. induction s as [|x s IH]; cbn [dropw]; [discriminate|]. destruct (f x) eqn:E; [exact IH|]. now intros [= -> ->]. Qed.
Lemma take_drop f s : s = takew f s ++ dropw f s.
Proof. induction s as [|x s IH]; [reflexivity|]. cbn [takew dropw]. destruct (f x); [|reflexivity]. cbn [app]. now rewrite <- IH. Qed.
Lemma takew_all f s : Forall (fun c => f c = true) (takew f s).
Proof. induction s as [|x s IH]; cbn [takew]; [constructor|]. destruct (f x) eqn:E; constructor; auto. Qed.
Lemma takew_app f ds c r : Forall (fun c => f c = true) ds -> f c = false -> takew f (ds ++ c :: r) = ds /\ dropw f (ds ++ c :: r) = c :: r.
Proof.
  induction 1 as [|x ds E _ IH]; intro F; cbn [app takew dropw]; [now rewrite F|]. rewrite E. destruct (IH F) as [-> ->]. auto.
Qed.
Lemma digits_all ds : Forall is_digit ds <-> Forall (fun c => digit c = true) ds.
Proof. split; apply Forall_impl; intro; apply digit_is. Qed.
Lemma number_dec s : number s = dec_value s. Proof. reflexivity. Qed.

(** What a format that starts with neither space nor end can be *)
Lemma format_inv s l : format s l -> (forall c r, s = c :: r -> ~ c_space c) -> s <> [] ->
  exists fc r k l', dropw digit s = fc :: r /\ code_of fc = Some k /\ format r l' /\
    l = repeated (match takew digit s with [] => 1 | ds => dec_value ds end) k ++ l'.
Proof.
  intros F NS NE. destruct F; [congruence|exfalso; exact (NS _ _ eq_refl H)|..].
  - pose proof (code_not_space _ _ H) as [_ D]. rewrite <- digit_is in D. apply not_true_is_false in D.
    exists c, s, k, l. cbn [dropw takew]. rewrite D. auto.
  - pose proof (code_not_space _ _ H1) as [_ D]. rewrite <- digit_is in D. apply not_true_is_false in D.
    destruct (takew_app digit ds c s (proj1 (digits_all ds) H0) D) as [-> ->].
    exists c, s, k, l. destruct ds; [congruence|]. auto.
Qed.
Lemma parse_loop_ok fuel : forall s acc, Forall plain s -> (length s < fuel)%nat ->
  (exists l, parse_loop fuel s acc = Ok (acc ++ l) /\ format s l) \/
  (parse_loop fuel s acc = Err StructError /\ forall l, ~ format s l).
Proof.
  induction fuel as [|fuel IH]; intros s acc P L; [lia|]. cbn [parse_loop].
  setoid_rewrite (fun l => format_skip s l P). pose proof (dropw_plain skips s P) as P'. pose proof (dropw_length skips s) as L'.
  pose proof (dropw_head skips s) as H'. destruct (dropw skips s) as [|c s'].
  - left. exists []. rewrite app_nil_r. split; [reflexivity|constructor].
  - specialize (H' c s' eq_refl). set (t := c :: s') in *.
    assert (NS : forall c0 r, t = c0 :: r -> ~ c_space c0).
    { intros c0 r [= <- <-] C. apply (skips_space c) in C; [congruence|]. now inversion P'. }
    assert (NE : t <> []) by discriminate.
    assert (T : t = takew digit t ++ dropw digit t) by apply take_drop.
    pose proof (fun l F => format_inv t l F NS NE) as INV. pose proof (takew_all digit t) as D.
    assert (LD : (length (dropw digit t) <= length t)%nat) by apply dropw_length.
    assert (PD : Forall plain (dropw digit t)) by now apply dropw_plain.
    clearbody t.
    destruct (dropw digit t) as [|fc r] eqn:ED.
    { right. split; [reflexivity|]. intros l F. destruct (INV l F) as (? & ? & ? & ? & X & _). discriminate. }
    cbn [length] in LD. inversion PD as [|? ? _ PR]; subst.
    destruct (code_of fc) as [k|] eqn:EK.
    2:{ right. split; [reflexivity|]. intros l F. destruct (INV l F) as (? & ? & ? & ? & [= <- <-] & X & _). congruence. }
    set (n := match takew digit t with [] => 1 | _ => number (takew digit t) end).
    assert (N : n = match takew digit t with [] => 1 | ds => dec_value ds end)
      by (unfold n; destruct (takew digit t); reflexivity).
    match goal with |- (exists l, ?x = _ /\ _) \/ _ => assert (E2 : x = parse_loop fuel r (acc ++ repeated n k)) by (destruct k; reflexivity) end.
    rewrite E2. clear E2.
    destruct (IH r (acc ++ repeated n k) PR ltac:(lia)) as [(l & -> & F)|(-> & F)].
    + left. exists (repeated n k ++ l). rewrite app_assoc. split; [reflexivity|].
      rewrite T. rewrite N. destruct (takew digit t) as [|d ds] eqn:ET; cbn [app].
      * now apply format_one.
      * apply (format_count (d :: ds)); auto; [discriminate|]. now apply digits_all.
    + right. split; [reflexivity|]. intros l F'. destruct (INV l F') as (? & ? & ? & l' & [= <- <-] & _ & F2 & _).
      exact (F l' F2).
Qed.

(** Trailing whitespace *)
Lemma format_snoc_space t w l : c_space w -> format (t ++ [w]) l <-> format t l.
Proof.
  intro W. split.
  - intro F. remember (t ++ [w]) as u eqn:E. revert t E. induction F; intros t E.
    + destruct t; discriminate.
    + destruct t as [|x t]; cbn in E; injection E as <- E; [subst; assumption|]. apply format_space; auto.
    + destruct t as [|x t]; cbn in E; injection E as <- E; [subst; now apply code_not_space in H|]. apply format_one; auto.
    + destruct s as [|y s] using rev_ind.
      * assert (X : w = c). { apply (f_equal (fun l => last l 0)) in E. rewrite !last_last in E. auto. }
        subst. now apply code_not_space in H1.
      * rewrite app_comm_cons, app_assoc in E. apply app_inj_tail in E as [<- <-].
        apply format_count; auto.
  - induction 1; cbn [app].
    + apply format_space; [assumption|constructor].
    + now apply format_space.
    + now apply format_one.
    + rewrite <- app_assoc. cbn [app]. now apply format_count.
Qed.
Lemma format_rstrip s l : Forall plain s -> format s l <-> format (rev (dropw strips (rev s))) l.
Proof.
  intro P. rewrite <- (rev_involutive s) at 1. apply Forall_rev in P.
  induction (rev s) as [|c r IH]; [reflexivity|]. inversion P; subst. cbn [dropw rev].
  destruct (strips c) eqn:E; [|reflexivity]. rewrite <- IH by auto. apply format_snoc_space.
  unfold strips, plain, c_space in *. lia.
Qed.
Lemma rstrip_cons c r : strips c = false -> Forall plain r ->
  exists r', rev (dropw strips (rev (c :: r))) = c :: r' /\ Forall plain r' /\ (forall l, format r' l <-> format r l) /\
    (plain c -> forall l, format (c :: r') l <-> format (c :: r) l).
Proof.
  intros E P. cbn [rev].
  assert (X : forall u, dropw strips (u ++ [c]) = dropw strips u ++ [c]).
  { induction u as [|x u IH]; cbn [app dropw]; [now rewrite E|]. now destruct (strips x). }
  assert (R : rev (dropw strips (rev r ++ [c])) = c :: rev (dropw strips (rev r)))
    by now rewrite X, rev_app_distr.
  eexists. split; [exact R|]. repeat split.
  - apply Forall_rev, dropw_plain, Forall_rev, P.
  - intro F. now apply format_rstrip.
  - intro F. now apply format_rstrip in F.
  - intro F. apply (format_rstrip (c :: r)); [now constructor|]. cbn [rev]. now rewrite R.
  - intro F. apply (format_rstrip (c :: r)) in F; [|now constructor]. cbn [rev] in F. now rewrite R in F.
Qed.
Lemma parse_ok s : Forall plain s -> match s with [] => False | c :: _ => ~ c_space c end ->
  (exists p l, m_parse s = Ok (p, l) /\ py_format s p l) \/
  (m_parse s = Err StructError /\ forall p l, ~ py_format s p l).
Proof.
  intros P N. destruct s as [|c r]; [tauto|]. inversion P as [|? ? Pc Pr]; subst.
  assert (E : strips c = false) by (unfold strips, plain, c_space in *; lia).
  unfold m_parse, strip_. replace (dropw strips (c :: r)) with (c :: r) by (cbn [dropw]; now rewrite E).
  destruct (rstrip_cons c r E Pr) as (r' & -> & Pr' & F & F'). unfold py_format.
  destruct (prefix_of c) as [p|] eqn:EP; cbn [map_res bind].
  - destruct (parse_loop_ok (length (c :: r')) r' [] Pr' ltac:(cbn [length]; lia)) as [(l & -> & Fl)|(-> & Fl)].
    + left. exists p, l. split; [reflexivity|]. split; [reflexivity|]. now apply F.
    + right. split; [reflexivity|]. intros p' l [_ Fl']. apply (Fl l). now apply F.
  - specialize (F' Pc).
    destruct (parse_loop_ok (Datatypes.S (length (c :: r'))) (c :: r') [] ltac:(now constructor) ltac:(cbn [length]; lia)) as [(l & -> & Fl)|(-> & Fl)].
    + left. exists Native, l. split; [reflexivity|]. split; [reflexivity|]. now apply F'.
    + right. split; [reflexivity|]. intros p' l [_ Fl']. apply (Fl l). now apply F'.
Qed.

Lemma format_simple s l : format s l ->
  Forall (fun i => match fst i with SizeT _ | Counted _ | Rest _ _ => True | _ => simple i end) l.
Proof.
  assert (K : forall c k n, code_of c = Some k ->
    Forall (fun i => match fst i with SizeT _ | Counted _ | Rest _ _ => True | _ => simple i end) (repeated n k)).
  { intros c k n E.
    assert (Z : match k with Int size _ => 0 < size | _ => True end).
    { revert E. unfold code_of. repeat match goal with |- match ?x with _ => _ end = _ -> _ => destruct x end;
      intros [= <-]; cbn; lia. }
    unfold repeated. destruct k; try (repeat constructor; fail);
    apply Forall_forall; intros i I; apply repeat_spec in I; subst i; cbn; try exact I; unfold simple; cbn; auto. }
  induction 1; auto; apply Forall_app; eauto.
Qed.
